(** Reading from strings and files, writing to strings: mpd/io.go:24-43, 88-118. *)
From Coq Require Import String.
From Coq Require Import ZArith List Bool.
From Verif Require Import Base Lexer Printer Writer GoType Schema Simple Marshal Unmarshal Io Heap Objects.
Import ListNotations.
Open Scope Z_scope.

(** strings.Builder as a writer: it takes everything (package strings, from its documentation).  Grow has no effect on what it holds. *)
Definition builder : writer := fun _ p => (length p, None).
(** io.go:90-97 MPD.WriteToString and, for a Period and without header, 108-115 Period.WriteToString: the string and how the call ended.
    With an error the string is empty; a panic returns nothing, which is the empty string here. *)
Definition write_to_string (F : floats) (s : bytes) (v : gval) (indent : bytes) (header : bool) (e : encoder) : option (bytes * ended * option encoder) :=
  match write_value F builder s v indent header e with
  | None => None
  | Some (u, _, Done, back) => Some (u_out u, Done, back)
  | Some (_, _, r, back) => Some ([], r, back)
  end.
Definition mpd_write_to_string (F : floats) (v : gval) (indent : bytes) (header : bool) (e : encoder) := write_to_string F (str "MPD") v indent header e.
Definition period_write_to_string (F : floats) (v : gval) (indent : bytes) (e : encoder) := write_to_string F (str "Period") v indent false e.
(** What reading an MPD can give: the value read with its objects, the error of reading the file (which one is [E]'s business), or that of Unmarshal.
    [Stuck]: SetParents does not end well, or not enough fuel (neither happens, C85_string). *)
Inductive got {E : Type} := Got (v : gval) (h : heap) (m : loc) | NoFile (e : E) | NoMPD (e : uerr) | Stuck.
Arguments got : clear implicits.
(** io.go:46-54 MPDFromBytes: Unmarshal into a new MPD, then SetParents. *)
Definition from_bytes {E} (F : floats) (data : bytes) : got E :=
  match read_mpd F data with
  | Ok v => match load v with Ok (h, m) => Got v h m | _ => Stuck end
  | Err e => NoMPD e
  | _ => Stuck
  end.
(** io.go:40-42 ReadFromString; a string and the byte slice converted from it have the same bytes. *)
Definition read_from_string {E} (F : floats) (s : bytes) : got E := from_bytes F s.
(** io.go:25-37 ReadFromFile; [files] is os.ReadFile: the contents of the file with this path, or an error. *)
Definition read_from_file {E} (F : floats) (files : bytes -> bytes + E) (path : bytes) : got E :=
  match files path with
  | inr e => NoFile e
  | inl data =>
      match read_mpd F data with
      | Ok v => match load v with Ok (h, m) => Got v h m | _ => Stuck end
      | Err e => NoMPD e
      | _ => Stuck
      end
  end.
