(** Property C83: what is written depends on the exported fields alone. *)
From Coq Require Import String.
From Coq Require Import ZArith List Bool Lia SpecFloat.
From Verif Require Import Base Utf8 Lexer Printer Writer PropertiesWriter EncoderSpec GoType Schema TypeInfo Simple ValueSpec Marshal Io PropertiesDocument MarshalProofs
  RoundTripSpec RoundTripCheck RoundTripParts RoundTripTest PropertiesRoundTrip Stable PropertiesStable Exported.
Import ListNotations.
Open Scope Z_scope.

(** C83. Two values of the same struct type that differ only in fields which are not exported, left out by their tags or an XMLName with
    a tag, are given to the writer as the same bytes, with the same result, whether they can be written or not. *)
Theorem C83_alike : forall F o s v v' indent header e, twin mpd_types (TStruct s) v v' -> write_value F o s v indent header e = write_value F o s v' indent header e.
Proof.
  intros F o s v v' indent header e T. assert (E : forall st, program F s v st = program F s v' st).
  { intro st. unfold program. apply (marshal_twin F mpd_types embed_depth mpd_seen); [apply Tw_ptr; exact T|cbn [height]; lia|cbn [height]; lia]. }
  unfold write_value, write_xml. destruct (if header then let '(_, err, u) := cw_write o xml_header new_dest in (err, u) else (None, new_dest)) as [err u]. destruct err; [reflexivity|]. unfold enc_encode, run_step. rewrite E. reflexivity.
Qed.
Print Assumptions C83_alike.
(** C83 for the fields themselves: whatever is put into them. *)
Theorem C83_links : forall F o s v h indent header e, wt mpd_types (TStruct s) v = true -> write_value F o s (rewired mpd_types h (TStruct s) v) indent header e = write_value F o s v indent header e.
Proof. intros F o s v h indent header e W. symmetry. apply C83_alike. apply rewired_twin. exact W. Qed.
Print Assumptions C83_links.
(** The links to parents, for instance: a period that is linked to another MPD is written as one without link; other fields count. *)
Definition looped (parent : gval) (id : bytes) : gval :=
  make "MPD" [("Profiles", VStr (str "p")); ("Periods", VList [VPtr (make "Period" [("Id", VStr id); ("parent", parent)])])]%string.
Definition bare_links (f : fdecl) (v : gval) : gval := if beq (fd_name f) (str "parent") then VNil else v.
Example C83_ex : let v := looped (VPtr (looped VNil (str "inner"))) (str "P0") in
  wt mpd_types (TStruct MPD) v = true /\ v <> looped VNil (str "P0") /\ rewired mpd_types bare_links (TStruct MPD) v = looped VNil (str "P0") /\
  text fl1 v [] = str "<MPD profiles=""p""><Period id=""P0""></Period></MPD>" /\ text fl1 (looped VNil (str "P1")) [] <> text fl1 v [].
Proof. cbv zeta. split; [vm_compute; reflexivity|]. split; [vm_compute; intro H; discriminate H|]. split; [vm_compute; reflexivity|]. split; [vm_compute; reflexivity|]. vm_compute. intro H. discriminate H. Qed.
