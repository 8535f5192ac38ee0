(** Property C86: what comes after the element is not read, and documents can follow one another. *)
From Coq Require Import String.
From Coq Require Import ZArith List Bool Lia SpecFloat.
From Verif Require Import Base Utf8 Lexer Printer Writer PropertiesWriter EncoderSpec Decoder DecoderSpec DecoderProofs GoType Schema TypeInfo Simple ValueSpec Marshal Unmarshal Io PropertiesDocument UnmarshalProofs PropertiesUnmarshal PropertiesMarshal
  NsSpec NsProofs NsHistory NsTags RoundTripSpec RoundTripCheck RoundTripParts RoundTripAttrs RoundTripRoot RoundTripTest RoundTripExact PropertiesRoundTrip Stream.
Import ListNotations.
Open Scope Z_scope.

Lemma more_new : forall inp r, more r (new_decoder inp) (new_decoder (inp ++ r)).
Proof. intros inp r. constructor; cbn; auto. Qed.
Lemma decode_one : forall F env ek k t v inp w, decode F env ek k t v inp = Ok w <-> exists d, decode_next F env ek k t v (new_decoder inp) = Ok (w, d).
Proof.
  intros F env ek k t v inp w. unfold decode, decode_next. destruct (find_start k (new_decoder inp)) as [((n, a), d1)| | |]; cbn [bind]; try (split; [discriminate|intros (d & H); discriminate]).
  destruct (unmarshal F env ek max_depth k t v n a d1) as [(w', d')| | |]; cbn [bind]; try (split; [discriminate|intros (d & H); discriminate]). split; [intro H; injection H as ->; eauto|intros (d & H); congruence].
Qed.
(** C86. If a document can be read, then so can the document with anything whatsoever after it, and the value is the same. *)
Theorem C86_ignored : forall F env ek t v inp w rest, decode F env ek (enough inp) t v inp = Ok w -> decode F env ek (enough (inp ++ rest)) t v (inp ++ rest) = Ok w.
Proof.
  intros F env ek t v inp w rest H. apply decode_one in H as (d & H). apply decode_one.
  destruct (decode_next_more F env ek rest (enough inp) (enough (inp ++ rest)) _ _ _ (new_decoder (inp ++ rest)) _ _ ltac:(unfold enough; rewrite app_length; lia) (more_new _ _) H) as (e & E & _). eauto.
Qed.
Print Assumptions C86_ignored.
(** C86 for MPDFromBytes. *)
Theorem C86_mpd : forall F inp v rest, read_mpd F inp = Ok v -> read_mpd F (inp ++ rest) = Ok v.
Proof. intros F inp v rest. apply C86_ignored. Qed.
Print Assumptions C86_mpd.

(** *** Streams *)
(** A decoder at the top level, with [r] left to read: no element is open, and what it knows of namespaces is what a new one does. *)
Definition at_top (r : bytes) (d : dstate) : Prop := d_inp d = r /\ d_close d = None /\ d_stk d = [] /\ (forall p, d_ns d p = None) /\ d_err d = None.
Lemma at_top_new : forall r, at_top r (new_decoder r).
Proof. intros r. repeat split. Qed.
Lemma at_top_rel : forall r d, at_top r d -> rel d [].
Proof. intros r d (A & B & C & D & E). constructor; auto; [rewrite C; constructor|rewrite B; discriminate]. Qed.
Lemma rel_at_top : forall d, rel d [] -> at_top (d_inp d) d.
Proof.
  intros d [A B C D E]. repeat split; auto; [|inversion C; reflexivity]. destruct (d_close d) as [n|]; [|reflexivity]. destruct (E n eq_refl) as (a & o & X). discriminate.
Qed.
(** The value is read from the whole document, to its last byte. *)
Definition complete (F : floats) (env : tenv) (ek : nat) (s : bytes) (v : gval) (doc : bytes) (w : gval) : Prop :=
  exists d, decode_next F env ek (enough doc) (TStruct s) v (new_decoder doc) = Ok (w, d) /\ d_inp d = [].
Lemma decode_next_top : forall F env ek s v k d w d1 r, env_ok ek env -> wt env (TStruct s) v = true -> (left_to_read d < k)%nat -> at_top r d -> decode_next F env ek k (TStruct s) v d = Ok (w, d1) -> at_top (d_inp d1) d1.
Proof.
  intros F env ek s v k d w d1 r EO WV L AT H. apply rel_at_top. unfold decode_next in H. apply bind_more in H as (((n, a), d2) & FS & U).
  pose proof (find_start_post k d L) as P. rewrite FS in P. destruct P as (L2 & ts & d0 & C & NS & N).
  pose proof (unmarshal_post F env ek EO 1 (fun _ => O) (fun s ti f A B C => element_not_attr _ _ _ _ _ A B C) max_depth k (TStruct s) v n a d2 eq_refl WV L2) as P. rewrite U in P. destruct P as (_ & RO).
  destruct (element_calls _ _ _ _ _ N RO) as (ts' & C' & D' & _). apply at_top_rel in AT.
  assert (NS0 : depth_after 0 ts = Some O). { clear - NS C AT. destruct (calls_interp _ _ _ C _ AT) as (ws & o' & _ & I & _). clear C AT. assert (G : forall o ws ts o', interp o ws ts o' -> o = [] -> Forall not_start ts -> depth_after 0 ts = Some O).
    { clear. induction 1 as [o|o n a ws ts o' I IH|o n a ws ts o' I IH|o t ws ts o' N1 N2 I IH]; intros E N; inversion N; subst; auto; [contradiction|discriminate|]. destruct t; auto; exfalso; [eapply N1|eapply N2]; reflexivity. }
    eapply G; eauto. }
  pose proof (depth_nest d [] ts d0 AT C [] [] eq_refl NS0) as R0. exact (depth_nest d0 [] ts' d1 R0 C' [] [] eq_refl D').
Qed.
(** C86. Complete documents one after the other, whatever follows the last: Decode gives their values in that order, and the rest is
    left to read. *)
Theorem C86_stream : forall F env ek, env_ok ek env -> forall (l : list (bytes * gval * bytes * gval)) rest k d,
  Forall (fun '(s, v, doc, w) => wt env (TStruct s) v = true /\ complete F env ek s v doc w) l -> at_top (concat (map (fun '(_, _, doc, _) => doc) l) ++ rest) d -> (enough (d_inp d) <= k)%nat ->
  exists d', decode_all F env ek k (map (fun '(s, v, _, _) => (TStruct s, v)) l) d = Ok (map (fun '(_, _, _, w) => w) l, d') /\ at_top rest d'.
Proof.
  intros F env ek EO. induction l as [|(((s, v), doc), w) l IH]; intros rest k d FA AT L; [exists d; split; [reflexivity|exact AT]|]. inversion FA as [|? ? HD FA']; subst. destruct HD as (WV & d0 & C0 & E0). cbn [map concat] in AT. rewrite <- app_assoc in AT.
  cbn [map decode_all].
  assert (M : more (concat (map (fun '(_, _, doc, _) => doc) l) ++ rest) (new_decoder doc) d). { destruct AT as (A & B & C & D & E). constructor; cbn; auto. }
  assert (LD : (enough doc <= k)%nat). { destruct AT as (A & _). rewrite A in L. unfold enough in *. rewrite app_length in L. lia. }
  destruct (decode_next_more F env ek _ _ k _ _ _ d _ _ LD M C0) as (d1 & D1 & M1). rewrite D1. cbn [bind].
  assert (AT1 : at_top (concat (map (fun '(_, _, doc, _) => doc) l) ++ rest) d1).
  { pose proof (decode_next_top F env ek s v k d w d1 _ EO WV ltac:(unfold left_to_read; destruct AT as (_ & B & _); rewrite B; unfold enough in L; lia) AT D1) as T. rewrite (mo_inp _ _ _ M1), E0 in T. exact T. }
  destruct (IH rest k d1 FA' AT1) as (d2 & D2 & AT2). { destruct AT as (A & _), AT1 as (A1 & _). rewrite A1. rewrite A in L. unfold enough in *. rewrite app_length in L. lia. }
  rewrite D2. cbn [bind]. eauto.
Qed.
Print Assumptions C86_stream.
(** C86. Nothing shorter can be read: of a complete document, no part from the start but the whole is one. *)
Theorem C86_shortest : forall F env ek s v doc w p q w', complete F env ek s v doc w -> doc = p ++ q -> decode F env ek (enough p) (TStruct s) v p = Ok w' -> q = [] /\ w' = w.
Proof.
  intros F env ek s v doc w p q w' (d & D & E) -> H. apply decode_one in H as (d1 & H).
  destruct (decode_next_more F env ek q (enough p) (enough (p ++ q)) _ _ _ (new_decoder (p ++ q)) _ _ ltac:(unfold enough; rewrite app_length; lia) (more_new _ _) H) as (e & X & M). rewrite D in X. injection X as <- <-.
  split; [|reflexivity]. pose proof (mo_inp _ _ _ M) as I. rewrite E in I. symmetry in I. apply app_eq_nil in I. tauto.
Qed.
Print Assumptions C86_shortest.
(** C86. At the end of the stream, after any white space, Decode returns io.EOF. *)
Theorem C86_end : forall F env ek t v k d w, white w -> at_top w d -> (2 <= k)%nat -> decode_next F env ek k t v d = Err (UTok EEof).
Proof.
  intros F env ek t v k d w W AT L. pose proof (at_top_rel _ _ AT) as R. destruct AT as (A & B & _). unfold decode_next. destruct k as [|[|k]]; try lia.
  destruct w as [|x w]; [destruct (eof_reported d R A) as (d' & E); cbn [find_start]; rewrite E; reflexivity|].
  assert (WR : written (d_inp d) (d_close d) [TChar (x :: w)] [] None). { rewrite A, B. pose proof (pieces_read [] (x :: w) (x :: w) (Forall_nil _) (white_chars _ W)) as P. cbn [map concat merge] in P. rewrite app_nil_r in P. exact P. }
  destruct (read_all [TChar (x :: w)] d [] [] None [TChar (x :: w)] [] R WR) as (d' & C & D & _ & R'); [constructor; [discriminate|discriminate|constructor]|repeat constructor|].
  inversion C as [|? ? d1 ? ? N C']; subst. inversion C'; subst. cbn [find_start]. rewrite N. destruct (eof_reported d' R' D) as (d2 & E). rewrite E. reflexivity.
Qed.
Print Assumptions C86_end.
(** C86. The document written for a [clean] value of any of the struct types is complete: reading ends with its last byte. *)
Theorem C86_written : forall F s l v indent header, In s (map sd_name mpd_types) -> white indent ->
  wt mpd_types (TStruct s) v = true -> clean F mpd_types (indented indent) None l (TStruct s) v -> (own_of mpd_types s v <> None -> simple l /\ l <> str "xmlns") ->
  exists v', complete F mpd_types embed_depth s (zero_value s) (document (program F s v) indent header) v' /\ same mpd_types (TStruct s) v v'.
Proof.
  intros F s l v indent header IN WH WV CV SL. apply in_map_iff in IN. destruct IN as (sd & <- & IN). pose proof mpd_roots as RO. rewrite forallb_forall in RO. specialize (RO sd IN).
  destruct (clean_struct F mpd_types _ None l (sd_name sd) v CV WV) as (RAW & _).
  assert (TI : exists ti, type_info embed_depth mpd_types (sd_name sd) = Ok ti) by (clear - RO RAW; unfold root_ok in RO; rewrite RAW in RO; destruct (type_info embed_depth mpd_types (sd_name sd)); try discriminate; eauto). destruct TI as (ti & TI).
  assert (LI : layout (indented indent) indent) by (unfold layout, indented; destruct (beq indent []) eqn:B; [apply beq_eq in B|]; auto).
  destruct (document_consumed F mpd_types embed_depth mpd_prefix mpd_known mpd_env_ok mpd_known_ok mpd_known_only mpd_rank (indented indent) mpd_ranked mpd_checked (sd_name sd) ti l v (height v) indent header LI RO TI CV WV SL ltac:(lia) (mpd_rank_low _))
    as (_ & v' & mm & b & d1 & d & FS & U & E & A).
  exists v'. split; [|exact (arrives_same mpd_types mpd_known v Open None _ v' (A Open))]. exists d. split; [|exact E]. unfold decode_next, program. rewrite FS. cbn [bind]. exact U.
Qed.
Print Assumptions C86_written.
(** C86. MPDs written one after the other to the same place, each with its own indent and with or without header, come back one after the other. *)
Theorem C86_cycle : forall F (l : list (gval * bytes * bool)) rest k,
  Forall (fun '(v, indent, _) => white indent /\ wt mpd_types (TStruct MPD) v = true /\ clean F mpd_types (indented indent) None [] (TStruct MPD) v) l ->
  let inp := concat (map (fun '(v, indent, header) => document (program F MPD v) indent header) l) ++ rest in (enough inp <= k)%nat ->
  exists vs d, decode_all F mpd_types embed_depth k (map (fun _ => (TStruct MPD, zero_value MPD)) l) (new_decoder inp) = Ok (vs, d) /\ Forall2 (fun x v' => same mpd_types (TStruct MPD) (fst (fst x)) v') l vs /\ at_top rest d.
Proof.
  intros F l rest k FA inp L.
  assert (X : exists q, map (fun '(_, _, doc, _) => doc) q = map (fun '(v, indent, header) => document (program F MPD v) indent header) l /\ map (fun '(s, v, _, _) => (TStruct s, v)) q = map (fun _ => (TStruct MPD, zero_value MPD)) l /\
    Forall2 (fun x v' => same mpd_types (TStruct MPD) (fst (fst x)) v') l (map (fun '(_, _, _, w) => w) q) /\
    Forall (fun '(s, v, doc, w) => wt mpd_types (TStruct s) v = true /\ complete F mpd_types embed_depth s v doc w) q).
  { clear - FA. induction l as [|((v, indent), header) l IH]; [exists []; repeat split; constructor|]. inversion FA as [|? ? HD FA']; subst. destruct HD as (WI & WV & CV). destruct (IH FA') as (q & Q1 & Q2 & Q3 & Q4).
    destruct (C86_written F MPD [] v indent header) as (v' & C & S); auto.
    { assert (E : existsb (beq MPD) (map sd_name mpd_types) = true) by (vm_compute; reflexivity). apply existsb_exists in E. destruct E as (x & I & B). apply beq_eq in B. subst x. exact I. }
    { intros N. exfalso. apply N. apply own_static. vm_compute. reflexivity. }
    exists ((MPD, zero_value MPD, document (program F MPD v) indent header, v') :: q). cbn [map]. rewrite Q1, Q2. split; [reflexivity|]. split; [reflexivity|]. split; [constructor; auto|]. constructor; [|exact Q4]. split; [apply (eo_zero _ _ mpd_env_ok)|exact C]. }
  destruct X as (q & Q1 & Q2 & Q3 & Q4). destruct (C86_stream F mpd_types embed_depth mpd_env_ok q rest k (new_decoder inp) Q4) as (d & D & A); [rewrite Q1; apply at_top_new|exact L|]. rewrite Q2 in D. eauto.
Qed.
Print Assumptions C86_cycle.
(** Two documents, a comment and white space between them, and something that is not XML at the end. *)
Definition two : bytes := str "<?xml version=""1.0""?><MPD profiles=""a""/><!-- next --> <p:MPD xmlns:p=""urn:x"" profiles=""b""><Period/></p:MPD><<&".
Definition profiles (x : outcome uerr (list gval * dstate)) : option (list gval * bytes) :=
  match x with
  | Ok (l, d) => Some (flat_map (fun v => match v with VRec l => map snd (filter (fun e => beq (fd_name (fst e)) (str "Profiles")) (combine (fields_of mpd_types MPD) l)) | _ => [] end) l, d_inp d)
  | _ => None
  end.
Definition reads_of (n : nat) := decode_all fl1 mpd_types embed_depth (enough two) (repeat (TStruct MPD, zero_value MPD) n) (new_decoder two).
Example C86_ex : profiles (reads_of 1) = Some ([VStr (str "a")], skipn 40 two) /\ profiles (reads_of 2) = Some ([VStr (str "a"); VStr (str "b")], str "<<&") /\ profiles (reads_of 3) = None.
Proof. vm_compute. repeat split; reflexivity. Qed.
