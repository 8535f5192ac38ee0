(** Documents are read as they were written. *)
From Coq Require Import String.
From Coq Require Import ZArith List Bool Lia ZifyBool ZifyNat SpecFloat.
From Verif Require Import Base Utf8 NameTables Lexer Escape EscapeSpec Printer Writer PropertiesWriter EncoderSpec Decoder DecoderSpec GoType TypeInfo DecoderProofs Simple ValueSpec Marshal Unmarshal Io MarshalProofs UnmarshalProofs PropertiesUnmarshal PropertiesMarshal
  TagText NsSpec NsProofs NsHistory NsTags PropertiesNamespace Plan PlanText Lens Load LeafProofs RoundTripSpec RoundTripCheck RoundTripParts RoundTripExact RoundTripAttrs RoundTripBody RoundTripMain.
Import ListNotations.
Open Scope Z_scope.

(** *** Reading the tokens of a document *)
Lemma find_calls : forall hd k d m b ts d', Forall not_start hd -> calls d (hd ++ TStart m b :: ts) d' -> (length hd < k)%nat -> exists d1, find_start k d = Ok (m, b, d1) /\ calls d1 ts d'.
Proof.
  induction hd as [|t hd IH]; intros k d m b ts d' N C L; destruct k as [|k]; try (cbn in L; lia); cbn [app] in C; inversion C as [|? ? d1 ? ? NT C']; subst; cbn [find_start]; rewrite NT.
  - eauto.
  - inversion N as [|? ? N1 N2]; subst. cbn [length] in L. destruct (IH k d1 m b ts d' N2 C' ltac:(lia)) as (d2 & E & C2). exists d2. split; auto. destruct t; auto. destruct N1.
Qed.
Lemma merge_front : forall hd acc t ts, Forall not_start hd -> is_char t = false -> exists hd', Forall not_start hd' /\ merge acc (hd ++ t :: ts) = hd' ++ t :: merge [] ts.
Proof.
  induction hd as [|x hd IH]; intros acc t ts N C.
  - cbn [app]. rewrite merge_head by exact C. exists (match acc with [] => [] | _ => [TChar acc] end). split; [destruct acc; repeat constructor|reflexivity].
  - inversion N as [|? ? N1 N2]; subst. destruct (is_char x) eqn:X.
    + destruct x; try discriminate X. cbn [app merge]. apply IH; auto.
    + cbn [app]. rewrite merge_head by exact X. destruct (IH [] t ts N2 C) as (hd' & F & ->). exists ((match acc with [] => [] | _ => [TChar acc] end) ++ x :: hd'). split; [|rewrite <- app_assoc; reflexivity]. apply Forall_app. split; [destruct acc; repeat constructor|constructor; auto].
Qed.
Definition header_pieces (header : bool) : list (bytes * token) :=
  if header then [(str "<?xml version=""1.0"" encoding=""UTF-8""?>", TProc (str "xml") (str "version=""1.0"" encoding=""UTF-8""")); ([10], TChar [10])] else [].
Lemma header_ok : forall header, Forall piece (header_pieces header) /\ Forall decls_ok (map snd (header_pieces header)) /\ Forall not_start (map snd (header_pieces header)) /\ concat (map fst (header_pieces header)) = (if header then xml_header else []) /\ interp [] (map snd (header_pieces header)) (map snd (header_pieces header)) [].
Proof.
  intros [|]; cbn [header_pieces]; [|repeat split; constructor]. split.
  - constructor; [intros rest; reflexivity|]. constructor; [|constructor]. apply white_piece. constructor; [right; right; reflexivity|constructor].
  - repeat split; repeat constructor; discriminate.
Qed.

Section Root.
Variables (F : floats) (env : tenv) (ek : nat) (pfx : bytes -> bytes) (known : list bytes).
Hypothesis EO : env_ok ek env.
Hypothesis KNOWN : forall u, In u known -> usable (pfx u) /\ NsTags.ordinary u.
Hypothesis ONLY : forall u, usable (pfx u) -> In u known.
Variables (rk : bytes -> nat) (i : bool).
Hypothesis RANK : ranked ek env rk.
Hypothesis CHECKED : forall s, checked env ek pfx known s = true.

(** What is required of a struct to be a document. *)
Definition root_ok (s : bytes) : bool :=
  has_raw env s ||
  match type_info ek env s with
  | Ok ti =>
      match ti_xmlname ti with
      | None => simpleb s && negb (beq s (str "xmlns")) && distinctb pfx known (uses [] ti)
      | Some x =>
          if beq (fi_name x) [] then beq (fi_xmlns x) [] && no_default ti && forallb (fun g => beq (fi_xmlns g) []) (attrs_of ti)
          else simpleb (fi_name x) && negb (beq (fi_name x) (str "xmlns")) && ns_ok pfx known x && distinctb pfx known (uses (fi_xmlns x) ti) && (beq (fi_xmlns x) [] || no_default ti)
      end
  | _ => false
  end.
Lemma root_named : forall s ti l v, root_ok s = true -> type_info ek env s = Ok ti -> clean F env i None l (TStruct s) v -> wt env (TStruct s) v = true -> (own_of env s v <> None -> simple l /\ l <> str "xmlns") ->
  exists n lo, start_name env ti (TStruct s) v true None None = Ok n /\ naming env pfx known s ti v None n lo.
Proof.
  intros s ti l v RO TI CV WV SL. destruct (clean_struct F env i None l s v CV WV) as (RAW & OWN & _). unfold root_ok in RO. rewrite RAW, TI in RO. cbn [orb] in RO. pose proof (CHECKED s) as CK. unfold checked in CK. rewrite RAW, TI in CK. cbn [orb] in CK.
  pose proof (own_dynamic env ek pfx known s ti v CK WV) as OD. unfold start_name. unfold dynamic in OD. destruct (ti_xmlname ti) as [x|] eqn:X.
  - destruct (beq (fi_name x) []) eqn:B; cbn [negb].
    + rewrite !andb_true_iff in RO. destruct RO as [[I1 I2] I3]. apply beq_eq in I1. destruct OD as (n & OW & FA). rewrite FA. cbn [bind]. destruct (OWN n OW) as (O1 & O2 & O3). destruct SL as [S1 S2]; [congruence|].
      assert (LN : local n <> []) by (rewrite O1; apply simple_name; exact S1). rewrite (proj2 (beq_neq _ _) LN). cbv zeta. rewrite (proj2 (beq_neq _ _) LN). rewrite (proj2 (beq_neq _ _) LN). exists n, l. split; auto. destruct n as [u lo]. cbn [local space] in *. subst lo. apply beq_eq in B. eapply Nm_own; eauto.
      intros g G M. rewrite forallb_forall in I3. apply beq_eq. apply I3. apply filter_In. auto.
    + rewrite !andb_true_iff in RO. destruct RO as [[[[I1 I2] I3] I4] I5]. apply simpleb_simple in I1. apply negb_true_iff in I2. apply beq_neq in I2. apply (distinctb_distinct pfx known KNOWN) in I4.
      assert (LN : local (field_name x) <> []). { unfold field_name. cbn [local]. unfold join_prefixed. destruct (fi_prefix x); [apply simple_name; exact I1|discriminate]. }
      cbn [bind]. cbv zeta. rewrite (proj2 (beq_neq _ _) LN). rewrite (proj2 (beq_neq _ _) LN). exists (field_name x), (fi_name x). split; auto. unfold ns_ok in I3. unfold field_name. destruct (beq (fi_xmlns x) []) eqn:BX.
      * apply beq_eq in BX, I3. rewrite BX, I3 in *. change (join_prefixed [] (fi_name x)) with (fi_name x). apply Nm_plain; auto; [|unfold dynamic; rewrite X, B; reflexivity]. intros y Y. assert (y = x) by congruence. subst y. auto.
      * cbn [orb] in I5. apply andb_true_iff in I3. destruct I3 as [NO1 NO2]. apply beq_eq in NO2. apply beq_neq in BX. apply inb_in in NO1. rewrite NO2. apply Nm_pre; auto; [|unfold dynamic; rewrite X, B; reflexivity]. intros y Y. assert (y = x) by congruence. subst y. auto.
  - rewrite !andb_true_iff in RO. destruct RO as [[I1 I2] I3]. apply simpleb_simple in I1. apply negb_true_iff in I2. apply beq_neq in I2. apply (distinctb_distinct pfx known KNOWN) in I3. cbn [bind]. cbv zeta. change (beq (local (mkname [] [])) []) with true. cbn match. change (beq (local (mkname [] [])) []) with true. cbn match.
    rewrite (proj2 (beq_neq _ _) (simple_name s I1)). exists (mkname [] s), s. split; [reflexivity|]. apply Nm_plain; auto; [congruence|unfold dynamic; rewrite X; reflexivity].
Qed.

(** The document is read to its end. *)
Theorem document_consumed : forall s ti l v k indent header, layout i indent -> root_ok s = true -> type_info ek env s = Ok ti -> clean F env i None l (TStruct s) v -> wt env (TStruct s) v = true -> (own_of env s v <> None -> simple l /\ l <> str "xmlns") ->
  (height v <= S k)%nat -> (rk s < max_depth)%nat ->
  let m := marshal_value F env ek (S k) true (TPtr (TStruct s)) (VPtr v) None None in
  result m indent = Ok tt /\ exists v' mm b d1 d, find_start (enough (document m indent header)) (new_decoder (document m indent header)) = Ok (mm, b, d1) /\
    unmarshal F env ek max_depth (enough (document m indent header)) (TStruct s) (zero_of env ek (TStruct s)) mm b d1 = Ok (v', d) /\ d_inp d = [] /\ forall c, arrives env known c None (TStruct s) v v'.
Proof.
  intros s ti l v k indent header LI RO TI CV WV SL HV RK m. destruct (clean_struct F env i None l s v CV WV) as (RAW & _). destruct (root_named s ti l v RO TI CV WV SL) as (n & lo & SN & NM).
  destruct (struct_back F env ek pfx known EO KNOWN ONLY rk i RANK CHECKED s ti None l v None n lo k TI RAW CV WV HV SN NM) as (p & P1 & P2 & P3).
  assert (PP : plan_value F env ek (S k) (TPtr (TStruct s)) (VPtr v) None = Ok [p]) by (rewrite <- P1; reflexivity).
  set (s0 := mkp 0 indent [] 0 false false []). assert (RD : ready pfx i None s0 []).
  { split; [cbn; lia|]. split; [constructor|]. split; [split; [split; [discriminate|]; split; [intros x []|split; discriminate]|intros ? ? ? ? []]|]. split; [cbn; destruct i; [constructor|reflexivity]|exact LI]. }
  destruct (play_runs pfx i p None s0 [] P2 RD) as (cs & s' & nds & ps & ts & E & EL & _ & _ & CT & FP & FD & IT & DR & SP & _).
  assert (ME : m s0 = (cs, s', Ok tt)). { unfold m. rewrite (plan_plays F env ek _ _ _ _ _ PP). cbn [plays]. unfold mbind. rewrite E. cbn [mret]. unfold mret. rewrite app_nil_r. reflexivity. }
  unfold result, document. fold s0. rewrite ME. cbn [fst snd]. split; [reflexivity|]. rewrite CT. destruct (header_ok header) as (H1 & H2 & H3 & H4 & H5). rewrite <- H4. rewrite <- concat_app, <- map_app. set (all := header_pieces header ++ ps). set (inp := concat (map fst all)).
  apply Forall2_one in DR. destruct DR as (nd & -> & DR). destruct (P3 nd DR) as (CM & (mm & b & tx & c & -> & _) & LD).
  inversion SP as [| |w ? ? ? ? w' cts rest ts' LW LW' TW SC SR]; subst. inversion SR; subst.
  assert (WR : written (d_inp (new_decoder inp)) (d_close (new_decoder inp)) (merge [] (map snd all)) [] None). { cbn [d_inp d_close new_decoder]. apply (pieces_read all [] []); [apply Forall_app; auto|apply chars_nil]. }
  set (ht := map snd (header_pieces header)) in *. set (body := TChar w :: TStart mm b :: cts ++ [TChar w'; TEnd mm]) in *.
  assert (IA : interp [] (map snd all) (ht ++ body) []) by (unfold all; rewrite map_app; eapply interp_app; [exact H5|exact IT]).
  assert (DA : Forall decls_ok (merge [] (map snd all))) by (apply merge_decls; unfold all; rewrite map_app; apply Forall_app; auto).
  destruct (read_all (merge [] (map snd all)) (new_decoder inp) [] [] None (merge [] (ht ++ body)) [] (rel_new _) WR) as (d & C & D1 & D2 & _); [apply interp_merge; exact IA|exact DA|].
  destruct (merge_front (ht ++ [TChar w]) [] (TStart mm b) (cts ++ [TChar w'; TEnd mm])) as (hd & NH & ME2); [apply Forall_app; split; [exact H3|repeat constructor]|reflexivity|].
  unfold body in C. change (TChar w :: TStart mm b :: cts ++ [TChar w'; TEnd mm]) with ([TChar w] ++ TStart mm b :: cts ++ [TChar w'; TEnd mm]) in C. rewrite app_assoc, ME2 in C.
  assert (LB : (length (hd ++ TStart mm b :: merge [] (cts ++ [TChar w'; TEnd mm])) < enough inp)%nat).
  { destruct (calls_bound _ _ _ C) as [B|(_ & _ & (x & B))]; [|rewrite D1 in B; discriminate]. unfold left_to_read in B. cbn [d_inp d_close new_decoder] in B. unfold enough. lia. }
  rewrite app_length in LB. cbn [length] in LB. destruct (find_calls hd (enough inp) (new_decoder inp) mm b _ d NH C ltac:(lia)) as (d1 & FS & C1). change (concat (map fst (header_pieces header ++ ps))) with inp.
  revert RK. destruct max_depth as [|r]; intro RK; [lia|]. destruct (LD r ltac:(lia) (zero_of env ek (TStruct s))) as (v' & L & SM). { exists ek. split; [reflexivity|apply (eo_zero _ _ EO)]. }
  exists v', mm, b, d1, d. split; [exact FS|]. split; [|auto]. exact (unmarshal_load F env ek i (enough inp) (S r) (TStruct s) (zero_of env ek (TStruct s)) mm b tx c v' cts w' d1 d L CM SC LW' TW C1 ltac:(unfold rest_tokens; lia)).
Qed.
Theorem document_arrives : forall s ti l v k indent header, layout i indent -> root_ok s = true -> type_info ek env s = Ok ti -> clean F env i None l (TStruct s) v -> wt env (TStruct s) v = true -> (own_of env s v <> None -> simple l /\ l <> str "xmlns") ->
  (height v <= S k)%nat -> (rk s < max_depth)%nat ->
  let m := marshal_value F env ek (S k) true (TPtr (TStruct s)) (VPtr v) None None in
  result m indent = Ok tt /\ exists v', decode F env ek (enough (document m indent header)) (TStruct s) (zero_of env ek (TStruct s)) (document m indent header) = Ok v' /\ forall c, arrives env known c None (TStruct s) v v'.
Proof.
  intros s ti l v k indent header LI RO TI CV WV SL HV RK m. destruct (document_consumed s ti l v k indent header LI RO TI CV WV SL HV RK) as (R & v' & mm & b & d1 & d & FS & U & _ & A). split; [exact R|]. exists v'. split; [|exact A].
  unfold decode. fold m in FS, U. rewrite FS. cbn [bind]. rewrite U. reflexivity.
Qed.
Theorem document_back : forall s ti l v k indent header, layout i indent -> root_ok s = true -> type_info ek env s = Ok ti -> clean F env i None l (TStruct s) v -> wt env (TStruct s) v = true -> (own_of env s v <> None -> simple l /\ l <> str "xmlns") ->
  (height v <= S k)%nat -> (rk s < max_depth)%nat ->
  let m := marshal_value F env ek (S k) true (TPtr (TStruct s)) (VPtr v) None None in
  result m indent = Ok tt /\ exists v', decode F env ek (enough (document m indent header)) (TStruct s) (zero_of env ek (TStruct s)) (document m indent header) = Ok v' /\ same env (TStruct s) v v'.
Proof.
  intros s ti l v k indent header LI RO TI CV WV SL HV RK m. destruct (document_arrives s ti l v k indent header LI RO TI CV WV SL HV RK) as (R & v' & D & A). split; [exact R|]. exists v'. split; [exact D|]. exact (arrives_same env known v Open None _ v' (A Open)).
Qed.
End Root.
