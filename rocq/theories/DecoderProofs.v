(** Proofs about the token reader: nesting, namespaces, termination, Skip and interning. *)
From Coq Require Import String.
From Coq Require Import ZArith List Bool Lia ZifyBool ZifyNat.
From Verif Require Import Base Utf8 NameTables Lexer LexerProofs Decoder DecoderSpec.
Import ListNotations.
Open Scope Z_scope.

Lemma name_eqb_true : forall a b, name_eqb a b = true <-> a = b.
Proof.
  intros [s l] [s' l']. unfold name_eqb. cbn. rewrite andb_true_iff, !beq_eq. split; [intros [-> ->]; auto|intros [= -> ->]; auto].
Qed.
Lemma name_eqb_refl : forall a, name_eqb a a = true.
Proof. intro. now apply name_eqb_true. Qed.

(** *** Names read from the input contain only name bytes *)
Definition name_bytes (s : bytes) : Prop := Forall (fun b => name_byte b = true) s.
Lemma span_name_bytes : forall inp acc s rest, name_bytes acc -> span_name acc inp = NOk s rest -> name_bytes s.
Proof.
  induction inp as [|b t IH]; intros acc s rest H E; cbn in E; [discriminate|].
  destruct (name_byte b) eqn:B; [|injection E as <- <-; auto]. apply IH in E; auto. apply Forall_app. split; [auto|]. apply Forall_cons; auto.
Qed.
Lemma get_name_bytes : forall inp s rest, get_name inp = inl (s, rest) -> name_bytes s.
Proof.
  intros inp s rest H. unfold get_name, read_name in H. destruct inp as [|b t]; [discriminate|]. destruct (name_byte b) eqn:B; [|discriminate].
  destruct (span_name [b] t) eqn:E; try discriminate. destruct (is_name s0); [|discriminate]. injection H as <- <-.
  eapply span_name_bytes; [|exact E]. apply Forall_cons; [auto|apply Forall_nil].
Qed.
Lemma get_nsname_bytes : forall inp n rest, get_nsname inp = inl (n, rest) -> name_bytes (space n) /\ name_bytes (local n).
Proof.
  intros inp n rest H. unfold get_nsname in H. destruct (get_name inp) as [[s r]|] eqn:E; [|discriminate]. apply get_name_bytes in E.
  destruct (split_ns s) as [n0|] eqn:S; [|discriminate]. injection H as <- <-. unfold split_ns in S.
  destruct (count_byte 58 s) as [|[|]]; [injection S as <-; split; [apply Forall_nil|auto]| |discriminate].
  destruct (index_byte 58 s) as [i|]; [|discriminate]. destruct (_ || _); [discriminate|]. injection S as <-. cbn [space local].
  unfold name_bytes in *. split.
  - rewrite <- (firstn_skipn i s) in E. apply Forall_app in E. tauto.
  - rewrite <- (firstn_skipn (S i) s) in E. apply Forall_app in E. tauto.
Qed.
Definition tag_ok (t : tag) : Prop := name_bytes (space (fst t)) /\ Forall (fun a => name_bytes (space (aname a)) /\ name_bytes (local (aname a))) (snd t).
Lemma attrs_loop_names : forall k acc inp a em rest, attrs_loop k acc inp = ROk (a, em) rest ->
  Forall (fun a => name_bytes (space (aname a)) /\ name_bytes (local (aname a))) acc ->
  Forall (fun a => name_bytes (space (aname a)) /\ name_bytes (local (aname a))) a.
Proof.
  induction k as [|k IH]; intros acc inp a em rest H F; [discriminate|]. cbn [attrs_loop] in H.
  destruct (skip_space inp) as [|b t]; [discriminate|]. destruct (b =? 47).
  { destruct t as [|c t']; [discriminate|]. destruct (c =? 62); [|discriminate]. injection H as <- <- <-. auto. }
  destruct (b =? 62); [injection H as <- <- <-; auto|].
  destruct (get_nsname (b :: t)) as [[n r]|[e|]] eqn:E; try discriminate. apply get_nsname_bytes in E.
  destruct (skip_space r) as [|c r']; [discriminate|]. destruct (negb (c =? 61)); [discriminate|].
  destruct (attrval (skip_space r')) as [v r''|e|]; try discriminate. apply IH in H; auto. apply Forall_app. split; auto.
Qed.
Lemma raw_start : forall inp n a c rest, raw_token inp = ROk (TStart n a, c) rest -> tag_ok (n, a) /\ (c = None \/ c = Some n).
Proof.
  intros [|b t0] n a c rest H; [discriminate|]. unfold raw_token in H. destruct (b =? 60); cbn [negb] in H.
  2: { destruct (text None false (b :: t0)); discriminate. }
  destruct t0 as [|c0 t']; [discriminate|]. destruct (c0 =? 47).
  { destruct (get_nsname t') as [[m r]|[e|]]; try discriminate. destruct (skip_space r) as [|x r']; [discriminate|]. destruct (x =? 62); discriminate. }
  destruct (c0 =? 63).
  { destruct (get_name t') as [[m r]|[e|]]; try discriminate. destruct (pi_loop 0 [] (skip_space r)); try discriminate. destruct (if beq m _ then _ else _); discriminate. }
  destruct (c0 =? 33).
  { destruct t' as [|d t'']; [discriminate|]. destruct (d =? 45).
    { destruct t'' as [|e t3]; [discriminate|]. destruct (e =? 45); [|discriminate]. destruct (comment_loop 0 0 [] t3); discriminate. }
    destruct (d =? 91). { destruct (expect (str "CDATA[") t'') as [u r|e|]; try discriminate. destruct (text None true r); discriminate. }
    destruct (directive_loop _ _ _ _ _ _); discriminate. }
  destruct (get_nsname (c0 :: t')) as [[m r]|[e|]] eqn:E; try discriminate. apply get_nsname_bytes in E.
  destruct (attrs_loop (S (length r)) [] r) as [[a' em] r'|e|] eqn:EA; try discriminate. apply attrs_loop_names in EA; [|apply Forall_nil].
  injection H as <- <- <- <-. split; [split; [tauto|auto]|]. destruct em; auto.
Qed.
Lemma raw_not_start : forall inp t c rest, raw_token inp = ROk (t, c) rest -> (forall n a, t <> TStart n a) -> c = None.
Proof.
  intros [|b t0] t c rest H N; [discriminate|]. unfold raw_token in H. destruct (b =? 60); cbn [negb] in H.
  2: { destruct (text None false (b :: t0)); try discriminate. cbn in H. congruence. }
  destruct t0 as [|c0 t']; [discriminate|]. destruct (c0 =? 47).
  { destruct (get_nsname t') as [[m r]|[e|]]; try discriminate. destruct (skip_space r) as [|x r']; [discriminate|]. destruct (x =? 62); [|discriminate]. congruence. }
  destruct (c0 =? 63).
  { destruct (get_name t') as [[m r]|[e|]]; try discriminate. destruct (pi_loop 0 [] (skip_space r)); try discriminate. destruct (if beq m _ then _ else _); [discriminate|]. congruence. }
  destruct (c0 =? 33).
  { destruct t' as [|d t'']; [discriminate|]. destruct (d =? 45).
    { destruct t'' as [|e t3]; [discriminate|]. destruct (e =? 45); [|discriminate]. destruct (comment_loop 0 0 [] t3); try discriminate. cbn in H. congruence. }
    destruct (d =? 91). { destruct (expect (str "CDATA[") t'') as [u r|e|]; try discriminate. destruct (text None true r); try discriminate. cbn in H. congruence. }
    destruct (directive_loop _ _ _ _ _ _); try discriminate. cbn in H. congruence. }
  destruct (get_nsname (c0 :: t')) as [[m r]|[e|]] eqn:E; try discriminate.
  destruct (attrs_loop (S (length r)) [] r) as [[a' em] r'|e|] eqn:EA; try discriminate.
  injection H as <- <- <-. exfalso. eapply N. reflexivity.
Qed.

(** *** The namespace map and the undo records *)
Definition same (m m' : nsmap) : Prop := forall p, m p = m' p.
Fixpoint undo_map (us : list sent) (m : nsmap) : nsmap :=
  match us with
  | SNs p url ok :: us => undo_map us (if ok then ns_set m p url else ns_del m p)
  | _ => m
  end.
Definition is_ns (s : sent) : Prop := match s with SNs _ _ _ => True | _ => False end.
Definition start_top (stk : list sent) : Prop := match stk with SNs _ _ _ :: _ => False | _ => True end.
Lemma undo_split : forall us stk m, Forall is_ns us -> start_top stk -> undo (us ++ stk) m = (stk, undo_map us m).
Proof.
  induction us as [|[n|p url ok] us IH]; intros stk m F S.
  - cbn. destruct stk as [|[]]; cbn in *; tauto.
  - inversion F; subst. contradiction.
  - inversion F; subst. cbn. apply IH; auto.
Qed.
Lemma undo_same : forall us m m', same m m' -> same (undo_map us m) (undo_map us m').
Proof.
  induction us as [|[n|p url ok] us IH]; intros m m' H; auto. cbn. apply IH. intro q. destruct ok; unfold ns_set, ns_del; destruct (beq q p); auto.
Qed.
Lemma undo_app : forall us us' m, Forall is_ns us -> undo_map (us ++ us') m = undo_map us' (undo_map us m).
Proof. induction us as [|[n|p url ok] us IH]; intros us' m F; auto; inversion F; subst; [contradiction|]. cbn. auto. Qed.

(** The effect of one attribute on the declarations. *)
Lemma declared_app : forall a x p, declared (a ++ [x]) p =
  match declares x with Some q => if beq q p then Some (avalue x) else declared a p | None => declared a p end.
Proof.
  induction a as [|y a IH]; intros x p; cbn [app declared].
  - destruct (declares x); auto.
  - rewrite IH. destruct (declares x) as [q|]; auto. destruct (beq q p); auto.
Qed.
Lemma set_ns_ok : forall p v stk m, exists u, set_ns p v (stk, m) = (u :: stk, ns_set m p v) /\ is_ns u /\ same (undo_map [u] (ns_set m p v)) m.
Proof.
  intros p v stk m. cbn [set_ns]. destruct (m p) as [old|] eqn:E; eexists; (split; [reflexivity|split; [exact I|]]); intro q; cbn; unfold ns_set, ns_del; destruct (beq q p) eqn:B; auto;
  apply beq_eq in B; subst; auto.
Qed.
Lemma declare_ok : forall a pre (o : list tag) n stk (m : nsmap),
  (forall p, m p = resolve ((n, pre) :: o) p) ->
  match declare a (stk, m) with
  | inl (stk', m') => exists us, stk' = us ++ stk /\ Forall is_ns us /\ (forall p, m' p = resolve ((n, pre ++ a) :: o) p) /\ same (undo_map us m') m
  | inr _ => True
  end.
Proof.
  induction a as [|[an v] a IH]; intros pre o n stk m H; cbn [declare].
  - exists []. rewrite app_nil_r. split; [auto|split; [auto|split; [auto|intro; auto]]].
  - destruct (beq (space an) xmlnsPrefix && beq v []); [exact I|]. destruct (beq (space an) xmlnsPrefix && beq (local an) []); [exact I|]. cbv zeta.
    destruct (beq (space an) xmlnsPrefix) eqn:B1.
    + destruct (set_ns_ok (local an) v stk m) as (u & -> & U & S).
      destruct (beq (space an) [] && beq (local an) xmlnsPrefix) eqn:B2.
      { apply andb_true_iff in B2. destruct B2 as [B2 _]. apply beq_eq in B1, B2. rewrite B1 in B2. discriminate. }
      specialize (IH (pre ++ [mkattr an v]) o n (u :: stk) (ns_set m (local an) v)).
      destruct (declare a (u :: stk, ns_set m (local an) v)) as [[stk' m']|e]; [|exact I].
      destruct IH as (us & -> & F & R & S').
      { intro p. unfold ns_set. cbn [resolve]. rewrite declared_app. unfold declares. cbn [aname avalue]. change (str "xmlns") with xmlnsPrefix. rewrite B1.
        rewrite (beq_sym p). destruct (beq (local an) p); auto. apply H. }
      exists (us ++ [u]). rewrite <- app_assoc in *. split; [auto|]. split; [apply Forall_app; auto|]. split; [exact R|].
      intro q. rewrite undo_app; auto. rewrite <- (S q). apply undo_same. exact S'.
    + destruct (beq (space an) [] && beq (local an) xmlnsPrefix) eqn:B2.
      * destruct (set_ns_ok [] v stk m) as (u & -> & U & S).
        specialize (IH (pre ++ [mkattr an v]) o n (u :: stk) (ns_set m [] v)).
        destruct (declare a (u :: stk, ns_set m [] v)) as [[stk' m']|e]; [|exact I].
        destruct IH as (us & -> & F & R & S').
        { intro p. unfold ns_set. cbn [resolve]. rewrite declared_app. unfold declares. cbn [aname avalue]. change (str "xmlns") with xmlnsPrefix. rewrite B1, B2.
          rewrite (beq_sym p). destruct (beq [] p); auto. apply H. }
        exists (us ++ [u]). rewrite <- app_assoc in *. split; [auto|]. split; [apply Forall_app; auto|]. split; [exact R|].
        intro q. rewrite undo_app; auto. rewrite <- (S q). apply undo_same. exact S'.
      * specialize (IH (pre ++ [mkattr an v]) o n stk m). destruct (declare a (stk, m)) as [[stk' m']|e]; [|exact I].
        destruct IH as (us & -> & F & R & S').
        { intro p. cbn [resolve]. rewrite declared_app. unfold declares. cbn [aname avalue]. change (str "xmlns") with xmlnsPrefix. rewrite B1, B2. apply H. }
        exists us. rewrite <- app_assoc in R. auto.
Qed.

(** *** The relation between the decoder's state and the open tags *)
Inductive good_stk : list sent -> list tag -> Prop :=
| GS_nil : good_stk [] []
| GS_cons n a us stk o : good_stk stk o -> Forall is_ns us ->
    (forall m, (forall p, m p = resolve ((n, a) :: o) p) -> forall p, undo_map us m p = resolve o p) ->
    good_stk (SStart n :: us ++ stk) ((n, a) :: o).
Lemma good_top : forall stk o, good_stk stk o -> start_top stk.
Proof. intros stk o []; exact I. Qed.
Record rel (d : dstate) (o : list tag) : Prop := mkrel {
  r_err : d_err d = None;
  r_ns : forall p, d_ns d p = resolve o p;
  r_stk : good_stk (d_stk d) o;
  r_ok : Forall tag_ok o;
  r_close : forall n, d_close d = Some n -> exists a o', o = (n, a) :: o'
}.
Lemma rel_new : forall inp, rel (new_decoder inp) [].
Proof. intro. constructor; cbn; auto; [constructor|discriminate]. Qed.

Lemma declared_name : forall a p v, Forall (fun a => name_bytes (space (aname a)) /\ name_bytes (local (aname a))) a -> declared a p = Some v -> name_bytes p.
Proof.
  induction a as [|x a IH]; intros p v F H; [discriminate|]. inversion F as [|? ? [F1 F2] F']; subst. cbn in H.
  destruct (declared a p) eqn:E; [eauto|]. unfold declares in H. destruct (beq (space (aname x)) (str "xmlns")).
  - destruct (beq (local (aname x)) p) eqn:B; [|discriminate]. apply beq_eq in B. subst. auto.
  - destruct (_ && _); [|discriminate]. destruct (beq [] p) eqn:B; [|discriminate]. apply beq_eq in B. subst. apply Forall_nil.
Qed.
Lemma resolve_name : forall o p v, Forall tag_ok o -> resolve o p = Some v -> name_bytes p.
Proof.
  induction o as [|[n a] o IH]; intros p v F H; [discriminate|]. inversion F as [|? ? [F1 F2] F']; subst. cbn in H.
  destruct (declared a p) eqn:E; [|eauto]. eapply declared_name; eauto.
Qed.
Lemma url_not_name : ~ name_bytes xmlURL.
Proof. intro H. unfold name_bytes in H. rewrite Forall_forall in H. specialize (H 47). cbn in H. discriminate H. tauto. Qed.
Lemma translate_expand : forall m o n e, (forall p, m p = resolve o p) -> Forall tag_ok o -> translate m n e = expand o e n.
Proof.
  intros m o n e H F. unfold translate, expand. change (str "xmlns") with xmlnsPrefix. change (str "xml") with xmlPrefix.
  destruct (beq (space n) xmlnsPrefix); auto. cbn [space local]. rewrite !H.
  replace (resolve o xmlURL) with (@None bytes) by (destruct (resolve o xmlURL) eqn:E; auto; apply resolve_name in E; auto; destruct (url_not_name E)).
  destruct (beq (space n) []) eqn:B0; cbn [andb].
  - apply beq_eq in B0. rewrite B0. replace (beq [] xmlPrefix) with false by reflexivity. destruct e; cbn [negb orb]; auto.
  - destruct (beq (space n) xmlPrefix); auto.
Qed.

Lemma next_ok : forall d o t d', rel d o -> next_token d = TokOk t d' ->
  exists w o', written (d_inp d) (d_close d) [w] (d_inp d') (d_close d') /\ (forall ws ts o2, interp o' ws ts o2 -> interp o (w :: ws) (t :: ts) o2) /\ rel d' o'.
Proof.
  intros [inp c stk m err] o t d' [R1 R2 R3 R4 R5] H. cbn in *. subst err. unfold next_token, raw_step in H. cbn [d_err d_close d_inp d_stk d_ns] in H.
  destruct c as [n|].
  - destruct (R5 n eq_refl) as (a & o' & ->). inversion R3 as [|? ? us stk0 ? G F U]; subst. cbn [pop_element d_stk d_ns d_inp d_close] in H.
    rewrite !beq_refl in H. cbn [negb] in H. rewrite undo_split in H; auto; [|eapply good_top; eauto]. injection H as <- <-.
    exists (TEnd n), o'. cbn. split; [constructor; constructor|]. split.
    + intros ws ts o2 I. rewrite (translate_expand _ ((n, a) :: o')); auto. constructor. auto.
    + inversion R4; subst. constructor; cbn; auto. discriminate.
  - destruct (raw_token inp) as [[w c] rest|e|] eqn:E; [|destruct e; try discriminate; destruct stk; discriminate|discriminate].
    cbn [d_stk d_ns d_inp d_close] in H.
    assert (W : forall d2 : dstate, d_inp d2 = rest -> d_close d2 = c -> written inp None [w] (d_inp d2) (d_close d2)).
    { intros d2 <- <-. econstructor; [exact E|constructor]. }
    destruct w as [n a|n|s|s|tg s|s].
    2: { assert (c = None) as -> by (eapply raw_not_start; [exact E|congruence]). destruct (pop_element n stk m) as [[[n' stk'] m']|e] eqn:P; [|discriminate].
         injection H as <- <-. destruct stk as [|[s|] stk]; try discriminate. cbn [pop_element] in P. destruct (beq (local s) (local n)) eqn:B1; [|discriminate].
         destruct (beq (space s) (space n)) eqn:B2; [|discriminate]. cbn [negb] in P. apply beq_eq in B1, B2.
         assert (s = n) as -> by (destruct s, n; cbn in *; congruence). inversion R3 as [|? a us stk0 o' G F U]; subst.
         rewrite undo_split in P; auto; [|eapply good_top; eauto]. injection P as <- <- <-.
         exists (TEnd n), o'. split; [apply W; auto|]. split.
         + intros ws ts o2 I. rewrite (translate_expand _ ((n, a) :: o')); auto. constructor. auto.
         + inversion R4; subst. constructor; cbn; auto. discriminate. }
    1: { destruct (raw_start _ _ _ _ _ E) as [TO C]. pose proof (declare_ok a [] o n stk m) as D.
         destruct (declare a (stk, m)) as [[stk' m']|e]; [|discriminate]. destruct D as (us & -> & F & R & S); [intro p; cbn; apply R2|].
         injection H as <- <-. cbn [app] in R. exists (TStart n a), ((n, a) :: o). split; [apply W; auto|]. split.
         + intros ws ts o2 I. rewrite (translate_expand _ ((n, a) :: o)); auto. 
           replace (map _ a) with (map (expand_attr ((n, a) :: o)) a); [constructor; auto|].
           apply map_ext. intros [x v]. unfold expand_attr. cbn. f_equal. symmetry. apply translate_expand; auto.
         + constructor; cbn; auto.
           * constructor; auto. intros m2 H2 p. rewrite (undo_same us m2 m'). rewrite S; auto. intro q. rewrite H2, R. auto.
           * intros n0 E0. exists a, o. destruct C as [-> | ->]; [discriminate|]. injection E0 as <-. auto. }
    all: injection H as <- <-; assert (c = None) as -> by (eapply raw_not_start; [exact E|congruence]).
    all: eexists _, o; split; [apply W; auto|]; split; [intros ws ts o2 I; constructor; try congruence; auto|].
    all: constructor; cbn; auto; discriminate.
Qed.
Lemma written_trans : forall inp c ws1 inp1 c1, written inp c ws1 inp1 c1 -> forall ws2 inp2 c2, written inp1 c1 ws2 inp2 c2 -> written inp c (ws1 ++ ws2) inp2 c2.
Proof. induction 1; intros; cbn; [auto|constructor; auto|econstructor; eauto]. Qed.
Lemma calls_interp : forall d ts d', calls d ts d' -> forall o, rel d o ->
  exists ws o', written (d_inp d) (d_close d) ws (d_inp d') (d_close d') /\ interp o ws ts o' /\ rel d' o'.
Proof.
  induction 1 as [d|d t d1 ts d' H C IH]; intros o R.
  - exists [], o. split; [constructor|split; [constructor|auto]].
  - destruct (next_ok _ _ _ _ R H) as (w & o1 & W & I & R1). destruct (IH _ R1) as (ws & o' & W' & I' & R').
    exists (w :: ws), o'. split; [apply (written_trans _ _ [w] _ _ W); auto|]. split; auto.
Qed.

(** *** Nesting *)
Fixpoint open_names (o : list tag) : list name :=
  match o with
  | [] => []
  | (n, a) :: o' => expand o true n :: open_names o'
  end.
Lemma interp_nest : forall o ws ts o', interp o ws ts o' -> nest (open_names o) ts = Some (open_names o').
Proof.
  induction 1; cbn [nest open_names]; auto.
  - cbn [open_names] in IHinterp. rewrite name_eqb_refl. auto.
  - destruct t; auto; exfalso; [eapply H|eapply H0]; reflexivity.
Qed.

(** *** Only the end of the input gives io.EOF *)
Lemma get_name_eof : forall inp, get_name inp <> inr (Some EEof).
Proof. intro inp. unfold get_name. destruct (read_name inp); try discriminate. destruct (is_name s); discriminate. Qed.
Lemma get_nsname_eof : forall inp, get_nsname inp <> inr (Some EEof).
Proof.
  intro inp. unfold get_nsname. pose proof (get_name_eof inp). destruct (get_name inp) as [[s r]|[e|]]; try congruence. destruct (split_ns s); discriminate.
Qed.
Lemma char_entity_eof : forall inp, char_entity inp <> RErr EEof.
Proof.
  intros [|b t]; [discriminate|]. unfold char_entity. destruct (b =? 35).
  - destruct t as [|x t']; [discriminate|]. destruct (if x =? 120 then (true, t') else (false, x :: t')) as [base16 start].
    destruct (span_digits base16 [] start) as [[ds rest]|]; [|discriminate]. destruct rest; [discriminate|]. destruct (_ && _ && _); discriminate.
  - destruct (read_name (b :: t)) as [s rest| |]; try discriminate. destruct rest as [|c rest']; [discriminate|]. destruct (_ && _); [|discriminate].
    destruct (entity s); discriminate.
Qed.
Lemma text_loop_eof : forall k q c b0 b1 buf inp, text_loop k q c b0 b1 buf inp <> RErr EEof.
Proof.
  induction k as [|k IH]; intros q c b0 b1 buf inp; [discriminate|]. cbn [text_loop]. destruct inp as [|b t]; [destruct c; discriminate|].
  destruct (_ && _ && _ && _); [destruct c; discriminate|]. destruct (_ && _); [destruct q; discriminate|].
  destruct (_ && _ && _); [discriminate|]. destruct (match q with Some _ => _ | None => _ end); [discriminate|].
  destruct (_ && _); [|apply IH]. pose proof (char_entity_eof t). destruct (char_entity t); [apply IH|congruence|discriminate].
Qed.
Lemma text_eof : forall q c inp, text q c inp <> RErr EEof.
Proof.
  intros q c inp. unfold text. pose proof (text_loop_eof (S (length inp)) q c 0 0 [] inp). destruct (text_loop _ _ _ _ _ _ _); try congruence.
  destruct (forallb _ _); discriminate.
Qed.
Lemma attrs_eof : forall k acc inp, attrs_loop k acc inp <> RErr EEof.
Proof.
  induction k as [|k IH]; intros acc inp; [discriminate|]. cbn [attrs_loop]. destruct (skip_space inp) as [|b t]; [discriminate|].
  destruct (b =? 47). { destruct t as [|c t']; [discriminate|]. destruct (c =? 62); discriminate. }
  destruct (b =? 62); [discriminate|]. pose proof (get_nsname_eof (b :: t)).
  destruct (get_nsname (b :: t)) as [[n r]|[e|]]; try congruence. destruct (skip_space r) as [|c r']; [discriminate|].
  destruct (negb (c =? 61)); [discriminate|]. destruct (skip_space r') as [|y r2]; [discriminate|]. cbn [attrval]. destruct ((y =? 34) || (y =? 39)); [|discriminate].
  pose proof (text_eof (Some y) false r2). destruct (text (Some y) false r2); congruence.
Qed.
Lemma pi_eof : forall inp b0 buf, pi_loop b0 buf inp <> RErr EEof.
Proof. induction inp; intros; cbn; [discriminate|]. destruct (_ && _); [discriminate|auto]. Qed.
Lemma comment_eof : forall inp b0 b1 buf, comment_loop b0 b1 buf inp <> RErr EEof.
Proof. induction inp; intros; cbn; [discriminate|]. destruct (_ && _); [destruct (_ =? _); discriminate|auto]. Qed.
Lemma expect_eof : forall p inp, expect p inp <> RErr EEof.
Proof. induction p; intros [|b t]; cbn; try discriminate. destruct (_ =? _); [auto|discriminate]. Qed.
Lemma directive_eof : forall k pend inq depth buf inp, directive_loop k pend inq depth buf inp <> RErr EEof.
Proof.
  induction k as [|k IH]; intros pend inq depth buf inp; [discriminate|]. cbn [directive_loop].
  assert (HB : forall b inp1, 
    (if b =? inq then directive_loop k None 0 depth (buf ++ [b]) inp1
     else if negb (inq =? 0) then directive_loop k None inq depth (buf ++ [b]) inp1
     else if (b =? 39) || (b =? 34) then directive_loop k None b depth (buf ++ [b]) inp1
     else if b =? 62 then directive_loop k None inq (depth - 1) (buf ++ [b]) inp1
     else if b =? 60 then
       match match_bang (str "!--") 0 inp1 with
       | inl rest0 => match skip_comment 0 0 rest0 with Some rest' => directive_loop k None inq depth (buf ++ [32]) rest' | None => RErr unexpected_eof end
       | inr (Some (n, b1, rest0)) => directive_loop k (Some b1) inq (depth + 1) ((buf ++ [b]) ++ firstn n (str "!--")) rest0
       | inr None => RErr unexpected_eof
       end
     else directive_loop k None inq depth (buf ++ [b]) inp1) <> RErr EEof).
  { intros b inp1. destruct (b =? inq); [apply IH|]. destruct (negb (inq =? 0)); [apply IH|]. destruct ((b =? 39) || (b =? 34)); [apply IH|].
    destruct (b =? 62); [apply IH|]. destruct (b =? 60); [|apply IH].
    destruct (match_bang (str "!--") 0 inp1) as [r|[[[n x] r]|]]; [|apply IH|discriminate]. destruct (skip_comment 0 0 r); [apply IH|discriminate]. }
  destruct pend as [b|]; [apply HB|]. destruct inp as [|b t]; [discriminate|]. destruct (_ && _ && _); [discriminate|]. apply HB.
Qed.
Lemma raw_eof : forall inp, raw_token inp = RErr EEof -> inp = [].
Proof.
  intros [|b t0]; auto. intro H. exfalso. revert H. change (raw_token (b :: t0) <> RErr EEof). unfold raw_token. destruct (b =? 60); cbn [negb].
  2: { pose proof (text_eof None false (b :: t0)). destruct (text None false (b :: t0)); cbn; congruence. }
  destruct t0 as [|c0 t']; [discriminate|]. destruct (c0 =? 47).
  { pose proof (get_nsname_eof t'). destruct (get_nsname t') as [[n r]|[e|]]; try congruence. destruct (skip_space r) as [|x r']; [discriminate|]. destruct (x =? 62); discriminate. }
  destruct (c0 =? 63).
  { pose proof (get_name_eof t'). destruct (get_name t') as [[n r]|[e|]]; try congruence. pose proof (pi_eof (skip_space r) 0 []).
    destruct (pi_loop 0 [] (skip_space r)) as [s r'|e|]; try congruence. destruct (beq n (str "xml")); [|discriminate]. unfold xml_decl_ok.
    destruct (_ && _); [discriminate|]. destruct (_ && _); discriminate. }
  destruct (c0 =? 33).
  { destruct t' as [|d t'']; [discriminate|]. destruct (d =? 45).
    { destruct t'' as [|e t3]; [discriminate|]. destruct (e =? 45); [|discriminate].
      pose proof (comment_eof t3 0 0 []). destruct (comment_loop 0 0 [] t3); cbn; congruence. }
    destruct (d =? 91).
    { pose proof (expect_eof (str "CDATA[") t''). destruct (expect (str "CDATA[") t'') as [u r|e|]; try congruence.
      pose proof (text_eof None true r). destruct (text None true r); cbn; congruence. }
    pose proof (directive_eof (2 * length t'' + 2) None 0 0 [d] t'').
    destruct (directive_loop _ _ _ _ _ _); cbn; congruence. }
  pose proof (get_nsname_eof (c0 :: t')). destruct (get_nsname (c0 :: t')) as [[n r]|[e|]]; try congruence.
  pose proof (attrs_eof (S (length r)) [] r). destruct (attrs_loop (S (length r)) [] r) as [[a em] r'|e|]; congruence.
Qed.
Lemma pop_eof : forall n stk m, pop_element n stk m <> inr EEof.
Proof.
  intros n [|[s|] stk] m; cbn; try discriminate. destruct (negb _); [discriminate|]. destruct (negb _); [discriminate|]. destruct (undo stk m). discriminate.
Qed.
Lemma declare_eof : forall a s, declare a s <> inr EEof.
Proof. induction a as [|[n v] a IH]; intro s; cbn [declare]; [discriminate|]. destruct (_ && _); [discriminate|]. destruct (_ && _); [discriminate|]. apply IH. Qed.
Lemma eof_closed : forall d o d', rel d o -> next_token d = TokErr EEof d' -> o = [] /\ d_inp d = [] /\ d_close d = None.
Proof.
  intros [inp c stk m err] o d' [R1 R2 R3 R4 R5] H. cbn in *. subst err. unfold next_token, raw_step in H. cbn [d_err d_close d_inp d_stk d_ns] in H.
  destruct c as [n|]. { pose proof (pop_eof n stk m). cbn [d_stk d_ns] in H. destruct (pop_element n stk m) as [[[n' stk'] m']|e]; congruence. }
  destruct (raw_token inp) as [[w c] rest|e|] eqn:E; [|destruct e; try discriminate; destruct stk as [|s stk]; try discriminate|discriminate].
  - exfalso. cbn [d_stk d_ns] in H. destruct w; try discriminate.
    + pose proof (declare_eof a (stk, m)). destruct (declare a (stk, m)) as [[]|e]; congruence.
    + pose proof (pop_eof n stk m). destruct (pop_element n stk m) as [[[n' stk'] m']|e]; congruence.
  - inversion R3; subst. apply raw_eof in E. auto.
Qed.
Lemma eof_reported : forall d, rel d [] -> d_inp d = [] -> exists d', next_token d = TokErr EEof d'.
Proof.
  intros [inp c stk m err] [R1 R2 R3 R4 R5] H. cbn in *. subst err inp. inversion R3; subst. destruct c as [n|].
  { destruct (R5 n eq_refl) as (a & o & E). discriminate. }
  eexists. reflexivity.
Qed.
Lemma err_sticky : forall d e d', next_token d = TokErr e d' -> exists d'', next_token d' = TokErr e d''.
Proof.
  intros [inp c stk m err] e d' H. unfold next_token, raw_step in H. cbn [d_err d_close d_inp d_stk d_ns] in H. destruct err as [e0|].
  { cbn [d_stk] in H. destruct e0; [destruct stk|]; injection H as <- <-; eexists; unfold next_token, raw_step; cbn; reflexivity. }
  destruct c as [n|].
  { cbn [d_stk d_ns] in H. pose proof (pop_eof n stk m) as P. destruct (pop_element n stk m) as [[[n' stk'] m']|e0]; [discriminate|]. injection H as <- <-.
    eexists. unfold next_token, raw_step. cbn. destruct e0; [congruence|reflexivity]. }
  destruct (raw_token inp) as [[w c] rest|e0|] eqn:E; [| |discriminate]; cbn [d_stk d_ns] in H.
  - destruct w; try discriminate.
    + pose proof (declare_eof a (stk, m)) as P. destruct (declare a (stk, m)) as [[]|e0]; [discriminate|]. injection H as <- <-.
      eexists. unfold next_token, raw_step. cbn. destruct e0; [congruence|reflexivity].
    + pose proof (pop_eof n stk m) as P. destruct (pop_element n stk m) as [[[n' stk'] m']|e0]; [discriminate|]. injection H as <- <-.
      eexists. unfold next_token, raw_step. cbn. destruct e0; [congruence|reflexivity].
  - destruct e0; [destruct stk|]; injection H as <- <-; eexists; unfold next_token, raw_step; cbn; reflexivity.
Qed.
Lemma next_nofuel : forall d, next_token d <> TokFuel.
Proof.
  intros [inp c stk m err]. unfold next_token, raw_step. cbn [d_err d_close d_inp d_stk d_ns]. destruct err as [[]|]; try discriminate. { destruct stk; discriminate. }
  assert (HP : forall n (d : dstate), match pop_element n (d_stk d) (d_ns d) with inr e => TokErr e (mkd (d_inp d) (d_close d) (d_stk d) (d_ns d) (Some e))
    | inl (n', s, m0) => TokOk (TEnd n') (mkd (d_inp d) (d_close d) s m0 None) end <> TokFuel) by (intros; destruct (pop_element _ _ _) as [[[] ]|]; discriminate).
  destruct c as [n|]; [apply HP|]. pose proof (raw_nofuel inp). destruct (raw_token inp) as [[w c] rest|e|]; [| |congruence].
  - destruct w; try discriminate; [|apply HP]. destruct (declare _ _) as [[]|]; discriminate.
  - destruct e; [destruct stk|]; discriminate.
Qed.

(** A self-closing tag. *)
Lemma self_closing : forall d o n a m rest, rel d o -> d_close d = None -> raw_token (d_inp d) = ROk (TStart n a, Some m) rest ->
  forall t d1, next_token d = TokOk t d1 -> exists x y d2, t = TStart x y /\ next_token d1 = TokOk (TEnd x) d2 /\ d_inp d2 = d_inp d1 /\ d_inp d1 = rest /\ d_close d2 = None /\ rel d2 o.
Proof.
  intros d o n a m rest R C E t d1 H. destruct (raw_start _ _ _ _ _ E) as [_ [X|X]]; [discriminate|]. injection X as ->.
  destruct (next_ok _ _ _ _ R H) as (w & o1 & W & I & R1). rewrite C in W. inversion W as [| |? ? ? ? ? ? ? E' W']; subst. rewrite E in E'. injection E' as <- <- <-.
  inversion W' as [X Y Z| |]; subst.
  specialize (I [] [] o1 (I_nil _)). inversion I as [|? ? ? ? ? ? I'| |? ? ? ? ? N]; subst; [|exfalso; eapply N; reflexivity]. inversion I'; subst.
  assert (exists d2, next_token d1 = TokOk (TEnd (expand ((n, a) :: o) true n)) d2 /\ d_inp d2 = d_inp d1 /\ d_close d2 = None) as (d2 & E2 & E3 & E4).
  { destruct d1 as [inp1 c1 stk1 m1 err1]. destruct R1 as [Q1 Q2 Q3 Q4 Q5]. cbn in *. subst err1 c1. unfold next_token, raw_step. cbn [d_err d_close d_stk d_ns d_inp].
    inversion Q3 as [|? ? us stk0 ? G F U]; subst. cbn [pop_element]. rewrite !beq_refl. cbn [negb]. rewrite undo_split; auto; [|eapply good_top; eauto].
    rewrite <- (translate_expand m1 ((n, a) :: o) n true Q2 Q4).
    eexists. split; [reflexivity|split; reflexivity]. }
  destruct (next_ok _ _ _ _ R1 E2) as (w2 & o2 & W2 & I2 & R2). specialize (I2 [] [] o2 (I_nil _)). 
  inversion I2 as [| |? ? ? ? ? ? I2'|? ? ? ? ? N1 N2]; subst; [|exfalso; eapply N2; reflexivity]. inversion I2'; subst.
  do 3 eexists. split; [reflexivity|]. split; [exact E2|]. auto.
Qed.

(** *** Termination *)
Definition left_to_read (d : dstate) : nat := (2 * length (d_inp d) + match d_close d with Some _ => 1 | None => 0 end)%nat.
Lemma next_progress : forall d t d', next_token d = TokOk t d' ->
  (left_to_read d' < left_to_read d)%nat \/ (stray d /\ t = TChar [] /\ d' = d).
Proof.
  intros [inp c stk m err] t d' H. unfold next_token, raw_step in H. cbn [d_err d_close d_inp d_stk d_ns] in H.
  destruct err as [[]|]; try discriminate. { destruct stk; discriminate. } unfold left_to_read. cbn [d_inp d_close].
  destruct c as [n|].
  { left. cbn [d_stk d_ns d_inp d_close] in H. destruct (pop_element n stk m) as [[[n' stk'] m']|e0]; [|discriminate]. injection H as <- <-. cbn. lia. }
  destruct (raw_token inp) as [[w c] rest|e|] eqn:E; [| |discriminate].
  2: { destruct e; [destruct stk|]; discriminate. }
  cbn [d_stk d_ns d_inp d_close] in H. destruct (raw_progress _ _ _ _ E) as [L|(-> & -> & -> & s & ->)].
  - left. destruct w.
    + destruct (declare a (stk, m)) as [[]|]; [|discriminate]. injection H as <- <-. cbn. destruct c; lia.
    + destruct (pop_element n stk m) as [[[n' stk'] m']|]; [|discriminate]. injection H as <- <-. cbn. destruct c; lia.
    + injection H as <- <-. cbn. destruct c; lia.
    + injection H as <- <-. cbn. destruct c; lia.
    + injection H as <- <-. cbn. destruct c; lia.
    + injection H as <- <-. cbn. destruct c; lia.
  - right. injection H as <- <-. split; [|auto]. split; [auto|]. split; [auto|]. exists s. auto.
Qed.
Lemma stray_hangs : forall d, stray d -> next_token d = TokOk (TChar []) d.
Proof.
  intros [inp c stk m err] (H1 & H2 & s & H3). cbn in *. subst. unfold next_token, raw_step. cbn [d_err d_close d_inp d_stk d_ns].
  assert (raw_token (62 :: s) = ROk (TChar [], None) (62 :: s)) as -> by reflexivity. reflexivity.
Qed.
Lemma stray_for_ever : forall n d, stray d -> calls d (repeat (TChar []) n) d.
Proof. induction n; intros d H; cbn; [constructor|]. econstructor; [apply stray_hangs; auto|auto]. Qed.
Lemma calls_app : forall d ts1 d1, calls d ts1 d1 -> forall ts2 d2, calls d1 ts2 d2 -> calls d (ts1 ++ ts2) d2.
Proof. induction 1; intros; cbn; [auto|econstructor; eauto]. Qed.
Lemma calls_end : forall k d, (left_to_read d < k)%nat ->
  exists ts d', calls d ts d' /\ (length ts < k)%nat /\ ((exists e d'', next_token d' = TokErr e d'') \/ stray d').
Proof.
  induction k as [|k IH]; intros d L; [lia|]. destruct (next_token d) as [t d1|e d1|] eqn:E; [| |destruct (next_nofuel _ E)].
  - destruct (next_progress _ _ _ E) as [P|(P & -> & ->)].
    + destruct (IH d1) as (ts & d' & C & LT & X); [lia|]. exists (t :: ts), d'. split; [econstructor; eauto|]. cbn. split; [lia|auto].
    + exists [], d. split; [constructor|]. cbn. split; [lia|auto].
  - exists [], d. split; [constructor|]. cbn. split; [lia|]. left. eauto.
Qed.
Lemma calls_det : forall d ts1 d1, calls d ts1 d1 -> forall ts2 d2, calls d ts2 d2 -> length ts1 = length ts2 -> ts1 = ts2 /\ d1 = d2.
Proof.
  induction 1 as [d|d t d1 ts d' H C IH]; intros ts2 d2 C2 L; inversion C2; subst; try discriminate; auto.
  rewrite H in H0. injection H0 as <- <-. cbn in L. destruct (IH _ _ H1) as [-> ->]; auto.
Qed.
Lemma calls_split : forall ts1 ts2 d d', calls d (ts1 ++ ts2) d' -> exists d1, calls d ts1 d1 /\ calls d1 ts2 d'.
Proof.
  induction ts1 as [|t ts1 IH]; intros ts2 d d' H; cbn in H; [exists d; split; [constructor|auto]|]. inversion H; subst.
  destruct (IH _ _ _ H5) as (d2 & C1 & C2). exists d2. split; [econstructor; eauto|auto].
Qed.
(** The number of calls is bounded unless a stray '>' is reached. *)
Lemma calls_bound : forall d ts d', calls d ts d' -> (length ts + left_to_read d' <= left_to_read d)%nat \/ stray d'.
Proof.
  induction 1 as [d|d t d1 ts d' H C IH]; [cbn; left; lia|]. destruct IH as [IH|IH]; auto.
  destruct (next_progress _ _ _ H) as [P|(P & -> & ->)]; [left; cbn [length]; lia|]. right.
  clear - C P. remember d as d0 in C. assert (stray d0) as S by (subst; auto). clear Heqd0 P d. induction C; auto. rewrite stray_hangs in H; auto. injection H as <- <-. auto.
Qed.

(** *** Skip *)
(** Token sequences of complete elements, comments and text. *)
Definition balanced (ts : list token) : Prop := nest [] ts = Some [].
Lemma nest_app : forall ts1 o o1 ts2, nest o ts1 = Some o1 -> nest o (ts1 ++ ts2) = nest o1 ts2.
Proof.
  induction ts1 as [|t ts1 IH]; intros o o1 ts2 H; cbn in *; [congruence|]. destruct t; auto. destruct o as [|m o]; [discriminate|]. destruct (name_eqb m n); [auto|discriminate].
Qed.
Lemma nest_deeper : forall ts o o1 x, nest o ts = Some o1 -> nest (o ++ x) ts = Some (o1 ++ x).
Proof.
  induction ts as [|t ts IH]; intros o o1 x H; cbn in *; [congruence|]. destruct t; auto.
  - apply (IH (n :: o)). auto.
  - destruct o as [|m o]; [discriminate|]. cbn. destruct (name_eqb m n); [auto|discriminate].
Qed.
Lemma interp_depth : forall o ws ts o', interp o ws ts o' -> forall x y st st', o = x ++ y -> length x = length st -> nest st ts = Some st' ->
  exists x', o' = x' ++ y /\ length x' = length st'.
Proof.
  induction 1 as [o|o n a ws ts o' I IH|o n a ws ts o' I IH|o t ws ts o' N1 N2 I IH]; intros x y st st' E L H.
  - injection H as <-. exists x. auto.
  - cbn in H. apply (IH ((n, a) :: x) y (expand ((n, a) :: o) true n :: st)); auto; [subst; auto|cbn; lia].
  - cbn in H. destruct st as [|s st]; [discriminate|]. destruct (name_eqb _ _); [|discriminate]. destruct x as [|u x]; [discriminate|].
    cbn in E. injection E as <- ->. apply (IH x y st); auto.
  - assert (nest st (t :: ts) = nest st ts) as X by (destruct t; auto; exfalso; [eapply N1|eapply N2]; reflexivity). rewrite X in H.
    apply (IH x y st); auto.
Qed.
Lemma balanced_same : forall d o ts d' , rel d o -> calls d ts d' -> balanced ts -> rel d' o.
Proof.
  intros d o ts d' R C B. destruct (calls_interp _ _ _ C _ R) as (ws & o' & _ & I & R'). destruct (interp_depth _ _ _ _ I [] o [] [] eq_refl eq_refl B) as (x & -> & L).
  destruct x; [auto|discriminate].
Qed.
Fixpoint depth_after (depth : nat) (ts : list token) : option nat :=
  match ts with
  | [] => Some depth
  | TStart _ _ :: ts => depth_after (S depth) ts
  | TEnd _ :: ts => match depth with S p => depth_after p ts | O => None end
  | _ :: ts => depth_after depth ts
  end.
Lemma skip_sound : forall k depth d d', skip_loop k depth d = Ok d' ->
  exists body n d1, calls d body d1 /\ next_token d1 = TokOk (TEnd n) d' /\ depth_after depth body = Some O.
Proof.
  induction k as [|k IH]; intros depth d d' H; [discriminate|]. cbn [skip_loop] in H. destruct (next_token d) as [t d1|e d1|] eqn:E; try discriminate.
  assert (K : forall dp, skip_loop k dp d1 = Ok d' -> depth_after depth [t] = Some dp ->
    exists body n d0, calls d body d0 /\ next_token d0 = TokOk (TEnd n) d' /\ depth_after depth body = Some O).
  { intros dp Hs D. destruct (IH _ _ _ Hs) as (body & n & d2 & C & N & DA). exists (t :: body), n, d2. split; [econstructor; eauto|]. split; auto.
    destruct t; cbn in *; try congruence. destruct depth; [discriminate|]. congruence. }
  destruct t; try (apply (K depth); auto; fail).
  - apply (K (S depth)); auto.
  - destruct depth as [|p]; [|apply (K p); auto]. injection H as <-. exists [], n, d. split; [constructor|]. split; auto.
Qed.
Lemma skip_complete : forall d body d1, calls d body d1 -> forall n d' k depth, next_token d1 = TokOk (TEnd n) d' -> depth_after depth body = Some O ->
  (length body < k)%nat -> skip_loop k depth d = Ok d'.
Proof.
  induction 1 as [d|d t d1 ts d2 H C IH]; intros n d' k depth N D L.
  - destruct k; [cbn in L; lia|]. cbn [skip_loop]. rewrite N. injection D as ->. auto.
  - destruct k; [cbn in L; lia|]. cbn in L. cbn [skip_loop]. rewrite H. destruct t; cbn in D; try (eapply IH; eauto; lia).
    destruct depth; [discriminate|]. eapply IH; eauto. lia.
Qed.
Lemma depth_nest : forall d o ts d', rel d o -> calls d ts d' -> forall x y, o = x ++ y -> depth_after (length x) ts = Some O -> rel d' y.
Proof.
  intros d o ts d' R C. destruct (calls_interp _ _ _ C _ R) as (ws & o' & _ & I & R'). intros x y E D. 
  assert (o' = y) as <-; [|auto]. clear - I E D. revert x y E D.
  induction I as [o|o n a ws ts o' I IH|o n a ws ts o' I IH|o t ws ts o' N1 N2 I IH]; intros x y E D.
  - injection D as D. destruct x; [auto|discriminate].
  - cbn in D. apply (IH ((n, a) :: x) y); subst; auto.
  - cbn in D. destruct x as [|u x]; [discriminate|]. cbn in D, E. injection E as _ E. apply (IH x y); auto.
  - apply (IH x y); auto. destruct t; auto; exfalso; [eapply N1|eapply N2]; reflexivity.
Qed.
(** Within an element, depth zero again means balanced. *)
Lemma interp_depth_nest : forall o ws ts o', interp o ws ts o' -> forall x y, o = x ++ y -> depth_after (length x) ts = Some O ->
  exists k, nest (firstn (length x) (open_names o)) ts = Some k /\ k = [].
Proof.
  induction 1 as [o|o n a ws ts o' I IH|o n a ws ts o' I IH|o t ws ts o' N1 N2 I IH]; intros x y E D.
  - injection D as D. exists []. rewrite D. auto.
  - cbn in D. destruct (IH ((n, a) :: x) y) as (k & K & ->); subst; auto. exists []. split; auto.
  - cbn in D. destruct x as [|u x]; [discriminate|]. cbn in D, E. injection E as _ E. destruct (IH x y) as (k & K & ->); auto. exists []. split; auto.
    cbn [length open_names firstn nest]. rewrite name_eqb_refl. auto.
  - assert (depth_after (length x) ts = Some O) as D'. { destruct t; auto; exfalso; [eapply N1|eapply N2]; reflexivity. }
    destruct (IH x y E D') as (k & K & ->). exists []. split; auto. destruct t; auto; exfalso; [eapply N1|eapply N2]; reflexivity.
Qed.
Lemma balanced_depth : forall ts st st', nest st ts = Some st' -> depth_after (length st) ts = Some (length st').
Proof.
  induction ts as [|t ts IH]; intros st st' H; cbn in *; [congruence|]. destruct t; auto.
  - apply (IH (n :: st)). auto.
  - destruct st as [|s st]; [discriminate|]. destruct (name_eqb s n); [|discriminate]. cbn. auto.
Qed.

(** *** Interning *)
Definition interned (m : list (bytes * bytes)) : Prop := (length m <= max_intern)%nat /\ NoDup (map fst m) /\ Forall (fun e => snd e = fst e) m.
Lemma find_intern : forall (m : list (bytes * bytes)) b e, find (fun e => beq (fst e) b) m = Some e -> In e m /\ fst e = b.
Proof. intros m b e H. apply find_some in H. destruct H as [I B]. apply beq_eq in B. auto. Qed.
Lemma intern_ok : forall m b m' s, interned m -> intern m b = (m', s) -> interned m' /\ s = b /\ incl m m'.
Proof.
  intros m b m' s (L & N & F) H. unfold intern in H. destruct (find _ m) as [e|] eqn:E.
  - injection H as <- <-. apply find_intern in E. destruct E as [I <-]. rewrite Forall_forall in F. split; [split; [auto|split; [auto|apply Forall_forall; auto]]|]. split; [auto|apply incl_refl].
  - destruct (length m <? max_intern)%nat eqn:B; injection H as <- <-.
    + split; [|split; [auto|apply incl_tl, incl_refl]]. split; [cbn [length]; lia|]. split.
      * cbn. constructor; auto. intro I. apply in_map_iff in I. destruct I as (e & Q & I). eapply find_none in E; eauto. cbn in E. rewrite Q, beq_refl in E. discriminate.
      * constructor; auto.
    + split; [split; auto|]. split; [auto|apply incl_refl].
Qed.
Fixpoint intern_all (m : list (bytes * bytes)) (bs : list bytes) : list (bytes * bytes) * list bytes :=
  match bs with
  | [] => (m, [])
  | b :: bs => let '(m1, s) := intern m b in let '(m2, ss) := intern_all m1 bs in (m2, s :: ss)
  end.
Lemma intern_all_ok : forall bs m, interned m -> interned (fst (intern_all m bs)) /\ snd (intern_all m bs) = bs /\ incl m (fst (intern_all m bs)).
Proof.
  induction bs as [|b bs IH]; intros m H; cbn; [split; [auto|split; [auto|apply incl_refl]]|].
  destruct (intern m b) as [m1 s] eqn:E. destruct (intern_ok _ _ _ _ H E) as (H1 & -> & I1). specialize (IH m1 H1).
  destruct (intern_all m1 bs) as [m2 ss]. cbn in *. destruct IH as (H2 & -> & I2). split; [auto|]. split; [auto|]. eapply incl_tran; eauto.
Qed.
Lemma intern_all_app : forall bs1 bs2 m, fst (intern_all m (bs1 ++ bs2)) = fst (intern_all (fst (intern_all m bs1)) bs2).
Proof.
  induction bs1 as [|b bs1 IH]; intros bs2 m; cbn; auto. destruct (intern m b) as [m1 s]. specialize (IH bs2 m1).
  destruct (intern_all m1 (bs1 ++ bs2)), (intern_all m1 bs1). cbn in *. auto.
Qed.
Lemma skip_err : forall k depth d e, skip_loop k depth d = Err e -> exists ts d1 d2, calls d ts d1 /\ next_token d1 = TokErr e d2.
Proof.
  induction k as [|k IH]; intros depth d e H; [discriminate|]. cbn [skip_loop] in H. destruct (next_token d) as [t d1|e0 d1|] eqn:E; try discriminate.
  - assert (K : forall dp, skip_loop k dp d1 = Err e -> exists ts d0 d2, calls d ts d0 /\ next_token d0 = TokErr e d2).
    { intros dp Hs. destruct (IH _ _ _ Hs) as (ts & d2 & d3 & C & N). exists (t :: ts), d2, d3. split; [econstructor; eauto|auto]. }
    destruct t; try (eapply K; eauto; fail). destruct depth; [discriminate|eapply K; eauto].
  - injection H as <-. exists [], d, d1. split; [constructor|auto].
Qed.
Lemma skip_fuel : forall k depth d, (left_to_read d < k)%nat -> skip_loop k depth d = OutOfFuel -> exists ts d1, calls d ts d1 /\ stray d1.
Proof.
  induction k as [|k IH]; intros depth d L H; [lia|]. cbn [skip_loop] in H. destruct (next_token d) as [t d1|e0 d1|] eqn:E; try discriminate; [|destruct (next_nofuel _ E)].
  destruct (next_progress _ _ _ E) as [P|(P & _)]; [|exists [], d; split; [constructor|auto]].
  assert (K : forall dp, skip_loop k dp d1 = OutOfFuel -> exists ts d0, calls d ts d0 /\ stray d0).
  { intros dp Hs. destruct (IH dp d1 ltac:(lia) Hs) as (ts & d2 & C & N). exists (t :: ts), d2. split; [econstructor; eauto|auto]. }
  destruct t; try (eapply K; eauto; fail). destruct depth; [discriminate|eapply K; eauto].
Qed.
Lemma skip_panic : forall k depth d, skip_loop k depth d <> Panic.
Proof.
  induction k as [|k IH]; intros depth d; [discriminate|]. cbn [skip_loop]. destruct (next_token d) as [t d1|e0 d1|]; try discriminate.
  destruct t; try apply IH. destruct depth; [discriminate|apply IH].
Qed.
Lemma calls_rel : forall inp ts d, calls (new_decoder inp) ts d -> exists o, rel d o /\ nest [] ts = Some (open_names o).
Proof.
  intros inp ts d C. destruct (calls_interp _ _ _ C _ (rel_new inp)) as (ws & o & _ & I & R). exists o. split; auto. apply (interp_nest _ _ _ _ I).
Qed.
