(** Proofs about type analysis. *)
From Coq Require Import String.
From Coq Require Import ZArith List Bool Lia.
From Coq Require Import ZifyBool ZifyNat.
From Verif Require Import Base Lexer Printer GoType TypeInfo TypeInfoSpec.
Import ListNotations.
Open Scope Z_scope.

Lemma mode_kind : forall f g, mode_eqb (fi_flags f) (fi_flags g) = true <-> kind f = kind g.
Proof.
  intros [? ? ? ? [e1 a1 c1 d1 i1 m1 y1 o1] ?] [? ? ? ? [e2 a2 c2 d2 i2 m2 y2 o2] ?]; unfold mode_eqb, kind; cbn.
  rewrite !andb_true_iff, !eqb_true_iff. split.
  - intros H; decompose [and] H; subst; reflexivity.
  - intros H; inversion H; subst; tauto.
Qed.

Lemma beq_iff : forall a b : bytes, beq a b = true <-> a = b.
Proof. intros a b; split; [apply beq_eq|intros ->; apply beq_refl]. Qed.

Lemma common_spec : forall a b, common a b = true <-> exists p x y, a = p ++ x /\ b = p ++ y /\ (x = [] \/ y = []).
Proof.
  induction a as [|x a IH]; intros b; cbn.
  - split; [intros _; exists [], [], b; auto|auto].
  - destruct b as [|y b].
    + split; [intros _; exists [], (x :: a), []; auto|auto].
    + rewrite andb_true_iff, beq_iff, IH. split.
      * intros (-> & p & u & v & -> & -> & H). exists (y :: p), u, v. auto.
      * intros (p & u & v & Ha & Hb & H). destruct p as [|z p]; cbn in Ha, Hb.
        -- subst; destruct H; discriminate.
        -- injection Ha as -> ->. injection Hb as -> ->. split; [reflexivity|]. exists p, u, v; auto.
Qed.

Lemma extends_snoc : forall p (n : bytes) q (m : bytes), extends (p ++ [n]) (q ++ [m]) <-> exists r, q = p ++ n :: r.
Proof.
  intros p n q m; split.
  - intros (r & Hr & E). destruct (exists_last Hr) as (r' & z & ->). rewrite app_assoc in E. apply app_inj_tail in E as (E & _).
    rewrite <- app_assoc in E. cbn in E. eauto.
  - intros (r & ->). exists (r ++ [m]). split; [destruct r; discriminate|]. rewrite <- !app_assoc. reflexivity.
Qed.

Lemma nth_app_mid : forall (p : list bytes) x y d, nth (length p) (p ++ x :: y) d = x.
Proof. intros. rewrite app_nth2, Nat.sub_diag by lia. reflexivity. Qed.

(** The model's conflict check is the specification. *)
Lemma conflict_spec : forall f g, conflict f g = true <-> clash f g.
Proof.
  intros f g. unfold conflict, clash. rewrite !andb_true_iff, mode_kind, !orb_true_iff, !beq_iff, common_spec.
  set (lo := length (fi_parents f)). set (ln := length (fi_parents g)).
  split.
  - intros (((K & NS) & p & x & y & Ea & Eb & Hxy) & Hn). split; [exact K|].
    unfold path. destruct (ln <? lo)%nat eqn:E1.
    + right. split; [right|tauto]. apply extends_snoc.
      assert (y = []) as ->. { destruct Hxy as [->|]; [|assumption]. exfalso. subst lo ln. apply Nat.ltb_lt in E1. rewrite Ea, Eb, app_nil_r, app_length in E1. lia. }
      rewrite app_nil_r in Eb. subst p. destruct x as [|z x]; [rewrite app_nil_r in Ea; subst lo ln; rewrite Ea in E1; lia|].
      subst ln. rewrite Ea, nth_app_mid, beq_iff in Hn. exists x. rewrite Ea, Hn. reflexivity.
    + destruct (lo <? ln)%nat eqn:E2.
      * right. split; [left|tauto]. apply extends_snoc.
        assert (x = []) as ->. { destruct Hxy as [| ->]; [assumption|]. exfalso. subst lo ln. apply Nat.ltb_lt in E2. rewrite Ea, Eb, app_nil_r, app_length in E2. lia. }
        rewrite app_nil_r in Ea. subst p. destruct y as [|z y]; [rewrite app_nil_r in Eb; subst lo ln; rewrite Eb in E2; lia|].
        subst lo. rewrite Eb, nth_app_mid, beq_iff in Hn. exists y. rewrite Eb, Hn. reflexivity.
      * left. rewrite andb_true_iff, !beq_iff in Hn. destruct Hn as (-> & ->). split; [|reflexivity]. f_equal.
        assert (length x = length y). { subst lo ln. rewrite Ea, Eb, !app_length in *. lia. }
        destruct Hxy as [->| ->]; [destruct y|destruct x]; try discriminate; rewrite Ea, Eb; reflexivity.
  - intros (K & [(Ep & En)|(Ex & NS)]).
    + unfold path in Ep. apply app_inj_tail in Ep as (Ep & Eq). split.
      * split; [tauto|]. exists (fi_parents f), [], []. rewrite app_nil_r, <- Ep. auto.
      * subst lo ln. rewrite Ep, Nat.ltb_irrefl, Eq, En, !beq_refl. reflexivity.
    + destruct Ex as [Ex|Ex]; unfold path in Ex; apply extends_snoc in Ex as (r & Er).
      * split; [split; [tauto|]; exists (fi_parents f), [], (fi_name f :: r); rewrite app_nil_r; auto|].
        assert (ln <? lo = false /\ lo <? ln = true)%nat as (-> & ->) by (subst lo ln; rewrite Er, app_length, Nat.ltb_ge, Nat.ltb_lt; cbn [length]; lia).
        subst lo. rewrite Er, nth_app_mid. apply beq_refl.
      * split; [split; [tauto|]; exists (fi_parents g), (fi_name g :: r), []; rewrite app_nil_r; auto|].
        assert (ln <? lo = true)%nat as -> by (subst lo ln; rewrite Er, app_length, Nat.ltb_lt; cbn [length]; lia).
        subst ln. rewrite Er, nth_app_mid. apply beq_refl.
Qed.

Lemma clash_sym : forall f g, clash f g -> clash g f.
Proof. intros f g (K & H). split; [congruence|]. destruct H as [(A & B)|(A & B)]; [left; split; congruence|right; split; [tauto|]]. destruct B as [B|[B|B]]; auto. Qed.
Lemma conflict_sym : forall f g, conflict f g = conflict g f.
Proof.
  intros f g. destruct (conflict f g) eqn:A, (conflict g f) eqn:B; try reflexivity.
  - apply conflict_spec, clash_sym, conflict_spec in A. congruence.
  - apply conflict_spec, clash_sym, conflict_spec in B. congruence.
Qed.

Definition apart (l : list finfo) : Prop := ForallOrdPairs (fun f g => conflict f g = false) l.
Lemma apart_clash_free : forall l, apart l <-> clash_free l.
Proof.
  split.
  - induction 1 as [|a l Ha Hl IH]; intros i j f g Hij Hi Hj Hc.
    + destruct i; discriminate.
    + apply conflict_spec in Hc. rewrite Forall_forall in Ha. destruct i, j; cbn in Hi, Hj.
      * lia.
      * injection Hi as ->. rewrite Ha in Hc by (eapply nth_error_In; eauto). discriminate.
      * injection Hj as ->. rewrite conflict_sym, Ha in Hc by (eapply nth_error_In; eauto). discriminate.
      * apply conflict_spec in Hc. exact (IH i j f g ltac:(lia) Hi Hj Hc).
  - induction l as [|a l IH]; intros H; constructor.
    + apply Forall_forall. intros x Hx. apply In_nth_error in Hx as (k & Hk). destruct (conflict a x) eqn:E; [|reflexivity].
      exfalso. apply conflict_spec in E. exact (H O (S k) a x ltac:(lia) eq_refl Hk E).
    + apply IH. intros i j f g Hij Hi Hj. apply (H (S i) (S j) f g); [lia|exact Hi|exact Hj].
Qed.

Lemma apart_app_one : forall l n, apart l -> Forall (fun f => conflict f n = false) l -> apart (l ++ [n]).
Proof.
  induction 1 as [|a l Ha Hl IH]; intros Hn; cbn.
  - repeat constructor.
  - inversion Hn; subst. constructor.
    + apply Forall_app. split; [assumption|]. constructor; [assumption|constructor].
    + apply IH; assumption.
Qed.
Lemma apart_filter : forall p l, apart l -> apart (filter p l).
Proof.
  induction 1 as [|a l Ha Hl IH]; cbn; [constructor|]. destruct (p a); [|exact IH]. constructor; [|exact IH].
  rewrite Forall_forall in *. intros x Hx. apply filter_In in Hx. apply Ha; tauto.
Qed.
Lemma filter_nil : forall {A} (p : A -> bool) l, filter p l = [] -> Forall (fun x => p x = false) l.
Proof. induction l as [|a l IH]; cbn; intros H; constructor; destruct (p a) eqn:E; try discriminate; auto. Qed.

(** What adding one field does. *)
Lemma add_field_cases : forall fs n r, add_field fs n = Ok r ->
  (Forall (fun f => conflict f n = false) fs /\ r = fs ++ [n]) \/
  ((exists f, In f fs /\ conflict f n = true /\ depth f < depth n)%nat /\ r = fs) \/
  ((forall f, In f fs -> conflict f n = true -> (depth n < depth f)%nat) /\ r = filter (fun f => negb (conflict f n)) fs ++ [n]).
Proof.
  intros fs n r H. unfold add_field in H. destruct (filter (fun old => conflict old n) fs) as [|c cs] eqn:E.
  - left. injection H as <-. split; [apply filter_nil; exact E|reflexivity].
  - right. destruct (existsb (fun old => (depth old <? depth n)%nat) (c :: cs)) eqn:X.
    + left. apply existsb_exists in X as (f & Hf & Hd). rewrite <- E in Hf. apply filter_In in Hf as (Hf & Hc). injection H as <-.
      split; [exists f; split; [exact Hf|split; [exact Hc|lia]]|reflexivity].
    + right. destruct (find (fun old => (depth old =? depth n)%nat) (c :: cs)) eqn:Y; [discriminate|]. injection H as <-.
      split; [|reflexivity]. intros f Hf Hc.
      assert (Hin : In f (c :: cs)) by (rewrite <- E; apply filter_In; auto).
      pose proof (find_none _ _ Y _ Hin) as Z1. cbn beta in Z1.
      destruct (depth f <? depth n)%nat eqn:Z2; [|lia].
      assert (existsb (fun old => (depth old <? depth n)%nat) (c :: cs) = true) by (apply existsb_exists; eauto). congruence.
Qed.
Lemma add_field_err : forall fs n e, add_field fs n = Err e -> exists f, In f fs /\ conflict f n = true /\ depth f = depth n /\ (forall g, In g fs -> conflict g n = true -> (depth n <= depth g)%nat) /\ e = TagPathError (fi_idx f) (fi_idx n).
Proof.
  intros fs n e H. unfold add_field in H. destruct (filter (fun old => conflict old n) fs) as [|c cs] eqn:E; [discriminate|].
  destruct (existsb (fun old => (depth old <? depth n)%nat) (c :: cs)) eqn:X; [discriminate|].
  destruct (find (fun old => (depth old =? depth n)%nat) (c :: cs)) as [o|] eqn:Y; [|discriminate].
  apply find_some in Y as (Ho & Hd). rewrite <- E in Ho. apply filter_In in Ho as (Ho & Hc).
  exists o. split; [exact Ho|]. split; [exact Hc|]. split; [lia|]. split; [|congruence].
  intros g Hg Hgc. destruct (depth g <? depth n)%nat eqn:Z2; [|lia].
  assert (existsb (fun old => (depth old <? depth n)%nat) (c :: cs) = true).
  { apply existsb_exists. exists g. split; [rewrite <- E; apply filter_In; auto|exact Z2]. } congruence.
Qed.
Lemma add_field_ends : forall fs n, add_field fs n <> Panic /\ add_field fs n <> OutOfFuel.
Proof. intros fs n. unfold add_field. destruct filter; [split; discriminate|]. destruct existsb; [split; discriminate|]. destruct find; split; discriminate. Qed.

Lemma add_field_apart : forall fs n r, add_field fs n = Ok r -> apart fs -> apart r.
Proof.
  intros fs n r H Hap. destruct (add_field_cases _ _ _ H) as [(Hf & ->)|[(_ & ->)|(_ & ->)]].
  - apply apart_app_one; assumption.
  - exact Hap.
  - apply apart_app_one; [apply apart_filter; exact Hap|]. apply Forall_forall. intros x Hx. apply filter_In in Hx as (_ & Hx). destruct (conflict x n); [discriminate|reflexivity].
Qed.
Lemma add_field_from : forall fs n r f, add_field fs n = Ok r -> In f r -> In f fs \/ f = n.
Proof.
  intros fs n r f H Hf. destruct (add_field_cases _ _ _ H) as [(_ & ->)|[(_ & ->)|(_ & ->)]].
  - apply in_app_or in Hf as [|[->|[]]]; auto.
  - auto.
  - apply in_app_or in Hf as [Hf|[->|[]]]; auto. apply filter_In in Hf; tauto.
Qed.
(** A field that is gone has lost against a shallower one. *)
Definition lost (cs : list finfo) (g : finfo) : Prop := exists f, In f cs /\ conflict f g = true /\ (depth f < depth g)%nat.
Lemma add_field_lost : forall fs n r g, add_field fs n = Ok r -> In g fs \/ g = n -> In g r \/ lost (n :: fs) g.
Proof.
  intros fs n r g H Hg. destruct (add_field_cases _ _ _ H) as [(_ & ->)|[((f & Hf & Hc & Hd) & ->)|(Hd & ->)]].
  - left. apply in_or_app. destruct Hg as [| ->]; [auto|right; left; reflexivity].
  - destruct Hg as [| ->]; [auto|]. right. exists f. split; [right; exact Hf|auto].
  - destruct Hg as [Hg| ->]; [|left; apply in_or_app; right; left; reflexivity].
    destruct (conflict g n) eqn:E.
    + right. exists n. split; [left; reflexivity|]. split; [rewrite conflict_sym; exact E|exact (Hd g Hg E)].
    + left. apply in_or_app. left. apply filter_In. rewrite E. auto.
Qed.

Lemma add_fields_ok : forall cs fs r, add_fields fs cs = Ok r ->
  (apart fs -> apart r) /\ (forall f, In f r -> In f fs \/ In f cs) /\ (forall g, In g fs \/ In g cs -> In g r \/ lost (fs ++ cs) g).
Proof.
  induction cs as [|c cs IH]; intros fs r H; cbn in H.
  - injection H as <-. split; [auto|split; [auto|]]. intros g [|[]]; auto.
  - unfold bind in H. destruct (add_field fs c) as [fs1| | |] eqn:E; try discriminate. destruct (IH _ _ H) as (I1 & I2 & I3). split; [|split].
    + intros Hap. apply I1. eapply add_field_apart; eauto.
    + intros f Hf. destruct (I2 f Hf) as [H1|H1]; [|right; right; exact H1]. destruct (add_field_from _ _ _ _ E H1) as [H2| ->]; [auto|right; left; reflexivity].
    + intros g Hg.
      assert (Hsub : forall x, In x (fs1 ++ cs) -> In x (fs ++ c :: cs)).
      { intros x Hx. apply in_or_app. apply in_app_or in Hx as [Hx|Hx]; [|right; right; exact Hx]. destruct (add_field_from _ _ _ _ E Hx) as [| ->]; [auto|right; left; reflexivity]. }
      assert (Hsub2 : forall x, In x (c :: fs) -> In x (fs ++ c :: cs)).
      { intros x [->|Hx]; apply in_or_app; [right; left; reflexivity|auto]. }
      destruct Hg as [Hg|[Hg|Hg]].
      * destruct (add_field_lost _ _ _ g E (or_introl Hg)) as [H1|(f & Hf & Hc & Hd)]; [|right; exists f; auto].
        destruct (I3 g (or_introl H1)) as [|(f & Hf & Hc & Hd)]; [auto|right; exists f; auto].
      * subst g. destruct (add_field_lost _ _ _ c E (or_intror eq_refl)) as [H1|(f & Hf & Hc & Hd)]; [|right; exists f; auto].
        destruct (I3 c (or_introl H1)) as [|(f & Hf & Hc & Hd)]; [auto|right; exists f; auto].
      * destruct (I3 g (or_intror Hg)) as [|(f & Hf & Hc & Hd)]; [auto|right; exists f; auto].
Qed.
Lemma add_fields_err : forall cs fs e, add_fields fs cs = Err e -> exists f g, (In f fs \/ In f cs) /\ In g cs /\ conflict f g = true /\ depth f = depth g.
Proof.
  induction cs as [|c cs IH]; intros fs e H; cbn in H; [discriminate|]. unfold bind in H.
  destruct (add_field fs c) as [fs1|e1| |] eqn:E; try discriminate.
  - destruct (IH _ _ H) as (f & g & Hf & Hg & Hc & Hd). exists f, g. split; [|split; [right; exact Hg|auto]].
    destruct Hf as [Hf|Hf]; [|right; right; exact Hf]. destruct (add_field_from _ _ _ _ E Hf) as [| ->]; [auto|right; left; reflexivity].
  - destruct (add_field_err _ _ _ E) as (f & Hf & Hc & Hd & _). exists f, c. split; [auto|]. split; [left; reflexivity|auto].
Qed.
Lemma add_fields_app : forall a b fs, add_fields fs (a ++ b) = (do r <- add_fields fs a ; add_fields r b).
Proof. induction a as [|x a IH]; intros b fs; cbn; [reflexivity|]. destruct (add_field fs x); cbn; auto. Qed.

(** *** The candidates of a struct, in order *)
Lemma visible_dec : forall f, negb (exported (fd_name f)) && negb (fd_anon f) || beq (fd_tag f) (str "-") = false <-> visible f.
Proof.
  intros f. unfold visible. rewrite orb_false_iff, andb_false_iff, !negb_false_iff. split.
  - intros (H & E). split; [exact H|]. intros X. rewrite X, beq_refl in E. discriminate.
  - intros (H & E). split; [exact H|]. apply beq_neq. exact E.
Qed.
Lemma embeds_some : forall f s, (if fd_anon f then embedded (fd_type f) else None) = Some s <-> embeds f s.
Proof.
  intros f s. unfold embeds, embedded. destruct (fd_anon f); [|split; [discriminate|intros (X & _); discriminate]].
  destruct (fd_type f) as [ | | | | | | |t| | | |]; try (split; [discriminate|intros (_ & [X|X]); discriminate]).
  - destruct t; try (split; [discriminate|intros (_ & [X|X]); discriminate]).
    split; [intros X; injection X as ->; auto|]. intros (_ & [X|X]); [discriminate|injection X as ->; reflexivity].
  - split; [intros X; injection X as ->; auto|]. intros (_ & [X|X]); [injection X as ->; reflexivity|discriminate].
Qed.

Lemma field_loop_listed : forall env inner fs i x fields x' r, field_loop env inner i fs x fields = Ok (x', r) ->
  exists cs, listed env inner i fs cs /\ add_fields fields cs = Ok r.
Proof.
  intros env inner. induction fs as [|f fs IH]; intros i x fields x' r H; cbn [field_loop] in H.
  - injection H as _ <-. exists []. split; [constructor|reflexivity].
  - destruct (negb (exported (fd_name f)) && negb (fd_anon f) || beq (fd_tag f) (str "-")) eqn:V.
    + destruct (IH _ _ _ _ _ H) as (cs & L & A). exists cs. split; [|exact A]. apply L_skip; [|exact L]. intros X. apply visible_dec in X. congruence.
    + apply visible_dec in V. destruct (if fd_anon f then embedded (fd_type f) else None) as [s|] eqn:E.
      * apply embeds_some in E. destruct (inner s) as [ti| | |] eqn:T; try discriminate. cbn [bind] in H.
        destruct (add_fields fields (map (prefix_idx i) (ti_fields ti))) as [f1| | |] eqn:A1; try discriminate. cbn [bind] in H.
        destruct (IH _ _ _ _ _ H) as (cs & L & A). exists (map (deeper i) (ti_fields ti) ++ cs). split; [eapply L_inner; eauto|].
        rewrite add_fields_app. change (deeper i) with (prefix_idx i). rewrite A1. exact A.
      * assert (NE : forall s, ~ embeds f s) by (intros s X; apply embeds_some in X; congruence).
        destruct (struct_field_info env i f) as [fi| | |] eqn:S1; try discriminate. cbn [bind] in H.
        destruct (beq (fd_name f) xml_name) eqn:N.
        -- apply beq_eq in N. destruct (IH _ _ _ _ _ H) as (cs & L & A). exists cs. split; [eapply L_name; eassumption|exact A].
        -- apply beq_neq in N. destruct (add_field fields fi) as [f1| | |] eqn:A1; try discriminate. cbn [bind] in H.
           destruct (IH _ _ _ _ _ H) as (cs & L & A). exists (fi :: cs). split; [apply L_own; assumption|]. cbn. rewrite A1. exact A.
Qed.

Lemma clash_deeper : forall i f g, conflict (deeper i f) (deeper i g) = conflict f g.
Proof. reflexivity. Qed.

(** Which promoted fields the candidates are, given what is known about the embedded structs. *)
Definition inner_good (env : tenv) (s : bytes) (fs : list finfo) : Prop :=
  (forall f, In f fs -> promoted env s f) /\
  (forall g, promoted env s g -> In g fs \/ exists f, promoted env s f /\ conflict f g = true /\ (depth f < depth g)%nat).
Lemma listed_promoted : forall env inner s0 (Hin : forall s ti, inner s = Ok ti -> inner_good env s (ti_fields ti)) fs i cs,
  listed env inner i fs cs ->
  (forall j f, nth_error fs j = Some f -> nth_error (fields_of env s0) (i + j) = Some f) ->
  (forall f, In f cs -> promoted env s0 f) /\
  (forall g, (exists j f fi, nth_error fs j = Some f /\ visible f /\ (forall s, ~ embeds f s) /\ fd_name f <> str "XMLName" /\ struct_field_info env (i + j) f = Ok fi /\ g = fi) \/
             (exists j f s fi, nth_error fs j = Some f /\ visible f /\ embeds f s /\ promoted env s fi /\ g = deeper (i + j) fi) ->
             In g cs \/ exists f, promoted env s0 f /\ conflict f g = true /\ (depth f < depth g)%nat).
Proof.
  intros env inner s0 Hin fs i cs H. induction H as [i|i f fs cs Hv H IH|i f fs fi cs Hv Hne Hn Hs H IH|i f fs fi cs Hv Hne Hn Hs H IH|i f fs s ti cs Hv He Hi H IH]; intros Hnth.
  - split; [intros f []|]. intros g [(j & f & fi & Hj & _)|(j & f & s & fi & Hj & _)]; destruct j; discriminate.
  - destruct IH as (I1 & I2); [intros j x Hj; replace (S i + j)%nat with (i + S j)%nat by lia; apply Hnth; exact Hj|]. split; [exact I1|].
    intros g [(j & x & fi' & Hj & A & B & C & D & E)|(j & x & s & fi' & Hj & A & B & C & D)].
    + destruct j; cbn in Hj; [injection Hj as ->; contradiction|]. apply I2. left. exists j, x, fi'. replace (S i + j)%nat with (i + S j)%nat by lia. auto 8.
    + destruct j; cbn in Hj; [injection Hj as ->; contradiction|]. apply I2. right. exists j, x, s, fi'. replace (S i + j)%nat with (i + S j)%nat by lia. auto 8.
  - destruct IH as (I1 & I2); [intros j x Hj; replace (S i + j)%nat with (i + S j)%nat by lia; apply Hnth; exact Hj|]. split; [exact I1|].
    intros g [(j & x & fi' & Hj & A & B & C & D & E)|(j & x & s & fi' & Hj & A & B & C & D)].
    + destruct j; cbn in Hj; [injection Hj as ->; contradiction|]. apply I2. left. exists j, x, fi'. replace (S i + j)%nat with (i + S j)%nat by lia. auto 8.
    + destruct j; cbn in Hj; [injection Hj as ->; destruct (Hne _ B)|]. apply I2. right. exists j, x, s, fi'. replace (S i + j)%nat with (i + S j)%nat by lia. auto 8.
  - destruct IH as (I1 & I2); [intros j x Hj; replace (S i + j)%nat with (i + S j)%nat by lia; apply Hnth; exact Hj|].
    assert (Hown : promoted env s0 fi).
    { apply (P_own env s0 i f fi); try assumption. specialize (Hnth O f eq_refl). rewrite Nat.add_0_r in Hnth. exact Hnth. }
    split; [intros x [<-|Hx]; [exact Hown|apply I1; exact Hx]|].
    intros g [(j & x & fi' & Hj & A & B & C & D & E)|(j & x & s & fi' & Hj & A & B & C & D)].
    + destruct j; cbn in Hj.
      * injection Hj as <-. rewrite Nat.add_0_r in D. left. left. congruence.
      * destruct (I2 g) as [X|X]; [left; exists j, x, fi'; replace (S i + j)%nat with (i + S j)%nat by lia; auto 8|left; right; exact X|right; exact X].
    + destruct j; cbn in Hj; [injection Hj as ->; destruct (Hne _ B)|].
      destruct (I2 g) as [X|X]; [right; exists j, x, s, fi'; replace (S i + j)%nat with (i + S j)%nat by lia; auto 8|left; right; exact X|right; exact X].
  - destruct IH as (I1 & I2); [intros j x Hj; replace (S i + j)%nat with (i + S j)%nat by lia; apply Hnth; exact Hj|].
    destruct (Hin _ _ Hi) as (G1 & G2).
    assert (Hf0 : nth_error (fields_of env s0) i = Some f) by (specialize (Hnth O f eq_refl); rewrite Nat.add_0_r in Hnth; exact Hnth).
    split.
    + intros x Hx. apply in_app_or in Hx as [Hx|Hx]; [|apply I1; exact Hx]. apply in_map_iff in Hx as (y & <- & Hy). apply (P_inner env s0 i f s y); auto.
    + intros g [(j & x & fi' & Hj & A & B & C & D & E)|(j & x & s' & fi' & Hj & A & B & C & D)].
      * destruct j; cbn in Hj; [injection Hj as <-; destruct (B _ He)|].
        destruct (I2 g) as [X|X]; [left; exists j, x, fi'; replace (S i + j)%nat with (i + S j)%nat by lia; auto 8|left; apply in_or_app; auto|right; exact X].
      * destruct j; cbn in Hj.
        -- injection Hj as <-. rewrite Nat.add_0_r in D. subst g.
           assert (s' = s) as -> by (apply embeds_some in He, B; congruence).
           destruct (G2 fi' C) as [X|(y & Y1 & Y2 & Y3)]; [left; apply in_or_app; left; apply in_map; exact X|].
           right. exists (deeper i y). split; [apply (P_inner env s0 i f s y); auto|]. split; [exact Y2|]. unfold depth, deeper in *; cbn. lia.
        -- destruct (I2 g) as [X|X]; [right; exists j, x, s', fi'; replace (S i + j)%nat with (i + S j)%nat by lia; auto 8|left; apply in_or_app; auto|right; exact X].
Qed.

Lemma type_info_listed : forall k env s ti, type_info (S k) env s = Ok ti ->
  exists cs x, listed env (type_info k env) 0 (fields_of env s) cs /\ add_fields [] cs = Ok (ti_fields ti) /\ ti = finish x (ti_fields ti).
Proof.
  intros k env s ti H. cbn [type_info] in H. destruct (field_loop env (type_info k env) 0 (fields_of env s) None []) as [[x r]| | |] eqn:E; try discriminate.
  cbn in H. injection H as <-. destruct (field_loop_listed _ _ _ _ _ _ _ _ E) as (cs & L & A). exists cs, x. auto.
Qed.
Lemma type_info_good : forall k env s ti, type_info k env s = Ok ti -> inner_good env s (ti_fields ti) /\ apart (ti_fields ti).
Proof.
  induction k as [|k IH]; intros env s ti H; [discriminate|].
  destruct (type_info_listed _ _ _ _ H) as (cs & x & L & A & _).
  destruct (add_fields_ok _ _ _ A) as (A1 & A2 & A3).
  destruct (listed_promoted env (type_info k env) s (fun s' ti' Hi => proj1 (IH env s' ti' Hi)) _ _ _ L (fun j f Hj => Hj)) as (P1 & P2).
  split; [split|].
  - intros f Hf. destruct (A2 f Hf) as [[]|Hc]. apply P1; exact Hc.
  - intros g Hg.
    assert (Hc : In g cs \/ exists f, promoted env s f /\ conflict f g = true /\ (depth f < depth g)%nat).
    { apply P2. inversion Hg as [s1 i f fi N V NE NX SF E1 E2|s1 i f s2 fi N V Em PP E1 E2]; subst.
      - left. exists i, f, g. auto 8.
      - right. exists i, f, s2, fi. auto 8. }
    destruct Hc as [Hc|Hc]; [|right; exact Hc]. destruct (A3 g (or_intror Hc)) as [|(f & Hf & Hcf & Hd)]; [auto|]. right. exists f. split; [apply P1; exact Hf|auto].
  - apply A1. constructor.
Qed.

(** *** Positions are different *)
Lemma NoDup_app_intro : forall {A} (a b : list A), NoDup a -> NoDup b -> (forall x, In x a -> ~ In x b) -> NoDup (a ++ b).
Proof.
  induction 1 as [|x a Hx Ha IH]; intros Hb Hd; cbn; [exact Hb|]. constructor.
  - intros X. apply in_app_or in X as [X|X]; [contradiction|]. exact (Hd x (or_introl eq_refl) X).
  - apply IH; [exact Hb|]. intros y Hy. apply Hd. right; exact Hy.
Qed.
Lemma listed_idx : forall env inner (Hin : forall s ti, inner s = Ok ti -> NoDup (map fi_idx (ti_fields ti))) i fs cs,
  listed env inner i fs cs -> NoDup (map fi_idx cs) /\ forall f, In f cs -> exists j r, (i <= j)%nat /\ fi_idx f = j :: r.
Proof.
  intros env inner Hin i fs cs H.
  assert (Own : forall i f fi, fd_name f <> str "XMLName" -> struct_field_info env i f = Ok fi -> fi_idx fi = [i]).
  { intros j f fi Hn Hs. unfold struct_field_info in Hs. apply beq_neq in Hn. change xml_name with (str "XMLName") in Hs. rewrite Hn in Hs.
    destruct (parse_tag f) as [[[ns tag] g]| | |]; try discriminate. cbn [bind] in Hs.
    destruct (beq tag []); [destruct (lookup_xmlname env (fd_type f)); injection Hs as <-; reflexivity|].
    match type of Hs with (if ?c then _ else _) = _ => destruct c; [discriminate|] end. destruct (split_prefixed _) as [p n].
    match type of Hs with (if ?c then _ else _) = _ => destruct c; [discriminate|] end.
    destruct (if g_element g then lookup_xmlname env (fd_type f) else None) as [x|]; [destruct (beq (fi_name x) n); [|discriminate]|]; injection Hs as <-; reflexivity. }
  induction H as [i|i f fs cs Hv H IH|i f fs fi cs Hv Hne Hn Hs H IH|i f fs fi cs Hv Hne Hn Hs H IH|i f fs s ti cs Hv He Hi H IH].
  - split; [constructor|intros f []].
  - destruct IH as (I1 & I2). split; [exact I1|]. intros g Hg. destruct (I2 g Hg) as (j & r & Hj & E). exists j, r. split; [lia|exact E].
  - destruct IH as (I1 & I2). split; [exact I1|]. intros g Hg. destruct (I2 g Hg) as (j & r & Hj & E). exists j, r. split; [lia|exact E].
  - destruct IH as (I1 & I2). pose proof (Own _ _ _ Hn Hs) as E0. cbn. rewrite E0. split.
    + constructor; [|exact I1]. intros X. apply in_map_iff in X as (g & Eg & Hg). destruct (I2 g Hg) as (j & r & Hj & E). rewrite E in Eg. injection Eg as -> _. lia.
    + intros g [<-|Hg]; [exists i, []; split; [lia|exact E0]|]. destruct (I2 g Hg) as (j & r & Hj & E). exists j, r. split; [lia|exact E].
  - destruct IH as (I1 & I2). split.
    + rewrite map_app, map_map. cbn. apply NoDup_app_intro; [|exact I1|].
      * specialize (Hin _ _ Hi). clear - Hin. induction (ti_fields ti) as [|a l IHl]; cbn in *; [constructor|]. inversion Hin; subst. constructor; [|apply IHl; assumption].
        intros X. apply in_map_iff in X as (y & Ey & Hy). injection Ey as Ey. apply H1. rewrite <- Ey. apply in_map. exact Hy.
      * intros x Hx X. apply in_map_iff in Hx as (y & <- & Hy). apply in_map_iff in X as (g & Eg & Hg). destruct (I2 g Hg) as (j & r & Hj & E). rewrite E in Eg. injection Eg as -> _. lia.
    + intros g Hg. apply in_app_or in Hg as [Hg|Hg].
      * apply in_map_iff in Hg as (y & <- & Hy). exists i, (fi_idx y). split; [lia|reflexivity].
      * destruct (I2 g Hg) as (j & r & Hj & E). exists j, r. split; [lia|exact E].
Qed.
Lemma add_field_idx : forall fs n r, add_field fs n = Ok r -> NoDup (map fi_idx fs) -> ~ In (fi_idx n) (map fi_idx fs) -> NoDup (map fi_idx r).
Proof.
  intros fs n r H Hd Hn.
  assert (App : forall p, NoDup (map fi_idx (filter p fs)) -> NoDup (map fi_idx (filter p fs ++ [n]))).
  { intros p Hp. rewrite map_app. apply NoDup_app_intro; [exact Hp|repeat constructor; intros []|]. intros x Hx [<-|[]]. apply Hn.
    apply in_map_iff in Hx as (y & <- & Hy). apply in_map. apply filter_In in Hy; tauto. }
  assert (Fil : forall p, NoDup (map fi_idx (filter p fs))).
  { intros p. clear - Hd. induction fs as [|a l IH]; cbn in *; [constructor|]. inversion Hd; subst. destruct (p a); cbn; [|auto]. constructor; [|auto].
    intros X. apply H1. apply in_map_iff in X as (y & <- & Hy). apply in_map. apply filter_In in Hy; tauto. }
  destruct (add_field_cases _ _ _ H) as [(_ & ->)|[(_ & ->)|(_ & ->)]].
  - pose proof (App (fun _ => true) (Fil _)) as A. replace (filter (fun _ => true) fs) with fs in A; [exact A|]. clear. induction fs; cbn; congruence.
  - exact Hd.
  - apply App, Fil.
Qed.
Lemma add_fields_idx : forall cs fs r, add_fields fs cs = Ok r -> NoDup (map fi_idx (fs ++ cs)) -> NoDup (map fi_idx r).
Proof.
  induction cs as [|c cs IH]; intros fs r H Hd; cbn in H.
  - injection H as <-. rewrite app_nil_r in Hd. exact Hd.
  - unfold bind in H. destruct (add_field fs c) as [fs1| | |] eqn:E; try discriminate. apply (IH _ _ H).
    rewrite map_app in *. cbn in Hd. pose proof (NoDup_remove_1 _ _ _ Hd) as D1. pose proof (NoDup_remove_2 _ _ _ Hd) as D2.
    apply NoDup_app_intro.
    + apply (add_field_idx _ _ _ E); [|intros X; apply D2; apply in_or_app; auto].
      clear - D1. induction (map fi_idx fs) as [|a l IHl]; [constructor|]. inversion D1; subst. constructor; [intros X; apply H1; apply in_or_app; auto|apply IHl; assumption].
    + clear - D1. induction (map fi_idx fs) as [|a l IHl]; [exact D1|]. inversion D1; subst. apply IHl; assumption.
    + intros x Hx Hy. apply in_map_iff in Hx as (y & <- & Hx). destruct (add_field_from _ _ _ _ E Hx) as [Hf| ->].
      * clear - D1 Hf Hy. induction fs as [|a l IHl]; [destruct Hf|]. cbn in D1. inversion D1; subst. destruct Hf as [->|Hf]; [apply H1; apply in_or_app; auto|apply IHl; assumption].
      * apply D2. apply in_or_app; auto.
Qed.
Lemma type_info_idx : forall k env s ti, type_info k env s = Ok ti -> NoDup (map fi_idx (ti_fields ti)).
Proof.
  induction k as [|k IH]; intros env s ti H; [discriminate|]. destruct (type_info_listed _ _ _ _ H) as (cs & x & L & A & _).
  apply (add_fields_idx _ _ _ A). cbn. exact (proj1 (listed_idx env (type_info k env) (fun s' ti' => IH env s' ti') _ _ _ L)).
Qed.

(** *** Errors *)
Lemma add_fields_err_at : forall cs fs e, add_fields fs cs = Err e ->
  exists a g b f, cs = a ++ g :: b /\ (In f fs \/ In f a) /\ conflict f g = true /\ depth f = depth g /\ e = TagPathError (fi_idx f) (fi_idx g).
Proof.
  induction cs as [|c cs IH]; intros fs e H; cbn in H; [discriminate|]. unfold bind in H.
  destruct (add_field fs c) as [fs1|e1| |] eqn:E; try discriminate.
  - destruct (IH _ _ H) as (a & g & b & f & -> & Hf & Hc & Hd & He). exists (c :: a), g, b, f. split; [reflexivity|]. split; [|auto].
    destruct Hf as [Hf|Hf]; [|right; right; exact Hf]. destruct (add_field_from _ _ _ _ E Hf) as [| ->]; [auto|right; left; reflexivity].
  - destruct (add_field_err _ _ _ E) as (f & Hf & Hc & Hd & _ & He). exists [], c, cs, f. split; [reflexivity|]. injection H as <-. auto.
Qed.
Lemma NoDup_mid : forall {A} (x y : A) a b, NoDup (a ++ y :: b) -> In x a -> x <> y.
Proof. intros A x y a b H Hx ->. apply NoDup_remove_2 in H. apply H. apply in_or_app; auto. Qed.

Lemma field_loop_err : forall env inner fs i x fields e, field_loop env inner i fs x fields = Err e ->
  (exists f s, In f fs /\ visible f /\ embeds f s /\ inner s = Err e) \/
  (exists f j, In f fs /\ struct_field_info env j f = Err e) \/
  (exists n cs, listed env inner i (firstn n fs) cs /\ add_fields fields cs = Err e).
Proof.
  intros env inner. induction fs as [|f fs IH]; intros i x fields e H; cbn [field_loop] in H; [discriminate|].
  destruct (negb (exported (fd_name f)) && negb (fd_anon f) || beq (fd_tag f) (str "-")) eqn:V.
  - destruct (IH _ _ _ _ H) as [(g & s & Hg & A)|[(g & j & Hg & A)|(n & cs & L & A)]].
    + left. exists g, s. split; [right; exact Hg|exact A].
    + right; left. exists g, j. split; [right; exact Hg|exact A].
    + right; right. exists (S n), cs. split; [|exact A]. cbn. apply L_skip; [|exact L]. intros X. apply visible_dec in X. congruence.
  - apply visible_dec in V. destruct (if fd_anon f then embedded (fd_type f) else None) as [s|] eqn:E.
    + apply embeds_some in E. destruct (inner s) as [ti|e1| |] eqn:T; try discriminate; cbn [bind] in H.
      * destruct (add_fields fields (map (prefix_idx i) (ti_fields ti))) as [f1|e1| |] eqn:A1; try discriminate; cbn [bind] in H.
        -- destruct (IH _ _ _ _ H) as [(g & s' & Hg & A)|[(g & j & Hg & A)|(n & cs & L & A)]].
           ++ left. exists g, s'. split; [right; exact Hg|exact A].
           ++ right; left. exists g, j. split; [right; exact Hg|exact A].
           ++ right; right. exists (S n), (map (deeper i) (ti_fields ti) ++ cs). split; [cbn; eapply L_inner; eauto|].
              rewrite add_fields_app. change (deeper i) with (prefix_idx i). rewrite A1. exact A.
        -- right; right. exists 1%nat, (map (deeper i) (ti_fields ti) ++ []). split; [cbn; eapply L_inner; eauto; constructor|].
           rewrite app_nil_r. change (deeper i) with (prefix_idx i). congruence.
      * left. exists f, s. split; [left; reflexivity|]. split; [exact V|split; [exact E|congruence]].
    + assert (NE : forall s, ~ embeds f s) by (intros s X; apply embeds_some in X; congruence).
      destruct (struct_field_info env i f) as [fi|e1| |] eqn:S1; try discriminate; cbn [bind] in H.
      * destruct (beq (fd_name f) xml_name) eqn:N.
        -- apply beq_eq in N. destruct (IH _ _ _ _ H) as [(g & s' & Hg & A)|[(g & j & Hg & A)|(n & cs & L & A)]].
           ++ left. exists g, s'. split; [right; exact Hg|exact A].
           ++ right; left. exists g, j. split; [right; exact Hg|exact A].
           ++ right; right. exists (S n), cs. split; [cbn; eapply L_name; eassumption|exact A].
        -- apply beq_neq in N. destruct (add_field fields fi) as [f1|e1| |] eqn:A1; try discriminate; cbn [bind] in H.
           ++ destruct (IH _ _ _ _ H) as [(g & s' & Hg & A)|[(g & j & Hg & A)|(n & cs & L & A)]].
              ** left. exists g, s'. split; [right; exact Hg|exact A].
              ** right; left. exists g, j. split; [right; exact Hg|exact A].
              ** right; right. exists (S n), (fi :: cs). split; [cbn; apply L_own; assumption|]. cbn. rewrite A1. exact A.
           ++ right; right. exists 1%nat, [fi]. split; [cbn; apply L_own; try assumption; constructor|]. cbn. rewrite A1. cbn. congruence.
      * right; left. exists f, i. split; [left; reflexivity|congruence].
Qed.
Lemma struct_field_info_tag : forall env i f a b, struct_field_info env i f <> Err (TagPathError a b).
Proof.
  intros env i f a b. unfold struct_field_info, xmlname_info.
  assert (P : forall a b, parse_tag f <> Err (TagPathError a b)).
  { intros a' b'. unfold parse_tag. destruct (match cut 32 (fd_tag f) with Some (ns, t) => (ns, t) | None => ([], fd_tag f) end) as [ns t].
    destruct (split 44 t) as [|t0 [|t1 ts]]; cbn [bind].
    - destruct (_ && _); discriminate.
    - destruct (_ && _); discriminate.
    - match goal with |- context [if ?c then Ok _ else Err _] => destruct c end; cbn [bind]; [|discriminate]. destruct (_ && _); discriminate. }
  destruct (beq (fd_name f) xml_name).
  - destruct (parse_tag f) as [[[ns t] g]|e| |] eqn:E; cbn [bind]; try discriminate; [destruct (split_prefixed t); discriminate|intros X; injection X as ->; exact (P _ _ eq_refl)].
  - destruct (parse_tag f) as [[[ns t] g]|e| |] eqn:E; cbn [bind]; try discriminate; [|intros X; injection X as ->; exact (P _ _ eq_refl)].
    destruct (beq t []); [destruct (lookup_xmlname env (fd_type f)); discriminate|].
    match goal with |- (if ?c then _ else _) <> _ => destruct c; [discriminate|] end. destruct (split_prefixed _) as [p n].
    match goal with |- (if ?c then _ else _) <> _ => destruct c; [discriminate|] end.
    destruct (if g_element g then lookup_xmlname env (fd_type f) else None) as [x|]; [destruct (beq (fi_name x) n)|]; discriminate.
Qed.

Lemma listed_firstn_promoted : forall env inner s n (Hin : forall s ti, inner s = Ok ti -> inner_good env s (ti_fields ti)) cs f,
  listed env inner 0 (firstn n (fields_of env s)) cs -> In f cs -> promoted env s f.
Proof.
  intros env inner s n Hin cs f L Hf.
  assert (Hnth : forall j x, nth_error (firstn n (fields_of env s)) j = Some x -> nth_error (fields_of env s) (0 + j) = Some x).
  { intros j x. cbn. clear. generalize (fields_of env s). revert n. induction j as [|j IH]; intros [|n] [|y l]; cbn; try discriminate; eauto. }
  exact (proj1 (listed_promoted env inner s Hin _ _ _ L Hnth) f Hf).
Qed.

Lemma type_info_err : forall k env s i j, type_info k env s = Err (TagPathError i j) ->
  exists f g, promoted env s f /\ promoted env s g /\ fi_idx f <> fi_idx g /\ conflict f g = true /\ depth f = depth g.
Proof.
  induction k as [|k IH]; intros env s i j H; [discriminate|]. cbn [type_info] in H.
  destruct (field_loop env (type_info k env) 0 (fields_of env s) None []) as [[x r]|e| |] eqn:E; cbn [bind] in H; try discriminate. injection H as ->.
  destruct (field_loop_err _ _ _ _ _ _ _ E) as [(f & s' & Hf & V & Em & He)|[(f & m & _ & Hs)|(n & cs & L & A)]].
  - destruct (IH _ _ _ _ He) as (a & b & Pa & Pb & N & C & D). apply In_nth_error in Hf as (m & Hm).
    exists (deeper m a), (deeper m b). split; [eapply P_inner; eauto|]. split; [eapply P_inner; eauto|]. split; [cbn; congruence|]. split; [exact C|]. unfold depth in *; cbn; congruence.
  - destruct (struct_field_info_tag _ _ _ _ _ Hs).
  - destruct (add_fields_err_at _ _ _ A) as (a & g & b & f & -> & [[]|Hf] & C & D & _).
    exists f, g. assert (Hin : forall s ti, type_info k env s = Ok ti -> inner_good env s (ti_fields ti)) by (intros s' ti' X; exact (proj1 (type_info_good _ _ _ _ X))).
    split; [eapply listed_firstn_promoted; [exact Hin|exact L|apply in_or_app; auto]|].
    split; [eapply listed_firstn_promoted; [exact Hin|exact L|apply in_or_app; right; left; reflexivity]|].
    split; [|auto]. pose proof (proj1 (listed_idx env (type_info k env) (fun s' ti' => type_info_idx k env s' ti') _ _ _ L)) as ND.
    rewrite map_app in ND. cbn in ND. apply (NoDup_mid _ _ _ _ ND). apply in_map. exact Hf.
Qed.

(** *** Flat fields *)
Lemma conflict_flat : forall f g, flat f -> flat g -> conflict f g = true <-> same_slot f g.
Proof.
  intros f g Hf Hg. rewrite conflict_spec. unfold clash, same_slot, path, flat in *. rewrite Hf, Hg. cbn. split.
  - intros (K & [(P & N)|([(r & Hr & E)|(r & Hr & E)] & _)]).
    + injection P as P. auto.
    + destruct r as [|y [|z r]]; [congruence|discriminate|discriminate].
    + destruct r as [|y [|z r]]; [congruence|discriminate|discriminate].
  - intros (K & N & X). split; [exact K|]. left. rewrite N, X. auto.
Qed.
Lemma slot_sym : forall f g, same_slot f g -> same_slot g f.
Proof. unfold same_slot. intuition congruence. Qed.
Lemma slot_trans : forall f g h, same_slot f g -> same_slot g h -> same_slot f h.
Proof. unfold same_slot. intuition congruence. Qed.

Lemma apart_same : forall l f g, apart l -> In f l -> In g l -> conflict f g = true -> f = g.
Proof.
  intros l f g Ha Hf Hg Hc. apply In_nth_error in Hf as (i & Hi). apply In_nth_error in Hg as (j & Hj).
  destruct (Nat.eq_dec i j) as [->|N]; [congruence|]. exfalso. apply apart_clash_free in Ha. apply (Ha i j f g N Hi Hj). apply conflict_spec. exact Hc.
Qed.
Lemma apart_find : forall l f, apart l -> In f l -> Forall flat l -> forall g, In g l -> same_slot f g -> f = g.
Proof. intros l f Ha Hf Hl g Hg S. rewrite Forall_forall in Hl. apply (apart_same l f g Ha Hf Hg). apply conflict_flat; auto. Qed.

(** Every candidate's slot is kept, by a shallowest candidate. *)
Definition slots_kept (cs r : list finfo) : Prop := forall g, In g cs -> exists f, In f r /\ same_slot f g /\ (depth f <= depth g)%nat.
Lemma add_field_slots : forall fs n r cs, add_field fs n = Ok r -> Forall flat fs -> flat n -> apart fs -> slots_kept cs fs -> slots_kept (cs ++ [n]) r.
Proof.
  intros fs n r cs H Hf Hn Ha Hs g Hg. rewrite Forall_forall in Hf. destruct (add_field_cases _ _ _ H) as [(_ & ->)|[((f & Hff & Hc & Hd) & ->)|(Hd & ->)]].
  - apply in_app_or in Hg as [Hg|[<-|[]]].
    + destruct (Hs g Hg) as (f & Hff & S & D). exists f. split; [apply in_or_app; auto|auto].
    + exists n. split; [apply in_or_app; right; left; reflexivity|]. split; [repeat split|lia].
  - apply in_app_or in Hg as [Hg|[<-|[]]]; [apply Hs; exact Hg|]. exists f. split; [exact Hff|]. split; [apply conflict_flat; auto|lia].
  - assert (Hin : In n (filter (fun f => negb (conflict f n)) fs ++ [n])) by (apply in_or_app; right; left; reflexivity).
    apply in_app_or in Hg as [Hg|[<-|[]]].
    + destruct (Hs g Hg) as (f & Hff & S & D). destruct (conflict f n) eqn:E.
      * exists n. split; [exact Hin|]. pose proof (Hd f Hff E). apply conflict_flat in E; [|auto|exact Hn]. split; [|lia]. eapply slot_trans; [apply slot_sym; exact E|exact S].
      * exists f. split; [|auto]. apply in_or_app. left. apply filter_In. rewrite E. auto.
    + exists n. split; [exact Hin|]. split; [repeat split|lia].
Qed.
Lemma add_fields_slots : forall cs fs r cs0, add_fields fs cs = Ok r -> Forall flat fs -> Forall flat cs -> apart fs -> slots_kept cs0 fs -> slots_kept (cs0 ++ cs) r.
Proof.
  induction cs as [|c cs IH]; intros fs r cs0 H Hf Hc Ha Hs; cbn in H.
  - injection H as <-. rewrite app_nil_r. exact Hs.
  - unfold bind in H. destruct (add_field fs c) as [fs1| | |] eqn:E; try discriminate. inversion Hc; subst.
    replace (cs0 ++ c :: cs) with ((cs0 ++ [c]) ++ cs) by (rewrite <- app_assoc; reflexivity).
    apply (IH _ _ _ H); [|assumption|eapply add_field_apart; eauto|eapply add_field_slots; eauto].
    rewrite Forall_forall in *. intros x Hx. destruct (add_field_from _ _ _ _ E Hx) as [| ->]; auto.
Qed.
(** When adding flat candidates fails. *)
Lemma add_fields_flat_err : forall cs, Forall flat cs ->
  ((exists e, add_fields [] cs = Err e) <->
   exists a y b x, cs = a ++ y :: b /\ In x a /\ same_slot x y /\ depth x = depth y /\ forall z, In z a -> same_slot z y -> (depth y <= depth z)%nat).
Proof.
  intros cs. induction cs as [|y a IH] using rev_ind; intros Hfl.
  - split; [intros (e & X); discriminate|]. intros (a & y & b & x & E & _). destruct a; discriminate.
  - apply Forall_app in Hfl as (Ha & Hy). inversion Hy as [|? ? Hy' _]; subst. specialize (IH Ha). rewrite add_fields_app. split.
    + intros (e & He). destruct (add_fields [] a) as [r|e1| |] eqn:E; cbn [bind] in He; try discriminate.
      * cbn in He. destruct (add_field r y) as [r1|e1| |] eqn:E1; cbn [bind] in He; try discriminate.
        destruct (add_field_err _ _ _ E1) as (f & Hf & Hc & Hd & Hmin & _).
        destruct (add_fields_ok _ _ _ E) as (A1 & A2 & _). pose proof (add_fields_slots _ _ _ [] E ltac:(constructor) Ha ltac:(constructor) ltac:(intros ? [])) as SK. cbn in SK.
        rewrite Forall_forall in Ha. assert (FA : In f a) by (destruct (A2 f Hf) as [[]|]; assumption).
        exists a, y, [], f. split; [reflexivity|]. split; [exact FA|]. split; [apply conflict_flat; auto|]. split; [exact Hd|].
        intros z Hz Sz. destruct (SK z Hz) as (w & Hw & Sw & Dw). assert (conflict w y = true).
        { apply conflict_flat; [destruct (A2 w Hw) as [[]|]; auto|exact Hy'|]. eapply slot_trans; eauto. }
        pose proof (Hmin w Hw H). lia.
      * destruct (proj1 IH (ex_intro _ e1 eq_refl)) as (a' & y' & b & x & -> & R). exists a', y', (b ++ [y]), x. split; [rewrite <- app_assoc; reflexivity|exact R].
    + intros (a' & y' & b & x & E & Hx & S & D & Hmin). destruct b as [|b0 b] using rev_ind; [|clear IHb].
      * apply app_inj_tail in E as (<- & <-). destruct (add_fields [] a) as [r|e1| |] eqn:E.
        -- cbn. destruct (add_fields_ok _ _ _ E) as (A1 & A2 & _). pose proof (add_fields_slots _ _ _ [] E ltac:(constructor) Ha ltac:(constructor) ltac:(intros ? [])) as SK. cbn in SK.
           rewrite Forall_forall in Ha. destruct (SK x Hx) as (w & Hw & Sw & Dw). assert (WA : In w a) by (destruct (A2 w Hw) as [[]|]; assumption).
           pose proof (Hmin w WA (slot_trans _ _ _ Sw S)). assert (Cw : conflict w y = true) by (apply conflict_flat; auto; eapply slot_trans; eauto).
           destruct (add_field r y) as [r1|e1| |] eqn:E1; [|cbn; eauto|destruct (add_field_ends r y) as (X & _); congruence|destruct (add_field_ends r y) as (_ & X); congruence].
           exfalso. destruct (add_field_cases _ _ _ E1) as [(Hf & _)|[((f & Hf & Hc & Hd) & _)|(Hd & _)]].
           ++ rewrite Forall_forall in Hf. rewrite (Hf w Hw) in Cw. discriminate.
           ++ assert (FA : In f a) by (destruct (A2 f Hf) as [[]|]; assumption). apply conflict_flat in Hc; auto. pose proof (Hmin f FA Hc). lia.
           ++ pose proof (Hd w Hw Cw). lia.
        -- cbn. eauto.
        -- exfalso. clear - E. revert E. generalize (@nil finfo). induction a as [|c a IHa]; intros l; cbn; [discriminate|]. destruct (add_field l c) eqn:X; cbn; try discriminate; [apply IHa|intros _; exact (proj1 (add_field_ends l c) X)].
        -- exfalso. clear - E. revert E. generalize (@nil finfo). induction a as [|c a IHa]; intros l; cbn; [discriminate|]. destruct (add_field l c) eqn:X; cbn; try discriminate; [apply IHa|intros _; exact (proj2 (add_field_ends l c) X)].
      * rewrite app_comm_cons, app_assoc in E. apply app_inj_tail in E as (-> & <-).
        destruct (proj2 IH) as (e & He); [exists a', y', b, x; auto|]. rewrite He. cbn. eauto.
Qed.
Lemma listed_field_loop : forall env inner i fs cs, listed env inner i fs cs -> forall x fields, exists x', field_loop env inner i fs x fields = (do r <- add_fields fields cs ; Ok (x', r)).
Proof.
  induction 1 as [i|i f fs cs Hv H IH|i f fs fi cs Hv Hne Hn Hs H IH|i f fs fi cs Hv Hne Hn Hs H IH|i f fs s ti cs Hv He Hi H IH]; intros x fields; cbn [field_loop].
  - exists x. reflexivity.
  - destruct (negb (exported (fd_name f)) && negb (fd_anon f) || beq (fd_tag f) (str "-")) eqn:V; [apply IH|]. apply visible_dec in V. contradiction.
  - apply visible_dec in Hv. rewrite Hv. destruct (if fd_anon f then embedded (fd_type f) else None) as [s|] eqn:E; [apply embeds_some in E; destruct (Hne _ E)|].
    rewrite Hs. cbn [bind]. rewrite Hn. change (beq (str "XMLName") xml_name) with true. cbv iota. apply IH.
  - apply visible_dec in Hv. rewrite Hv. destruct (if fd_anon f then embedded (fd_type f) else None) as [s|] eqn:E; [apply embeds_some in E; destruct (Hne _ E)|].
    rewrite Hs. cbn [bind]. apply beq_neq in Hn. change xml_name with (str "XMLName"). rewrite Hn. cbn [add_fields].
    destruct (add_field fields fi) as [f1|e| |]; cbn [bind]; try (exists x; reflexivity). apply IH.
  - apply visible_dec in Hv. rewrite Hv. apply embeds_some in He. rewrite He, Hi. cbn [bind]. rewrite add_fields_app. change (deeper i) with (prefix_idx i).
    destruct (add_fields fields (map (prefix_idx i) (ti_fields ti))) as [f1|e| |]; cbn [bind]; try (exists x; reflexivity). apply IH.
Qed.
