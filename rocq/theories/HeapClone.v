(** Proofs about appending children, cloning and later writes. *)
From Coq Require Import String.
From Coq Require Import ZArith List Bool Lia.
From Coq Require Import ZifyBool ZifyNat.
From Verif Require Import Base Heap HeapSpec HeapProofs.
Import ListNotations.
Local Open Scope nat_scope.

(** ** Histories of construction *)
(** What a program does through the exported API: allocate with a constructor, append a child, overwrite an
    exported scalar field, or overwrite an exported pointer field or slice other than the four lists of children. *)
Inductive gop := ONew (k : kind) | OAppend (f : fld) (x c : loc) | OData (x : loc) (f : fld) (v : list Z)
| ORefs (x : loc) (f : fld) (ps : list ptr).
Definition exec (h : heap) (o : gop) : outcome merr heap :=
  match o with
  | ONew k => Ok (fst (alloc h (empty_node k)))
  | OAppend f x c => append_child f h (Some x) (Some c)
  | OData x f v => do n <- at_loc h x ; Ok (set_node h x (with_data n f v))
  | ORefs x f ps => do n <- at_loc h x ; Ok (set_node h x (with_refs n f ps))
  end.
Definition child_list (f : fld) : Prop := match f with FPeriods | FSets | FReps | FSubs => True | _ => False end.
Fixpoint exec_all (h : heap) (os : list gop) : outcome merr heap :=
  match os with [] => Ok h | o :: r => do h' <- exec h o ; exec_all h' r end.
(** Well-typed calls on existing objects, where an appended object is not listed by a different object. *)
Definition legal (h : heap) (o : gop) : Prop :=
  match o with
  | ONew _ => True
  | OAppend f x c => (exists xn cn, mem h x = Some xn /\ mem h c = Some cn /\ child_field (nkind xn) f /\ field_kind f (nkind cn))
                     /\ forall y, lists h y c -> y = x
  | OData x _ _ => exists n, mem h x = Some n
  | ORefs x f ps => (exists n, mem h x = Some n) /\ ~ child_list f /\
                    forall c, In (Some c) ps -> exists cn, mem h c = Some cn /\ field_kind f (nkind cn)
  end.
Fixpoint legal_all (h : heap) (os : list gop) : Prop :=
  match os with
  | [] => True
  | o :: r => legal h o /\ forall h', exec h o = Ok h' -> legal_all h' r
  end.
Definition linked_all (h : heap) : Prop := forall x c, lists h x c -> par h c = Some x.
Definition good (h : heap) : Prop := go_heap h /\ no_nil h /\ linked_all h.
(** The children appended to field [f] of [x], in order. *)
Definition appended (f : fld) (x : loc) (os : list gop) : list ptr :=
  flat_map (fun o => match o with OAppend g y c => if fld_dec g f then if Nat.eqb y x then [Some c] else [] else [] | _ => [] end) os.

Lemma child_field_parent_kind : forall k f kc, child_field k f -> field_kind f kc -> parent_kind kc k.
Proof. intros k f kc A B. destruct k, f; try contradiction; cbn in B; subst; cbn; auto. Qed.
Lemma child_field_fun : forall k f g, child_field k f -> child_field k g -> f = g.
Proof. intros k f g A B. destruct k, f; try contradiction; destruct g; try contradiction; auto. Qed.

Lemma fresh_none : forall h, go_heap h -> mem h (next h) = None.
Proof. intros h G. destruct (mem h (next h)) eqn:E; auto. apply (gh_alloc h G) in E. lia. Qed.

Lemma exec_new : forall h k, good h -> let h' := fst (alloc h (empty_node k)) in
  good h' /\ (forall x f, x < next h -> refs_at h' (Some x) f = refs_at h (Some x) f) /\ (forall x f, next h <= x -> refs_at h' (Some x) f = []).
Proof.
  intros h k (G & NN & L) h'. pose proof (fresh_none h G) as F. cbn in h'.
  assert (MU : forall x n, mem h x = Some n -> mem h' x = Some n).
  { intros x n M. cbn. pose proof (gh_alloc h G x n M). replace (Nat.eqb x (next h)) with false by lia. auto. }
  assert (MI : forall x n, mem h' x = Some n -> mem h x = Some n \/ (x = next h /\ n = empty_node k)).
  { intros x n M. cbn in M. destruct (Nat.eqb_spec x (next h)) as [->|N]; auto. inversion M; auto. }
  split; [split; [|split]|split].
  - constructor.
    + intros l n M. cbn. apply MI in M. destruct M as [M|[-> _]]; [apply (gh_alloc h G) in M; lia|lia].
    + intros l n f c M I. apply MI in M. destruct M as [M|[-> ->]]; [|contradiction].
      destruct (gh_refs h G l n f c M I) as (cn & Mc & K). eauto.
    + intros l n c M P. apply MI in M. destruct M as [M|[-> ->]]; [|discriminate].
      destruct (gh_parent h G l n c M P) as (cn & Mc & K). eauto.
  - intros l n f M C I. apply MI in M. destruct M as [M|[-> ->]]; [eapply NN; eauto|contradiction].
  - intros x c (n & f & M & C & I). apply MI in M. destruct M as [M|[-> ->]]; [|contradiction].
    assert (Lx : lists h x c) by (exists n, f; auto). specialize (L x c Lx). unfold par in *.
    destruct (mem h c) as [cn|] eqn:Mc; [|discriminate]. now rewrite (MU _ _ Mc).
  - intros x f H. unfold refs_at. cbn. replace (Nat.eqb x (next h)) with false by lia. auto.
  - intros x f H. unfold refs_at. cbn. destruct (Nat.eqb_spec x (next h)) as [->|N]; auto.
    destruct (mem h x) eqn:E; auto. apply (gh_alloc h G) in E. lia.
Qed.

Lemma exec_append : forall h f x c, good h -> legal h (OAppend f x c) ->
  exists h', append_child f h (Some x) (Some c) = Ok h' /\ good h' /\ next h' = next h /\
    forall y g, refs_at h' (Some y) g = refs_at h (Some y) g ++ (if fld_dec f g then if Nat.eqb x y then [Some c] else [] else []).
Proof.
  intros h f x c (G & NN & L) [(xn & cn & Mx & Mc & CF & FK) UL].
  assert (NE : x <> c). { intros ->. rewrite Mx in Mc. inversion Mc; subst. destruct (nkind cn), f; cbn in CF, FK; try contradiction; discriminate. }
  set (xn' := with_refs xn f (refs xn f ++ [Some c])).
  assert (E : append_child f h (Some x) (Some c) = Ok (set_node (set_node h x xn') c (with_parent cn (Some x)))).
  { unfold append_child, at_loc. rewrite Mx. cbn [bind]. unfold set_parent, at_loc. cbn.
    replace (Nat.eqb c x) with false by lia. rewrite Mc. reflexivity. }
  eexists. split; [exact E|]. set (h' := set_node _ c _).
  assert (M' : forall l, mem h' l = if Nat.eqb l c then Some (with_parent cn (Some x)) else if Nat.eqb l x then Some xn' else mem h l).
  { reflexivity. }
  assert (SAME : forall l n', mem h' l = Some n' -> exists n, mem h l = Some n /\ nkind n' = nkind n /\
            (forall g, refs n' g = refs n g ++ (if fld_dec f g then if Nat.eqb x l then [Some c] else [] else [])) /\
            parent n' = (if Nat.eqb l c then Some x else parent n)).
  { intros l n' M. rewrite M' in M. destruct (Nat.eqb_spec l c) as [->|N1].
    - inversion M; subst. exists cn. repeat split; auto. intro g. cbn. replace (Nat.eqb x c) with false by lia.
      destruct (fld_dec f g); now rewrite app_nil_r.
    - destruct (Nat.eqb_spec l x) as [->|N2].
      + inversion M; subst. exists xn. repeat split; auto. intro g. cbn. rewrite Nat.eqb_refl.
        destruct (fld_dec g f) as [->|]; destruct (fld_dec f _); try congruence. now rewrite app_nil_r.
      + exists n'. repeat split; auto. intro g. replace (Nat.eqb x l) with false by lia. destruct (fld_dec f g); now rewrite app_nil_r. }
  assert (KEEP : forall l n, mem h l = Some n -> exists n', mem h' l = Some n' /\ nkind n' = nkind n).
  { intros l n M. rewrite M'. destruct (Nat.eqb_spec l c) as [->|N1].
    - eexists; split; [reflexivity|]. rewrite Mc in M. inversion M; subst. reflexivity.
    - destruct (Nat.eqb_spec l x) as [->|N2].
      + eexists; split; [reflexivity|]. rewrite Mx in M. inversion M; subst. reflexivity.
      + eauto. }
  split; [split; [|split]|split].
  - constructor.
    + intros l n M. destruct (SAME _ _ M) as (n0 & M0 & _). cbn. now apply (gh_alloc h G) in M0.
    + intros l n g d M I. destruct (SAME _ _ M) as (n0 & M0 & K0 & R0 & _). rewrite R0 in I. apply in_app_or in I.
      destruct I as [I|I].
      * destruct (gh_refs h G l n0 g d M0 I) as (dn & Md & Kd). destruct (KEEP _ _ Md) as (dn' & Md' & Kd'). exists dn'. rewrite Kd'. auto.
      * destruct (fld_dec f g) as [<-|]; [|contradiction]. destruct (Nat.eqb x l); [|contradiction]. destruct I as [I|[]].
        inversion I; subst d. destruct (KEEP _ _ Mc) as (dn' & Md' & Kd'). exists dn'. rewrite Kd'. auto.
    + intros l n d M P. destruct (SAME _ _ M) as (n0 & M0 & K0 & _ & P0). rewrite P0 in P.
      destruct (Nat.eqb_spec l c) as [->|N].
      * inversion P; subst d. destruct (KEEP _ _ Mx) as (dn' & Md' & Kd'). exists dn'. split; auto. rewrite K0, Kd'.
        rewrite Mc in M0. inversion M0; subst n0. eapply child_field_parent_kind; eauto.
      * destruct (gh_parent h G l n0 d M0 P) as (dn & Md & Kd). destruct (KEEP _ _ Md) as (dn' & Md' & Kd'). exists dn'. rewrite Kd', K0. auto.
  - intros l n g M CG I. destruct (SAME _ _ M) as (n0 & M0 & K0 & R0 & _). rewrite R0 in I. apply in_app_or in I. rewrite K0 in CG.
    destruct I as [I|I]; [eapply NN; eauto|]. destruct (fld_dec f g); [|contradiction]. destruct (Nat.eqb x l); [|contradiction].
    destruct I as [I|[]]. discriminate.
  - intros y d (n & g & M & CG & I). destruct (SAME _ _ M) as (n0 & M0 & K0 & R0 & _). rewrite K0 in CG. rewrite R0 in I. apply in_app_or in I.
    unfold par. rewrite M'. destruct (Nat.eqb_spec d c) as [->|N].
    + cbn. f_equal. destruct I as [I|I].
      * symmetry. apply UL. exists n0, g. auto.
      * destruct (fld_dec f g); [|contradiction]. destruct (Nat.eqb_spec x y); [auto|contradiction].
    + destruct I as [I|I].
      * assert (LI : lists h y d) by (exists n0, g; auto). specialize (L y d LI). unfold par in L.
        destruct (Nat.eqb_spec d x) as [->|N2]; [|exact L]. rewrite Mx in L. exact L.
      * destruct (fld_dec f g); [|contradiction]. destruct (Nat.eqb x y); [|contradiction]. destruct I as [I|[]]. congruence.
  - reflexivity.
  - intros y g. unfold refs_at. destruct (mem h' y) as [n'|] eqn:M.
    + destruct (SAME _ _ M) as (n0 & M0 & _ & R0 & _). rewrite M0. apply R0.
    + destruct (mem h y) as [n|] eqn:M0; [destruct (KEEP _ _ M0) as (? & ? & _); congruence|].
      destruct (Nat.eqb_spec x y) as [->|]; [congruence|]. destruct (fld_dec f g); auto.
Qed.

Lemma exec_data : forall h x f v, good h -> legal h (OData x f v) ->
  exists h', exec h (OData x f v) = Ok h' /\ good h' /\ next h' = next h /\ forall y g, refs_at h' (Some y) g = refs_at h (Some y) g.
Proof.
  intros h x f v (G & NN & L) (n & M). cbn. unfold at_loc. rewrite M. cbn. eexists. split; [reflexivity|].
  set (h' := set_node h x (with_data n f v)).
  assert (C : forall l, match mem h l, mem h' l with Some a, Some b => nkind b = nkind a /\ refs b = refs a /\ parent b = parent a | None, None => True | _, _ => False end).
  { intro l. cbn. destruct (Nat.eqb_spec l x) as [->|N]; [rewrite M; cbn; auto|destruct (mem h l); auto]. }
  assert (SAME : forall l n', mem h' l = Some n' -> exists n, mem h l = Some n /\ nkind n' = nkind n /\ refs n' = refs n /\ parent n' = parent n).
  { intros l n' M'. specialize (C l). rewrite M' in C. destruct (mem h l) as [a|]; [|contradiction]. exists a. tauto. }
  assert (KEEP : forall l n, mem h l = Some n -> exists n', mem h' l = Some n' /\ nkind n' = nkind n /\ refs n' = refs n /\ parent n' = parent n).
  { intros l a M'. specialize (C l). rewrite M' in C. destruct (mem h' l) as [b|]; [|contradiction]. exists b. tauto. }
  split; [split; [|split]|split].
  - constructor.
    + intros l a Ma. destruct (SAME _ _ Ma) as (b & Mb & _). now apply (gh_alloc h G) in Mb.
    + intros l a g c Ma I. destruct (SAME _ _ Ma) as (b & Mb & K & R & _). rewrite R in I.
      destruct (gh_refs h G l b g c Mb I) as (cn & Mc & Kc). destruct (KEEP _ _ Mc) as (cn' & Mc' & Kc' & _). exists cn'. rewrite Kc'. auto.
    + intros l a c Ma P. destruct (SAME _ _ Ma) as (b & Mb & K & R & Q). rewrite Q in P.
      destruct (gh_parent h G l b c Mb P) as (cn & Mc & Kc). destruct (KEEP _ _ Mc) as (cn' & Mc' & Kc' & _). exists cn'. rewrite Kc', K. auto.
  - intros l a g Ma CG I. destruct (SAME _ _ Ma) as (b & Mb & K & R & _). rewrite R in I. rewrite K in CG. eapply NN; eauto.
  - intros y d (a & g & Ma & CG & I). destruct (SAME _ _ Ma) as (b & Mb & K & R & _). rewrite R in I. rewrite K in CG.
    assert (LI : lists h y d) by (exists b, g; auto). specialize (L y d LI). unfold par in *.
    destruct (mem h d) as [dn|] eqn:Md; [|discriminate]. destruct (KEEP _ _ Md) as (dn' & Md' & _ & _ & Pd). rewrite Md'. congruence.
  - reflexivity.
  - intros y g. unfold refs_at. specialize (C y). destruct (mem h y), (mem h' y); try tauto. now destruct C as (_ & -> & _).
Qed.

Lemma child_field_list : forall k f, child_field k f -> child_list f.
Proof. intros k f. destruct k, f; cbn; auto. Qed.
Lemma exec_refs : forall h x f ps, good h -> legal h (ORefs x f ps) ->
  exists h', exec h (ORefs x f ps) = Ok h' /\ good h' /\ next h' = next h /\ forall y g, child_list g -> refs_at h' (Some y) g = refs_at h (Some y) g.
Proof.
  intros h x f ps (G & NN & L) ((n & M) & NC & OKp). cbn. unfold at_loc. rewrite M. cbn. eexists. split; [reflexivity|].
  set (h' := set_node h x (with_refs n f ps)).
  assert (C : forall l, match mem h l, mem h' l with
     | Some a, Some b => nkind b = nkind a /\ parent b = parent a /\ forall g, refs b g = refs a g \/ (g = f /\ refs b g = ps)
     | None, None => True | _, _ => False end).
  { intro l. cbn. destruct (Nat.eqb_spec l x) as [->|N]; [rewrite M; cbn; repeat split; auto|destruct (mem h l); auto].
    intro g. destruct (fld_dec g f); auto. }
  assert (SAME : forall l n', mem h' l = Some n' -> exists n, mem h l = Some n /\ nkind n' = nkind n /\ parent n' = parent n /\ forall g, refs n' g = refs n g \/ (g = f /\ refs n' g = ps)).
  { intros l n' M'. specialize (C l). rewrite M' in C. destruct (mem h l) as [a|]; [|contradiction]. exists a. tauto. }
  assert (KEEP : forall l n, mem h l = Some n -> exists n', mem h' l = Some n' /\ nkind n' = nkind n /\ parent n' = parent n).
  { intros l a M'. specialize (C l). rewrite M' in C. destruct (mem h' l) as [b|]; [|contradiction]. exists b. tauto. }
  split; [split; [|split]|split].
  - constructor.
    + intros l a Ma. destruct (SAME _ _ Ma) as (b & Mb & _). now apply (gh_alloc h G) in Mb.
    + intros l a g c Ma I. destruct (SAME _ _ Ma) as (b & Mb & K & _ & R). destruct (R g) as [E|[-> E]]; rewrite E in I.
      * destruct (gh_refs h G l b g c Mb I) as (cn & Mc & Kc). destruct (KEEP _ _ Mc) as (cn' & Mc' & Kc' & _). exists cn'. rewrite Kc'. auto.
      * destruct (OKp c I) as (cn & Mc & Kc). destruct (KEEP _ _ Mc) as (cn' & Mc' & Kc' & _). exists cn'. rewrite Kc'. auto.
    + intros l a c Ma P. destruct (SAME _ _ Ma) as (b & Mb & K & Q & _). rewrite Q in P.
      destruct (gh_parent h G l b c Mb P) as (cn & Mc & Kc). destruct (KEEP _ _ Mc) as (cn' & Mc' & Kc' & _). exists cn'. rewrite Kc', K. auto.
  - intros l a g Ma CG I. destruct (SAME _ _ Ma) as (b & Mb & K & _ & R). destruct (R g) as [E|[-> E]].
    + rewrite E in I. rewrite K in CG. eapply NN; eauto.
    + apply NC. eapply child_field_list; eauto.
  - intros y d (a & g & Ma & CG & I). destruct (SAME _ _ Ma) as (b & Mb & K & _ & R). destruct (R g) as [E|[-> E]].
    + rewrite E in I. rewrite K in CG. assert (LI : lists h y d) by (exists b, g; auto). specialize (L y d LI). unfold par in *.
      destruct (mem h d) as [dn|] eqn:Md; [|discriminate]. destruct (KEEP _ _ Md) as (dn' & Md' & _ & Pd). rewrite Md'. congruence.
    + exfalso. apply NC. eapply child_field_list; eauto.
  - reflexivity.
  - intros y g CG. unfold refs_at. specialize (C y). destruct (mem h y), (mem h' y); try tauto. destruct C as (_ & _ & C).
    destruct (C g) as [E|[-> E]]; [auto|contradiction].
Qed.

Theorem history : forall os h, good h -> legal_all h os ->
  exists h', exec_all h os = Ok h' /\ good h' /\
    forall x f, child_list f -> refs_at h' (Some x) f = refs_at h (Some x) f ++ appended f x os.
Proof.
  induction os as [|o os IH]; intros h Gd Lg.
  - exists h. repeat split; try apply Gd. intros. cbn. now rewrite app_nil_r.
  - destruct Lg as [L1 L2]. cbn [exec_all].
    assert (STEP : exists h1, exec h o = Ok h1 /\ good h1 /\ forall x f, child_list f -> refs_at h1 (Some x) f = refs_at h (Some x) f ++ appended f x [o]).
    { destruct o as [k|f x c|x f v|x f ps].
      - destruct (exec_new h k Gd) as (A & B & C). exists (fst (alloc h (empty_node k))). split; [reflexivity|]. split; auto.
        intros x f _. cbn [appended flat_map]. rewrite app_nil_r. destruct (Nat.lt_ge_cases x (next h)); auto.
        rewrite C by auto. unfold refs_at. destruct (mem h x) eqn:E; auto. apply (gh_alloc h (proj1 Gd)) in E. lia.
      - destruct (exec_append h f x c Gd L1) as (h1 & E & A & _ & B). exists h1. split; auto. split; auto.
        intros y g _. cbn [appended flat_map]. rewrite app_nil_r. apply B.
      - destruct (exec_data h x f v Gd L1) as (h1 & E & A & _ & B). exists h1. split; auto. split; auto.
        intros y g _. cbn [appended flat_map]. rewrite !app_nil_r. apply B.
      - destruct (exec_refs h x f ps Gd L1) as (h1 & E & A & _ & B). exists h1. split; auto. split; auto.
        intros y g CG. cbn [appended flat_map]. rewrite !app_nil_r. now apply B. }
    destruct STEP as (h1 & E & Gd1 & R1). rewrite E. cbn [bind].
    destruct (IH h1 Gd1 (L2 h1 E)) as (h' & E' & Gd' & R'). exists h'. split; auto. split; auto.
    intros x f CF. rewrite R', R1, <- app_assoc by auto. f_equal. unfold appended. cbn [flat_map]. now rewrite app_nil_r.
Qed.

(** ** Cloning *)
Section Clone.
  Variables (h : heap) (l : loc).
  Hypothesis G : go_heap h.
  Hypothesis NN : no_nil h.
  Let N := next h.
  Let h1 := fst (deep_copy h l).
  Lemma dc_old : forall x n, mem h x = Some n -> mem h1 x = Some n.
  Proof using G. intros x n M. unfold h1, deep_copy. cbn [fst mem]. pose proof (gh_alloc h G x n M). replace (Nat.ltb x (next h)) with true by lia. auto. Qed.
  Lemma dc_new : forall x, mem h1 (N + x) = option_map (copy_node N) (mem h x).
  Proof. intro x. unfold N, h1, deep_copy. cbn [fst mem]. replace (Nat.ltb (next h + x) (next h)) with false by lia. now replace (next h + x - next h) with x by lia. Qed.
  Lemma dc_inv : forall x n, mem h1 x = Some n -> (x < N /\ mem h x = Some n) \/ (exists y m, x = N + y /\ mem h y = Some m /\ n = copy_node N m).
  Proof.
    intros x n M. unfold h1, deep_copy in M. cbn [fst mem] in M. unfold N. destruct (Nat.ltb_spec x (next h)) as [H|H]; [left; auto|right].
    destruct (mem h (x - next h)) as [m|] eqn:E; [|discriminate]. exists (x - next h), m. inversion M. repeat split; auto. lia.
  Qed.
  Lemma in_shift : forall f n c, In (Some c) (refs (copy_node N n) f) <-> exists d, c = N + d /\ In (Some d) (refs n f).
  Proof.
    intros f n c. cbn. rewrite in_map_iff. split.
    - intros ([d|] & E & I); cbn in E; inversion E. eauto.
    - intros (d & -> & I). exists (Some d). auto.
  Qed.
  Lemma dc_go : go_heap h1.
  Proof using G.
    constructor.
    - intros x n M. apply dc_inv in M. cbn. fold N. destruct M as [[H _]|(y & m & -> & M & _)]; [lia|].
      apply (gh_alloc h G) in M. unfold N in *. lia.
    - intros x n f c M I. apply dc_inv in M. destruct M as [[H M]|(y & m & -> & M & ->)].
      + destruct (gh_refs h G x n f c M I) as (cn & Mc & K). exists cn. split; auto. now apply dc_old.
      + apply in_shift in I. destruct I as (d & -> & I). destruct (gh_refs h G y m f d M I) as (cn & Mc & K).
        exists (copy_node N cn). rewrite dc_new, Mc. auto.
    - intros x n c M P. apply dc_inv in M. destruct M as [[H M]|(y & m & -> & M & ->)]; [|discriminate].
      destruct (gh_parent h G x n c M P) as (cn & Mc & K). exists cn. split; auto. now apply dc_old.
  Qed.
  Lemma dc_no_nil : no_nil h1.
  Proof using NN.
    intros x n f M C I. apply dc_inv in M. destruct M as [[H M]|(y & m & -> & M & ->)].
    - eapply NN; eauto.
    - cbn in I. apply in_map_iff in I. destruct I as ([d|] & E & I); [discriminate|]. eapply NN; eauto.
  Qed.
  Lemma dc_lists : forall x c, lists h1 (N + x) c <-> exists d, c = N + d /\ lists h x d.
  Proof.
    intros x c. split.
    - intros (n & f & M & C & I). rewrite dc_new in M. destruct (mem h x) as [m|] eqn:E; [|discriminate]. inversion M; subst n.
      apply in_shift in I. destruct I as (d & -> & I). exists d. split; auto. exists m, f. auto.
    - intros (d & -> & (n & f & M & C & I)). exists (copy_node N n), f. rewrite dc_new, M. repeat split; auto. apply in_shift. eauto.
  Qed.
  Lemma dc_below : forall y, below h1 (N + l) y -> exists x, y = N + x /\ below h l x.
  Proof.
    intros y B. induction B as [|x c B (z & -> & IH) L]; [exists l; split; auto using below_refl|].
    apply dc_lists in L. destruct L as (d & -> & L). exists d. split; auto. eapply below_step; eauto.
  Qed.
End Clone.

Lemma par_mem : forall h h' c, content_eq h h' -> par h' c = par h c -> forall n, mem h c = Some n ->
  exists n', mem h' c = Some n' /\ nkind n' = nkind n /\ data n' = data n /\ refs n' = refs n /\ parent n' = parent n.
Proof.
  intros h h' c [_ C] P n M. specialize (C c). unfold par in P. rewrite M in *. destruct (mem h' c) as [n'|]; [|contradiction].
  exists n'. tauto.
Qed.
Lemma node_eq : forall a b : node, nkind a = nkind b -> data a = data b -> refs a = refs b -> parent a = parent b -> a = b.
Proof. destruct a, b; cbn; intros; congruence. Qed.

Theorem clone_ok : forall sp k, sets_parents sp k ->
  forall h l n, go_heap h -> no_nil h -> mem h l = Some n -> nkind n = k ->
  (forall x y c, below h l x -> below h l y -> lists h x c -> lists h y c -> x = y) ->
  exists h' l', clone sp h l = Ok (h', l') /\
    (forall x nx, mem h x = Some nx -> mem h' x = Some nx) /\
    same_content h l h' l' /\ linked_below h' l' /\
    (forall x, reach h' l' x -> next h <= x) /\
    (forall r x, r < next h -> reach h' r x -> x < next h) /\
    (forall x, reach h' l' x -> exists nx, mem h' x = Some nx).
Proof.
  intros sp k S h l n G NN M K LO. unfold clone. set (l' := snd (deep_copy h l)). set (h1 := fst (deep_copy h l)).
  assert (El : l' = next h + l) by reflexivity.
  change (deep_copy h l) with (h1, l').
  pose proof (dc_go h l G) as G1. fold h1 in G1. pose proof (dc_no_nil h l NN) as NN1. fold h1 in NN1.
  destruct (sets_parents_linked sp k S h1 l' (copy_node (next h) n)) as (h' & E & C & LK & PU & PD); auto.
  { unfold h1. rewrite El, dc_new, M. reflexivity. }
  { intros x y c Bx By Lx Ly. rewrite El in Bx, By. apply dc_below in Bx. apply dc_below in By.
    destruct Bx as (x0 & -> & Bx), By as (y0 & -> & By). apply dc_lists in Lx. apply dc_lists in Ly.
    destruct Lx as (d & -> & Lx), Ly as (d' & E' & Ly). assert (d' = d) by lia. subst d'. f_equal. eapply LO; eauto. }
  exists h', l'. rewrite E. cbn [bind]. split; [reflexivity|].
  assert (OLD : forall x nx, mem h x = Some nx -> mem h' x = Some nx).
  { intros x nx Mx. pose proof (dc_old h l G x nx Mx) as M1. fold h1 in M1.
    destruct (par_mem h1 h' x C) with (n := nx) as (n' & M' & A & B & D & F); auto.
    - apply PU. intros (y & By & Ly). rewrite El in By. apply dc_below in By. destruct By as (y0 & -> & By).
      apply dc_lists in Ly. destruct Ly as (d & -> & _). apply (gh_alloc h G) in Mx. lia.
    - rewrite M'. f_equal. now apply node_eq. }
  assert (NEW : forall x m, mem h x = Some m -> exists m', mem h' (next h + x) = Some m' /\ nkind m' = nkind m /\ data m' = data m /\ refs m' = refs (copy_node (next h) m)).
  { intros x m Mx. destruct C as [_ C]. specialize (C (next h + x)). unfold h1 in C. rewrite dc_new, Mx in C. cbn [option_map] in C.
    destruct (mem h' (next h + x)) as [m'|]; [|contradiction]. exists m'. auto. }
  split; [exact OLD|]. split.
  { exists (fun x y => y = next h + x /\ exists m, mem h x = Some m). split; [split; eauto|].
    intros x y (-> & m & Mx). destruct (NEW _ _ Mx) as (m' & M' & A & B & D). exists m, m'. repeat split; auto.
    - intro f. now rewrite B.
    - intro f. rewrite D. cbn. assert (I : forall p, In (Some p) (refs m f) -> exists pn, mem h p = Some pn).
      { intros p I. destruct (gh_refs h G x m f p Mx I) as (pn & Mp & _). eauto. }
      revert I. generalize (refs m f). intro ps. induction ps as [|p ps IH]; intro I; constructor.
      + destruct p as [p|]; cbn; auto. split; auto. apply I. now left.
      + apply IH. intros q Hq. apply I. now right. }
  split; [exact LK|].
  assert (KEY : forall x, reach h' l' x -> exists z mz, x = next h + z /\ mem h z = Some mz).
  { intros x R. induction R as [|x y R IH P]; [exists l, n; rewrite El; auto|]. destruct IH as (z & mz & -> & Mz). destruct P as (nx & Mx & P).
    destruct (NEW _ _ Mz) as (m' & M' & A & B & D). rewrite Mx in M'. inversion M'; subst m'. destruct P as [(f & I)|P].
    - rewrite D in I. apply in_shift in I. destruct I as (d & -> & I). destruct (gh_refs h G _ _ _ _ Mz I) as (dn & Md & _). eauto.
    - destruct (PD (next h + z)) as [NW|(w & Bw & Lw & LW)].
      + unfold par in NW. rewrite Mx in NW. unfold h1 in NW. rewrite dc_new, Mz in NW. cbn in NW. congruence.
      + unfold par in LW. rewrite Mx in LW. rewrite P in LW. inversion LW; subst w. rewrite El in Bw. apply dc_below in Bw. destruct Bw as (w0 & -> & _).
        apply dc_lists in Lw. destruct Lw as (d & _ & (wn & g & Mw & _)). eauto. }
  split; [|split].
  - intros x R. destruct (KEY x R) as (z & mz & -> & _). lia.
  - intros r x Hr R. induction R as [|x y R IH P]; auto. destruct P as (nx & Mx & P).
    assert (Mh : mem h x = Some nx).
    { destruct (mem h x) as [m|] eqn:E0; [rewrite (OLD _ _ E0) in Mx; exact Mx|].
      exfalso. assert (Cx := proj2 C x). rewrite Mx in Cx. destruct (mem h1 x) as [n1|] eqn:M1; [|contradiction].
      destruct (dc_inv h l x n1 M1) as [[H MM]|(z & mz & -> & _)]; [congruence|lia]. }
    destruct P as [(f & I)|P].
    + destruct (gh_refs h G x nx f y Mh I) as (yn & My & _). now apply (gh_alloc h G) in My.
    + destruct (gh_parent h G x nx y Mh P) as (yn & My & _). now apply (gh_alloc h G) in My.
  - intros x R. destruct (KEY x R) as (z & mz & -> & Mz). destruct (NEW _ _ Mz) as (m' & M' & _). eauto.
Qed.

(** ** Writes through one root *)
Lemma reach_node : forall h h' r x, (forall y, reach h r y -> mem h' y = mem h y) -> (reach h' r x <-> reach h r x).
Proof.
  intros h h' r x H. split; intro R.
  - induction R as [|x y R IH P]; [constructor|]. apply reach_step with x; auto. destruct P as (n & M & P). exists n. split; auto. rewrite <- (H x IH). auto.
  - induction R as [|x y R IH P]; [constructor|]. apply reach_step with x; auto. destruct P as (n & M & P). exists n. split; auto. rewrite (H x R). auto.
Qed.
Lemma write_frame : forall h r h' s, write h r h' -> disjoint h r s -> (forall x, reach h s x -> exists n, mem h x = Some n) ->
  forall y, reach h s y -> mem h' y = mem h y.
Proof.
  intros h r h' s W D A y R. destruct W as [x n f v Rx M|x n f ps Rx M I|x n p Rx M I|x n f k Rx M F]; cbn;
    (destruct (Nat.eqb_spec y x) as [->|N]; [exfalso; eauto|]); auto.
  destruct (Nat.eqb_spec y (next h)) as [->|N2]; auto. destruct (A _ R) as (m & Mm). congruence.
Qed.
Lemma write_reach : forall h r h', write h r h' -> forall x, reach h' r x -> reach h r x \/ (mem h x = None /\ exists n, mem h' x = Some n).
Proof.
  intros h r h' W x R. induction R as [|y z R IH P]; [left; constructor|].
  destruct P as (n' & M' & P).
  destruct W as [x n f v Rx M|x n f ps Rx M I|x n p Rx M I|x n f k Rx M F]; cbn in M'.
  - destruct (Nat.eqb_spec y x) as [->|N].
    + inversion M'; subst. left. apply reach_step with x; auto. exists n. split; auto.
    + destruct IH as [IH|[IH _]]; [|congruence]. left. apply reach_step with y; auto. exists n'. auto.
  - destruct (Nat.eqb_spec y x) as [->|N].
    + inversion M'; subst. left. destruct P as [(g & J)|P].
      * cbn in J. destruct (fld_dec g f); [now apply I|]. apply reach_step with x; auto. exists n. split; eauto.
      * apply reach_step with x; auto. exists n. split; auto.
    + destruct IH as [IH|[IH _]]; [|congruence]. left. apply reach_step with y; auto. exists n'. auto.
  - destruct (Nat.eqb_spec y x) as [->|N].
    + inversion M'; subst. left. destruct P as [(g & J)|P].
      * apply reach_step with x; auto. exists n. split; eauto.
      * now apply I.
    + destruct IH as [IH|[IH _]]; [|congruence]. left. apply reach_step with y; auto. exists n'. auto.
  - destruct (Nat.eqb_spec y x) as [->|N].
    + inversion M'; subst. destruct P as [(g & J)|P].
      * cbn in J. destruct (fld_dec g f) as [->|].
        -- apply in_app_or in J. destruct J as [J|[J|[]]].
           ++ left. apply reach_step with x; auto. exists n. split; eauto.
           ++ inversion J; subst. right. split; auto. cbn. rewrite Nat.eqb_refl. destruct (Nat.eqb (next h) x); eauto.
        -- left. apply reach_step with x; auto. exists n. split; eauto.
      * left. apply reach_step with x; auto. exists n. split; auto.
    + destruct (Nat.eqb_spec y (next h)) as [->|N2].
      * inversion M'; subst. destruct P as [(g & [])|P]; discriminate.
      * destruct IH as [IH|[IH _]]; [|congruence]. left. apply reach_step with y; auto. exists n'. auto.
Qed.
(** Two roots whose objects all exist and are disjoint stay so whichever of them is written through. *)
Definition separate (h : heap) (r s : loc) : Prop :=
  disjoint h r s /\ (forall x, reach h r x -> exists n, mem h x = Some n) /\ (forall x, reach h s x -> exists n, mem h x = Some n).
Lemma separate_sym : forall h r s, separate h r s -> separate h s r.
Proof. intros h r s (A & B & C). split; [|auto]. intros x X Y. eauto. Qed.
Lemma write_alloc : forall h r h', write h r h' -> (forall x, reach h r x -> exists n, mem h x = Some n) ->
  forall x, reach h' r x -> exists n, mem h' x = Some n.
Proof.
  intros h r h' W A x R. destruct (write_reach h r h' W x R) as [X|[_ X]]; auto.
  destruct (A x X) as (m & Mx).
  destruct W as [z n f v Rx M|z n f ps Rx M I|z n p Rx M I|z n f k Rx M F]; cbn; destruct (Nat.eqb x z); eauto.
  destruct (Nat.eqb x (next h)); eauto.
Qed.
Theorem write_separate : forall h r s h', separate h r s -> write h r h' ->
  separate h' r s /\ (forall x, reach h s x -> mem h' x = mem h x) /\ (forall x, reach h' s x <-> reach h s x).
Proof.
  intros h r s h' (D & A & B) W. assert (F := write_frame h r h' s W D B).
  assert (RS : forall x, reach h' s x <-> reach h s x) by (intro x; apply reach_node; auto).
  split; [split; [|split]|split]; auto.
  - intros x X Y. apply RS in Y. destruct (write_reach h r h' W x X) as [X'|[X' _]]; [eauto|]. destruct (B _ Y). congruence.
  - eapply write_alloc; eauto.
  - intros x X. apply RS in X. rewrite F; auto.
Qed.
(** Any interleaving of writes through the two roots. *)
Inductive writes : heap -> loc -> loc -> list bool -> heap -> Prop :=
| writes_nil : forall h r s, writes h r s [] h
| writes_left : forall h h1 h2 r s w, write h r h1 -> writes h1 r s w h2 -> writes h r s (true :: w) h2
| writes_right : forall h h1 h2 r s w, write h s h1 -> writes h1 r s w h2 -> writes h r s (false :: w) h2.
Theorem writes_separate : forall h r s w h', writes h r s w h' -> separate h r s -> separate h' r s /\
  (Forall (eq true) w -> forall x, reach h s x -> mem h' x = mem h x) /\
  (Forall (eq false) w -> forall x, reach h r x -> mem h' x = mem h x).
Proof.
  intros h r s w h' W. induction W as [h r s|h h1 h2 r s w W1 W2 IH|h h1 h2 r s w W1 W2 IH]; intro S; [auto| |].
  - destruct (write_separate _ _ _ _ S W1) as (S1 & F & RS). destruct (IH S1) as (S2 & I1 & I2). split; auto. split.
    + intros A x X. inversion A; subst. rewrite I1; auto. now apply RS.
    + intro A. inversion A; discriminate.
  - destruct (write_separate _ _ _ _ (separate_sym _ _ _ S) W1) as (S1 & F & RS). destruct (IH (separate_sym _ _ _ S1)) as (S2 & I1 & I2). split; auto. split.
    + intro A. inversion A; discriminate.
    + intros A x X. inversion A; subst. rewrite I2; auto. now apply RS.
Qed.
