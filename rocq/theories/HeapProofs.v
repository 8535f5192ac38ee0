(** Proofs about parent links, cloning and period timing. *)
From Coq Require Import String.
From Coq Require Import ZArith List Bool Lia.
From Coq Require Import ZifyBool ZifyNat.
From Verif Require Import Base Heap HeapSpec.
Import ListNotations.
Local Open Scope nat_scope.

(** ** SetParents as a list of assignments *)
Definition asg (h : heap) (a : ptr * ptr) : outcome merr heap := set_parent h (fst a) (snd a).
Definition refs_at (h : heap) (p : ptr) (f : fld) : list ptr :=
  match p with Some l => match mem h l with Some n => refs n f | None => [] end | None => [] end.
Definition links_rep (h : heap) (r : ptr) := map (fun s => (s, r)) (refs_at h r FSubs).
Definition links_set (h : heap) (a : ptr) := flat_map (fun r => (r, a) :: links_rep h r) (refs_at h a FReps).
Definition links_period (h : heap) (p : ptr) := flat_map (fun a => (a, p) :: links_set h a) (refs_at h p FSets).
Definition links_mpd (h : heap) (m : ptr) := flat_map (fun p => (p, m) :: links_period h p) (refs_at h m FPeriods).

Lemma content_refl : forall h, content_eq h h.
Proof. intro h. split; auto. intro l. destruct (mem h l); auto. Qed.
Lemma content_trans : forall a b c, content_eq a b -> content_eq b c -> content_eq a c.
Proof.
  intros a b c [N1 H1] [N2 H2]. split; [congruence|]. intro l. specialize (H1 l). specialize (H2 l).
  destruct (mem a l), (mem b l), (mem c l); try tauto. destruct H1 as (A & B & C), H2 as (D & E & F). repeat split; congruence.
Qed.
Lemma content_sym : forall a b, content_eq a b -> content_eq b a.
Proof.
  intros a b [N H]. split; auto. intro l. specialize (H l). destruct (mem a l), (mem b l); try tauto.
  destruct H as (A & B & C). repeat split; congruence.
Qed.
Lemma content_refs : forall h h' p f, content_eq h h' -> refs_at h' p f = refs_at h p f.
Proof.
  intros h h' [l|] f [_ H]; auto. cbn. specialize (H l). destruct (mem h l), (mem h' l); try tauto. now destruct H as (_ & _ & ->).
Qed.
Lemma set_parent_content : forall h x p h', set_parent h x p = Ok h' -> content_eq h h'.
Proof.
  intros h [l|] p h' H; [|discriminate]. unfold set_parent, at_loc in H. destruct (mem h l) as [n|] eqn:E; [|discriminate].
  inversion H; subst. split; [reflexivity|]. intro x. cbn. destruct (Nat.eqb_spec x l) as [->|N].
  - rewrite E. cbn. auto.
  - destruct (mem h x); auto.
Qed.
Lemma for_each_app : forall {A} (f : heap -> A -> outcome merr heap) a b h,
  for_each f (a ++ b) h = do h' <- for_each f a h ; for_each f b h'.
Proof.
  induction a as [|x a IH]; intros b h; [reflexivity|]. cbn [app for_each]. destruct (f h x); cbn [bind]; auto.
Qed.
Lemma for_asg_content : forall l h h', for_each asg l h = Ok h' -> content_eq h h'.
Proof.
  induction l as [|a l IH]; cbn [for_each]; intros h h' H.
  - inversion H; subst. apply content_refl.
  - destruct (asg h a) as [h1| | |] eqn:E; try discriminate. cbn [bind] in H.
    apply content_trans with h1; [|now apply IH]. now apply set_parent_content in E.
Qed.
(** A loop whose body is a list of assignments is the concatenation of these lists. *)
Lemma for_each_links : forall {A} (body : heap -> A -> outcome merr heap) (L : A -> list (ptr * ptr)) xs h0,
  (forall h x, content_eq h0 h -> body h x = for_each asg (L x) h) ->
  forall h, content_eq h0 h -> for_each body xs h = for_each asg (flat_map L xs) h.
Proof.
  intros A body L xs h0 HB. induction xs as [|x xs IH]; intros h Hh; [reflexivity|].
  cbn [for_each flat_map]. rewrite for_each_app, HB by auto.
  destruct (for_each asg (L x) h) as [h1| | |] eqn:E; cbn [bind]; auto.
  apply IH. eapply content_trans; eauto using for_asg_content.
Qed.
Lemma deref_ok : forall h x p h', set_parent h x p = Ok h' -> exists n, deref h' x = Ok n /\ forall f, refs n f = refs_at h x f.
Proof.
  intros h [l|] p h' H; [|discriminate]. unfold set_parent, at_loc in H. destruct (mem h l) as [n|] eqn:E; [|discriminate].
  inversion H; subst. unfold deref, at_loc. cbn. rewrite Nat.eqb_refl. eexists. split; [reflexivity|]. cbn. now rewrite E.
Qed.
Lemma flat_map_one : forall {A B} (f : A -> B) l, flat_map (fun x => [f x]) l = map f l.
Proof. induction l; cbn; congruence. Qed.

Section Level.
  (** One level of the nested loops. *)
  Variables (inner : heap -> ptr -> outcome merr heap) (L : heap -> ptr -> list (ptr * ptr)) (f : fld).
  Hypothesis inner_ok : forall h0 h x, content_eq h0 h -> (exists n, deref h x = Ok n) -> inner h x = for_each asg (L h0 x) h.
  Definition outer (h : heap) (m : ptr) : outcome merr heap :=
    do n <- deref h m ; for_each (fun h p => do h <- set_parent h p m ; inner h p) (refs n f) h.
  Lemma level : forall h0 h m, content_eq h0 h -> (exists n, deref h m = Ok n) ->
    outer h m = for_each asg (flat_map (fun p => (p, m) :: L h0 p) (refs_at h0 m f)) h.
  Proof using inner_ok.
    intros h0 h m C (n & D). unfold outer. rewrite D. cbn [bind].
    assert (E : refs n f = refs_at h0 m f).
    { rewrite <- (content_refs h0 h) by auto. destruct m as [l|]; [|discriminate]. unfold deref, at_loc in D. cbn.
      destruct (mem h l); inversion D; auto. }
    rewrite E. apply for_each_links with h0; auto. intros h1 x C1. cbn [for_each].
    change (asg h1 (x, m)) with (set_parent h1 x m).
    destruct (set_parent h1 x m) as [h2| | |] eqn:E2; cbn [bind]; auto.
    apply inner_ok.
    - eapply content_trans; eauto using set_parent_content.
    - destruct (deref_ok _ _ _ _ E2) as (k & K & _). eauto.
  Qed.
End Level.

Lemma rep_links : forall h0 h r, content_eq h0 h -> (exists n, deref h r = Ok n) ->
  rep_set_parents h r = for_each asg (links_rep h0 r) h.
Proof.
  intros h0 h r C (n & D). unfold rep_set_parents. rewrite D. cbn [bind].
  assert (E : refs n FSubs = refs_at h0 r FSubs).
  { rewrite <- (content_refs h0 h) by auto. destruct r as [l|]; [|discriminate]. unfold deref, at_loc in D. cbn.
    destruct (mem h l); inversion D; auto. }
  rewrite E. unfold links_rep. rewrite <- flat_map_one. apply for_each_links with h0; auto.
  intros h1 x C1. cbn [for_each]. change (asg h1 (x, r)) with (set_parent h1 x r). destruct (set_parent h1 x r); reflexivity.
Qed.
Lemma set_links : forall h0 h a, content_eq h0 h -> (exists n, deref h a = Ok n) ->
  set_set_parents h a = for_each asg (links_set h0 a) h.
Proof. intros. unfold links_set. apply (level rep_set_parents links_rep FReps rep_links); auto. Qed.
Lemma period_links : forall h0 h p, content_eq h0 h -> (exists n, deref h p = Ok n) ->
  period_set_parents h p = for_each asg (links_period h0 p) h.
Proof. intros. unfold links_period. apply (level set_set_parents links_set FSets set_links); auto. Qed.
Lemma mpd_links : forall h0 h m, content_eq h0 h -> (exists n, deref h m = Ok n) ->
  mpd_set_parents h m = for_each asg (links_mpd h0 m) h.
Proof. intros. unfold links_mpd. apply (level period_set_parents links_period FPeriods period_links); auto. Qed.

(** Effect of a list of assignments. *)
Definition last_asg (l : list (ptr * ptr)) (x : loc) : option ptr :=
  fold_left (fun acc a => match fst a with Some y => if Nat.eqb y x then Some (snd a) else acc | None => acc end) l None.
Lemma last_asg_app1 : forall l a x, last_asg (l ++ [a]) x =
  match fst a with Some y => if Nat.eqb y x then Some (snd a) else last_asg l x | None => last_asg l x end.
Proof. intros. unfold last_asg. rewrite fold_left_app. reflexivity. Qed.
Lemma set_parent_par : forall h y p h' x, set_parent h (Some y) p = Ok h' -> par h' x = if Nat.eqb y x then p else par h x.
Proof.
  intros h y p h' x H. unfold set_parent, at_loc in H. destruct (mem h y) as [n|] eqn:E; [|discriminate].
  inversion H; subst. unfold par. cbn. rewrite Nat.eqb_sym. destruct (Nat.eqb_spec y x); auto.
Qed.
Lemma for_asg_par : forall l h h' x, for_each asg l h = Ok h' ->
  par h' x = match last_asg l x with Some p => p | None => par h x end.
Proof.
  intros l. induction l as [|a l IH] using rev_ind; intros h h' x H.
  - cbn in H. inversion H; subst. reflexivity.
  - rewrite for_each_app in H. destruct (for_each asg l h) as [h1| | |] eqn:E; try discriminate. cbn [bind for_each] in H.
    destruct (asg h1 a) as [h2| | |] eqn:E2; try discriminate. cbn [bind] in H. inversion H; subst h2.
    rewrite last_asg_app1. destruct a as [[y|] p]; cbn [fst snd]; [|discriminate].
    unfold asg in E2. cbn [fst snd] in E2. rewrite (set_parent_par _ _ _ _ x E2). destruct (Nat.eqb y x); auto.
Qed.
Lemma last_asg_in : forall l x p, last_asg l x = Some p -> In (Some x, p) l.
Proof.
  intro l. induction l as [|a l IH] using rev_ind; intros x p H; [discriminate|].
  rewrite last_asg_app1 in H. apply in_or_app. destruct a as [[y|] q]; cbn [fst snd] in H.
  - destruct (Nat.eqb_spec y x) as [->|N]; [inversion H; subst; right; now left|left; auto].
  - left; auto.
Qed.
Lemma last_asg_none : forall l x, last_asg l x = None -> forall p, ~ In (Some x, p) l.
Proof.
  intro l. induction l as [|a l IH] using rev_ind; intros x H p I; [contradiction|].
  rewrite last_asg_app1 in H. apply in_app_or in I. destruct a as [[y|] q]; cbn [fst snd] in H.
  - destruct (Nat.eqb_spec y x) as [->|N]; [discriminate|]. destruct I as [I|[I|[]]]; [eapply IH; eauto|congruence].
  - destruct I as [I|[I|[]]]; [eapply IH; eauto|congruence].
Qed.
Lemma for_asg_ok : forall (l : list (ptr * ptr)) h, (forall a, In a l -> exists x n, fst a = Some x /\ mem h x = Some n) -> exists h', for_each asg l h = Ok h'.
Proof.
  induction l as [|a l IH]; intros h H; [eexists; reflexivity|]. cbn [for_each].
  destruct (H a (or_introl eq_refl)) as (x & n & E & M). assert (EA : asg h a = Ok (set_node h x (with_parent n (snd a)))).
  { destruct a as [ax ap]. cbn in E. subst ax. unfold asg, set_parent, at_loc. cbn [fst snd]. rewrite M. reflexivity. }
  rewrite EA. cbn [bind].
  apply IH. intros b Hb. destruct (H b (or_intror Hb)) as (y & k & Ey & My). exists y. cbn.
  destruct (Nat.eqb y x); eauto.
Qed.

(** ** Which assignments are made *)
Lemma refs_at_lists : forall h x f c n, mem h x = Some n -> child_field (nkind n) f -> In (Some c) (refs_at h (Some x) f) -> lists h x c.
Proof. intros h x f c n M K I. cbn in I. rewrite M in I. exists n, f. auto. Qed.
Lemma child_kind : forall h x c n, go_heap h -> mem h x = Some n -> lists h x c ->
  exists cn, mem h c = Some cn /\ In (Some c) (refs n (match nkind n with KMPD => FPeriods | KPeriod => FSets | KSet => FReps | _ => FSubs end)) /\
  match nkind n with KMPD => nkind cn = KPeriod | KPeriod => nkind cn = KSet | KSet => nkind cn = KRep | KRep => nkind cn = KSub | _ => False end.
Proof.
  intros h x c n G M (n' & f & M' & K & I). rewrite M in M'. inversion M'; subst n'. clear M'.
  destruct (gh_refs h G x n f c M I) as (cn & Mc & Kc). exists cn. split; auto.
  destruct (nkind n), f; try contradiction; cbn in Kc; auto.
Qed.

Section Tree.
  Variable h : heap.
  Hypothesis G : go_heap h.
  Hypothesis NN : no_nil h.
  Lemma in_refs : forall x n f q, mem h x = Some n -> child_field (nkind n) f -> In q (refs n f) ->
    exists c, q = Some c /\ lists h x c.
  Proof using NN.
    intros x n f q M K I. destruct q as [c|]; [|exfalso; eapply NN; eauto]. exists c. split; auto. exists n, f. auto.
  Qed.
  (** [m] is of kind [k]: every assignment of its SetParents is a listing at or below it, and all of them are made. *)
  Definition exact (m : loc) (l : list (ptr * ptr)) : Prop :=
    forall a, In a l <-> exists x c, a = (Some c, Some x) /\ below h m x /\ lists h x c.
  Lemma below_trans : forall m x y, below h m x -> below h x y -> below h m y.
  Proof. intros m x y A B. induction B; auto. eapply below_step; eauto. Qed.
  Lemma below_inv : forall m x, below h m x -> x = m \/ exists c, lists h m c /\ below h c x.
  Proof.
    intros m x B. induction B as [|y c B IH L]; auto. right. destruct IH as [->|(d & D & E)].
    - exists c. split; auto. apply below_refl.
    - exists d. split; auto. eapply below_step; eauto.
  Qed.
  Lemma sub_leaf : forall x n c, mem h x = Some n -> nkind n = KSub -> ~ lists h x c.
  Proof. intros x n c M K (n' & f & M' & C & _). rewrite M in M'. inversion M'; subst. rewrite K in C. contradiction. Qed.
  Lemma rep_exact : forall r n, mem h r = Some n -> nkind n = KRep -> exact r (links_rep h (Some r)).
  Proof using G NN.
    intros r n M K a. unfold links_rep. cbn. rewrite M. rewrite in_map_iff. split.
    - intros (s & <- & I). destruct (in_refs r n FSubs s M) as (c & -> & L); [rewrite K; exact Logic.I|auto|].
      exists r, c. repeat split; auto using below_refl.
    - intros (x & c & -> & B & L). destruct (below_inv _ _ B) as [->|(d & D & E)].
      + destruct (child_kind _ _ _ _ G M L) as (cn & Mc & I & _). rewrite K in I. exists (Some c). auto.
      + destruct (child_kind _ _ _ _ G M D) as (dn & Md & _ & Kd). rewrite K in Kd.
        destruct (below_inv _ _ E) as [->|(e & F & _)]; exfalso; eapply sub_leaf; eauto.
  Qed.
  Lemma level_exact : forall k f kc (Lk : heap -> ptr -> list (ptr * ptr)),
    child_field k f ->
    (forall n, nkind n = k -> (match nkind n with KMPD => FPeriods | KPeriod => FSets | KSet => FReps | _ => FSubs end) = f) ->
    (forall x n c cn, mem h x = Some n -> nkind n = k -> lists h x c -> mem h c = Some cn -> nkind cn = kc) ->
    (forall r n, mem h r = Some n -> nkind n = kc -> exact r (Lk h (Some r))) ->
    forall m n, mem h m = Some n -> nkind n = k ->
    exact m (flat_map (fun p => (p, Some m) :: Lk h p) (refs_at h (Some m) f)).
  Proof using G NN.
    intros k f kc Lk CF KF KC IH m n M K a. rewrite in_flat_map. cbn. rewrite M. split.
    - intros (p & I & J). destruct (in_refs m n f p M) as (c & -> & L); [now rewrite K|auto|].
      destruct J as [<-|J].
      + exists m, c. repeat split; auto using below_refl.
      + destruct (child_kind _ _ _ _ G M L) as (cn & Mc & _ & _).
        apply (IH c cn Mc (KC _ _ _ _ M K L Mc)) in J. destruct J as (x & d & -> & B & D).
        exists x, d. repeat split; auto. apply below_trans with c; auto. eapply below_step; eauto. apply below_refl.
    - intros (x & c & -> & B & L). destruct (below_inv _ _ B) as [->|(d & D & E)].
      + destruct (child_kind _ _ _ _ G M L) as (cn & Mc & I & _). rewrite (KF n K) in I.
        exists (Some c). split; auto.
      + destruct (child_kind _ _ _ _ G M D) as (dn & Md & I & _). rewrite (KF n K) in I.
        exists (Some d). split; auto; right. apply (IH d dn Md (KC _ _ _ _ M K D Md)). exists x, c. auto.
  Qed.
  Lemma set_exact : forall m n, mem h m = Some n -> nkind n = KSet -> exact m (links_set h (Some m)).
  Proof using G NN.
    apply (level_exact KSet FReps KRep links_rep); [exact Logic.I| | |exact rep_exact].
    - intros n ->. reflexivity.
    - intros x n c cn M K L Mc. destruct (child_kind _ _ _ _ G M L) as (cn' & Mc' & _ & Kc). rewrite K in Kc. congruence.
  Qed.
  Lemma period_exact : forall m n, mem h m = Some n -> nkind n = KPeriod -> exact m (links_period h (Some m)).
  Proof using G NN.
    apply (level_exact KPeriod FSets KSet links_set); [exact Logic.I| | |exact set_exact].
    - intros n ->. reflexivity.
    - intros x n c cn M K L Mc. destruct (child_kind _ _ _ _ G M L) as (cn' & Mc' & _ & Kc). rewrite K in Kc. congruence.
  Qed.
  Lemma mpd_exact : forall m n, mem h m = Some n -> nkind n = KMPD -> exact m (links_mpd h (Some m)).
  Proof using G NN.
    apply (level_exact KMPD FPeriods KPeriod links_period); [exact Logic.I| | |exact period_exact].
    - intros n ->. reflexivity.
    - intros x n c cn M K L Mc. destruct (child_kind _ _ _ _ G M L) as (cn' & Mc' & _ & Kc). rewrite K in Kc. congruence.
  Qed.
End Tree.

Lemma lists_content : forall h h' x c, content_eq h h' -> (lists h' x c <-> lists h x c).
Proof.
  intros h h' x c [_ H]. specialize (H x). unfold lists. split; intros (n & f & M & K & I).
  - rewrite M in H. destruct (mem h x) as [n0|]; [|contradiction]. destruct H as (E1 & E2 & E3).
    exists n0, f. rewrite <- E1, <- E3. auto.
  - rewrite M in H. destruct (mem h' x) as [n0|]; [|contradiction]. destruct H as (E1 & E2 & E3).
    exists n0, f. rewrite E1, E3. auto.
Qed.
Lemma below_content : forall h h' m x, content_eq h h' -> (below h' m x <-> below h m x).
Proof.
  intros h h' m x C. split; intro B; induction B; try apply below_refl; eapply below_step; eauto; eapply lists_content; eauto.
  now apply content_sym.
Qed.

(** SetParents on a heap where nothing is listed twice. *)
Definition sets_parents (sp : heap -> ptr -> outcome merr heap) (k : kind) : Prop :=
  forall h m n, go_heap h -> no_nil h -> mem h m = Some n -> nkind n = k ->
  exists h', sp h (Some m) = Ok h' /\ content_eq h h' /\
    (forall c, (exists x, below h m x /\ lists h x c) -> exists x, below h m x /\ lists h x c /\ par h' c = Some x) /\
    (forall c, ~ (exists x, below h m x /\ lists h x c) -> par h' c = par h c) /\
    (forall c, par h' c = par h c \/ exists x, below h m x /\ lists h x c /\ par h' c = Some x).
Lemma sets_parents_gen : forall (sp : heap -> ptr -> outcome merr heap) k (L : heap -> ptr -> list (ptr * ptr)),
  (forall h0 h p, content_eq h0 h -> (exists n, deref h p = Ok n) -> sp h p = for_each asg (L h0 p) h) ->
  (forall h, go_heap h -> no_nil h -> forall m n, mem h m = Some n -> nkind n = k -> exact h m (L h (Some m))) ->
  sets_parents sp k.
Proof.
  intros sp k L HL HE h m n G NN M K. pose proof (HE h G NN m n M K) as X.
  rewrite (HL h h (Some m)) by (auto using content_refl; unfold deref, at_loc; rewrite M; eauto).
  destruct (for_asg_ok (L h (Some m)) h) as (h' & E).
  { intros a I. apply X in I. destruct I as (x & c & -> & B & Lx). exists c.
    destruct Lx as (xn & f & Mx & Kx & Ix). destruct (gh_refs h G x xn f c Mx Ix) as (cn & Mc & _). eauto. }
  exists h'. split; auto. split; [eapply for_asg_content; eauto|]. split; [|split].
  - intros c Hc. pose proof (for_asg_par _ _ _ c E) as P. destruct (last_asg (L h (Some m)) c) as [p|] eqn:LA.
    + apply last_asg_in in LA. apply X in LA. destruct LA as (y & c' & Eq & B & Ly). inversion Eq; subst.
      exists y. auto.
    + exfalso. destruct Hc as (x & B & Lx). eapply (last_asg_none _ _ LA (Some x)). apply X. exists x, c. auto.
  - intros c Hc. rewrite (for_asg_par _ _ _ c E). destruct (last_asg (L h (Some m)) c) as [p|] eqn:LA; auto.
    exfalso. apply Hc. apply last_asg_in in LA. apply X in LA. destruct LA as (y & c' & Eq & B & Ly). inversion Eq; subst. eauto.
  - intro c. rewrite (for_asg_par _ _ _ c E). destruct (last_asg (L h (Some m)) c) as [p|] eqn:LA; auto. right.
    apply last_asg_in in LA. apply X in LA. destruct LA as (y & c' & Eq & B & Ly). inversion Eq; subst. eauto.
Qed.
Theorem mpd_sets : sets_parents mpd_set_parents KMPD.
Proof. eapply sets_parents_gen; [exact mpd_links|intros; eapply mpd_exact; eauto]. Qed.
Theorem period_sets : sets_parents period_set_parents KPeriod.
Proof. eapply sets_parents_gen; [exact period_links|intros; eapply period_exact; eauto]. Qed.
Theorem set_sets : sets_parents set_set_parents KSet.
Proof. eapply sets_parents_gen; [exact set_links|intros; eapply set_exact; eauto]. Qed.

Theorem sets_parents_linked : forall sp k, sets_parents sp k ->
  forall h m n, go_heap h -> no_nil h -> mem h m = Some n -> nkind n = k ->
  (forall x y c, below h m x -> below h m y -> lists h x c -> lists h y c -> x = y) ->
  exists h', sp h (Some m) = Ok h' /\ content_eq h h' /\ linked_below h' m /\
    (forall c, ~ (exists x, below h m x /\ lists h x c) -> par h' c = par h c) /\
    (forall c, par h' c = par h c \/ exists x, below h m x /\ lists h x c /\ par h' c = Some x).
Proof.
  intros sp k S h m n G NN M K LO. destruct (S h m n G NN M K) as (h' & E & C & P1 & P2 & P3).
  exists h'. repeat match goal with |- _ /\ _ => split end; auto.
  intros x c B L. apply (below_content h h') in B; auto. apply (lists_content h h') in L; auto.
  destruct (P1 c) as (y & B' & L' & P); eauto. rewrite P. f_equal. symmetry. eapply LO; eauto.
Qed.
