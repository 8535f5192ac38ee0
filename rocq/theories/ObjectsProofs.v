(** Facts about the objects of Objects.v: building a tree makes a heap that holds it, without sharing. *)
From Coq Require Import String.
From Coq Require Import ZArith List Bool Lia.
From Verif Require Import Base Lexer GoType Schema Io Unmarshal Heap HeapSpec HeapProofs Objects.
Import ListNotations.
Local Open Scope nat_scope.

(** Induction over trees. *)
Lemma tree_ind' : forall (P : tree -> Prop), (forall k ds cs, Forall (fun e => match snd e with Some t => P t | None => True end) cs -> P (Tree k ds cs)) -> forall t, P t.
Proof.
  intros P H. fix IH 1. intros [k ds cs]. apply H. induction cs as [|[f [t|]] cs IHc]; constructor; cbn; auto.
Qed.

Lemma NoDup_app_intro : forall {A} (a b : list A), NoDup a -> NoDup b -> (forall x, In x a -> In x b -> False) -> NoDup (a ++ b).
Proof.
  induction a as [|x a IH]; intros b Na Nb D; [exact Nb|]. inversion Na; subst. cbn. constructor.
  - rewrite in_app_iff. intros [I|I]; [contradiction|]. apply (D x); [now left|exact I].
  - apply IH; auto. intros y Ia Ib. apply (D y); [now right|exact Ib].
Qed.

(** *** The shape of the new part of a heap *)
Definition leads (h : heap) (x c : loc) : Prop := exists n f, mem h x = Some n /\ In (Some c) (refs n f).
Definition somes (l : list ptr) : list loc := flat_map (fun p => match p with Some x => [x] | None => [] end) l.
Lemma somes_in : forall l c, In (Some c) l <-> In c (somes l).
Proof. intros l c. unfold somes. rewrite in_flat_map. split; [intro H; exists (Some c); cbn; auto|intros ([x|] & A & B); [destruct B as [-> |[]]; exact A|destruct B]]. Qed.
(** The objects from [a] on, before [b]: pointers lead to earlier ones of them, each is led to from one place, [rs] from none. *)
Record region (h : heap) (a b : loc) (rs : list loc) : Prop := {
  rg_le : a <= b;
  rg_node : forall x, a <= x < b -> exists n, mem h x = Some n /\ parent n = None /\
    (forall f, NoDup (somes (refs n f)) /\ ~ In None (refs n f)) /\
    forall f c, In (Some c) (refs n f) -> a <= c < x /\ exists cn, mem h c = Some cn /\ field_kind f (nkind cn);
  rg_once : forall x y c, a <= x < b -> a <= y < b -> leads h x c -> leads h y c -> x = y;
  rg_nodup : NoDup rs;
  rg_roots : forall r, In r rs -> a <= r < b /\ forall x, a <= x < b -> ~ leads h x r }.
Definition agree (h h' : heap) (b : loc) : Prop := forall x, x < b -> mem h' x = mem h x.
Lemma leads_agree : forall h h' b x c, agree h h' b -> x < b -> leads h' x c <-> leads h x c.
Proof. intros h h' b x c A L. unfold leads. rewrite (A x L). tauto. Qed.
Lemma region_agree : forall h h' a b rs, region h a b rs -> agree h h' b -> region h' a b rs.
Proof.
  intros h h' a b rs [L N O ND R] A. constructor; auto.
  - intros x X. destruct (N x X) as (n & M & P & D & C). exists n. rewrite (A x) by lia. split; [exact M|]. split; [exact P|]. split; [exact D|]. intros f c I. destruct (C f c I) as (C1 & cn & C2 & C3). split; [exact C1|]. exists cn. rewrite (A c) by lia. auto.
  - intros x y c X Y LX LY. apply (O x y c X Y); [apply (leads_agree h h' b x c A); [lia|exact LX]|apply (leads_agree h h' b y c A); [lia|exact LY]].
  - intros r I. destruct (R r I) as [R1 R2]. split; [exact R1|]. intros x X LX. apply (R2 x X). apply (leads_agree h h' b x r A); [lia|exact LX].
Qed.
Lemma leads_in : forall h a b rs x c, region h a b rs -> a <= x < b -> leads h x c -> a <= c < x.
Proof. intros h a b rs x c R X (n & f & M & I). destruct (rg_node _ _ _ _ R x X) as (n' & M' & _ & _ & C). rewrite M in M'. injection M' as <-. apply (C f c I). Qed.
Lemma region_app : forall h a b c r1 r2, region h a b r1 -> region h b c r2 -> region h a c (r1 ++ r2).
Proof.
  intros h a b c r1 r2 R1 R2. pose proof (rg_le _ _ _ _ R1) as L1. pose proof (rg_le _ _ _ _ R2) as L2. constructor; [lia| | | |].
  - intros x X. destruct (Nat.lt_ge_cases x b) as [Y|Y].
    + apply (rg_node _ _ _ _ R1 x). lia.
    + destruct (rg_node _ _ _ _ R2 x ltac:(lia)) as (n & M & P & D & C). exists n. split; [exact M|]. split; [exact P|]. split; [exact D|]. intros f z I. destruct (C f z I) as (C1 & C2). split; [lia|exact C2].
  - intros x y z X Y LX LY. destruct (Nat.lt_ge_cases x b) as [Hx|Hx], (Nat.lt_ge_cases y b) as [Hy|Hy].
    + apply (rg_once _ _ _ _ R1 x y z); auto; lia.
    + pose proof (leads_in _ _ _ _ x z R1 ltac:(lia) LX). pose proof (leads_in _ _ _ _ y z R2 ltac:(lia) LY). lia.
    + pose proof (leads_in _ _ _ _ x z R2 ltac:(lia) LX). pose proof (leads_in _ _ _ _ y z R1 ltac:(lia) LY). lia.
    + apply (rg_once _ _ _ _ R2 x y z); auto; lia.
  - apply NoDup_app_intro; [apply (rg_nodup _ _ _ _ R1)|apply (rg_nodup _ _ _ _ R2)|]. intros x I1 I2. pose proof (proj1 (rg_roots _ _ _ _ R1 x I1)). pose proof (proj1 (rg_roots _ _ _ _ R2 x I2)). lia.
  - intros r I. apply in_app_or in I. destruct I as [I|I].
    + destruct (rg_roots _ _ _ _ R1 r I) as [A B]. split; [lia|]. intros x X LX. destruct (Nat.lt_ge_cases x b) as [Y|Y]; [apply (B x); auto; lia|]. pose proof (leads_in _ _ _ _ x r R2 ltac:(lia) LX). lia.
    + destruct (rg_roots _ _ _ _ R2 r I) as [A B]. split; [lia|]. intros x X LX. destruct (Nat.lt_ge_cases x b) as [Y|Y]; [|apply (B x); auto; lia]. pose proof (leads_in _ _ _ _ x r R1 ltac:(lia) LX). lia.
Qed.

(** *** Building *)
Fixpoint build_list (cs : list (fld * option tree)) (h : heap) {struct cs} : heap * list (fld * ptr) :=
  match cs with
  | [] => (h, [])
  | (f, None) :: cs => let '(h1, rs) := build_list cs h in (h1, (f, None) :: rs)
  | (f, Some t) :: cs => let '(h1, l) := build t h in let '(h2, rs) := build_list cs h1 in (h2, (f, Some l) :: rs)
  end.
Lemma build_eq : forall k ds cs h, build (Tree k ds cs) h = let '(h1, rs) := build_list cs h in alloc h1 (Node k (scalar ds) (fun f => entries f rs) None).
Proof. reflexivity. Qed.
Section Held.
Variable h : heap.
Fixpoint held_list (cs : list (fld * option tree)) (ps : list ptr) {struct cs} : Prop :=
  match cs, ps with
  | [], [] => True
  | (_, None) :: cs, None :: ps => held_list cs ps
  | (_, Some t) :: cs, Some p :: ps => held h t p /\ held_list cs ps
  | _, _ => False
  end.
End Held.
Lemma held_eq : forall h k ds cs l, held h (Tree k ds cs) l = exists n ps, mem h l = Some n /\ nkind n = k /\ (forall f, data n f = scalar ds f) /\
  (forall f, refs n f = entries f (combine (map fst cs) ps)) /\ held_list h cs ps.
Proof. reflexivity. Qed.
Fixpoint sound_list (cs : list (fld * option tree)) : Prop :=
  match cs with
  | [] => True
  | (_, None) :: _ => False
  | (f, Some t) :: cs => field_kind f (kind_of t) /\ sound t /\ sound_list cs
  end.
Lemma sound_eq : forall k ds cs, sound (Tree k ds cs) = sound_list cs.
Proof. reflexivity. Qed.
(** Objects that have the same kind, fields and pointers, whatever their parents. *)
Definition keeps (h h' : heap) : Prop := forall x n, mem h x = Some n -> exists n', mem h' x = Some n' /\ nkind n' = nkind n /\ data n' = data n /\ refs n' = refs n.
Lemma held_keeps : forall h h', keeps h h' -> forall t l, held h t l -> held h' t l.
Proof.
  intros h h' K t. induction t as [k ds cs IH] using tree_ind'. intros l H. rewrite held_eq in *. destruct H as (n & ps & M & NK & D & R & HL).
  destruct (K _ _ M) as (n' & M' & E1 & E2 & E3). exists n', ps. split; [exact M'|]. split; [congruence|]. split; [intro f; rewrite E2; apply D|]. split; [intro f; rewrite E3; apply R|].
  clear M M' R. revert ps HL. induction cs as [|[f [t|]] cs IHc]; intros [|[p|] ps] HL; cbn [held_list] in *; auto; inversion IH; subst; cbn [snd] in *.
  - destruct HL as [HA HB]. split; auto.
  - apply IHc; auto.
Qed.
Lemma held_kind : forall h t l, held h t l -> exists n, mem h l = Some n /\ nkind n = kind_of t.
Proof. intros h [k ds cs] l (n & ps & M & K & _). eauto. Qed.
Definition fresh (h : heap) : Prop := forall x n, mem h x = Some n -> x < next h.
Lemma agree_keeps : forall h h', fresh h -> agree h h' (next h) -> keeps h h'.
Proof. intros h h' F A x n M. exists n. rewrite (A x (F x n M)). auto. Qed.
Lemma entries_in : forall {A} f (l : list (fld * A)) x, In x (entries f l) <-> In (f, x) l.
Proof.
  intros A f l x. unfold entries. rewrite in_map_iff. split.
  - intros ([g y] & E & I). cbn in E. subst y. apply filter_In in I. destruct I as [I T]. cbn in T. destruct (fld_dec g f) as [-> |]; [exact I|discriminate].
  - intro I. exists (f, x). split; [reflexivity|]. apply filter_In. split; [exact I|]. cbn. destruct (fld_dec f f); congruence.
Qed.
Lemma combine_split : forall {A B} (l : list (A * B)), combine (map fst l) (map snd l) = l.
Proof. induction l as [|[a b] l IH]; cbn; [reflexivity|now rewrite IH]. Qed.
Lemma somes_nodup : forall f (rs : list (fld * ptr)), NoDup (somes (map snd rs)) -> NoDup (somes (entries f rs)).
Proof.
  intros f rs. unfold entries. induction rs as [|[g [p|]] rs IH]; intro N; cbn [map snd filter fst somes flat_map app] in *; [exact N| |].
  - inversion N; subst. destruct (fld_dec g f); [|apply IH; assumption]. cbn [map snd somes flat_map app]. constructor; [|apply IH; assumption].
    intro I. apply H1. apply somes_in. apply somes_in in I. apply in_map_iff in I. destruct I as ([g' q] & E & I). apply filter_In in I. apply in_map_iff. exists (g', q). tauto.
  - destruct (fld_dec g f); cbn [map snd somes flat_map app]; apply IH; exact N.
Qed.
Definition built (t : tree) : Prop := forall h, sound t -> fresh h ->
  let '(h', l) := build t h in next h <= l /\ next h' = S l /\ agree h h' (next h) /\ fresh h' /\ region h' (next h) (next h') [l] /\ held h' t l.
Lemma build_list_ok : forall cs, Forall (fun e => match snd e with Some t => built t | None => True end) cs -> forall h, sound_list cs -> fresh h ->
  let '(h', rs) := build_list cs h in next h <= next h' /\ agree h h' (next h) /\ fresh h' /\ region h' (next h) (next h') (somes (map snd rs)) /\
    map fst rs = map fst cs /\ held_list h' cs (map snd rs) /\ (forall f p, In (f, p) rs -> exists l n, p = Some l /\ mem h' l = Some n /\ field_kind f (nkind n)).
Proof.
  induction cs as [|[f [t|]] cs IH]; intros B h S F; cbn [build_list].
  - split; [lia|]. split; [intros x _; reflexivity|]. split; [exact F|]. split; [|split; [reflexivity|split; [exact I|intros f p []]]].
    constructor; [lia| | | |]; [intros; lia|intros; lia|constructor|intros r []].
  - inversion B; subst. cbn [snd] in *. cbn [sound_list] in S. destruct S as (K & S1 & S2). pose proof (H1 h S1 F) as BT. destruct (build t h) as [h1 l]. destruct BT as (L1 & N1 & A1 & F1 & R1 & HT).
    pose proof (IH H2 h1 S2 F1) as BL. destruct (build_list cs h1) as [h2 rs]. destruct BL as (L2 & A2 & F2 & R2 & E2 & HL & KL).
    split; [lia|]. split; [intros x X; rewrite (A2 x) by lia; apply A1; exact X|]. split; [exact F2|].
    assert (HT2 : held h2 t l) by (apply (held_keeps h1); [apply agree_keeps; auto|exact HT]).
    split; [|split; [cbn; now rewrite E2|split; [cbn [held_list map snd]; auto|]]].
    + cbn [map snd somes flat_map]. change ([l] ++ somes (map snd rs)) with ([l] ++ somes (map snd rs)). apply region_app with (next h1); [|exact R2]. apply (region_agree h1); auto.
    + intros g p [I|I]; [|apply KL; exact I]. injection I as <- <-. destruct (held_kind _ _ _ HT2) as (n & M & KN). exists l, n. rewrite KN. auto.
  - destruct S.
Qed.
Lemma build_ok : forall t, built t.
Proof.
  induction t as [k ds cs IH] using tree_ind'. intros h S F. rewrite build_eq. rewrite sound_eq in S. pose proof (build_list_ok cs IH h S F) as BL. destruct (build_list cs h) as [h1 rs].
  destruct BL as (L & A & F1 & R & E & HL & KL). unfold alloc. cbn [next mem]. set (n := Node k (scalar ds) (fun f => entries f rs) None).
  set (h2 := Heap (fun x => if Nat.eqb x (next h1) then Some n else mem h1 x) (Datatypes.S (next h1))).
  assert (A2 : agree h1 h2 (next h1)). { intros x X. cbn. destruct (Nat.eqb_spec x (next h1)); [lia|reflexivity]. }
  assert (MN : mem h2 (next h1) = Some n) by (cbn; now rewrite Nat.eqb_refl).
  assert (F2 : fresh h2). { intros x m. cbn. destruct (Nat.eqb_spec x (next h1)); [lia|]. intro M. pose proof (F1 x m M). lia. }
  assert (LN : forall c, leads h2 (next h1) c -> In c (somes (map snd rs))).
  { intros c (n' & f & M & I). rewrite MN in M. injection M as <-. cbn in I. apply entries_in in I. apply somes_in. apply in_map_iff. exists (f, Some c). auto. }
  pose proof (region_agree _ _ _ _ _ R A2) as R2.
  split; [lia|]. split; [reflexivity|]. split; [intros x X; rewrite (A2 x) by lia; apply A; exact X|]. split; [exact F2|]. split.
  - constructor; [lia| | | |].
    + intros x X. destruct (Nat.eq_dec x (next h1)) as [-> |NE]; [|apply (rg_node _ _ _ _ R2); lia]. exists n. split; [exact MN|]. split; [reflexivity|]. split.
      * intro f. cbn [refs n]. split; [apply somes_nodup; apply (rg_nodup _ _ _ _ R)|]. intro I. apply entries_in in I. destruct (KL _ _ I) as (l & m & X1 & _). discriminate X1.
      * intros f c I. cbn [refs n] in I. apply entries_in in I. destruct (KL _ _ I) as (l & m & X1 & X2 & X3). injection X1 as ->.
        assert (IS : In l (somes (map snd rs))) by (apply somes_in; apply in_map_iff; exists (f, Some l); auto).
        pose proof (proj1 (rg_roots _ _ _ _ R l IS)) as B. split; [exact B|]. exists m. rewrite (A2 l) by lia. auto.
    + intros x y c X Y LX LY. destruct (Nat.eq_dec x (next h1)) as [-> |NX], (Nat.eq_dec y (next h1)) as [-> |NY]; [reflexivity| | |].
      * exfalso. exact (proj2 (rg_roots _ _ _ _ R2 c (LN c LX)) y ltac:(lia) LY).
      * exfalso. exact (proj2 (rg_roots _ _ _ _ R2 c (LN c LY)) x ltac:(lia) LX).
      * apply (rg_once _ _ _ _ R2 x y c); auto; lia.
    + constructor; [intros []|constructor].
    + intros r [<-|[]]. split; [lia|]. intros x X LX. destruct (Nat.eq_dec x (next h1)) as [-> |NX].
      * pose proof (proj1 (rg_roots _ _ _ _ R _ (LN _ LX))). lia.
      * pose proof (leads_in _ _ _ _ x _ R2 ltac:(lia) LX). lia.
  - rewrite held_eq. exists n, (map snd rs). split; [exact MN|]. split; [reflexivity|]. split; [reflexivity|]. split; [intro f; rewrite <- E, combine_split; reflexivity|].
    assert (K : keeps h1 h2) by (apply agree_keeps; auto). clear - HL K. revert HL. generalize (map snd rs). induction cs as [|[f [t|]] cs IHc]; intros [|[p|] ps] HL; cbn [held_list] in *; auto. destruct HL as [HT HL]. split; [exact (held_keeps _ _ K _ _ HT)|auto].
Qed.

(** *** Looking at objects *)
Definition held_opt (h : heap) (o : option tree) (p : ptr) : Prop := match o, p with Some t, Some l => held h t l | None, None => True | _, _ => False end.
Lemma held_entries : forall h f cs ps, held_list h cs ps -> Forall2 (held_opt h) (entries f cs) (entries f (combine (map fst cs) ps)).
Proof.
  intros h f. induction cs as [|[g [t|]] cs IH]; intros [|[p|] ps] H; cbn [held_list] in H; try contradiction; [constructor| |]; unfold entries in *; cbn [map fst combine filter] in *.
  - destruct H as [HT H]. destruct (fld_dec g f); cbn [map snd]; [constructor; [exact HT|]|]; apply IH; exact H.
  - destruct (fld_dec g f); cbn [map snd]; [constructor; [exact I|]|]; apply IH; exact H.
Qed.
Lemma entries_app : forall {A} f (a b : list (fld * A)), entries f (a ++ b) = entries f a ++ entries f b.
Proof. intros. unfold entries. now rewrite filter_app, map_app. Qed.
Lemma entries_other : forall {A} f (l : list (fld * A)), (forall g x, In (g, x) l -> g <> f) -> entries f l = [].
Proof.
  intros A f l H. unfold entries. induction l as [|[g x] l IH]; [reflexivity|]. cbn [filter fst]. destruct (fld_dec g f) as [-> |]; [destruct (H f x (or_introl eq_refl) eq_refl)|]. apply IH. intros g' y I. apply (H g' y). now right.
Qed.
Lemma entries_all : forall {A} f (l : list (fld * A)), (forall g x, In (g, x) l -> g = f) -> entries f l = map snd l.
Proof.
  intros A f l H. unfold entries. induction l as [|[g x] l IH]; [reflexivity|]. cbn [filter fst map snd]. destruct (fld_dec g f) as [-> |N]; [|destruct N; exact (H g x (or_introl eq_refl))]. cbn [map snd]. f_equal. apply IH. intros g' y I. apply (H g' y). now right.
Qed.
Lemma dur_field : forall f v g x, In (g, x) (to_dur f v) -> g = f.
Proof. intros f v g x I. destruct v as [| | | | |[]| | | |]; cbn in I; try contradiction; destruct I as [I|[]]; now injection I. Qed.
Lemma string_field : forall f v g x, In (g, x) (to_string f v) -> g = f.
Proof. intros f v g x I. destruct v as [| | | | |[]| | | |]; cbn in I; try contradiction; destruct I as [I|[]]; now injection I. Qed.
Lemma one_field : forall f of v g x, In (g, x) (to_one f of v) -> g = f.
Proof. intros f of v g x I. destruct v; cbn in I; try contradiction; destruct I as [I|[]]; now injection I. Qed.
Lemma list_field : forall f of v g x, In (g, x) (to_list f of v) -> g = f.
Proof. intros f of v g x I. destruct v; try destruct I. unfold to_list in I. apply in_map_iff in I. destruct I as (w & E & _). destruct w; now injection E. Qed.
Definition dur (v : gval) : option Z := match v with VPtr (VInt z) => Some z | _ => None end.
Lemma held_node : forall h k ds cs l n, held h (Tree k ds cs) l -> mem h l = Some n -> nkind n = k /\ (forall f, data n f = scalar ds f) /\ forall f, Forall2 (held_opt h) (entries f cs) (refs n f).
Proof.
  intros h k ds cs l n H M. rewrite held_eq in H. destruct H as (n' & ps & M' & K & D & R & HL). rewrite M in M'. injection M' as <-. split; [exact K|]. split; [exact D|]. intro f. rewrite R. apply held_entries. exact HL.
Qed.
Lemma dfield_held : forall h k ds cs l n f w, held h (Tree k ds cs) l -> mem h l = Some n -> entries f cs = map snd (to_dur f w) -> dfield h n f = dur w.
Proof.
  intros h k ds cs l n f w H M E. destruct (held_node _ _ _ _ _ _ H M) as (_ & _ & R). specialize (R f). rewrite E in R. unfold dfield, pfield, dur.
  destruct w as [| | | | |[]| | | |]; cbn in R; inversion R; subst; try reflexivity. destruct y as [c|]; [|contradiction]. inversion H4; subst. cbn [held_opt] in H3. rewrite held_eq in H3. destruct H3 as (cn & ps & MC & _ & D & _). rewrite MC, D. reflexivity.
Qed.
