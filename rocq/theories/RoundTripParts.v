(** Fields of a value one by one: what is kept of them by a clean value, changed by the reader, and compared in the end. *)
From Coq Require Import String.
From Coq Require Import ZArith List Bool Lia ZifyBool ZifyNat.
From Verif Require Import Base Utf8 Lexer EscapeSpec Printer EncoderSpec GoType TypeInfo Simple ValueSpec Marshal Unmarshal Io MarshalProofs PropertiesMarshal NsSpec Lens LeafProofs RoundTripSpec RoundTripCheck.
Import ListNotations.
Open Scope Z_scope.

(** *** Lists *)
Lemma forall_pairs : forall {A} (p : A -> A -> bool) l, (forall x y, p x y = true -> p y x = true) -> pairs p l = true -> forall x y, In x l -> In y l -> x = y \/ p x y = true.
Proof.
  intros A p l SY. induction l as [|z l IH]; cbn [pairs In]; [intros _ x y []|]. intro H. apply andb_true_iff in H. destruct H as [H1 H2]. rewrite forallb_forall in H1.
  intros x y [->|I] [->|J]; auto.
Qed.
Lemma mem_in : forall x l, mem x l = true -> In x l.
Proof. intros x l H. apply existsb_exists in H. destruct H as (y & I & E). apply nat_eqb_list_eq in E. subst. exact I. Qed.
Lemma inb_in : forall u l, inb u l = true -> In u l.
Proof. intros x l H. apply existsb_exists in H. destruct H as (y & I & E). apply beq_eq in E. subst. exact I. Qed.
Lemma in_tails : forall x r l, In r (tails x l) <-> In (x :: r) l /\ r <> [].
Proof.
  intros x r l. unfold tails. rewrite in_flat_map. split.
  - intros ([|y [|z t]] & I & H); [destruct H|destruct H|]. destruct (Nat.eqb x y) eqn:E; [|destruct H]. apply Nat.eqb_eq in E. destruct H as [<-|[]]. subst. split; [exact I|discriminate].
  - intros [I NE]. exists (x :: r). split; auto. destruct r as [|z r]; [congruence|]. rewrite Nat.eqb_refl. left. reflexivity.
Qed.
Lemma apart_irrefl : forall a, apart a a = false.
Proof. induction a as [|x a IH]; [reflexivity|]. cbn [apart]. rewrite Nat.eqb_refl, IH. reflexivity. Qed.
Lemma nat_eqb_list_refl : forall a, nat_eqb_list a a = true.
Proof. induction a as [|x a IH]; [reflexivity|]. cbn [nat_eqb_list]. rewrite Nat.eqb_refl, IH. reflexivity. Qed.

Section Parts.
Variables (F : floats) (env : tenv) (ek : nat).
Hypothesis ZERO : forall s, wt env (TStruct s) (zero ek env (TStruct s)) = true.

(** *** Types *)
Lemma decl_peek : forall idx s v fd, wt env (TStruct s) v = true -> decl_at env s idx = Some fd -> exists w, peek env ek s idx v = Some (fd_type fd, w) /\ wt env (fd_type fd) w = true.
Proof.
  induction idx as [|x rest IH]; intros s v fd W D; cbn [decl_at] in D; [discriminate|]. apply wt_struct in W. destruct W as (l & -> & FA). destruct (nth_error (fields_of env s) x) as [f|] eqn:N; [|discriminate].
  destruct (Forall2_nth _ _ _ _ _ FA N) as (w & NW & WW). cbn [peek]. rewrite N, NW. destruct rest as [|y rest]; [injection D as ->; eauto|].
  destruct (fd_type f) as [| | | | | | |t'| |s'| |]; try discriminate.
  - destruct t' as [| | | | | | | | |s'| |]; try discriminate. destruct w; try discriminate; [apply IH; auto|apply IH; auto].
  - apply IH; auto.
Qed.
Lemma peek_wt : forall idx s v t w, wt env (TStruct s) v = true -> peek env ek s idx v = Some (t, w) -> wt env t w = true /\ exists fd, decl_at env s idx = Some fd /\ t = fd_type fd.
Proof.
  induction idx as [|x rest IH]; intros s v t w W P; cbn [peek] in P; [destruct v; discriminate|]. destruct v as [| | | | | | |l| |]; try discriminate. cbn [decl_at].
  destruct (nth_error (fields_of env s) x) as [f|] eqn:N; [|discriminate]. destruct (nth_error l x) as [u|] eqn:NU; [|discriminate].
  apply wt_struct in W. destruct W as (l' & E & FA). injection E as <-. destruct (Forall2_nth _ _ _ _ _ FA N) as (u' & NW & WW). rewrite NU in NW. injection NW as <-.
  destruct rest as [|y rest]; [injection P as <- <-; eauto|]. destruct (fd_type f) as [| | | | | | |t'| |s'| |]; try discriminate.
  - destruct t' as [| | | | | | | | |s'| |]; try discriminate. destruct u; try discriminate; eapply IH; eauto.
  - eapply IH; eauto.
Qed.
Lemma poke_wt : forall idx s v t w w', wt env (TStruct s) v = true -> peek env ek s idx v = Some (t, w) -> wt env t w' = true -> wt env (TStruct s) (poke env ek s idx v w') = true.
Proof.
  induction idx as [|x rest IH]; intros s v t w w' W P W'; cbn [peek] in P; [destruct v; discriminate|]. destruct v as [| | | | | | |l| |]; try discriminate. cbn [poke].
  destruct (nth_error (fields_of env s) x) as [f|] eqn:N; [|discriminate]. destruct (nth_error l x) as [u|] eqn:NU; [|discriminate].
  apply wt_struct in W. destruct W as (l' & E & FA). injection E as <-. destruct (Forall2_nth _ _ _ _ _ FA N) as (u' & NW & WW). rewrite NU in NW. injection NW as <-.
  assert (R : forall z, wt env (fd_type f) z = true -> wt env (TStruct s) (VRec (replace_nth x l z)) = true).
  { intros z Z. apply wt_struct. eexists. split; [reflexivity|]. unfold replace_nth. eapply UnmarshalProofs.Forall2_update; eauto. }
  apply R. destruct rest as [|y rest]; [injection P as <- <-; exact W'|]. destruct (fd_type f) as [| | | | | | |t'| |s'| |]; try discriminate.
  - destruct t' as [| | | | | | | | |s'| |]; try discriminate. destruct u; try discriminate; change (wt env (TPtr (TStruct s')) (VPtr ?z)) with (wt env (TStruct s') z); eapply IH; eauto.
  - eapply IH; eauto.
Qed.

(** *** Reading items one after the other into the fields they are for *)
Section Loop.
Variables (X : Type) (s : bytes) (fs : list finfo) (route : X -> option finfo) (st : gtype -> gval -> X -> outcome uerr gval).
Fixpoint run (v : gval) (xs : list X) : outcome uerr gval :=
  match xs with
  | [] => Ok v
  | x :: xs => match route x with
               | None => run v xs
               | Some f => do (v', _) <- update_at ek env s (fi_idx f) v (fun t w => with_unit (st t w x)) ; run v' xs
               end
  end.
Fixpoint feed (t : gtype) (w : gval) (xs : list X) : outcome uerr gval := match xs with [] => Ok w | x :: xs => do w' <- st t w x ; feed t w' xs end.
Definition for_field (f : finfo) (x : X) : bool := match route x with Some g => nat_eqb_list (fi_idx g) (fi_idx f) | None => false end.
Hypothesis APART : forall f g, In f fs -> In g fs -> fi_idx f = fi_idx g \/ apart (fi_idx f) (fi_idx g) = true.
Lemma feed_first : forall t w x xs w', feed t w (x :: xs) = Ok w' -> exists w1, st t w x = Ok w1 /\ feed t w1 xs = Ok w'.
Proof. intros t w x xs w' H. cbn [feed] in H. destruct (st t w x) as [w1| | |]; try discriminate. eauto. Qed.
Lemma run_feeds : forall xs v, wt env (TStruct s) v = true ->
  (forall x g, In x xs -> route x = Some g -> In g fs) ->
  (forall f, In f fs -> exists t w w', peek env ek s (fi_idx f) v = Some (t, w) /\ feed t w (filter (for_field f) xs) = Ok w') ->
  (forall t w x w', In x xs -> wt env t w = true -> st t w x = Ok w' -> wt env t w' = true) ->
  exists v', run v xs = Ok v' /\ wt env (TStruct s) v' = true /\
    (forall f t w, In f fs -> peek env ek s (fi_idx f) v = Some (t, w) -> exists w', peek env ek s (fi_idx f) v' = Some (t, w') /\ feed t w (filter (for_field f) xs) = Ok w') /\
    (forall f, In f fs -> alive env s (fi_idx f) v \/ filter (for_field f) xs <> [] -> alive env s (fi_idx f) v') /\
    (forall f, (forall g, In g fs -> apart (fi_idx g) (fi_idx f) = true) -> peek env ek s (fi_idx f) v' = peek env ek s (fi_idx f) v).
Proof.
  induction xs as [|x xs IH]; intros v W RT FE TY.
  - exists v. split; [reflexivity|]. split; auto. split; [intros f t w I P; exists w; auto|]. split; [intros f I [A|A]; auto; cbn in A; congruence|auto].
  - cbn [run]. destruct (route x) as [g|] eqn:R.
    + pose proof (RT x g (or_introl eq_refl) R) as IG.
      assert (FF : forall f, for_field f x = nat_eqb_list (fi_idx g) (fi_idx f)) by (intro f; unfold for_field; rewrite R; reflexivity).
      destruct (FE g IG) as (t & w & w' & P & FD). cbn [filter] in FD. rewrite FF, nat_eqb_list_refl in FD. destruct (feed_first _ _ _ _ _ FD) as (w1 & S1 & _).
      rewrite (update_poke env ek _ _ _ _ _ P _ _ (fun t w => with_unit (st t w x)) w1 tt) by (unfold with_unit; rewrite S1; reflexivity). cbn [bind].
      pose proof (peek_wt _ _ _ _ _ W P) as [WW _]. pose proof (TY t w x w1 (or_introl eq_refl) WW S1) as W1. set (v1 := poke env ek s (fi_idx g) v w1).
      assert (PV : forall f t0 w0, In f fs -> peek env ek s (fi_idx f) v = Some (t0, w0) ->
        exists w2, peek env ek s (fi_idx f) v1 = Some (t0, w2) /\ forall w3, feed t0 w0 (filter (for_field f) (x :: xs)) = Ok w3 <-> feed t0 w2 (filter (for_field f) xs) = Ok w3).
      { intros f t0 w0 If P0. cbn [filter]. rewrite FF. destruct (nat_eqb_list (fi_idx g) (fi_idx f)) eqn:E.
        - apply nat_eqb_list_eq in E. rewrite <- E in *. rewrite P in P0. injection P0 as <- <-. exists w1. split; [apply (poke_same _ _ _ _ _ _ _ _ P)|]. intro w3. cbn [feed]. rewrite S1. reflexivity.
        - destruct (APART g f IG If) as [Y|Y]; [rewrite Y, nat_eqb_list_refl in E; discriminate|]. exists w0. split; [unfold v1; rewrite (poke_other _ _ _ _ _ _ _ _ _ P Y); exact P0|]. reflexivity. }
      destruct (IH v1) as (v' & RU & W' & PK & AL & OT).
      * eapply poke_wt; eauto.
      * intros y h Iy. apply RT. right. exact Iy.
      * intros f If. destruct (FE f If) as (t0 & w0 & w3 & P0 & FD0). destruct (PV f t0 w0 If P0) as (w2 & P2 & EQ). exists t0, w2, w3. split; auto. apply EQ. exact FD0.
      * intros t0 w0 y w2 Iy. apply TY. right. exact Iy.
      * exists v'. split; auto. split; auto. split.
        { intros f t0 w0 If P0. destruct (PV f t0 w0 If P0) as (w2 & P2 & EQ). destruct (PK f t0 w2 If P2) as (w3 & P3 & FD3). exists w3. split; auto. apply EQ. exact FD3. }
        split.
        { intros f If A. apply AL; auto. cbn [filter] in A. rewrite FF in A. destruct (nat_eqb_list (fi_idx g) (fi_idx f)) eqn:E.
          - apply nat_eqb_list_eq in E. rewrite <- E. left. eapply poke_alive; eauto.
          - destruct A as [A|A]; [|auto]. left. destruct (APART g f IG If) as [Y|Y]; [rewrite Y, nat_eqb_list_refl in E; discriminate|]. eapply poke_keeps; eauto. }
        { intros f A. rewrite OT by auto. unfold v1. eapply poke_other; eauto. }
    + assert (FF : forall f, filter (for_field f) (x :: xs) = filter (for_field f) xs) by (intro f; cbn [filter]; unfold for_field at 1; rewrite R; reflexivity).
      destruct (IH v) as (v' & RU & W' & PK & AL & OT); auto.
      * intros y h Iy. apply RT. right. exact Iy.
      * intros f If. rewrite <- FF. apply FE. exact If.
      * intros t0 w0 y w2 Iy. apply TY. right. exact Iy.
      * exists v'. split; auto. split; auto. split; [intros f t w If P; rewrite FF; auto|]. split; [intros f If; rewrite FF; auto|auto].
Qed.
End Loop.

(** *** Comparing field by field *)
Lemma same_fields : forall l fs l',
  (fix go (fs : list fdecl) (l l' : list gval) {struct l} : Prop :=
     match fs, l, l' with [], [], [] => True | f :: fs, w :: l, w' :: l' => (skipped f = true \/ same env (fd_type f) w w') /\ go fs l l' | _, _, _ => False end) fs l l' <->
  length l = length fs /\ length l' = length fs /\ forall x f w w', nth_error fs x = Some f -> nth_error l x = Some w -> nth_error l' x = Some w' -> skipped f = true \/ same env (fd_type f) w w'.
Proof.
  induction l as [|w l IH]; intros [|f fs] [|w' l']; cbn [length]; try (split; [intros []|intros (A & B & _); discriminate]).
  - split; auto. intros _. split; auto. split; auto. intros [|x]; discriminate.
  - rewrite IH. split.
    + intros (A & B & C & D). split; [lia|]. split; [lia|]. intros [|x] f0 w0 w0' E1 E2 E3; cbn in *; [injection E1 as <-; injection E2 as <-; injection E3 as <-; exact A|eapply D; eauto].
    + intros (B & C & D). split; [apply (D 0%nat f w w'); reflexivity|]. split; [lia|]. split; [lia|]. intros x f0 w0 w0' E1 E2 E3. apply (D (S x) f0 w0 w0'); auto.
Qed.
Lemma same_struct : forall s l l', same env (TStruct s) (VRec l) (VRec l') <->
  length l = length (fields_of env s) /\ length l' = length (fields_of env s) /\
  forall x f w w', nth_error (fields_of env s) x = Some f -> nth_error l x = Some w -> nth_error l' x = Some w' -> skipped f = true \/ same env (fd_type f) w w'.
Proof. intros s l l'. cbn [same]. apply same_fields. Qed.
Lemma Forall2_length' : forall {A B} (R : A -> B -> Prop) l l', Forall2 R l l' -> length l = length l'.
Proof. induction 1; cbn; auto. Qed.
Lemma alive_sub : forall s x rest l f, (rest <> []) -> nth_error (fields_of env s) x = Some f -> alive env s (x :: rest) (VRec l) ->
  exists w, nth_error l x = Some w /\ match fd_type f with TStruct s' => alive env s' rest w | TPtr (TStruct s') => exists u, w = VPtr u /\ alive env s' rest u | _ => False end.
Proof.
  intros s x rest l f NE N (t & w & A). cbn [field_at] in A. rewrite N in A. destruct (nth_error l x) as [u|]; [|discriminate]. exists u. split; auto. destruct rest as [|y rest]; [congruence|].
  destruct (fd_type f) as [| | | | | | |t'| |s'| |]; try discriminate.
  - destruct t' as [| | | | | | | | |s'| |]; try discriminate. destruct u; try discriminate. eexists. split; [reflexivity|]. unfold alive. eauto.
  - unfold alive. eauto.
Qed.
Lemma covered_same : forall n s idxs must v v', covered env n s idxs must = true -> wt env (TStruct s) v = true -> wt env (TStruct s) v' = true ->
  (forall idx, In idx idxs -> exists t w w', peek env ek s idx v = Some (t, w) /\ peek env ek s idx v' = Some (t, w') /\ same env t w w') ->
  (forall idx, In idx must -> idx <> [] /\ alive env s idx v /\ alive env s idx v') ->
  same env (TStruct s) v v'.
Proof.
  induction n as [|n IH]; intros s idxs must v v' C W W' PS MS; [discriminate|]. cbn [covered] in C. apply wt_struct in W, W'. destruct W as (l & -> & FA). destruct W' as (l' & -> & FA'). apply same_struct.
  split; [symmetry; eapply Forall2_length'; eauto|]. split; [symmetry; eapply Forall2_length'; eauto|]. intros x f w w' N NL NL'. pose proof (forall_i_nth _ _ _ _ _ C N) as CX. cbn [plus] in CX. apply orb_true_iff in CX. destruct CX as [CX|CX]; [auto|right].
  destruct (Forall2_nth _ _ _ _ _ FA N) as (w0 & NW & WW). rewrite NL in NW. injection NW as <-. destruct (Forall2_nth _ _ _ _ _ FA' N) as (w0' & NW' & WW'). rewrite NL' in NW'. injection NW' as <-.
  assert (LEAF : mem [x] idxs = true -> same env (fd_type f) w w').
  { intro M. apply mem_in in M. destruct (PS _ M) as (t & u & u' & P & P' & SM). cbn [peek] in P, P'. rewrite N, NL in P. rewrite N, NL' in P'. injection P as <- <-. injection P' as <-. exact SM. }
  destruct (fd_anon f); [|auto].
  assert (MNE : forall y idx, In (y :: idx) (tails x must) -> exists u u', nth_error l x = Some u /\ nth_error l' x = Some u' /\
    match fd_type f with TStruct s' => alive env s' (y :: idx) u /\ alive env s' (y :: idx) u' | TPtr (TStruct s') => exists a a', u = VPtr a /\ u' = VPtr a' /\ alive env s' (y :: idx) a /\ alive env s' (y :: idx) a' | _ => False end).
  { intros y idx I. apply in_tails in I. destruct I as [I _]. destruct (MS _ I) as (_ & A & A'). destruct (alive_sub s x (y :: idx) l f ltac:(discriminate) N A) as (u & NU & B). destruct (alive_sub s x (y :: idx) l' f ltac:(discriminate) N A') as (u' & NU' & B').
    exists u, u'. split; auto. split; auto. destruct (fd_type f) as [| | | | | | |t'| |s'| |]; auto. destruct t'; auto. destruct B as (z & -> & B). destruct B' as (z' & -> & B'). eauto 8. }
  rewrite NL, NL' in MNE.
  destruct (fd_type f) as [| | | | | | |t'| |s'| |] eqn:FT; auto.
  - destruct t' as [| | | | | | | | |s'| |]; auto. apply andb_true_iff in CX. destruct CX as [C1 C2].
    assert (VP : exists u u', w = VPtr u /\ w' = VPtr u').
    { destruct (tails x must) as [|idx r] eqn:TM; [discriminate|]. assert (I : In idx (tails x must)) by (rewrite TM; left; reflexivity). destruct idx as [|y idx]; [apply in_tails in I; destruct I as [_ I]; congruence|].
      rewrite <- TM in MNE. destruct (MNE y idx I) as (u & u' & E1 & E2 & a & a' & -> & -> & _). injection E1 as ->. injection E2 as ->. eauto. }
    destruct VP as (u & u' & -> & ->). cbn [same]. cbn [wt] in WW, WW'. eapply (IH s' (tails x idxs) (tails x must)); auto.
    + intros idx I. apply in_tails in I. destruct I as [I NE]. destruct (PS _ I) as (t & z & z' & P & P' & SM). exists t, z, z'. cbn [peek] in P, P'. rewrite N, NL, FT in P. rewrite N, NL', FT in P'. destruct idx; [congruence|]. auto.
    + intros idx I. pose proof (proj2 (proj1 (in_tails _ _ _) I)) as NE. split; auto. destruct idx as [|y idx]; [congruence|]. destruct (MNE y idx I) as (? & ? & E1 & E2 & a & a' & -> & -> & A). injection E1 as ->. injection E2 as ->. exact A.
  - eapply (IH s' (tails x idxs) (tails x must)); auto.
    + intros idx I. apply in_tails in I. destruct I as [I NE]. destruct (PS _ I) as (t & z & z' & P & P' & SM). exists t, z, z'. cbn [peek] in P, P'. rewrite N, NL, FT in P. rewrite N, NL', FT in P'. destruct idx; [congruence|]. auto.
    + intros idx I. pose proof (proj2 (proj1 (in_tails _ _ _) I)) as NE. split; auto. destruct idx as [|y idx]; [congruence|]. destruct (MNE y idx I) as (? & ? & E1 & E2 & A). injection E1 as ->. injection E2 as ->. exact A.
Qed.

(** *** The fields of a clean value *)
Definition own_of (s : bytes) (v : gval) : option name := match v with VRec l => own_name (fields_of env s) l | _ => None end.
Definition next_space (d : option bytes) (o : option name) : option bytes := match option_map space o with Some u => Some u | None => d end.
Lemma clean_fields : forall i d s own ws fs,
  (fix go (fs : list fdecl) (ws : list gval) {struct ws} : Prop :=
     match fs, ws with
     | f :: fs, w :: ws => (skipped f = true \/ field_kept env i s own f w /\ clean F env i d (label env f) (fd_type f) w) /\ go fs ws
     | _, _ => True
     end) fs ws -> forall x f w, nth_error fs x = Some f -> nth_error ws x = Some w -> skipped f = true \/ field_kept env i s own f w /\ clean F env i d (label env f) (fd_type f) w.
Proof.
  intros i d s own. induction ws as [|w ws IH]; intros fs H x f u N NU; [destruct x; discriminate|]. destruct fs as [|g fs]; [destruct x; discriminate|]. destruct H as [H1 H2].
  destruct x as [|x]; cbn in N, NU; [injection N as <-; injection NU as <-; exact H1|eapply IH; eauto].
Qed.
Lemma first_self_none : forall fs ws i, first_self i fs = None -> own_name fs ws = None.
Proof. induction fs as [|f fs IH]; intros ws i H; [reflexivity|]. cbn [first_self own_name] in *. destruct ws; [reflexivity|]. destruct (names_itself f); [discriminate|]. eapply IH; eauto. Qed.
Lemma first_self_some : forall fs ws i j w, first_self i fs = Some j -> nth_error ws (j - i) = Some w -> own_name fs ws = match w with VName n => Some n | _ => None end.
Proof.
  induction fs as [|f fs IH]; intros ws i j w H N; [discriminate|]. cbn [first_self] in H. destruct (names_itself f) eqn:SE.
  - injection H as <-. rewrite Nat.sub_diag in N. destruct ws as [|u ws]; [discriminate|]. cbn in N. injection N as ->. cbn [own_name]. rewrite SE. reflexivity.
  - assert (i < j)%nat. { clear -H. revert i H. induction fs as [|g fs IH]; intros i H; [discriminate|]. cbn [first_self] in H. destruct (names_itself g); [injection H as <-; lia|]. apply IH in H. lia. }
    destruct ws as [|u ws]; [destruct (j - i)%nat; discriminate|]. replace (j - i)%nat with (S (j - S i))%nat in N by lia. cbn in N. cbn [own_name]. rewrite SE. eapply IH; eauto.
Qed.
Lemma clean_struct : forall i d l s v, clean F env i d l (TStruct s) v -> wt env (TStruct s) v = true ->
  has_raw env s = false /\ (forall n, own_of s v = Some n -> local n = l /\ ordinary_ns (space n) /\ (d = None \/ d = Some (space n))) /\
  exists ws, v = VRec ws /\ forall x f w, nth_error (fields_of env s) x = Some f -> nth_error ws x = Some w ->
    skipped f = true \/ field_kept env i s (option_map space (own_of s v)) f w /\ clean F env i (next_space d (own_of s v)) (label env f) (fd_type f) w.
Proof.
  intros i d l s v C W. apply wt_struct in W. destruct W as (ws & -> & FA). cbn [clean] in C. destruct C as (R & O & G). split; auto. split; auto. exists ws. split; auto.
  intros x f w. eapply (clean_fields i _ s _ ws (fields_of env s)). exact G.
Qed.
Lemma clean_at : forall idx i d l s v, clean F env i d l (TStruct s) v -> wt env (TStruct s) v = true -> path_ok env s idx = true ->
  exists fd w, decl_at env s idx = Some fd /\ (forall E, @field_at E env s idx v true = Ok (Some (fd_type fd, w, true))) /\ peek env ek s idx v = Some (fd_type fd, w) /\ wt env (fd_type fd) w = true /\ (height w < height v)%nat /\
    clean F env i (next_space d (own_of s v)) (label env fd) (fd_type fd) w /\ skipped fd = false /\
    exists s' own, field_kept env i s' own fd w /\ ((exists x, idx = [x]) -> s' = s /\ own = option_map space (own_of s v) /\ In fd (fields_of env s)).
Proof.
  induction idx as [|x rest IH]; intros i d l s v C W P; [discriminate|]. destruct (clean_struct _ _ _ _ _ C W) as (_ & _ & ws & -> & CF). apply wt_struct in W. destruct W as (l' & E & FA). injection E as <-.
  cbn [path_ok decl_at] in *. destruct (nth_error (fields_of env s) x) as [f|] eqn:N; [|discriminate]. destruct (Forall2_nth _ _ _ _ _ FA N) as (w & NW & WW). apply andb_true_iff in P. destruct P as [NS P]. apply negb_true_iff in NS.
  destruct (CF x f w N NW) as [Y|[FK CW]]; [congruence|]. pose proof (height_field ws w (nth_error_In _ _ NW)) as HT. cbn [field_at peek]. rewrite N, NW. destruct rest as [|y rest].
  - exists f, w. do 7 (split; [solve [auto]|]). do 2 eexists. split; [exact FK|]. intros _. split; auto. split; auto. eapply nth_error_In; eauto.
  - assert (SUB : forall s' u, fd_anon f && Load.none (first_self 0 (fields_of env s')) && path_ok env s' (y :: rest) = true -> clean F env i (next_space d (own_of s (VRec ws))) (label env f) (TStruct s') u -> wt env (TStruct s') u = true -> (height u <= height w)%nat ->
      exists fd w1, decl_at env s' (y :: rest) = Some fd /\ (forall E, @field_at E env s' (y :: rest) u true = Ok (Some (fd_type fd, w1, true))) /\ peek env ek s' (y :: rest) u = Some (fd_type fd, w1) /\ wt env (fd_type fd) w1 = true /\ (height w1 < height (VRec ws))%nat /\
        clean F env i (next_space d (own_of s (VRec ws))) (label env fd) (fd_type fd) w1 /\ skipped fd = false /\
        exists s'' own, field_kept env i s'' own fd w1 /\ ((exists x0, x :: y :: rest = [x0]) -> s'' = s /\ own = option_map space (own_of s (VRec ws)) /\ In fd (fields_of env s))).
    { intros s' u PO CU WU HU. apply andb_true_iff in PO. destruct PO as [PO P2]. apply andb_true_iff in PO. destruct PO as [AN NO]. destruct (IH i _ _ s' u CU WU P2) as (fd & w1 & D & FT & PK & W1 & H1 & C1 & S1 & s'' & own & K & _).
      assert (OW : own_of s' u = None). { destruct u; try reflexivity. cbn [own_of]. destruct (first_self 0 (fields_of env s')) eqn:FS; [discriminate|]. eapply first_self_none; eauto. }
      rewrite OW in C1. exists fd, w1. do 4 (split; [solve [auto]|]). split; [lia|]. split; [exact C1|]. split; auto. exists s'', own. split; auto. intros (x0 & X). discriminate X. }
    destruct (fd_type f) as [| | | | | | |t'| |s'| |] eqn:FT; try discriminate.
    + destruct t' as [| | | | | | | | |s'| |]; try discriminate. destruct w as [| | | | |u| | | |]; try discriminate.
      * exfalso. apply (proj1 FK); auto. apply andb_true_iff in P. destruct P as [P _]. apply andb_true_iff in P. apply P.
      * cbn [clean] in CW. destruct CW as [_ CW]. apply (SUB s' u); auto.
    + apply (SUB s' w); auto.
Qed.
End Parts.
