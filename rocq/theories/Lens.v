(** Fields of struct values as places: what update_at changes and what it leaves alone. *)
From Coq Require Import String.
From Coq Require Import ZArith List Bool Lia.
From Verif Require Import Base Lexer GoType TypeInfo Simple ValueSpec.
Import ListNotations.
Open Scope Z_scope.

Definition replace_nth {A} (x : nat) (l : list A) (w : A) : list A := firstn x l ++ w :: skipn (S x) l.
Lemma replace_nth_error : forall {A} x (l : list A) w y, (x < length l)%nat -> nth_error (replace_nth x l w) y = if (x =? y)%nat then Some w else nth_error l y.
Proof.
  unfold replace_nth. induction x as [|x IH]; intros l w y H; destruct l as [|z l]; cbn [length] in H; try lia.
  - destruct y; reflexivity.
  - destruct y as [|y]; [reflexivity|]. cbn [firstn app nth_error]. change (skipn (S (S x)) (z :: l)) with (skipn (S x) l). apply (IH l w y). lia.
Qed.
Lemma replace_length : forall {A} x (l : list A) w, (x < length l)%nat -> length (replace_nth x l w) = length l.
Proof. intros A x l w H. unfold replace_nth. rewrite app_length. cbn [length]. rewrite firstn_length, skipn_length. lia. Qed.

Section Lens.
Variables (env : tenv) (ek : nat).
(** The type and value of a field, which is zero behind a nil embedded pointer. *)
Fixpoint peek (s : bytes) (idx : list nat) (v : gval) : option (gtype * gval) :=
  match idx, v with
  | x :: rest, VRec l =>
      match nth_error (fields_of env s) x, nth_error l x with
      | Some f, Some w =>
          match rest with
          | [] => Some (fd_type f, w)
          | _ => match fd_type f, w with
                 | TStruct s', _ => peek s' rest w
                 | TPtr (TStruct s'), VPtr u => peek s' rest u
                 | TPtr (TStruct s'), VNil => peek s' rest (zero ek env (TStruct s'))
                 | _, _ => None
                 end
          end
      | _, _ => None
      end
  | _, _ => None
  end.
(** The value with a field set, nil embedded pointers on the way initialised. *)
Fixpoint poke (s : bytes) (idx : list nat) (v w' : gval) : gval :=
  match idx, v with
  | x :: rest, VRec l =>
      match nth_error (fields_of env s) x, nth_error l x with
      | Some f, Some w =>
          VRec (replace_nth x l
            match rest with
            | [] => w'
            | _ => match fd_type f, w with
                   | TStruct s', _ => poke s' rest w w'
                   | TPtr (TStruct s'), VPtr u => VPtr (poke s' rest u w')
                   | TPtr (TStruct s'), VNil => VPtr (poke s' rest (zero ek env (TStruct s')) w')
                   | _, _ => w
                   end
            end)
      | _, _ => v
      end
  | _, _ => v
  end.
(** The field is there: no nil embedded pointer is in front of it. *)
Definition alive (s : bytes) (idx : list nat) (v : gval) : Prop := exists t w, @field_at unit env s idx v true = Ok (Some (t, w, true)).
Fixpoint apart (a b : list nat) : bool := match a, b with x :: a, y :: b => negb (x =? y)%nat || apart a b | _, _ => false end.

Lemma update_poke : forall idx s v t w, peek s idx v = Some (t, w) -> forall E A (f : gtype -> gval -> outcome E (gval * A)) w' a, f t w = Ok (w', a) ->
  update_at ek env s idx v f = Ok (poke s idx v w', a).
Proof.
  induction idx as [|x rest IH]; intros s v t w P E A f w' a H; cbn [peek] in P; [destruct v; discriminate|]. destruct v as [| | | | | | |l| |]; try discriminate. cbn [update_at poke].
  destruct (nth_error (fields_of env s) x) as [fd|]; [|discriminate]. destruct (nth_error l x) as [u|]; [|discriminate]. destruct rest as [|y rest].
  - injection P as <- <-. rewrite H. reflexivity.
  - destruct (fd_type fd) as [| | | | | | |t'| |s'| |]; try discriminate.
    + destruct t'; try discriminate. destruct u; try discriminate; rewrite (IH _ _ _ _ P _ _ _ _ _ H); reflexivity.
    + rewrite (IH _ _ _ _ P _ _ _ _ _ H). reflexivity.
Qed.
Lemma update_peek : forall idx s v E A (f : gtype -> gval -> outcome E (gval * A)) v' a, update_at ek env s idx v f = Ok (v', a) ->
  exists t w w', peek s idx v = Some (t, w) /\ f t w = Ok (w', a) /\ v' = poke s idx v w'.
Proof.
  induction idx as [|x rest IH]; intros s v E A f v' a H; cbn [update_at] in H; [destruct v; discriminate|]. destruct v as [| | | | | | |l| |]; try discriminate. cbn [peek poke].
  destruct (nth_error (fields_of env s) x) as [fd|]; [|discriminate]. destruct (nth_error l x) as [u|]; [|discriminate]. destruct rest as [|y rest].
  - destruct (f (fd_type fd) u) as [[w' a']| | |] eqn:FE; cbn [bind] in H; try discriminate. injection H as <- <-. eauto 6.
  - destruct (fd_type fd) as [| | | | | | |t'| |s'| |]; try discriminate.
    + destruct t'; try discriminate. destruct u; try discriminate.
      * destruct (update_at ek env s0 (y :: rest) _ f) as [[u' a']| | |] eqn:U; cbn [bind] in H; try discriminate. injection H as <- <-. destruct (IH _ _ _ _ _ _ _ U) as (t & w & w' & P & FE & ->). eauto 6.
      * destruct (update_at ek env s0 (y :: rest) _ f) as [[u' a']| | |] eqn:U; cbn [bind] in H; try discriminate. injection H as <- <-. destruct (IH _ _ _ _ _ _ _ U) as (t & w & w' & P & FE & ->). eauto 6.
    + destruct (update_at ek env s' (y :: rest) _ f) as [[u' a']| | |] eqn:U; cbn [bind] in H; try discriminate. injection H as <- <-. destruct (IH _ _ _ _ _ _ _ U) as (t & w & w' & P & FE & ->). eauto 6.
Qed.
Lemma nth_lt : forall {A} (l : list A) x w, nth_error l x = Some w -> (x < length l)%nat.
Proof. intros. apply nth_error_Some. congruence. Qed.
Lemma poke_same : forall idx s v t w w', peek s idx v = Some (t, w) -> peek s idx (poke s idx v w') = Some (t, w').
Proof.
  induction idx as [|x rest IH]; intros s v t w w' P; cbn [peek] in P; [destruct v; discriminate|]. destruct v as [| | | | | | |l| |]; try discriminate. cbn [poke].
  destruct (nth_error (fields_of env s) x) as [fd|] eqn:FD; [|discriminate]. destruct (nth_error l x) as [u|] eqn:N; [|discriminate]. cbn [peek]. rewrite FD, replace_nth_error, Nat.eqb_refl by (eapply nth_lt; eauto).
  destruct rest as [|y rest]; [injection P as <- <-; reflexivity|]. destruct (fd_type fd) as [| | | | | | |t'| |s'| |]; try discriminate.
  - destruct t'; try discriminate. destruct u; try discriminate; eapply IH; eauto.
  - eapply IH; eauto.
Qed.
Lemma poke_other : forall idx s v t w w' idx', peek s idx v = Some (t, w) -> apart idx idx' = true -> peek s idx' (poke s idx v w') = peek s idx' v.
Proof.
  induction idx as [|x rest IH]; intros s v t w w' idx' P AP; cbn [peek] in P; [destruct v; discriminate|]. destruct v as [| | | | | | |l| |]; try discriminate. cbn [poke].
  destruct (nth_error (fields_of env s) x) as [fd|] eqn:FD; [|discriminate]. destruct (nth_error l x) as [u|] eqn:N; [|discriminate]. destruct idx' as [|x' rest']; [discriminate|]. cbn [peek].
  destruct (nth_error (fields_of env s) x') as [fd'|] eqn:FD'; [|reflexivity]. rewrite replace_nth_error by (eapply nth_lt; eauto). cbn [apart] in AP. destruct (x =? x')%nat eqn:EX.
  - apply Nat.eqb_eq in EX. subst x'. cbn [negb orb] in AP. rewrite FD in FD'. injection FD' as <-. rewrite N. destruct rest as [|y rest]; [discriminate|]. destruct rest' as [|y' rest']; [cbn in AP; discriminate|].
    destruct (fd_type fd) as [| | | | | | |t'| |s'| |]; try discriminate.
    + destruct t'; try discriminate. destruct u; try discriminate; eapply IH; eauto.
    + eapply IH; eauto.
  - reflexivity.
Qed.
Lemma alive_peek : forall idx s v, alive s idx v -> exists t w, peek s idx v = Some (t, w) /\ forall E, @field_at E env s idx v true = Ok (Some (t, w, true)).
Proof.
  induction idx as [|x rest IH]; intros s v (t & w & H); cbn [field_at] in H; [destruct v; discriminate|]. destruct v as [| | | | | | |l| |]; try discriminate. cbn [peek field_at].
  destruct (nth_error (fields_of env s) x) as [fd|] eqn:FD; [|discriminate]. destruct (nth_error l x) as [u|] eqn:N; [|discriminate]. destruct rest as [|y rest]; [injection H as <- <-; eauto|].
  destruct (fd_type fd) as [| | | | | | |t'| |s'| |]; try discriminate.
  - destruct t'; try discriminate. destruct u; try discriminate. apply IH. unfold alive. eauto.
  - apply IH. unfold alive. eauto.
Qed.
Lemma field_at_peek : forall {E} idx s v t w ad, @field_at E env s idx v true = Ok (Some (t, w, ad)) -> peek s idx v = Some (t, w) /\ alive s idx v.
Proof.
  intros E. induction idx as [|x rest IH]; intros s v t w ad H; cbn [field_at] in H; [destruct v; discriminate|]. destruct v as [| | | | | | |l| |]; try discriminate. unfold alive. cbn [peek field_at].
  destruct (nth_error (fields_of env s) x) as [fd|] eqn:FD; [|discriminate]. destruct (nth_error l x) as [u|] eqn:N; [|discriminate]. destruct rest as [|y rest]; [injection H as <- <- <-; eauto|].
  destruct (fd_type fd) as [| | | | | | |t'| |s'| |]; try discriminate.
  - destruct t'; try discriminate. destruct u; try discriminate. eapply IH; eauto.
  - eapply IH; eauto.
Qed.
Lemma poke_alive : forall idx s v t w w', peek s idx v = Some (t, w) -> alive s idx (poke s idx v w').
Proof.
  induction idx as [|x rest IH]; intros s v t w w' P; cbn [peek] in P; [destruct v; discriminate|]. destruct v as [| | | | | | |l| |]; try discriminate. cbn [poke].
  destruct (nth_error (fields_of env s) x) as [fd|] eqn:FD; [|discriminate]. destruct (nth_error l x) as [u|] eqn:N; [|discriminate]. unfold alive. cbn [field_at]. rewrite FD, replace_nth_error, Nat.eqb_refl by (eapply nth_lt; eauto).
  destruct rest as [|y rest]; [eauto|]. destruct (fd_type fd) as [| | | | | | |t'| |s'| |]; try discriminate.
  - destruct t'; try discriminate. destruct u; try discriminate; eapply IH; eauto.
  - eapply IH; eauto.
Qed.
Lemma poke_keeps : forall idx s v t w w' idx', peek s idx v = Some (t, w) -> apart idx idx' = true -> alive s idx' v -> alive s idx' (poke s idx v w').
Proof.
  induction idx as [|x rest IH]; intros s v t w w' idx' P AP (t0 & w0 & L); cbn [peek] in P; [destruct v; discriminate|]. destruct v as [| | | | | | |l| |]; try discriminate. cbn [poke].
  destruct (nth_error (fields_of env s) x) as [fd|] eqn:FD; [|discriminate]. destruct (nth_error l x) as [u|] eqn:N; [|discriminate]. destruct idx' as [|x' rest']; [discriminate|]. unfold alive. cbn [field_at] in *.
  destruct (nth_error (fields_of env s) x') as [fd'|] eqn:FD'; [|discriminate]. rewrite replace_nth_error by (eapply nth_lt; eauto). cbn [apart] in AP. destruct (x =? x')%nat eqn:EX.
  - apply Nat.eqb_eq in EX. subst x'. cbn [negb orb] in AP. rewrite FD in FD'. injection FD' as <-. rewrite N in L. destruct rest as [|y rest]; [discriminate|]. destruct rest' as [|y' rest']; [cbn in AP; discriminate|].
    destruct (fd_type fd) as [| | | | | | |t'| |s'| |]; try discriminate.
    + destruct t'; try discriminate. destruct u; try discriminate; eapply IH; eauto; unfold alive; eauto.
    + eapply IH; eauto. unfold alive; eauto.
  - destruct (nth_error l x'); [eauto|discriminate].
Qed.

(** *** Blank values *)
Definition blank (t : gtype) (v : gval) : Prop := exists k, v = zero k env t /\ wt env t v = true.
Lemma wt_fields : forall l fs,
  (fix go (fs : list fdecl) (l : list gval) {struct l} : bool := match fs, l with [], [] => true | f :: fs, w :: l => wt env (fd_type f) w && go fs l | _, _ => false end) fs l = true <->
  Forall2 (fun f w => wt env (fd_type f) w = true) fs l.
Proof.
  induction l as [|w l IH]; intros [|f fs]; split; intro H; try discriminate; try constructor; try (inversion H; fail).
  - apply andb_true_iff in H. apply H.
  - apply IH. apply andb_true_iff in H. apply H.
  - inversion H; subst. apply andb_true_iff. split; auto. apply IH; auto.
Qed.
Lemma wt_struct : forall s v, wt env (TStruct s) v = true <-> exists l, v = VRec l /\ Forall2 (fun f w => wt env (fd_type f) w = true) (fields_of env s) l.
Proof.
  intros s v. split.
  - intro H. destruct v as [| |z| | | | |l| |]; cbn in H; try discriminate. exists l. split; auto. apply wt_fields. exact H.
  - intros (l & -> & H). cbn [wt]. apply wt_fields. exact H.
Qed.
Lemma Forall2_nth : forall {A B} (R : A -> B -> Prop) l l' x a, Forall2 R l l' -> nth_error l x = Some a -> exists b, nth_error l' x = Some b /\ R a b.
Proof. intros A B R l l' x a H. revert x. induction H as [|y z l l' HR _ IH]; intros [|x] E; try discriminate; cbn in *; [injection E as <-; eauto|apply IH; auto]. Qed.
Hypothesis ZERO : forall s, wt env (TStruct s) (zero ek env (TStruct s)) = true.
Lemma blank_field : forall s k x fd, wt env (TStruct s) (zero k env (TStruct s)) = true -> nth_error (fields_of env s) x = Some fd ->
  exists l w, zero k env (TStruct s) = VRec l /\ nth_error l x = Some w /\ blank (fd_type fd) w.
Proof.
  intros s k x fd W N. pose proof (proj1 (wt_struct _ _) W) as (l & E & F). destruct (Forall2_nth _ _ _ _ _ F N) as (w & NW & WW). exists l, w. split; auto. split; auto.
  destruct k as [|k]; cbn [zero] in E; injection E as <-; [destruct x; discriminate|]. rewrite nth_error_map, N in NW. injection NW as <-. exists k. split; auto.
Qed.
Lemma blank_peek : forall idx s v fd, blank (TStruct s) v -> decl_at env s idx = Some fd -> exists w, peek s idx v = Some (fd_type fd, w) /\ blank (fd_type fd) w.
Proof.
  induction idx as [|x rest IH]; intros s v fd (k & -> & W) D; cbn [decl_at] in D; [discriminate|]. destruct (nth_error (fields_of env s) x) as [f|] eqn:N; [|discriminate].
  destruct (blank_field s k x f W N) as (l & w & E & NW & B). rewrite E. cbn [peek]. rewrite N, NW. destruct rest as [|y rest]; [injection D as ->; eauto|].
  destruct (fd_type f) as [| | | | | | |t'| |s'| |]; try discriminate.
  - destruct t'; try discriminate. destruct B as (k' & -> & _). replace (zero k' env (TPtr (TStruct s0))) with VNil by (destruct k'; reflexivity). apply IH; auto. exists ek. split; auto.
  - apply IH; auto.
Qed.
Lemma zero_blank : forall t, blank t (zero ek env t).
Proof. intros t. exists ek. split; auto. destruct t; try apply ZERO; destruct ek; reflexivity. Qed.
End Lens.
