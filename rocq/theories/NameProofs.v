(** Names: their bytes, and reading a name back. *)
From Coq Require Import String.
From Coq Require Import ZArith List Bool Lia ZifyBool ZifyNat.
From Verif Require Import Base Utf8 NameTables Lexer LexerProofs.
Import ListNotations.
Open Scope Z_scope.

Lemma in_table_low : forall t r, r < 128 -> in_table t r = true -> in_table (filter (fun e => fst (fst e) <? 128) t) r = true.
Proof.
  intros t r L H. unfold in_table in *. apply existsb_exists in H. destruct H as ([[lo hi] st] & I & H). apply existsb_exists. exists (lo, hi, st). split; auto.
  apply filter_In. split; auto. cbn. lia.
Qed.
Lemma table_byte : forall r, r < 128 -> in_table first_table r || in_table second_table r = true -> is_name_byte r = true.
Proof.
  intros r L H. apply orb_true_iff in H. destruct H as [H|H]; apply in_table_low in H; auto.
  - set (t := filter _ first_table) in H. vm_compute in t. subst t. unfold in_table in H. cbn [existsb] in H. unfold is_name_byte, within. lia.
  - set (t := filter _ second_table) in H. vm_compute in t. subst t. unfold in_table in H. cbn [existsb] in H. unfold is_name_byte, within. lia.
Qed.
Lemma table_byte_first : forall r, r < 128 -> in_table first_table r = true -> within 65 90 r || within 97 122 r || (r =? 95) || (r =? 58) = true.
Proof.
  intros r L H. apply in_table_low in H; auto. set (t := filter _ first_table) in H. vm_compute in t. subst t. unfold in_table in H. cbn [existsb] in H. unfold within. lia.
Qed.
(** A rune of more than one byte has only bytes from 128 on. *)
Lemma decode_high : forall s r n, decode_rune s = (r, n) -> (1 < n)%nat -> Forall (fun b => 128 <= b) (firstn n s).
Proof.
  intros [|b0 t] r n D N; cbn in D; [injection D as <- <-; lia|].
  destruct (lead b0) as [[[m lo] hi]|] eqn:L; [|injection D as <- <-; lia].
  assert (B0 : (1 < m)%nat -> 128 <= b0 /\ 128 <= lo). { unfold lead in L. revert L. unb; intros X Y; inversion X; subst; lia. }
  destruct m as [|[|m]]; [| injection D as <- <-; lia|].
  - unfold lead in L. revert L. unb; intro X; inversion X.
  - destruct B0 as [B0 B1]; [lia|]. destruct t as [|b1 t]; [injection D as <- <-; lia|]. destruct (negb (within lo hi b1)) eqn:W1; [injection D as <- <-; lia|]. unfold within in W1.
    destruct m as [|m]; [injection D as <- <-; cbn [firstn]; repeat constructor; lia|].
    destruct t as [|b2 t]; [injection D as <- <-; lia|]. destruct (negb (within 128 191 b2)) eqn:W2; [injection D as <- <-; lia|]. unfold within in W2.
    destruct m as [|m]; [injection D as <- <-; cbn [firstn]; repeat constructor; lia|].
    destruct t as [|b3 t]; [injection D as <- <-; lia|]. destruct (negb (within 128 191 b3)) eqn:W3; [injection D as <- <-; lia|]. unfold within in W3.
    injection D as <- <-; cbn [firstn]; repeat constructor; lia.
Qed.
Lemma decode_one : forall b t r, decode_rune (b :: t) = (r, 1%nat) -> r = rune_error \/ r = b /\ b < 128.
Proof.
  intros b t r D. cbn in D. destruct (lead b) as [[[m lo] hi]|] eqn:L; [|injection D as <-; auto]. destruct m as [|[|m]].
  - unfold lead in L. revert L. unb; intro X; inversion X.
  - injection D as <-. right. split; auto. unfold lead in L. revert L. unb; intro X; inversion X; lia.
  - destruct t as [|b1 t]; [injection D as <-; auto|]. destruct (negb (within lo hi b1)); [injection D as <-; auto|]. destruct m as [|m]; [discriminate|].
    destruct t as [|b2 t]; [injection D as <-; auto|]. destruct (negb (within 128 191 b2)); [injection D as <-; auto|]. destruct m as [|m]; [discriminate|].
    destruct t as [|b3 t]; [injection D as <-; auto|]. destruct (negb (within 128 191 b3)); [injection D as <-; auto|]. discriminate.
Qed.
Definition name_piece (p : Z * bytes) : bool := negb (bad_piece p) && (in_table first_table (fst p) || in_table second_table (fst p)).
Lemma name_pieces_bytes : forall s, forallb name_piece (pieces s) = true -> Forall (fun b => name_byte b = true) s.
Proof.
  intro s. pattern s. apply pieces_ind; [constructor|]. clear s. intros s N IH H. rewrite pieces_cons in H by auto. cbn [forallb] in H. apply andb_true_iff in H. destruct H as [H1 H2].
  specialize (IH H2). rewrite <- (firstn_skipn (snd (decode_rune s)) s). apply Forall_app. split; auto. clear IH H2.
  pose proof (decode_size s N) as [D _]. destruct (decode_rune s) as [r n] eqn:E. cbn [fst snd] in *. unfold name_piece in H1. cbn [fst snd] in H1. apply andb_true_iff in H1. destruct H1 as [H0 H1].
  destruct (Nat.eq_dec n 1) as [->|N1].
  - destruct s as [|b t]; [congruence|]. unfold bad_piece in H0. cbn in H0. destruct (decode_one _ _ _ E) as [->|[-> L]]; [discriminate|].
    cbn [firstn]. constructor; auto. unfold name_byte. rewrite (table_byte b L H1). rewrite andb_false_r. reflexivity.
  - pose proof (decode_high _ _ _ E ltac:(lia)) as F. eapply Forall_impl; [|exact F]. cbn. intros b B. unfold name_byte. replace (b <? 128) with false by lia. reflexivity.
Qed.
Lemma is_name_bytes : forall s, is_name s = true -> Forall (fun b => name_byte b = true) s /\ s <> [].
Proof.
  intros s H. unfold is_name in H. destruct (pieces s) as [|p ps] eqn:P; [discriminate|]. split; [|intros ->; discriminate].
  apply name_pieces_bytes. rewrite P. cbn [forallb]. apply andb_true_iff in H. destruct H as [H1 H2]. apply andb_true_iff in H1. destruct H1 as [H0 H1].
  unfold name_piece at 1. rewrite H0, H1. exact H2.
Qed.
(** The first byte of a name is not a digit, a dot or a hyphen. *)
Lemma is_name_first : forall b t, is_name (b :: t) = true -> 128 <= b \/ within 65 90 b || within 97 122 b || (b =? 95) || (b =? 58) = true.
Proof.
  intros b t H. unfold is_name in H. rewrite pieces_cons in H by discriminate. destruct (decode_rune (b :: t)) as [r n] eqn:E. cbn [fst snd] in H.
  apply andb_true_iff in H. destruct H as [H _]. apply andb_true_iff in H. destruct H as [H0 H1]. destruct (decode_size (b :: t) ltac:(discriminate)) as [D _]. rewrite E in D. cbn [snd] in D.
  destruct (Nat.eq_dec n 1) as [->|N1].
  - destruct (decode_one _ _ _ E) as [->|[-> L]]; [discriminate|]. right. apply table_byte_first; auto.
  - pose proof (decode_high _ _ _ E ltac:(lia)) as F. destruct n; [lia|]. cbn [firstn] in F. inversion F; subst. auto.
Qed.
Lemma span_name_app : forall s acc c rest, Forall (fun b => name_byte b = true) s -> name_byte c = false -> span_name acc (s ++ c :: rest) = NOk (acc ++ s) (c :: rest).
Proof.
  induction s as [|b s IH]; intros acc c rest F C; cbn [app span_name]; [rewrite C, app_nil_r; auto|]. inversion F; subst. rewrite H1, IH; auto. rewrite <- app_assoc. reflexivity.
Qed.
(** A name followed by a byte that is not part of a name is read back. *)
Lemma get_name_app : forall s c rest, is_name s = true -> name_byte c = false -> get_name (s ++ c :: rest) = inl (s, c :: rest).
Proof.
  intros s c rest H C. destruct (is_name_bytes s H) as [F N]. unfold get_name, read_name. destruct s as [|b t]; [congruence|]. inversion F; subst. cbn [app]. rewrite H2.
  rewrite span_name_app; auto. cbn [app]. rewrite H. reflexivity.
Qed.
