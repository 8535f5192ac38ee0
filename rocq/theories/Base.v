(** Common vocabulary of the model: bytes, Go strings, machine integers, outcomes. *)
From Coq Require Import String Ascii.
From Coq Require Import ZArith List Bool Lia.
From Coq Require Import ZifyBool ZifyNat ZifyN.
Import ListNotations.
Open Scope Z_scope.

(** A byte is a [Z]; well-formed bytes are in [0, 256).  A Go [string] or [[]byte] is a list of bytes. *)
Definition byte := Z.
Definition bytes := list Z.
Definition is_byte (b : Z) : bool := (0 <=? b) && (b <? 256).

(** Literal text of the Go sources as bytes. *)
Fixpoint str (s : string) : bytes :=
  match s with
  | EmptyString => []
  | String c s' => Z.of_N (N_of_ascii c) :: str s'
  end.

(** Printable form of bytes, only used to display results. *)
Fixpoint show (b : bytes) : string :=
  match b with
  | [] => EmptyString
  | c :: b' => String (ascii_of_N (Z.to_N c)) (show b')
  end.

(** Go [==] on strings. *)
Fixpoint beq (a b : bytes) : bool :=
  match a, b with
  | [], [] => true
  | x :: a', y :: b' => (x =? y) && beq a' b'
  | _, _ => false
  end.

Lemma beq_eq : forall a b, beq a b = true <-> a = b.
Proof.
  induction a as [|x a IH]; destruct b as [|y b]; cbn; split; intro H; try easy.
  - apply andb_true_iff in H. destruct H as [H1 H2].
    apply Z.eqb_eq in H1. apply IH in H2. congruence.
  - inversion H; subst. rewrite Z.eqb_refl. cbn. now apply IH.
Qed.

Lemma beq_refl : forall a, beq a a = true.
Proof. intro a. now apply beq_eq. Qed.

Lemma beq_neq : forall a b, beq a b = false <-> a <> b.
Proof.
  intros a b. split; intro H.
  - intro E. apply beq_eq in E. congruence.
  - destruct (beq a b) eqn:E; auto. apply beq_eq in E. contradiction.
Qed.

Lemma beq_sym : forall a b, beq a b = beq b a.
Proof.
  intros. destruct (beq a b) eqn:E.
  - apply beq_eq in E. subst. symmetry. apply beq_refl.
  - symmetry. apply beq_neq. apply beq_neq in E. congruence.
Qed.

Definition bytes_dec (a b : bytes) : {a = b} + {a <> b} := list_eq_dec Z.eq_dec a b.

(** Result of running Go code: a value, an error value, a run-time panic, or (model only)
    a recursion budget that was used up. *)
Inductive outcome (E A : Type) : Type :=
| Ok (a : A)
| Err (e : E)
| Panic
| OutOfFuel.
Arguments Ok {E A} a.
Arguments Err {E A} e.
Arguments Panic {E A}.
Arguments OutOfFuel {E A}.

Definition bind {E A B} (x : outcome E A) (f : A -> outcome E B) : outcome E B :=
  match x with
  | Ok a => f a
  | Err e => Err e
  | Panic => Panic
  | OutOfFuel => OutOfFuel
  end.
Declare Scope outcome_scope.
Notation "'do' x <- a ; b" := (bind a (fun x => b))
  (at level 200, x pattern, a at level 100, b at level 200) : outcome_scope.
Open Scope outcome_scope.

(** Machine integers: the mathematical value reduced the way Go reduces it. *)
Definition two32 : Z := 4294967296.
Definition two63 : Z := 9223372036854775808.
Definition two64 : Z := 18446744073709551616.
Definition wrap_u32 (z : Z) : Z := z mod two32.
Definition wrap_u64 (z : Z) : Z := z mod two64.
Definition wrap_i64 (z : Z) : Z := (z + two63) mod two64 - two63.
Definition is_i64 (z : Z) : bool := (- two63 <=? z) && (z <? two63).
Definition is_u64 (z : Z) : bool := (0 <=? z) && (z <? two64).
Definition is_u32 (z : Z) : bool := (0 <=? z) && (z <? two32).

Lemma wrap_i64_id : forall z, is_i64 z = true -> wrap_i64 z = z.
Proof.
  unfold is_i64, wrap_i64, two63, two64. intros z H.
  rewrite Z.mod_small; lia.
Qed.
Lemma wrap_u64_id : forall z, is_u64 z = true -> wrap_u64 z = z.
Proof. unfold is_u64, wrap_u64, two64. intros. apply Z.mod_small. lia. Qed.
Lemma wrap_u32_id : forall z, is_u32 z = true -> wrap_u32 z = z.
Proof. unfold is_u32, wrap_u32, two32. intros. apply Z.mod_small. lia. Qed.
Lemma wrap_i64_range : forall z, is_i64 (wrap_i64 z) = true.
Proof.
  intro z. unfold is_i64, wrap_i64, two63, two64.
  pose proof (Z.mod_pos_bound (z + 9223372036854775808) 18446744073709551616). lia.
Qed.
Lemma wrap_u64_range : forall z, is_u64 (wrap_u64 z) = true.
Proof.
  intro z. unfold is_u64, wrap_u64, two64.
  pose proof (Z.mod_pos_bound z 18446744073709551616). lia.
Qed.

(** Integer division as in Go: truncated. *)
Definition go_div (a b : Z) : Z := Z.quot a b.
Definition go_rem (a b : Z) : Z := Z.rem a b.

(** Decimal digits *)
Definition is_digit (b : Z) : bool := (48 <=? b) && (b <=? 57).
