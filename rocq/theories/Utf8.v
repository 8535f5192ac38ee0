(** UTF-8 as used by the xml package.
    [utf8.DecodeRune], [utf8.DecodeRuneInString] and [string(rune)] are Go standard library code, not
    in /repo; they are modelled from their documented behaviour (the table of the Unicode standard,
    one byte consumed and U+FFFD returned for anything invalid).  Callers:
    xml/xml.go:1183 (text), 1290 and 1301 (isName), 1972 (escapeText), 2016 (EscapeString), 1118. *)
From Coq Require Import String.
From Coq Require Import ZArith List Bool Lia.
From Coq Require Import ZifyBool ZifyNat ZifyN.
From Verif Require Import Base.
Import ListNotations.
Open Scope Z_scope.

Definition rune_error : Z := 65533. (* U+FFFD *)

(** Smallest and largest allowed second byte and total length for a first byte; [None] when no
    encoding starts with it. *)
Definition lead (b : Z) : option (nat * Z * Z) :=
  if b <? 128 then Some (1%nat, 128, 191)
  else if b <? 194 then None
  else if b <? 224 then Some (2%nat, 128, 191)
  else if b =? 224 then Some (3%nat, 160, 191)
  else if b =? 237 then Some (3%nat, 128, 159)
  else if b <? 240 then Some (3%nat, 128, 191)
  else if b =? 240 then Some (4%nat, 144, 191)
  else if b <? 244 then Some (4%nat, 128, 191)
  else if b =? 244 then Some (4%nat, 128, 143)
  else None.
Definition within (lo hi b : Z) : bool := (lo <=? b) && (b <=? hi).

(** [utf8.DecodeRune]: the rune and the number of bytes it occupies; (U+FFFD, 0) for no input and
    (U+FFFD, 1) for an invalid encoding. *)
Definition decode_rune (s : bytes) : Z * nat :=
  match s with
  | [] => (rune_error, 0%nat)
  | b0 :: t =>
      match lead b0 with
      | None => (rune_error, 1%nat)
      | Some (1%nat, _, _) => (b0, 1%nat)
      | Some (n, lo, hi) =>
          match t with
          | [] => (rune_error, 1%nat)
          | b1 :: t =>
              if negb (within lo hi b1) then (rune_error, 1%nat)
              else match n with
                   | 2%nat => ((b0 - 192) * 64 + (b1 - 128), 2%nat)
                   | _ =>
                     match t with
                     | [] => (rune_error, 1%nat)
                     | b2 :: t =>
                         if negb (within 128 191 b2) then (rune_error, 1%nat)
                         else match n with
                              | 3%nat => ((b0 - 224) * 4096 + (b1 - 128) * 64 + (b2 - 128), 3%nat)
                              | _ =>
                                match t with
                                | [] => (rune_error, 1%nat)
                                | b3 :: _ =>
                                    if negb (within 128 191 b3) then (rune_error, 1%nat)
                                    else ((b0 - 240) * 262144 + (b1 - 128) * 4096 + (b2 - 128) * 64 + (b3 - 128), 4%nat)
                                end
                              end
                     end
                   end
          end
      end
  end.

(** [string(rune)] / [utf8.AppendRune]: surrogates and values out of range give U+FFFD. *)
Definition encode_rune (r : Z) : bytes :=
  if (r <? 0) || (1114111 <? r) || ((55296 <=? r) && (r <=? 57343)) then [239; 191; 189]
  else if r <? 128 then [r]
  else if r <? 2048 then [192 + r / 64; 128 + r mod 64]
  else if r <? 65536 then [224 + r / 4096; 128 + (r / 64) mod 64; 128 + r mod 64]
  else [240 + r / 262144; 128 + (r / 4096) mod 64; 128 + (r / 64) mod 64; 128 + r mod 64].

(** The loop [for len(s) > 0 { r, n := DecodeRune(s); ...; s = s[n:] }] as the list of pieces it
    visits: each rune with the bytes it was decoded from. *)
Fixpoint pieces_fuel (k : nat) (s : bytes) : list (Z * bytes) :=
  match k, s with
  | O, _ => []
  | _, [] => []
  | S k, _ => let '(r, n) := decode_rune s in (r, firstn n s) :: pieces_fuel k (skipn n s)
  end.
Definition pieces (s : bytes) : list (Z * bytes) := pieces_fuel (length s) s.

(** xml/xml.go:1202-1209 isInCharacterRange *)
Definition in_char_range (r : Z) : bool :=
  (r =? 9) || (r =? 10) || (r =? 13)
  || ((32 <=? r) && (r <=? 55295))
  || ((57344 <=? r) && (r <=? 65533))
  || ((65536 <=? r) && (r <=? 1114111)).

(** *** Facts *)

Definition is_bytes (s : bytes) : Prop := Forall (fun b => 0 <= b < 256) s.

Lemma decode_size : forall s, s <> [] -> (1 <= snd (decode_rune s) <= 4)%nat /\ (snd (decode_rune s) <= length s)%nat.
Proof.
  intros [|b0 t] H; [congruence|]. unfold decode_rune.
  destruct (lead b0) as [[[n lo] hi]|]; [|cbn; lia].
  destruct n as [|[|[|[|n]]]]; cbn [snd length]; try lia;
  repeat match goal with
         | |- context [match ?t with [] => _ | _ => _ end] => destruct t; cbn [snd length]; try lia
         | |- context [if ?c then _ else _] => destruct c; cbn [snd length]; try lia
         end.
Qed.

Lemma pieces_fuel_enough : forall k k' s, (length s <= k)%nat -> (length s <= k')%nat -> pieces_fuel k s = pieces_fuel k' s.
Proof.
  induction k as [|k IH]; intros [|k'] s H H'; cbn; auto.
  - destruct s; cbn in *; [auto|lia].
  - destruct s; cbn in *; [auto|lia].
  - destruct s as [|b t]; auto. pose proof (decode_size (b :: t)) as D.
    destruct (decode_rune (b :: t)) as [r n]. cbn [snd] in D. destruct D as [D1 D2]; [discriminate|].
    f_equal. assert (L : (length (skipn n (b :: t)) <= length t)%nat) by (rewrite skipn_length; cbn [length]; lia).
    cbn [length] in H, H'. apply IH; lia.
Qed.

Lemma pieces_nil : pieces [] = []. Proof. reflexivity. Qed.
Lemma pieces_cons : forall s, s <> [] ->
  pieces s = (fst (decode_rune s), firstn (snd (decode_rune s)) s) :: pieces (skipn (snd (decode_rune s)) s).
Proof.
  intros s H. unfold pieces. destruct s as [|b t]; [congruence|]. pose proof (decode_size (b :: t) H) as D.
  cbn [length pieces_fuel]. destruct (decode_rune (b :: t)) as [r n] eqn:E. cbn [fst snd] in *. f_equal.
  apply pieces_fuel_enough; rewrite skipn_length; cbn [length]; lia.
Qed.

(** Induction over the pieces of a string. *)
Lemma pieces_ind : forall P : bytes -> Prop,
  P [] ->
  (forall s, s <> [] -> P (skipn (snd (decode_rune s)) s) -> P s) ->
  forall s, P s.
Proof.
  intros P H0 H1 s. remember (length s) as k eqn:E. assert (L : (length s <= k)%nat) by lia. clear E. revert s L.
  induction k as [|k IH]; intros s L.
  - destruct s; cbn in L; [exact H0|lia].
  - destruct s as [|b t] eqn:E; [exact H0|]. rewrite <- E in *. assert (N : s <> []) by (subst; discriminate).
    apply H1; auto. apply IH. rewrite skipn_length. pose proof (decode_size s N). lia.
Qed.

(** No byte is lost or added. *)
Lemma pieces_concat : forall s, concat (map snd (pieces s)) = s.
Proof.
  apply pieces_ind; [reflexivity|]. intros s N IH. rewrite pieces_cons by auto. cbn [map concat snd]. rewrite IH. apply firstn_skipn.
Qed.

Definition scalar (r : Z) : Prop := 0 <= r <= 55295 \/ 57344 <= r <= 1114111.

Ltac unb := repeat match goal with |- context [if ?b then _ else _] => destruct b eqn:? end.

Lemma lead_1 : forall b, 0 <= b < 128 -> lead b = Some (1%nat, 128, 191).
Proof. intros b H. unfold lead. destruct (b <? 128) eqn:E; auto; lia. Qed.

(** A scalar value encodes to bytes that decode to it, whatever follows. *)
Lemma decode_encode : forall r rest, scalar r -> decode_rune (encode_rune r ++ rest) = (r, length (encode_rune r)).
Proof.
  intros r rest S. unfold encode_rune, scalar in *.
  destruct ((r <? 0) || (1114111 <? r) || ((55296 <=? r) && (r <=? 57343))) eqn:E0; [lia|].
  destruct (r <? 128) eqn:E1.
  { cbn [app decode_rune length]. rewrite lead_1 by lia. reflexivity. }
  destruct (r <? 2048) eqn:E2.
  { cbn [app decode_rune length].
    assert (L : lead (192 + r / 64) = Some (2%nat, 128, 191)).
    { unfold lead. assert (2 <= r / 64 < 32) by (Z.to_euclidean_division_equations; lia). unb; auto; lia. }
    rewrite L. unfold within. pose proof (Z.mod_pos_bound r 64 ltac:(lia)).
    destruct ((128 <=? 128 + r mod 64) && (128 + r mod 64 <=? 191)) eqn:W; [|lia]. cbn [negb].
    f_equal. Z.to_euclidean_division_equations; lia. }
  destruct (r <? 65536) eqn:E3.
  { cbn [app decode_rune length].
    assert (A : 0 <= r / 4096 < 16) by (Z.to_euclidean_division_equations; lia).
    pose proof (Z.mod_pos_bound r 64 ltac:(lia)) as B. pose proof (Z.mod_pos_bound (r / 64) 64 ltac:(lia)) as C.
    assert (V : r = r / 4096 * 4096 + (r / 64) mod 64 * 64 + r mod 64) by (Z.to_euclidean_division_equations; lia).
    set (x := r / 4096) in *. set (y := (r / 64) mod 64) in *. set (z := r mod 64) in *. clearbody x y z.
    assert (L : exists lo hi, lead (224 + x) = Some (3%nat, lo, hi) /\ within lo hi (128 + y) = true).
    { unfold lead, within. unb; try lia; eexists _, _; (split; [reflexivity|lia]). }
    destruct L as (lo & hi & -> & ->). cbn [negb]. unfold within.
    destruct ((128 <=? 128 + z) && (128 + z <=? 191)) eqn:W; [|lia]. cbn [negb]. f_equal. lia. }
  { cbn [app decode_rune length].
    assert (A : 0 <= r / 262144 < 5) by (Z.to_euclidean_division_equations; lia).
    pose proof (Z.mod_pos_bound r 64 ltac:(lia)) as B. pose proof (Z.mod_pos_bound (r / 64) 64 ltac:(lia)) as C.
    pose proof (Z.mod_pos_bound (r / 4096) 64 ltac:(lia)) as D.
    assert (V : r = r / 262144 * 262144 + (r / 4096) mod 64 * 4096 + (r / 64) mod 64 * 64 + r mod 64) by (Z.to_euclidean_division_equations; lia).
    set (w := r / 262144) in *. set (x := (r / 4096) mod 64) in *. set (y := (r / 64) mod 64) in *. set (z := r mod 64) in *. clearbody w x y z.
    assert (L : exists lo hi, lead (240 + w) = Some (4%nat, lo, hi) /\ within lo hi (128 + x) = true).
    { unfold lead, within. unb; try lia; eexists _, _; (split; [reflexivity|lia]). }
    destruct L as (lo & hi & -> & ->). cbn [negb]. unfold within.
    destruct ((128 <=? 128 + y) && (128 + y <=? 191)) eqn:W1; [|lia]. cbn [negb].
    destruct ((128 <=? 128 + z) && (128 + z <=? 191)) eqn:W2; [|lia]. cbn [negb]. f_equal. lia. }
Qed.

(** Whatever decodes without the one-byte error is the encoding of a scalar value. *)
Lemma decode_sound : forall s r n, is_bytes s -> s <> [] -> decode_rune s = (r, n) -> ~ (r = rune_error /\ n = 1%nat) ->
  scalar r /\ firstn n s = encode_rune r.
Proof.
  intros s r n B NE D NF. destruct s as [|b0 t]; [congruence|]. inversion B as [|? ? B0 B']; subst. unfold decode_rune in D.
  destruct (lead b0) as [[[m lo] hi]|] eqn:L; [|injection D as <- <-; tauto].
  assert (LL := L). unfold lead in LL.
  destruct m as [|[|m]].
  - exfalso. revert LL. unb; intro X; inversion X.
  - injection D as <- <-. assert (b0 < 128) by (revert LL; unb; intro X; inversion X; lia).
    split; [unfold scalar; lia|]. cbn [firstn]. unfold encode_rune. unb; auto; lia.
  - destruct t as [|b1 t]; [injection D as <- <-; tauto|]. inversion B' as [|? ? B1 B'']; subst.
    destruct (within lo hi b1) eqn:W1; cbn [negb] in D; [|injection D as <- <-; tauto].
    destruct m as [|m].
    + injection D as <- <-. cbn [firstn]. unfold within in W1. assert (194 <= b0 < 224 /\ lo = 128 /\ hi = 191) as (R & -> & ->) by (revert LL; unb; intro X; inversion X; lia).
      split; [unfold scalar; lia|]. unfold encode_rune. set (r := (b0 - 192) * 64 + (b1 - 128)).
      assert (Er : r / 64 = b0 - 192) by (subst r; Z.to_euclidean_division_equations; lia).
      assert (Em : r mod 64 = b1 - 128) by (subst r; Z.to_euclidean_division_equations; lia).
      assert (128 <= r < 2048) by lia. rewrite Er, Em.
      unb; try lia. f_equal; [lia|]. f_equal. lia.
    + destruct t as [|b2 t]; [injection D as <- <-; tauto|].
      destruct (within 128 191 b2) eqn:W2; cbn [negb] in D; [|injection D as <- <-; tauto].
      destruct m as [|m].
      * injection D as <- <-. cbn [firstn]. unfold within in W1, W2.
        assert (RR : (224 <= b0 < 240 /\ 128 <= b1 <= 191 /\ (b0 = 224 -> 160 <= b1) /\ (b0 = 237 -> b1 <= 159))) by (revert LL; unb; intro X; inversion X; subst; lia).
        set (r := (b0 - 224) * 4096 + (b1 - 128) * 64 + (b2 - 128)).
        assert (SC : 2048 <= r < 65536 /\ (r < 55296 \/ 57343 < r)) by (subst r; lia).
        split; [unfold scalar; lia|]. unfold encode_rune.
        assert (E1 : r / 4096 = b0 - 224) by (subst r; Z.to_euclidean_division_equations; lia).
        assert (E2 : (r / 64) mod 64 = b1 - 128) by (subst r; Z.to_euclidean_division_equations; lia).
        assert (E3 : r mod 64 = b2 - 128) by (subst r; Z.to_euclidean_division_equations; lia).
        rewrite E1, E2, E3. unb; try lia. repeat (f_equal; [lia|]). f_equal. lia.
      * destruct t as [|b3 t]; [injection D as <- <-; tauto|].
        destruct (within 128 191 b3) eqn:W3; cbn [negb] in D; [|injection D as <- <-; tauto].
        assert (m = 0%nat) by (revert LL; unb; intro X; inversion X; auto). subst m.
        injection D as <- <-. cbn [firstn]. unfold within in W1, W2, W3.
        assert (RR : (240 <= b0 < 245 /\ 128 <= b1 <= 191 /\ (b0 = 240 -> 144 <= b1) /\ (b0 = 244 -> b1 <= 143))) by (revert LL; unb; intro X; inversion X; subst; lia).
        set (r := (b0 - 240) * 262144 + (b1 - 128) * 4096 + (b2 - 128) * 64 + (b3 - 128)).
        assert (SC : 65536 <= r <= 1114111) by (subst r; lia).
        split; [unfold scalar; lia|]. unfold encode_rune.
        assert (E1 : r / 262144 = b0 - 240) by (subst r; Z.to_euclidean_division_equations; lia).
        assert (E2 : (r / 4096) mod 64 = b1 - 128) by (subst r; Z.to_euclidean_division_equations; lia).
        assert (E3 : (r / 64) mod 64 = b2 - 128) by (subst r; Z.to_euclidean_division_equations; lia).
        assert (E4 : r mod 64 = b3 - 128) by (subst r; Z.to_euclidean_division_equations; lia).
        rewrite E1, E2, E3, E4. unb; try lia. repeat (f_equal; [lia|]). f_equal. lia.
Qed.

Lemma encode_bytes : forall r, is_bytes (encode_rune r).
Proof.
  intro r. unfold encode_rune, is_bytes. destruct ((r <? 0) || (1114111 <? r) || ((55296 <=? r) && (r <=? 57343))) eqn:E0.
  - repeat constructor; lia.
  - unb; repeat constructor; try lia; Z.to_euclidean_division_equations; lia.
Qed.
Lemma encode_nonempty : forall r, encode_rune r <> [].
Proof. intro r. unfold encode_rune. unb; discriminate. Qed.

(** Pieces of an encoded string followed by anything. *)
Lemma pieces_encode : forall r rest, scalar r -> pieces (encode_rune r ++ rest) = (r, encode_rune r) :: pieces rest.
Proof.
  intros r rest S. rewrite pieces_cons by (pose proof (encode_nonempty r); destruct (encode_rune r); cbn; congruence).
  rewrite decode_encode by auto. cbn [fst snd].
  rewrite firstn_app, firstn_all, Nat.sub_diag, skipn_app, skipn_all, Nat.sub_diag. cbn [firstn skipn app]. now rewrite app_nil_r.
Qed.

Lemma is_bytes_app : forall a b, is_bytes (a ++ b) <-> is_bytes a /\ is_bytes b.
Proof. intros. apply Forall_app. Qed.
Lemma is_bytes_skip : forall n s, is_bytes s -> is_bytes (skipn n s).
Proof. intros n s H. rewrite <- (firstn_skipn n s) in H. now apply is_bytes_app in H. Qed.
Lemma is_bytes_first : forall n s, is_bytes s -> is_bytes (firstn n s).
Proof. intros n s H. rewrite <- (firstn_skipn n s) in H. now apply is_bytes_app in H. Qed.

(** A piece is either the encoding of its scalar value or a single byte reported as U+FFFD. *)
Lemma pieces_kind : forall s, is_bytes s -> Forall (fun p => (scalar (fst p) /\ snd p = encode_rune (fst p)) \/ (fst p = rune_error /\ exists b, snd p = [b] /\ 128 <= b)) (pieces s).
Proof.
  intro s. pattern s. apply pieces_ind; [constructor|]. clear s. intros s N IH B. rewrite pieces_cons by auto.
  constructor; [|apply IH; now apply is_bytes_skip]. destruct (decode_rune s) as [r n] eqn:D. cbn [fst snd].
  destruct (Z.eq_dec r rune_error) as [E|E]; [destruct (Nat.eq_dec n 1) as [En|En]|].
  - right. split; auto. subst n. destruct s as [|b t]; [congruence|]. exists b. split; [reflexivity|].
    destruct (Z_lt_le_dec b 128); auto. exfalso. inversion B; subst. cbn [decode_rune] in D. rewrite lead_1 in D by lia.
    unfold rune_error in D. injection D as D. lia.
  - left. apply (decode_sound s r n); auto. tauto.
  - left. apply (decode_sound s r n); auto. tauto.
Qed.

Lemma rune_error_scalar : scalar rune_error. Proof. unfold scalar, rune_error. lia. Qed.
Lemma encode_rune_error : encode_rune rune_error = [239; 191; 189]. Proof. reflexivity. Qed.
