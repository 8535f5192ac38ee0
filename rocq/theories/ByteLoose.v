(** A decoder that is not strict reads what a strict one accepts in the same way. *)
From Coq Require Import String.
From Coq Require Import ZArith List Bool Lia.
From Coq Require Import ZifyBool ZifyNat.
From Verif Require Import Base Utf8 NameTables Lexer Decoder ByteDecoder ByteRuns ByteLoud ByteSim.
Import ListNotations.
Open Scope Z_scope.

(** The decoder [c] with Strict false and without AutoClose. *)
Definition lenient (c : cfg) : cfg := mkcfg false [] (c_fold c) (c_entity c) (c_charset c) (c_default c).

(** What the first returns without an error, the second returns too, and leaves the same state. *)
Definition agree {A} (m1 m2 : L A) : Prop :=
  forall s r s', m1 s = Some (r, s') -> r <> None \/ l_err s' = None -> m2 s = Some (r, s').

Lemma agree_refl : forall A (m : L A), agree m m.
Proof. intros A m s r s' E _. exact E. Qed.
Lemma agree_try : forall A B (m1 m2 : L A) (f1 f2 : A -> L B), agree m1 m2 -> (forall a, agree (f1 a) (f2 a)) -> agree (ltry m1 f1) (ltry m2 f2).
Proof.
  intros A B m1 m2 f1 f2 M F s r s' E H. unfold ltry in *. destruct (m1 s) as [[[a|] s1]|] eqn:E1; [| |discriminate].
  - rewrite (M _ _ _ E1 ltac:(left; discriminate)). apply F; auto.
  - inversion E; subst. destruct H as [H|H]; [congruence|]. rewrite (M _ _ _ E1 (or_intror H)). reflexivity.
Qed.
Lemma agree_msg : forall A B (m1 m2 : L A) msg (f1 f2 : A -> L B), agree m1 m2 -> (forall a, agree (f1 a) (f2 a)) -> agree (ltry_msg m1 msg f1) (ltry_msg m2 msg f2).
Proof.
  intros A B m1 m2 msg f1 f2 M F s r s' E H. unfold ltry_msg in *. destruct (m1 s) as [[[a|] s1]|] eqn:E1; [| |discriminate].
  - rewrite (M _ _ _ E1 ltac:(left; discriminate)). apply F; auto.
  - inversion E; subst. destruct H as [H|H]; [congruence|]. exfalso. unfold has_err in H. destruct (l_err s1) eqn:X; [congruence | discriminate].
Qed.
Lemma agree_step : forall A (m1 m2 : L A) g, agree m1 m2 -> agree (step g; m1) (step g; m2).
Proof. intros A m1 m2 g M s r s' E H. exact (M _ _ _ E H). Qed.
Lemma agree_fail : forall A m (k : L A), agree (lfail m) k.
Proof. intros A m k s r s' E H. inversion E; subst. destruct H as [H|H]; [congruence | discriminate]. Qed.
Lemma agree_state : forall A (m1 m2 : lst -> L A), (forall x, agree (m1 x) (m2 x)) -> agree (fun s => m1 s s) (fun s => m2 s s).
Proof. intros A m1 m2 M s r s' E H. exact (M _ _ _ _ E H). Qed.

Lemma entity_same : forall c before, entity_b (lenient c) before = entity_b c before.
Proof. reflexivity. Qed.
Lemma text_loop_agree : forall c quote cdata k b0 b1, c_strict c = true ->
  agree (text_loop_b k c quote cdata b0 b1) (text_loop_b k (lenient c) quote cdata b0 b1).
Proof.
  intros c quote cdata. induction k as [|k IH]; intros b0 b1 ST; [apply agree_refl|].
  intros s r s' E H. cbn [text_loop_b] in *. destruct (getc s) as [[b|] s1]; [|exact E].
  destruct (negb match quote with Some _ => true | None => false end && (b0 =? 93) && (b1 =? 93) && (b =? 62)); [exact E|].
  destruct ((b =? 60) && negb cdata); [exact E|].
  destruct ((b =? 62) && negb cdata && negb match quote with Some _ => true | None => false end); [exact E|].
  destruct (match quote with Some q => b =? q | None => false end); [exact E|].
  destruct ((b =? 38) && negb cdata).
  - revert E H. apply agree_step. rewrite entity_same. apply agree_try; [apply agree_refl|]. intros [t|].
    + apply agree_step, agree_step. apply IH. exact ST.
    + rewrite ST. cbn [negb c_strict lenient]. apply agree_fail.
  - revert E H. apply IH. exact ST.
Qed.
Lemma text_agree : forall c quote cdata, c_strict c = true -> agree (text_b c quote cdata) (text_b (lenient c) quote cdata).
Proof.
  intros c quote cdata ST. unfold text_b. apply agree_step. intros s r s' E H. revert E H.
  apply agree_try; [apply text_loop_agree; exact ST | intros; apply agree_refl].
Qed.
Lemma attrval_agree : forall c, c_strict c = true -> agree (attrval_b c) (attrval_b (lenient c)).
Proof.
  intros c ST. unfold attrval_b. apply agree_try; [apply agree_refl|]. intros b. destruct ((b =? 34) || (b =? 39)).
  - apply text_agree. exact ST.
  - rewrite ST. apply agree_fail.
Qed.
Lemma attrs_agree : forall c k acc, c_strict c = true -> agree (attrs_loop_b k c acc) (attrs_loop_b k (lenient c) acc).
Proof.
  intros c. induction k as [|k IH]; intros acc ST; [apply agree_refl|]. cbn [attrs_loop_b].
  apply agree_try; [apply agree_refl|]. intros _ s r s' E H. destruct (mustgetc s) as [[b|] s1] eqn:M.
  - destruct (b =? 47); [exact E|]. destruct (b =? 62); [exact E|]. revert E H. apply agree_step.
    apply agree_msg; [apply agree_refl|]. intros n. apply agree_try; [apply agree_refl|]. intros _.
    apply agree_try; [apply agree_refl|]. intros b'. destruct (negb (b' =? 61)).
    + rewrite ST. apply agree_fail.
    + apply agree_try; [apply agree_refl|]. intros _. apply agree_try; [apply attrval_agree; exact ST|]. intros v. apply IH. exact ST.
  - rewrite ST in E. rewrite andb_false_r in E. inversion E; subst. destruct H as [H|H]; [congruence|]. exfalso.
    exact (must_noisy _ _ ltac:(unfold lmust; rewrite M; reflexivity) H).
Qed.
Lemma raw_agree : forall c, c_strict c = true -> agree (raw_token_b c) (raw_token_b (lenient c)).
Proof.
  intros c ST s r s' E H. unfold raw_token_b in *. destruct (getc s) as [[b|] s1]; [|exact E].
  destruct (negb (b =? 60)).
  { revert E H. apply agree_step. apply agree_try; [apply text_agree; exact ST | intros; apply agree_refl]. }
  revert E H. apply agree_try; [apply agree_refl|]. intros b1. destruct (b1 =? 47); [apply agree_refl|]. destruct (b1 =? 63); [apply agree_refl|].
  destruct (b1 =? 33).
  { apply agree_try; [apply agree_refl|]. intros b2. destruct (b2 =? 45); [apply agree_refl|]. destruct (b2 =? 91); [|apply agree_refl].
    apply agree_try; [apply agree_refl|]. intros _. apply agree_try; [apply text_agree; exact ST | intros; apply agree_refl]. }
  apply agree_step. apply agree_msg; [apply agree_refl|]. intros n. intros s2 r2 s2' E H. revert E H.
  apply agree_try; [apply attrs_agree; exact ST | intros; apply agree_refl].
Qed.

(** A call of Token on a decoder without a pending token. *)
Theorem token_agree : forall c d t d', c_strict c = true -> b_tok d = None ->
  Token c d = Some ((t, None), d') -> Token (lenient c) d = Some ((t, None), d') /\ b_tok d' = None.
Proof.
  intros c d t d' ST TK E. unfold Token, auto in *. rewrite TK in *. rewrite ST in E. cbn [c_strict lenient].
  assert (TD : forall t d1, b_tok d1 = None -> b_tok (snd (finish c t d1)) = None).
  { intros t0 d1 X. destruct t0 as [[n a|n| | | |]|]; cbn [finish]; try exact X.
    - destruct (declare_b a (b_stk d1, b_ns d1)) as [[stk m] [msg|]]; exact X.
    - unfold pop_b. destruct (b_stk d1) as [|[s|p u ok|] stk]; try exact X.
      destruct (negb (beq (local s) (local n))); [destruct (negb (c_strict c)); exact X|].
      destruct (negb (beq (space s) (space n))); [exact X|].
      destruct (undo_b stk (b_ns (with_stk stk (b_ns d1) d1))) as [stk' m']. exact X. }
  assert (FIN : forall t1 d1, b_tok d1 = None -> Some (finish c t1 d1) = Some ((t, None), d') ->
     (let '(t', d'') := match auto_close (lenient c) t1 d1 with Some t2 => (Some t2, with_tok t1 d1) | None => (t1, d1) end in
      Some (finish (lenient c) t' d'')) = Some ((t, None), d') /\ b_tok d' = None).
  { intros t1 d1 X F. assert (AC : auto_close (lenient c) t1 d1 = None).
    { unfold auto_close. destruct (b_stk d1) as [|[]]; reflexivity. }
    rewrite AC. assert (F2 : finish c t1 d1 = (t, None, d')) by congruence. split; [|rewrite <- (TD t1 d1 X), F2; reflexivity].
    f_equal. rewrite <- F2. assert (F1 : snd (fst (finish c t1 d1)) = None) by (rewrite F2; reflexivity). clear - F1 ST.
    destruct t1 as [[n a|n| | | |]|]; cbn [finish] in *; try reflexivity.
    unfold pop_b in *. destruct (b_stk d1) as [|[s|p u ok|] stk]; try reflexivity.
    destruct (negb (beq (local s) (local n))); [rewrite ST in F1; discriminate|]. reflexivity. }
  assert (RB : match raw_b c d with
               | Some (t1, d1) => (t1 <> None \/ b_err d1 = None -> raw_b (lenient c) d = Some (t1, d1)) /\ b_tok d1 = None
               | None => True end).
  { unfold raw_b. destruct (b_err d) eqn:ER; [auto|]. destruct (b_close d) as [n|]; [auto|].
    pose proof (raw_agree c ST (b_lex d)) as A. destruct (raw_token_b c (b_lex d)) as [[[[t1 cl]|] s1]|]; [| |exact I].
    - split; [|exact TK]. intros _. rewrite (A _ _ eq_refl ltac:(left; discriminate)). reflexivity.
    - split; [|exact TK]. intros [H|H]; [congruence|]. rewrite (A _ _ eq_refl (or_intror H)). reflexivity. }
  assert (MAIN : match raw_b c d with
          | None => None
          | Some (t, d') =>
              match t, b_err d' with
              | None, Some e =>
                  Some ((None, Some match e, b_stk d' with
                                    | LRead FEof, _ :: _ => LSyntax (str "unexpected EOF") (l_line (b_lex d'))
                                    | _, _ => e
                                    end), d')
              | _, _ => Some (finish c t d')
              end
          end = Some ((t, None), d') ->
    match raw_b (lenient c) d with
          | None => None
          | Some (t, d') =>
              match t, b_err d' with
              | None, Some e =>
                  Some ((None, Some match e, b_stk d' with
                                    | LRead FEof, _ :: _ => LSyntax (str "unexpected EOF") (l_line (b_lex d'))
                                    | _, _ => e
                                    end), d')
              | _, _ => let '(t', d'') := match auto_close (lenient c) t d' with Some t2 => (Some t2, with_tok t d') | None => (t, d') end in
                        Some (finish (lenient c) t' d'')
              end
          end = Some ((t, None), d') /\ b_tok d' = None).
  { clear E. intros E. destruct (raw_b c d) as [[t1 d1]|]; [|discriminate]. destruct RB as [R1 R2].
    destruct t1 as [t1|].
    - rewrite R1 by (left; discriminate). apply (FIN (Some t1) d1 R2 E).
    - destruct (b_err d1) eqn:ER; [inversion E|]. rewrite R1 by (right; reflexivity). rewrite ER. apply (FIN None d1 R2 E). }
  destruct (b_stk d) as [|[]]; try (apply MAIN; exact E). discriminate.
Qed.
