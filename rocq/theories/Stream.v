(** A stream of documents: Decoder.Decode called again and again on one decoder (xml/read.go:137-161).

    Decode reads the first element it finds and nothing after its end, so that the next call goes on from there. *)
From Coq Require Import String.
From Coq Require Import ZArith List Bool Lia.
From Coq Require Import ZifyBool ZifyNat ZifyN.
From Verif Require Import Base Utf8 NameTables Lexer LexerProofs LexerLocal Decoder DecoderSpec DecoderProofs GoType TypeInfo Simple Unmarshal ValueSpec UnmarshalProofs.
Import ListNotations.
Open Scope Z_scope.

(** read.go:147-161 Decode and DecodeElement without a start element, on a decoder in any state; [k] as for [unmarshal].  The state of the decoder after an
    error is left out. *)
Definition decode_next (F : floats) (env : tenv) (ek k : nat) (t : gtype) (v : gval) (d : dstate) : outcome uerr (gval * dstate) :=
  do (n, a, d1) <- find_start k d ; unmarshal F env ek max_depth k t v n a d1.
(** Decode for a list of targets, one after the other, up to the first failure. *)
Fixpoint decode_all (F : floats) (env : tenv) (ek k : nat) (l : list (gtype * gval)) (d : dstate) : outcome uerr (list gval * dstate) :=
  match l with
  | [] => Ok ([], d)
  | (t, v) :: l =>
      do (w, d1) <- decode_next F env ek k t v d ;
      do (ws, d2) <- decode_all F env ek k l d1 ; Ok (w :: ws, d2)
  end.

(** *** Tokens, whatever comes after them *)
Lemma raw_token_open : forall inp t c rest, (forall s, t <> TChar s) -> raw_token inp = ROk (t, c) rest -> exists w, inp = w ++ rest /\ forall rest', raw_token (w ++ rest') = ROk (t, c) rest'.
Proof.
  intros [|b t0] t c rest NT H; [discriminate|]. unfold raw_token in H. destruct (b =? 60) eqn:B; cbn [negb] in H.
  2: { exfalso. destruct (text None false (b :: t0)) as [d r|e|]; try discriminate. cbn in H. injection H as <- <- <-. exact (NT _ eq_refl). }
  destruct t0 as [|c0 t']; [discriminate|]. destruct (c0 =? 47) eqn:C1.
  { destruct (get_nsname t') as [[n r]|[e|]] eqn:E; try discriminate. destruct (get_nsname_local _ _ _ E) as (w1 & NE & -> & L1).
    destruct (skip_space_local r) as (w2 & E2 & L2). destruct (skip_space r) as [|x r'] eqn:SR; [discriminate|]. destruct (x =? 62) eqn:X; [|discriminate].
    injection H as <- <- <-. subst r. exists (b :: c0 :: w1 ++ w2 ++ [x]). split; [cbn; rewrite <- !app_assoc; reflexivity|]. intros rest'. cbn [app]. unfold raw_token. rewrite B, C1. cbn [negb].
    rewrite <- !app_assoc. rewrite L1 by (apply front_app; reflexivity). rewrite L2 by reflexivity. cbn [app]. rewrite X. reflexivity. }
  destruct (c0 =? 63) eqn:C2.
  { destruct (get_name t') as [[n r]|[e|]] eqn:E; try discriminate. destruct (get_name_local _ _ _ E) as (w1 & NE & -> & L1).
    destruct (skip_space_local r) as (w2 & E2 & L2). destruct (pi_loop 0 [] (skip_space r)) as [d r'|e|] eqn:EP; try discriminate. destruct (pi_loop_local _ _ _ _ _ EP) as (w3 & E3 & NE3 & L3).
    destruct (if beq n _ then _ else _) eqn:XD; [discriminate|]. injection H as <- <- <-. rewrite E3 in E2. subst r.
    exists (b :: c0 :: w1 ++ w2 ++ w3). split; [cbn; rewrite <- !app_assoc; reflexivity|]. intros rest'. cbn [app]. unfold raw_token. rewrite B, C1, C2. cbn [negb].
    rewrite <- !app_assoc. rewrite L1 by (apply front_app; destruct w3; [congruence|reflexivity]). rewrite L2. 2: { rewrite E3. destruct w3; [congruence|reflexivity]. }
    rewrite L3, XD. reflexivity. }
  destruct (c0 =? 33) eqn:C3.
  { destruct t' as [|d t'']; [discriminate|]. destruct (d =? 45) eqn:D1.
    { destruct t'' as [|e t3]; [discriminate|]. destruct (e =? 45) eqn:E1; [|discriminate].
      destruct (comment_loop 0 0 [] t3) as [s r|e'|] eqn:E; try discriminate. destruct (comment_loop_local _ _ _ _ _ _ E) as (w & -> & L). cbn in H. injection H as <- <- <-.
      exists (b :: c0 :: d :: e :: w). split; [reflexivity|]. intros rest'. cbn [app]. unfold raw_token. rewrite B, C1, C2, C3, D1, E1. cbn [negb]. rewrite L. reflexivity. }
    destruct (d =? 91) eqn:D2.
    { destruct (expect (str "CDATA[") t'') as [u r|e|] eqn:E; try discriminate. destruct (expect_local _ _ _ _ E) as (w1 & -> & L1).
      exfalso. destruct (text None true r) as [s r'|e|]; try discriminate. cbn in H. injection H as <- <- <-. exact (NT _ eq_refl). }
    destruct (directive_loop _ _ _ _ _ _) as [s r|e|] eqn:E; try discriminate. destruct (directive_local _ _ _ _ _ _ _ _ E) as (w & -> & L). cbn in H. injection H as <- <- <-.
    exists (b :: c0 :: d :: w). split; [reflexivity|]. intros rest'. cbn [app]. unfold raw_token. rewrite B, C1, C2, C3, D1, D2. cbn [negb]. rewrite L by (cbn [pend_size]; lia). reflexivity. }
  destruct (get_nsname (c0 :: t')) as [[n r]|[e|]] eqn:E; try discriminate. destruct (get_nsname_local _ _ _ E) as (w1 & NE & E1 & L1).
  destruct (attrs_loop (S (length r)) [] r) as [[a em] r'|e|] eqn:EA; try discriminate. pose proof (attrs_loop_len _ _ _ _ _ EA) as LN. destruct (attrs_loop_local _ _ _ _ _ EA) as (w2 & -> & L2). injection H as <- <- <-.
  destruct w1 as [|y w1]; [congruence|]. cbn [app] in E1. injection E1 as <- ->. destruct w2 as [|z w2]; [cbn in LN; lia|].
  exists (b :: c0 :: w1 ++ z :: w2). split; [cbn; rewrite <- app_assoc; reflexivity|]. intros rest'. cbn [app]. unfold raw_token. rewrite B, C1, C2, C3. cbn [negb]. rewrite <- app_assoc.
  specialize (L1 ((z :: w2) ++ rest') eq_refl). cbn [app] in L1. cbn [app]. rewrite L1. specialize (L2 (S (length (z :: w2 ++ rest'))) rest' ltac:(cbn; lia)). cbn [app] in L2. rewrite L2. reflexivity.
Qed.

Lemma text_none : forall inp s c rest, raw_token inp = ROk (TChar s, c) rest -> c = None.
Proof.
  intros [|b t0] s c rest H; [discriminate|]. unfold raw_token in H. destruct (b =? 60); cbn [negb] in H.
  2: { destruct (text None false (b :: t0)); try discriminate. cbn in H. congruence. }
  destruct t0 as [|c0 t']; [discriminate|]. destruct (c0 =? 47).
  { destruct (get_nsname t') as [[n r]|[e|]]; try discriminate. destruct (skip_space r) as [|x r']; [discriminate|]. destruct (x =? 62); discriminate. }
  destruct (c0 =? 63).
  { destruct (get_name t') as [[n r]|[e|]]; try discriminate. destruct (pi_loop 0 [] (skip_space r)); try discriminate. destruct (if beq n _ then _ else _); discriminate. }
  destruct (c0 =? 33).
  { destruct t' as [|d t'']; [discriminate|]. destruct (d =? 45).
    { destruct t'' as [|e t3]; [discriminate|]. destruct (e =? 45); [|discriminate]. destruct (comment_loop 0 0 [] t3); discriminate. }
    destruct (d =? 91).
    { destruct (expect (str "CDATA[") t''); try discriminate. destruct (text None true _); try discriminate. cbn in H. congruence. }
    destruct (directive_loop _ _ _ _ _ _); discriminate. }
  destruct (get_nsname (c0 :: t')) as [[n r]|[e|]]; try discriminate. destruct (attrs_loop _ _ _) as [[a em] r'|e|]; discriminate.
Qed.

(** The second decoder has the same to read and then [r]; namespaces are the same. *)
Record more (r : bytes) (d e : dstate) : Prop := mkmore {
  mo_inp : d_inp e = d_inp d ++ r;
  mo_close : d_close e = d_close d;
  mo_stk : d_stk e = d_stk d;
  mo_ns : forall p, d_ns e p = d_ns d p;
  mo_err : d_err e = d_err d
}.
(** There is nothing more to read. *)
Definition dry (d : dstate) : Prop := d_inp d = [] /\ d_close d = None.
Lemma dry_next : forall d t d1, dry d -> next_token d <> TokOk t d1.
Proof.
  intros d t d1 (A & B) N. unfold next_token, raw_step in N. destruct (d_err d) as [e|]; [destruct e; destruct (d_stk d); discriminate|]. rewrite A, B in N. cbn in N. destruct (d_stk d); discriminate.
Qed.
Lemma translate_ext : forall m m' n b, (forall p, m' p = m p) -> translate m' n b = translate m n b.
Proof. intros m m' n b H. unfold translate. rewrite !H. reflexivity. Qed.
Lemma ns_set_ext : forall m m' k v, (forall p, m' p = m p) -> forall p, ns_set m' k v p = ns_set m k v p.
Proof. intros m m' k v H p. unfold ns_set. destruct (beq p k); auto. Qed.
Lemma ns_del_ext : forall m m' k, (forall p, m' p = m p) -> forall p, ns_del m' k p = ns_del m k p.
Proof. intros m m' k H p. unfold ns_del. destruct (beq p k); auto. Qed.
Lemma set_ns_ext : forall p v stk m m', (forall p, m' p = m p) -> fst (set_ns p v (stk, m')) = fst (set_ns p v (stk, m)) /\ forall q, snd (set_ns p v (stk, m')) q = snd (set_ns p v (stk, m)) q.
Proof. intros p v stk m m' H. cbn. rewrite H. split; [reflexivity|]. apply ns_set_ext. exact H. Qed.
Lemma declare_ext : forall a s s', fst s' = fst s -> (forall p, snd s' p = snd s p) -> forall x, declare a s = inl x -> exists x', declare a s' = inl x' /\ fst x' = fst x /\ forall p, snd x' p = snd x p.
Proof.
  induction a as [|[n v] a IH]; intros s s' A B x D; cbn [declare] in *; [injection D as <-; eauto|].
  destruct (beq (space n) xmlnsPrefix && beq v []); [discriminate|]. destruct (beq (space n) xmlnsPrefix && beq (local n) []); [discriminate|].
  destruct s as [stk m], s' as [stk' m']. cbn [fst snd] in A, B. subst stk'.
  assert (S : forall b q w t t', fst t' = fst t -> (forall p, snd t' p = snd t p) ->
    fst (if b : bool then set_ns q w t' else t') = fst (if b then set_ns q w t else t) /\ forall p, snd (if b then set_ns q w t' else t') p = snd (if b then set_ns q w t else t) p).
  { intros [] q w [t1 t2] [u1 u2] X Y; cbn [fst snd] in X, Y; [subst; apply set_ns_ext; exact Y|auto]. }
  destruct (S (beq (space n) xmlnsPrefix) (local n) v (stk, m) (stk, m') eq_refl B) as (X & Y).
  destruct (S (beq (space n) [] && beq (local n) xmlnsPrefix) [] v _ _ X Y) as (X2 & Y2). exact (IH _ _ X2 Y2 _ D).
Qed.
Lemma undo_ext : forall stk m m', (forall p, m' p = m p) -> fst (undo stk m') = fst (undo stk m) /\ forall p, snd (undo stk m') p = snd (undo stk m) p.
Proof.
  induction stk as [|[n|p u ok] stk IH]; intros m m' H; cbn [undo]; [auto|auto|]. apply IH. destruct ok; [apply ns_set_ext|apply ns_del_ext]; exact H.
Qed.
(** The next token is the same, unless it is text up to the end of the input: nothing can be read after that. *)
Lemma next_more : forall r d t d1, next_token d = TokOk t d1 -> dry d1 /\ (exists s, t = TChar s) \/ forall e, more r d e -> exists e1, next_token e = TokOk t e1 /\ more r d1 e1.
Proof.
  intros r d t d1 N. unfold next_token, raw_step in N. destruct (d_err d) as [er|] eqn:DE; [destruct er; destruct (d_stk d); discriminate|].
  assert (K : forall c rest t0 d2, (forall e, more r d e -> exists e2, raw_step e = inl (inl (t0, e2)) /\ more r d2 e2) -> d2 = mkd rest c (d_stk d) (d_ns d) None ->
    match t0 with
      | TStart n a =>
          match declare a (d_stk d2, d_ns d2) with
          | inr e => TokErr e (mkd (d_inp d2) (d_close d2) (d_stk d2) (d_ns d2) (Some e))
          | inl (stk, m) =>
              TokOk (TStart (translate m n true) (map (fun a => mkattr (translate m (aname a) false) (avalue a)) a))
                    (mkd (d_inp d2) (d_close d2) (SStart n :: stk) m None)
          end
      | TEnd n =>
          match pop_element n (d_stk d2) (d_ns d2) with
          | inr e => TokErr e (mkd (d_inp d2) (d_close d2) (d_stk d2) (d_ns d2) (Some e))
          | inl (n', stk, m) => TokOk (TEnd n') (mkd (d_inp d2) (d_close d2) stk m None)
          end
      | _ => TokOk t0 d2
      end = TokOk t d1 -> forall e, more r d e -> exists e1, next_token e = TokOk t e1 /\ more r d1 e1).
  { intros c rest t0 d2 R -> T e M. destruct (R e M) as (e2 & RS & M2). unfold next_token. rewrite RS. destruct M2 as [I2 C2 S2 N2 E2]. cbn in I2, C2, S2, N2, E2. cbn [d_inp d_close d_stk d_ns d_err] in T.
    destruct t0 as [n a|n|s|s|p s|s]; try (injection T as <- <-; exists e2; split; [reflexivity|constructor; auto]).
    - destruct (declare a (d_stk d, d_ns d)) as [[stk m]|er] eqn:D; [|discriminate]. injection T as <- <-.
      destruct (declare_ext a (d_stk d, d_ns d) (d_stk e2, d_ns e2) S2 N2 _ D) as ((stk' & m') & D' & X & Y). cbn [fst snd] in X, Y. subst stk'. rewrite D'. eexists. split.
      + f_equal. f_equal; [apply translate_ext; exact Y|]. apply map_ext. intros x. f_equal. apply translate_ext. exact Y.
      + constructor; cbn; auto.
    - destruct (pop_element n (d_stk d) (d_ns d)) as [[[n' stk] m]|er] eqn:P; [|discriminate]. injection T as <- <-. rewrite S2. unfold pop_element in *. destruct (d_stk d) as [|[s|] stk0]; try discriminate.
      destruct (negb (beq (local s) (local n))); [discriminate|]. destruct (negb (beq (space s) (space n))); [discriminate|].
      pose proof (undo_ext stk0 _ _ N2) as (X & Y). destruct (undo stk0 (d_ns d)) as [s1 m1], (undo stk0 (d_ns e2)) as [s2 m2]. cbn [fst snd] in X, Y. subst s2. injection P as <- <- <-.
      eexists. split; [rewrite (translate_ext _ _ _ _ N2); reflexivity|]. constructor; cbn; auto. }
  destruct (d_close d) as [n|] eqn:DC.
  { right. eapply (K None (d_inp d) (TEnd n)); [|reflexivity|exact N]. intros e [I1 C1 S1 N1 E1]. unfold raw_step. rewrite E1, DE, C1, DC. eexists. split; [reflexivity|]. constructor; cbn; auto. }
  destruct (raw_token (d_inp d)) as [[t0 c] rest|er|] eqn:RT; [|destruct er; cbn in N; destruct (d_stk d); discriminate|discriminate].
  assert (C : (rest = [] /\ exists s, t0 = TChar s) \/ raw_token (d_inp d ++ r) = ROk (t0, c) (rest ++ r)).
  { destruct rest as [|x rest].
    - assert (NT : (exists s, t0 = TChar s) \/ forall s, t0 <> TChar s) by (destruct t0; try (right; discriminate); left; eauto). destruct NT as [NT|NT]; [left; auto|right].
      destruct (raw_token_open _ _ _ _ NT RT) as (w & W & L). rewrite app_nil_r in W. rewrite W. apply L.
    - right. destruct (raw_token_local _ _ _ RT) as (w & W & L). rewrite W, <- app_assoc. apply L. reflexivity. }
  destruct C as [(-> & s & ->)|C].
  - left. assert (X : c = None). { eapply text_none; exact RT. } subst c. injection N as <- <-. split; [split; reflexivity|eauto].
  - right. eapply (K c rest t0); [|reflexivity|exact N]. intros e [I1 C1 S1 N1 E1]. unfold raw_step. rewrite E1, DE, C1, DC, I1, C. eexists. split; [reflexivity|]. constructor; cbn; auto.
Qed.

(** *** Loops *)
Lemma skip_more : forall r k k' dp d e d1, (k <= k')%nat -> more r d e -> skip_loop k dp d = Ok d1 -> exists e1, skip_loop k' dp e = Ok e1 /\ more r d1 e1.
Proof.
  induction k as [|k IH]; intros k' dp d e d1 L M H; [discriminate|]. destruct k' as [|k']; [lia|]. assert (LK : (k <= k')%nat) by lia. cbn [skip_loop] in *.
  destruct (next_token d) as [t d2| |] eqn:N; try discriminate. destruct (next_more r _ _ _ N) as [(D & s & ->)|X].
  - exfalso. destruct k; [discriminate|]. cbn [skip_loop] in H. destruct (next_token d2) as [t2 d3| |] eqn:N2; try discriminate. exact (dry_next _ _ _ D N2).
  - destruct (X e M) as (e2 & N' & M2). rewrite N'. destruct t; try (eapply IH; eassumption). destruct dp; [injection H as <-; eauto|eapply IH; eassumption].
Qed.
Definition child_more (r : bytes) (c c' : child_fun) : Prop := forall v n a d e w d1, more r d e -> c v n a d = Ok (w, d1) -> exists e1, c' v n a e = Ok (w, e1) /\ more r d1 e1.
Lemma content_more : forall r c c', child_more r c c' -> forall k k' v da co d e v1 da1 co1 d1 d2, (k <= k')%nat -> more r d e -> content_loop k c v da co d = Ok (v1, da1, co1, d1, d2) ->
  exists e1 e2, content_loop k' c' v da co e = Ok (v1, da1, co1, e1, e2) /\ more r d1 e1 /\ more r d2 e2.
Proof.
  intros r c c' CM. induction k as [|k IH]; intros k' v da co d e v1 da1 co1 d1 d2 L M H; [discriminate|]. destruct k' as [|k']; [lia|]. assert (LK : (k <= k')%nat) by lia. cbn [content_loop] in *.
  destruct (next_token d) as [t d3| |] eqn:N; try discriminate. destruct (next_more r _ _ _ N) as [(D & s & ->)|X].
  - exfalso. destruct k; [discriminate|]. cbn [content_loop] in H. destruct (next_token d3) as [t2 d4| |] eqn:N2; try discriminate. exact (dry_next _ _ _ D N2).
  - destruct (X e M) as (e3 & N' & M3). rewrite N'. destruct t as [n a|n|s|s|p s|s]; try (eapply IH; eassumption).
    + destruct (c v n a d3) as [(w, d4)| | |] eqn:E; try discriminate. cbn [bind] in H. destruct (CM _ _ _ _ _ _ _ M3 E) as (e4 & E' & M4). rewrite E'. cbn [bind]. eapply IH; eassumption.
    + injection H as <- <- <- <- <-. eauto.
Qed.
Lemma find_start_more : forall r k k' d e n a d1, (k <= k')%nat -> more r d e -> find_start k d = Ok (n, a, d1) -> exists e1, find_start k' e = Ok (n, a, e1) /\ more r d1 e1.
Proof.
  induction k as [|k IH]; intros k' d e n a d1 L M H; [discriminate|]. destruct k' as [|k']; [lia|]. assert (LK : (k <= k')%nat) by lia. cbn [find_start] in *.
  destruct (next_token d) as [t d2| |] eqn:N; try discriminate. destruct (next_more r _ _ _ N) as [(D & s & ->)|X].
  - exfalso. destruct k; [discriminate|]. cbn [find_start] in H. destruct (next_token d2) as [t2 d3| |] eqn:N2; try discriminate. exact (dry_next _ _ _ D N2).
  - destruct (X e M) as (e2 & N' & M2). rewrite N'. destruct t; try (eapply IH; eassumption). injection H as <- <- <-. eauto.
Qed.

(** *** Values *)
Section Values.
Variables (F : floats) (env : tenv) (ek : nat).
Lemma update_more : forall A (Q : A -> A -> Prop) (f g : gtype -> gval -> outcome uerr (gval * A)), (forall t w w' x, f t w = Ok (w', x) -> exists y, g t w = Ok (w', y) /\ Q x y) ->
  forall idx s v v' x, update_at ek env s idx v f = Ok (v', x) -> exists y, update_at ek env s idx v g = Ok (v', y) /\ Q x y.
Proof.
  clear F. intros A Q f g H. induction idx as [|i rest IH]; intros s v v' x U; [discriminate|]. cbn [update_at] in *. destruct v as [| | | | | | |l| |]; try discriminate.
  destruct (nth_error (fields_of env s) i) as [fd|]; [|discriminate]. destruct (nth_error l i) as [w|]; [|discriminate].
  match type of U with bind ?X _ = _ => destruct X as [(w', a)| | |] eqn:E; try discriminate end. cbn [bind] in U. injection U as <- <-.
  match goal with |- exists y, bind ?X _ = _ /\ _ => assert (G : exists y, X = Ok (w', y) /\ Q a y) end.
  { destruct rest as [|j rest]; [exact (H _ _ _ _ E)|]. destruct (fd_type fd) as [| | | | | | |t|t|s'| |]; try discriminate.
    - destruct t as [| | | | | | |t|t|s'| |]; try discriminate; destruct w; try discriminate.
      all: match type of E with bind ?X _ = _ => destruct X as [(u', a')| | |] eqn:E2; try discriminate end; cbn [bind] in E; injection E as <- <-; destruct (IH _ _ _ _ E2) as (y & Y1 & Y2); rewrite Y1; cbn [bind]; eauto.
    - exact (IH _ _ _ _ E). }
  destruct G as (y & G1 & G2). rewrite G1. cbn [bind]. eauto.
Qed.
Definition reader_more (r : bytes) (f g : reader) : Prop := forall t v n a d e w d1, more r d e -> f t v n a d = Ok (w, d1) -> exists e1, g t v n a e = Ok (w, e1) /\ more r d1 e1.
Lemma skip_child_more : forall r k k', (k <= k')%nat -> child_more r (skip_child k) (skip_child k').
Proof.
  intros r k k' L v n a d e w d1 M H. unfold skip_child, skip in *. destruct (skip_loop k 0 d) as [d2| | |] eqn:E; try discriminate. cbn [bind] in H. injection H as <- <-.
  destruct (skip_more _ _ _ _ _ _ _ L M E) as (e1 & E1 & M1). rewrite E1. cbn [bind]. eauto.
Qed.
Lemma path_more : forall r k k' f g s fs, (k <= k')%nat -> reader_more r f g -> forall q ps v n a d e x, more r d e -> path_child env ek q k f s fs ps v n a d = Ok x ->
  match x with
  | Some (w, d1) => exists e1, path_child env ek q k' g s fs ps v n a e = Ok (Some (w, e1)) /\ more r d1 e1
  | None => path_child env ek q k' g s fs ps v n a e = Ok None
  end.
Proof.
  intros r k k' f g s fs L RM. induction q as [|q IH]; intros ps v n a d e x M H; [discriminate|]. cbn [path_child] in *. destruct (find_path fs ps n) as [fi|ps'|].
  - match type of H with bind ?X _ = _ => destruct X as [(w, d1)| | |] eqn:E; try discriminate end. cbn [bind] in H. injection H as <-.
    destruct (update_more _ (more r) _ (fun t w => g t w n a e) (fun t w w' x => RM t w n a d e w' x M) _ _ _ _ _ E) as (e1 & E1 & M1). rewrite E1. cbn [bind]. eauto.
  - match type of H with bind ?X _ = _ => destruct X as [((((w, da), co), d1), d2)| | |] eqn:E; try discriminate end. cbn [bind] in H. injection H as <-.
    eapply content_more in E; [|clear E|exact L|exact M].
    + destruct E as (e1 & e2 & E & _ & M2). rewrite E. cbn [bind]. eauto.
    + intros v0 n0 a0 d0 e0 w0 d3 M0 E0. match type of E0 with bind ?X _ = _ => destruct X as [[[w4 d4]|]| | |] eqn:E4; try discriminate end; cbn [bind] in E0; pose proof (IH _ _ _ _ _ _ _ M0 E4) as Y; cbn beta iota in Y.
      * injection E0 as <- <-. destruct Y as (e1 & Y & M1). rewrite Y. cbn [bind]. eauto.
      * rewrite Y. cbn [bind]. eapply skip_child_more; eassumption.
  - injection H as <-. reflexivity.
Qed.
Lemma bind_more : forall A B (x : outcome uerr A) (f : A -> outcome uerr B) y, bind x f = Ok y -> exists a, x = Ok a /\ f a = Ok y.
Proof. intros A B [a| | |] f y H; try discriminate. eauto. Qed.
Lemma body_more : forall r k k' f g, (k <= k')%nat -> reader_more r f g -> reader_more r (unmarshal_body F env ek f k) (unmarshal_body F env ek g k').
Proof.
  intros r k k' f g L RM t v n a d e w d1 M H. pose proof (skip_child_more r k k' L) as SK. destruct t as [| | | | | | |t|t|s| |]; cbn [unmarshal_body] in *; try discriminate.
  1-7,10: match type of H with bind ?X _ = _ => destruct X as [((((w1, da), co), d2), d3)| | |] eqn:E; try discriminate end; cbn [bind] in H;
    destruct (content_more _ _ _ SK _ _ _ _ _ _ _ _ _ _ _ _ L M E) as (e1 & e2 & E1 & _ & M2); rewrite E1; cbn [bind];
    first [apply bind_more in H as (y & Y & H); rewrite Y; cbn [bind]; injection H as <- <-; eauto|injection H as <- <-; eauto].
  - destruct v; try discriminate. apply bind_more in H as ((y, d2) & Y & H). injection H as <- <-. destruct (RM _ _ _ _ _ _ _ _ M Y) as (e2 & E & M2). rewrite E. cbn [bind]. eauto.
  - destruct (type_info ek env s) as [ti| | |]; try discriminate.
    apply bind_more in H as (v1 & H1 & H). rewrite H1. cbn [bind]. apply bind_more in H as (v2 & H2 & H). rewrite H2. cbn [bind]. cbv zeta in *.
    apply bind_more in H as (v3 & H3 & H). rewrite H3. cbn [bind]. apply bind_more in H as (v4 & H4 & H). rewrite H4. cbn [bind].
    apply bind_more in H as (v5 & H5 & H). rewrite H5. cbn [bind]. apply bind_more in H as (v6 & H6 & H). rewrite H6. cbn [bind].
    apply bind_more in H as (((((v7, da), co), d2), d3) & H7 & H). eapply content_more in H7; [|clear H7|exact L|exact M].
    + destruct H7 as (e2 & e3 & E & M2 & M3). rewrite E. cbn [bind]. apply bind_more in H as (v8 & H8 & H). rewrite H8. cbn [bind]. apply bind_more in H as (v9 & H9 & H). rewrite H9. cbn [bind].
      assert (R : firstn (length (d_inp e) - length (d_inp e2)) (d_inp e) = firstn (length (d_inp d) - length (d_inp d2)) (d_inp d)).
      { rewrite (mo_inp _ _ _ M), (mo_inp _ _ _ M2), !app_length. replace (length (d_inp d) + length r - (length (d_inp d2) + length r))%nat with (length (d_inp d) - length (d_inp d2))%nat by lia.
        rewrite firstn_app. replace (length (d_inp d) - length (d_inp d2) - length (d_inp d))%nat with O by lia. cbn. apply app_nil_r. }
      rewrite R. apply bind_more in H as (v10 & H10 & H). rewrite H10. cbn [bind]. injection H as <- <-. eauto.
    + intros v0 n0 a0 d0 e0 w0 d4 M0 E0. match type of E0 with bind ?X _ = _ => destruct X as [[[w5 d5]|]| | |] eqn:E5; try discriminate end; cbn [bind] in E0; pose proof (path_more r k k' f g s _ L RM _ _ _ _ _ _ _ _ M0 E5) as Y; cbn beta iota in Y.
      * injection E0 as <- <-. destruct Y as (e1 & Y & M1). rewrite Y. cbn [bind]. eauto.
      * rewrite Y. cbn [bind]. destruct (first_mode is_any (ti_fields ti)) as [fi|]; [|eapply SK; eassumption].
        exact (update_more _ (more r) _ (fun t w => g t w n0 a0 e0) (fun t w w' x => RM t w n0 a0 d0 e0 w' x M0) _ _ _ _ _ E0).
Qed.
Lemma unmarshal_more : forall r k k', (k <= k')%nat -> forall dp, reader_more r (unmarshal F env ek dp k) (unmarshal F env ek dp k').
Proof.
  intros r k k' L. induction dp as [|dp IH]; intros t v n a d e w d1 M H; [discriminate|]. cbn [unmarshal] in *. pose proof (body_more r k k' _ _ L IH) as B.
  destruct t; try (eapply B; eassumption). apply bind_more in H as ((y, d2) & Y & H). injection H as <- <-. destruct (B _ _ _ _ _ _ _ _ M Y) as (e2 & E & M2). rewrite E. cbn [bind]. eauto.
Qed.
Lemma decode_next_more : forall r k k' t v d e w d1, (k <= k')%nat -> more r d e -> decode_next F env ek k t v d = Ok (w, d1) -> exists e1, decode_next F env ek k' t v e = Ok (w, e1) /\ more r d1 e1.
Proof.
  intros r k k' t v d e w d1 L M H. unfold decode_next in *. apply bind_more in H as (((n, a), d2) & Y & H). destruct (find_start_more _ _ _ _ _ _ _ _ L M Y) as (e2 & E & M2). rewrite E. cbn [bind].
  eapply unmarshal_more; eassumption.
Qed.
End Values.
