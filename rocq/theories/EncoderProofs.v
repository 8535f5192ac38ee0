(** Histories of EncodeToken, Flush and Close calls. *)
From Coq Require Import String.
From Coq Require Import ZArith List Bool Lia ZifyBool ZifyNat.
From Verif Require Import Base Utf8 NameTables Lexer Escape Decoder Printer Writer WriterProofs PrinterProofs NameProofs EncoderSpec.
Import ListNotations.
Open Scope Z_scope.

(** EncodeToken (marshal.go:255-307) on an encoder. *)
Definition enc_token (o : writer) (t : token) (e : encoder) : option (encoder * ended) := run_step o (encode_token (length (b_buf (en_b e))) t) e.
(** The text so far: what the writer got and what is still buffered. *)
Definition total (e : encoder) : bytes := u_out (b_dst (en_b e)) ++ b_buf (en_b e).

(** Calls on one encoder with a writer that accepts everything; newest last. *)
Inductive history (o : writer) : list call -> encoder -> Prop :=
| H_new u : counted u -> history o [] (new_encoder u)
| H_token h e t e' r x : history o h e -> enc_token o t e = Some (e', r) -> total e' = total e ++ x ->
    history o (h ++ [mkcall t (match r with Done => true | _ => false end) x]) e'
| H_flush h e : history o h e -> history o h (fst (enc_flush o e))
| H_indent h e p i : history o h e -> history o h (enc_indent p i e).

(** *** split_prefixed is [parts] *)
Lemma index_byte_none : forall c s, index_byte c s = None <-> ~ In c s.
Proof.
  induction s as [|x s IH]; cbn; [split; auto|]. destruct (Z.eqb_spec x c) as [->|N]; [split; [discriminate|intro H; exfalso; apply H; auto]|].
  destruct (index_byte c s) eqn:E; cbn; split; try discriminate; try tauto.
  - intro H. exfalso. destruct IH as [_ IH]. discriminate IH. intro X. apply H. auto.
Qed.
Lemma index_byte_some : forall c s i, index_byte c s = Some i -> s = firstn i s ++ c :: skipn (S i) s /\ ~ In c (firstn i s) /\ (i < length s)%nat.
Proof.
  induction s as [|x s IH]; intros i H; cbn in H; [discriminate|]. destruct (Z.eqb_spec x c) as [->|N].
  - injection H as <-. cbn. split; auto. split; auto. lia.
  - destruct (index_byte c s) as [j|] eqn:E; [|discriminate]. injection H as <-. destruct (IH j eq_refl) as (A & B & C). cbn [firstn skipn app length]. split; [f_equal; exact A|].
    split; [intros [X|X]; auto|lia].
Qed.
Lemma index_byte_app : forall c p l, ~ In c p -> index_byte c (p ++ c :: l) = Some (length p).
Proof.
  induction p as [|x p IH]; intros l H; cbn; [rewrite Z.eqb_refl; auto|]. destruct (Z.eqb_spec x c); [exfalso; apply H; cbn; auto|]. rewrite IH; auto. intro; apply H; cbn; auto.
Qed.
Lemma split_prefixed_yes : forall s p l, prefixed s p l -> split_prefixed s = (p, l).
Proof.
  intros s p l (-> & P & L & N). unfold split_prefixed. rewrite index_byte_app; auto. rewrite app_length. cbn [length].
  assert (length p <> O) by (destruct p; cbn; congruence). assert (length l <> O) by (destruct l; cbn; congruence).
  replace ((length p <? 1)%nat || (length p + S (length l) - 2 <? length p)%nat) with false by lia.
  rewrite firstn_app, Nat.sub_diag, firstn_all. cbn [firstn]. rewrite app_nil_r. f_equal. replace (S (length p)) with (length p + 1)%nat by lia. rewrite skipn_app.
  rewrite skipn_all2 by lia. replace (length p + 1 - length p)%nat with 1%nat by lia. reflexivity.
Qed.
Lemma split_parts : forall s, parts s (fst (split_prefixed s)) (snd (split_prefixed s)).
Proof.
  intro s. destruct (index_byte 58 s) as [i|] eqn:I.
  - destruct (index_byte_some _ _ _ I) as (A & B & C). destruct ((i <? 1)%nat || (length s - 2 <? i)%nat) eqn:D.
    + right. unfold split_prefixed. rewrite I, D. cbn. split; auto. split; auto. intros q r (E & Q & R & NI). subst s. rewrite index_byte_app in I; auto. injection I as <-.
      rewrite app_length in D. cbn [length] in D. destruct q; [congruence|]. destruct r; [congruence|]. cbn in D. lia.
    + left. unfold split_prefixed. rewrite I, D. cbn [fst snd]. split; auto. split; [|split; auto].
      * intro X. apply (f_equal (@length Z)) in X. rewrite firstn_length in X. cbn in X. lia.
      * intro X. apply (f_equal (@length Z)) in X. rewrite skipn_length in X. cbn in X. lia.
  - right. unfold split_prefixed. rewrite I. cbn. split; auto. split; auto. intros q r (E & _). apply index_byte_none in I. apply I. rewrite E. apply in_elt.
Qed.
Lemma parts_fun : forall s p l p' l', parts s p l -> parts s p' l' -> p = p' /\ l = l'.
Proof.
  intros s p l p' l' [A|(A & B & C)] [A'|(A' & B' & C')].
  - apply split_prefixed_yes in A. apply split_prefixed_yes in A'. split; congruence.
  - exfalso. eapply C'; eauto.
  - exfalso. eapply C; eauto.
  - split; congruence.
Qed.
Lemma same_name_split : forall a b, same_name a b <-> space a = space b /\ snd (split_prefixed (local a)) = snd (split_prefixed (local b)).
Proof.
  intros a b. split.
  - intros (S & p & q & l & A & B). split; auto. destruct (parts_fun _ _ _ _ _ A (split_parts _)) as [_ <-]. destruct (parts_fun _ _ _ _ _ B (split_parts _)) as [_ <-]. auto.
  - intros [S E]. split; auto. exists (fst (split_prefixed (local a))), (fst (split_prefixed (local b))), (snd (split_prefixed (local a))). split; [apply split_parts|rewrite E; apply split_parts].
Qed.
Lemma split_nonempty : forall s, s <> [] -> snd (split_prefixed s) <> [].
Proof. intros s N. destruct (split_parts s) as [(_ & _ & L & _)|(_ & -> & _)]; auto. Qed.

(** *** Usable prefixes are used as given *)
Lemma take_until_none : forall c s, ~ In c s -> take_until c s = s.
Proof. induction s as [|x s IH]; intro H; cbn; auto. destruct (Z.eqb_spec x c); [exfalso; apply H; cbn; auto|]. f_equal. apply IH. intro; apply H; cbn; auto. Qed.
Lemma after_last_none : forall c s, ~ In c s -> after_last c s = s.
Proof. intros c s H. unfold after_last. rewrite take_until_none, rev_involutive; auto. intro X. apply H. now apply in_rev. Qed.
Lemma name_no_byte : forall c s, name_byte c = false -> is_name s = true -> ~ In c s.
Proof. intros c s C H I. destruct (is_name_bytes s H) as [F _]. rewrite Forall_forall in F. specialize (F c I). congruence. Qed.
Lemma xmlish_fold : forall p, (3 <=? length p)%nat && equal_fold (firstn 3 p) (str "xml") = true -> xmlish p.
Proof.
  intros p H. apply andb_true_iff in H. destruct H as [L E]. destruct p as [|x [|m [|l r]]]; cbn in L; try lia. exists x, m, l, r. split; auto.
  unfold equal_fold in E. apply beq_eq in E. cbn in E. injection E as E1 E2 E3. unfold lower_byte, within in *.
  split; [|split];
  [clear E2 E3; destruct ((65 <=? x) && (x <=? 90)) eqn:?; lia|clear E1 E3; destruct ((65 <=? m) && (m <=? 90)) eqn:?; lia|clear E1 E2; destruct ((65 <=? l) && (l <=? 90)) eqn:?; lia].
Qed.
Lemma pick_usable : forall p2n uri p, usable p -> sget p2n p = [] -> pick_prefix p2n uri p = p.
Proof.
  intros p2n uri p (N & C & X) S. destruct (is_name_bytes p N) as [_ NE]. unfold pick_prefix. rewrite S, beq_refl. replace (beq p []) with false by (symmetry; now apply beq_neq).
  cbn [orb negb]. rewrite after_last_none by (apply name_no_byte; auto). replace (beq p []) with false by (symmetry; now apply beq_neq).
  rewrite N. cbn [negb orb]. replace (existsb (Z.eqb 58) p) with false.
  - destruct ((3 <=? length p)%nat && equal_fold (firstn 3 p) (str "xml")) eqn:Q; auto. exfalso. apply X, xmlish_fold; auto.
  - symmetry. destruct (existsb (Z.eqb 58) p) eqn:Q; auto. exfalso. apply existsb_exists in Q. destruct Q as (y & Y & Z). apply C. replace 58 with y by lia. auto.
Qed.

(** *** The invariant of histories *)
Definition open_el (o : opened) (e : element) : Prop :=
  el_ns e = space (o_name o) /\ el_name e = snd (split_prefixed (local (o_name o))) /\ o_text o = qname e /\ el_name e <> [] /\
  (forall p l, prefixed (local (o_name o)) p l -> usable p -> el_prefix e = p).
Definition hist_inv (h : list call) (e : encoder) (os : list opened) : Prop :=
  balanced h os /\ Forall2 open_el os (p_elems (en_p e)) /\ fine e /\ etook e (total e) /\ 0 <= p_seq (en_p e).
Lemma fine_took : forall e t, etook e t -> fine e -> t = total e.
Proof. intros e t ((_ & [(_ & <- & _)|(X & _)]) & _) (A & B & C); [reflexivity|congruence]. Qed.
Lemma new_inv : forall u, counted u -> hist_inv [] (new_encoder u) [].
Proof.
  intros u C. split; [constructor|]. split; [constructor|]. split; [split; [|split]; reflexivity|]. split; [|cbn; lia]. split; [|split; reflexivity].
  split; [exact C|]. left. unfold total. cbn. rewrite app_nil_r. split; [auto|split; [auto|lia]].
Qed.
Lemma encode_token_fuel : forall k t s, 0 <= p_seq s -> snd (encode_token k t s) <> OutOfFuel.
Proof.
  intros k t s Q. destruct t as [n a|n|x|x|tg x|x]; cbn [encode_token].
  - destruct (beq (local n) []) eqn:L; [unfold write_start; rewrite L; discriminate|]. apply beq_neq in L. destruct (write_start_ok n a s Q L) as (cs & s' & e & ind & rest & E & _). rewrite E. discriminate.
  - destruct (p_elems s) as [|e es] eqn:E.
    { destruct (write_end_refused n s) as [m X]; [congruence|]. rewrite X. discriminate. }
    unfold write_end. destruct (beq (local n) []); [discriminate|]. unfold mbind at 1, mget at 1. rewrite E. destruct (beq (el_name e) []); [discriminate|].
    destruct (split_prefixed (local n)) as [p l]. destruct (negb (beq p []) && _ && _); [discriminate|]. destruct (negb (beq l (el_name e))); [discriminate|]. destruct (negb (beq (space n) (el_ns e))); [discriminate|].
    destruct (indent_ok (-1) s) as (ci & s1 & E1 & _). unfold mbind. rewrite E1. discriminate.
  - discriminate.
  - destruct (contains _ _); discriminate.
  - destruct (_ && _); [discriminate|]. destruct (negb _); [discriminate|]. destruct (contains _ _); discriminate.
  - destruct (valid_directive _ _ _ _ _); discriminate.
Qed.
(** One call, in terms of the printer step. *)
Lemma token_step : forall o t e, willing o -> fine e -> etook e (total e) -> 0 <= p_seq (en_p e) ->
  exists e' r, enc_token o t e = Some (e', r) /\ fine e' /\ etook e' (total e') /\
    en_p e' = snd (fst (encode_token (length (b_buf (en_b e))) t (en_p e))) /\
    total e' = total e ++ concat (fst (fst (encode_token (length (b_buf (en_b e))) t (en_p e)))) /\
    (r = Done <-> exists x, snd (encode_token (length (b_buf (en_b e))) t (en_p e)) = Ok x).
Proof.
  intros o t e W F T Q. unfold enc_token. set (m := encode_token _ t) in *.
  destruct (run_step_took o m e (total e) (willing_obeys _ W) T) as (e' & r & R & T' & P & D & CR).
  { apply encode_token_fuel; auto. }
  exists e', r. destruct (run_step_fine _ _ _ _ _ W F R) as [F' D']. split; auto. split; auto. pose proof (fine_took _ _ T' F') as E. split; [congruence|]. split; auto.
Qed.
Lemma other_elems : forall k t s, (forall n a, t <> TStart n a) -> (forall n, t <> TEnd n) -> snd (fst (encode_token k t s)) = s.
Proof.
  intros k t s A B. destruct t as [n a|n|x|x|tg x|x]; cbn [encode_token].
  - exfalso. apply (A n a). reflexivity.
  - exfalso. apply (B n). reflexivity.
  - reflexivity.
  - destruct (contains _ _); reflexivity.
  - destruct (_ && _); [reflexivity|]. destruct (negb _); [reflexivity|]. destruct (contains _ _); reflexivity.
  - destruct (valid_directive _ _ _ _ _); reflexivity.
Qed.
Lemma other_refused : forall k t s, (forall n a, t <> TStart n a) -> (forall n, t <> TEnd n) ->
  (exists x, snd (encode_token k t s) = Ok x) \/ (exists x, snd (encode_token k t s) = Err x) /\ fst (fst (encode_token k t s)) = [].
Proof.
  intros k t s A B. destruct t as [n a|n|x|x|tg x|x]; cbn [encode_token].
  - exfalso. apply (A n a). reflexivity.
  - exfalso. apply (B n). reflexivity.
  - left. eexists. reflexivity.
  - destruct (contains _ _); [right; split; [eexists|]; reflexivity|left; eexists; reflexivity].
  - destruct (_ && _); [right; split; [eexists|]; reflexivity|]. destruct (negb _); [right; split; [eexists|]; reflexivity|]. destruct (contains _ _); [right; split; [eexists|]; reflexivity|left; eexists; reflexivity].
  - destruct (valid_directive _ _ _ _ _); [left; eexists; reflexivity|right; split; [eexists|]; reflexivity].
Qed.
Lemma token_inv : forall o h e os t e' r x, willing o -> hist_inv h e os -> enc_token o t e = Some (e', r) -> total e' = total e ++ x ->
  exists os', hist_inv (h ++ [mkcall t (match r with Done => true | _ => false end) x]) e' os'.
Proof.
  intros o h e os t e' r x W (B & F2 & F & T & Q) R X.
  destruct (token_step o t e W F T Q) as (e1 & r1 & R1 & F1 & T1 & P1 & X1 & D1). rewrite R in R1. injection R1 as <- <-.
  assert (XE : x = concat (fst (fst (encode_token (length (b_buf (en_b e))) t (en_p e))))) by (eapply app_inv_head; rewrite <- X; exact X1). clear X X1.
  set (k := length (b_buf (en_b e))) in *.
  assert (OTHER : (forall n a, t <> TStart n a) -> (forall n, t <> TEnd n) -> exists os', hist_inv (h ++ [mkcall t (match r with Done => true | _ => false end) x]) e' os').
  { intros A1 A2. exists os. rewrite (other_elems k t (en_p e) A1 A2) in P1. unfold hist_inv. rewrite P1.
    split; [|split; [auto|split; [auto|split; [auto|auto]]]]. destruct (other_refused k t (en_p e) A1 A2) as [O|[[y O] N]].
    - assert (r = Done) as -> by (apply D1; auto). apply B_other; auto.
    - rewrite N in XE. subst x. destruct r; try (apply B_refused; auto). destruct D1 as [D1 _]. destruct (D1 eq_refl) as [z Z]. congruence. }
  destruct t as [n a|n|y|y|tg y|y]; try (apply OTHER; intros; discriminate).
  - cbn [encode_token] in *. destruct (beq (local n) []) eqn:L.
    + exists os. unfold write_start in *. rewrite L in *. cbn in *. unfold hist_inv. rewrite P1. subst x. split; [|split; [auto|split; [auto|split; [auto|auto]]]].
      destruct r; try (apply B_refused; auto). destruct D1 as [D1 _]. destruct (D1 eq_refl) as [z Z]. discriminate.
    + apply beq_neq in L. destruct (write_start_ok n a (en_p e) Q L) as (cs & s' & el & ind & rest & E & EL & Q' & N1 & N2 & C & RR & PR). rewrite E in *. cbn in P1, XE, D1.
      exists (mkopened n (qname el) :: os). unfold hist_inv. rewrite P1, EL. assert (r = Done) as -> by (apply D1; eauto). split; [rewrite XE, C; apply B_start; auto|].
      split; [constructor; auto; split; [|split; [|split; [|split; [rewrite N2; apply split_nonempty; auto|]]]]; auto; intros p l PX U; cbn [o_name] in PX;
        apply split_prefixed_yes in PX; rewrite PX in PR; cbn [fst] in PR; apply PR; [intros ->; destruct U; discriminate|apply pick_usable; auto]|]. split; [auto|split; [auto|auto]].
  - cbn [encode_token] in *. destruct r eqn:RE.
    + (* accepted *)
      destruct D1 as [D1 _]. destruct (D1 eq_refl) as [z Z].
      destruct (p_elems (en_p e)) as [|el es] eqn:EL.
      { destruct (write_end_refused n (en_p e)) as [m X]; [congruence|]. rewrite X in Z. discriminate. }
      inversion F2 as [|op el' os1 es1 OE F2' EQ1 EQ2]. subst.
      assert (OK : el_name el <> [] /\ local n <> [] /\ end_matches n el).
      { assert (NN : ~ ~ (el_name el <> [] /\ local n <> [] /\ end_matches n el)).
        - intro NO. destruct (write_end_refused n (en_p e)) as [m X]; [|rewrite X in Z; discriminate]. intros e2 es2 E2. rewrite EL in E2. injection E2 as <- <-. exact NO.
        - unfold end_matches in *. assert (DB : forall a b : bytes, a = b \/ a <> b) by (intros a b; destruct (beq a b) eqn:BB; [left; now apply beq_eq|right; now apply beq_neq]).
          destruct (DB (el_name el) []) as [|N1]; [tauto|]. destruct (DB (local n) []) as [|N2]; [tauto|]. destruct (DB (snd (split_prefixed (local n))) (el_name el)); [|tauto].
          destruct (DB (space n) (el_ns el)); [|tauto]. destruct (DB (fst (split_prefixed (local n))) []); [tauto|]. destruct (DB (el_prefix el) []); [tauto|]. destruct (DB (fst (split_prefixed (local n))) (el_prefix el)); tauto. }
      destruct OK as (O1 & O2 & O3). destruct (write_end_ok n (en_p e) el es EL O1 O2 O3) as (cs & s' & ind & E & EL' & SQ & C). rewrite E in *. cbn in P1 |- *.
      exists os1. unfold hist_inv. rewrite P1, EL'. split; [|split; auto; split; auto; split; auto; rewrite SQ; auto]. rewrite C. destruct op as [m q]. destruct OE as (OA & OB & OC & OD & _). cbn in *. subst q.
      eapply B_end; [exact B|]. apply same_name_split. destruct O3 as (OX & OY & _). split; congruence.
    + assert (ND : ~ exists z, snd (write_end n (en_p e)) = Ok z) by (intro ZZ; apply D1 in ZZ; discriminate). clear D1.
      assert (RF : exists m, write_end n (en_p e) = ([], en_p e, Err (EncErr m))).
      { apply write_end_refused. intros el es EL (O1 & O2 & O3). apply ND. destruct (write_end_ok n (en_p e) el es EL O1 O2 O3) as (cs & s' & ind & E & _). rewrite E. exists tt. reflexivity. }
      destruct RF as [m RF]. rewrite RF in *. cbn in P1, XE. exists os. unfold hist_inv. rewrite P1. subst x. split; [apply B_refused; auto|split; [auto|split; [auto|split; [auto|auto]]]].
    + assert (ND : ~ exists z, snd (write_end n (en_p e)) = Ok z) by (intro ZZ; apply D1 in ZZ; discriminate). clear D1.
      assert (RF : exists m, write_end n (en_p e) = ([], en_p e, Err (EncErr m))).
      { apply write_end_refused. intros el es EL (O1 & O2 & O3). apply ND. destruct (write_end_ok n (en_p e) el es EL O1 O2 O3) as (cs & s' & ind & E & _). rewrite E. exists tt. reflexivity. }
      destruct RF as [m RF]. rewrite RF in *. cbn in P1, XE. exists os. unfold hist_inv. rewrite P1. subst x. split; [apply B_refused; auto|split; [auto|split; [auto|split; [auto|auto]]]].
Qed.
Lemma history_inv : forall o h e, willing o -> history o h e -> exists os, hist_inv h e os.
Proof.
  intros o h e W H. induction H as [u C|h e t e' r x H IH R X|h e H IH|h e p i H IH].
  - exists []. apply new_inv; auto.
  - destruct IH as [os IH]. eapply token_inv; eauto.
  - destruct IH as [os (B & F2 & F & T & Q)]. exists os. destruct (enc_flush_fine o e W F) as [F' D'].
    assert (PE : en_p (fst (enc_flush o e)) = en_p e) by reflexivity. unfold hist_inv. rewrite PE.
    destruct T as (T & T2 & T3). destruct (flush_took o _ _ (willing_obeys _ W) T) as [T' _].
    assert (TE : etook (fst (enc_flush o e)) (total e)). { split; [exact T'|]. destruct F' as (A1 & A2 & A3). split; auto. congruence. }
    split; auto. split; auto. split; auto. split; auto. rewrite <- (fine_took _ _ TE F'). exact TE.
  - destruct IH as [os (B & F2 & F & T & Q)]. exists os. split; [exact B|]. split; [exact F2|]. split; [exact F|]. split; [exact T|exact Q].
Qed.
