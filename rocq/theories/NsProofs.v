(** Namespaces of written start tags. *)
From Coq Require Import String.
From Coq Require Import ZArith List Bool Lia ZifyBool ZifyNat.
From Verif Require Import Base Utf8 NameTables Lexer Escape EscapeSpec EscapeProofs Decoder DecoderSpec DecoderProofs Printer PrinterProofs PropertiesHelpers NameProofs EncoderSpec EncoderProofs TagText NsSpec.
Import ListNotations.
Open Scope Z_scope.

(** *** Prefixes chosen by the encoder *)
Lemma trim_left_spec : forall c s, exists k, s = repeat c k ++ trim_left c s /\ forall t, trim_left c s <> c :: t.
Proof.
  intros c s. induction s as [|x s IH]; cbn [trim_left]; [exists 0%nat; split; [reflexivity|discriminate]|]. destruct (x =? c) eqn:E.
  - destruct IH as (k & A & B). exists (S k). split; auto. cbn. rewrite <- A. f_equal. lia.
  - exists 0%nat. split; [reflexivity|]. intros t X. injection X as X _. lia.
Qed.
Lemma repeat_rev : forall A (x : A) k, rev (repeat x k) = repeat x k.
Proof. intros. induction k; cbn; auto. rewrite IHk. clear. induction k; cbn; auto. f_equal. auto. Qed.
Lemma trim_right_spec : forall s, trimmed s (trim_right 47 s).
Proof.
  intro s. unfold trim_right, trimmed. destruct (trim_left_spec 47 (rev s)) as (k & A & B). split.
  - exists k. apply (f_equal (@rev Z)) in A. rewrite rev_involutive, rev_app_distr, repeat_rev in A. exact A.
  - intros y X. apply (f_equal (@rev Z)) in X. rewrite rev_involutive, rev_app_distr in X. cbn in X. eapply B; eauto.
Qed.
Lemma take_until_spec : forall c s, ~ In c (take_until c s) /\ (s = take_until c s \/ exists a, s = take_until c s ++ c :: a).
Proof.
  intros c s. induction s as [|x s [A B]]; cbn [take_until]; [split; [auto|left; auto]|]. destruct (x =? c) eqn:E.
  - split; [auto|]. right. exists s. cbn. f_equal. lia.
  - split; [intros [X|X]; [lia|auto]|]. destruct B as [B|[a B]]; [left; f_equal; auto|right; exists a; cbn; f_equal; auto].
Qed.
Lemma after_last_spec : forall s, last_part s (after_last 47 s).
Proof.
  intro s. unfold after_last, last_part. destruct (take_until_spec 47 (rev s)) as [A B]. split; [intro X; apply A; now apply in_rev|].
  destruct B as [B|[a B]]; [left|right; exists (rev a)].
  - apply (f_equal (@rev Z)) in B. rewrite rev_involutive in B. exact B.
  - apply (f_equal (@rev Z)) in B. rewrite rev_involutive, rev_app_distr in B. cbn in B. rewrite <- app_assoc in B. exact B.
Qed.
Lemma fold_xmlish : forall p, xmlish p -> (3 <=? length p)%nat && equal_fold (firstn 3 p) (str "xml") = true.
Proof.
  intros p (x & m & l & r & -> & X & M & L). apply andb_true_iff. split; [reflexivity|]. cbn [firstn]. destruct X as [->| ->], M as [->| ->], L as [->| ->]; reflexivity.
Qed.
Lemma usable_under : usable [95].
Proof. split; [reflexivity|]. split; [cbn; lia|]. intros (x & m & l & r & E & _). discriminate. Qed.
Lemma pick_stem : forall s, stem s
  (let p := after_last 47 s in
   let p := if beq p [] || negb (is_name p) || existsb (Z.eqb 58) p then str "_" else p in
   if (3 <=? length p)%nat && equal_fold (firstn 3 p) (str "xml") then str "_" ++ p else p).
Proof.
  intro s. cbv zeta. pose proof (after_last_spec s) as L. set (x := after_last 47 s) in *. clearbody x.
  destruct (beq x [] || negb (is_name x) || existsb (Z.eqb 58) x) eqn:E.
  - change (stem s [95]). apply Stem_other with x; auto. intros [A B]. rewrite A in E. destruct (beq x []) eqn:E1; [apply beq_eq in E1; subst x; discriminate|]. cbn in E.
    apply existsb_exists in E. destruct E as (y & Y & Z). apply B. replace 58 with y by lia. auto.
  - apply orb_false_iff in E. destruct E as [E1 E2]. apply orb_false_iff in E1. destruct E1 as [E0 E1]. assert (N : is_name x = true) by (destruct (is_name x); auto; discriminate).
    assert (C : ~ In 58 x). { intro I. rewrite <- not_true_iff_false in E2. apply E2. apply existsb_exists. exists 58. split; auto. }
    destruct ((3 <=? length x)%nat && _) eqn:F.
    + change (str "_" ++ x) with (95 :: x). apply Stem_xml; auto. apply xmlish_fold; auto.
    + apply Stem_part; auto. split; auto. split; auto. intro X. apply fold_xmlish in X. congruence.
Qed.
Lemma stem_usable : forall s r, stem s r -> usable r.
Proof.
  intros s r [x L U|x L N C X|x L _]; [auto| |apply usable_under]. split.
  - change (95 :: x) with ([95] ++ x). apply is_name_app; [reflexivity|]. apply name_pieces; auto.
  - split; [intros [E|I]; [lia|auto]|]. intros (a & m & l & t & E & A & _). injection E as E _. lia.
Qed.
Lemma xmlish_app : forall r w, xmlish (r ++ 95 :: w) -> xmlish r.
Proof.
  intros r w (x & m & l & t & E & X & M & L). destruct r as [|r0 [|r1 [|r2 r]]]; cbn in E; injection E; intros; try lia. exists r0, r1, r2, r. subst. auto.
Qed.
Lemma candidate_usable : forall u q p, candidate u q p -> usable p.
Proof.
  intros u q p (s & r & _ & S & P). apply stem_usable in S. destruct P as [->|(d & [_ D] & ->)]; auto. destruct S as (N & C & X). split; [|split].
  - apply is_name_app; auto. apply name_tail. constructor; [auto|]. eapply Forall_impl; [|exact D]. cbn. auto.
  - intro I. apply in_app_iff in I. destruct I as [I|[I|I]]; [auto|lia|]. rewrite Forall_forall in D. specialize (D _ I). lia.
  - intro Y. apply X. eapply xmlish_app; eauto.
Qed.
Lemma usable_nonempty : forall p, usable p -> p <> []. Proof. intros p (N & _) ->. discriminate. Qed.
Lemma itoa_numeral : forall n, 0 <= n -> numeral (itoa n).
Proof. intros n H. destruct (dec_spec n H) as (A & _ & B). split; [exact B|exact A]. Qed.
Lemma pick_candidate : forall p2n u q, exists s r, (s = q /\ q <> [] \/ trimmed u s) /\ stem s r /\ pick_prefix p2n u q = r.
Proof.
  intros p2n u q. unfold pick_prefix. destruct (beq q [] || negb (beq (sget p2n q) [])) eqn:E.
  - eexists _, _. split; [right; apply trim_right_spec|]. split; [apply pick_stem|reflexivity].
  - eexists _, _. split; [left; split; [reflexivity|]|split; [apply pick_stem|reflexivity]]. apply orb_false_iff in E. destruct E as [E _]. apply beq_neq in E. exact E.
Qed.
Lemma usable_candidate : forall u q, usable q -> candidate u q q.
Proof.
  intros u q U. exists q, q. split; [left; split; auto; apply usable_nonempty; auto|]. split; [|auto]. apply Stem_part; auto. split; auto. apply name_no_byte; [reflexivity|apply U].
Qed.

(** *** The encoder's tables and the tags in the text *)
(** A declaration as written, and as a hand-made attribute. *)
Definition dcl (p u : bytes) : attr := mkattr (mkname xmlnsPrefix p) u.
Definition hand (p u : bytes) : attr := mkattr (mkname xmlnsURL p) u.
Definition dflt (u : bytes) : attr := mkattr (mkname [] xmlnsPrefix) u.

Section Policy.
Variable inh : bool.
Variable pol : bytes -> bytes.
Definition sane (a : list attr) : Prop := forall p u, In (dcl p u) a -> usable p /\ pol p = u /\ u <> [].
Inductive link : list element -> list tag -> Prop :=
| L_nil : link [] []
| L_cons e es n ras open : link es open -> n = mkname (el_prefix e) (el_name e) -> rawname n -> Forall rawattr ras ->
    (exists u, expand ((n, ras) :: open) true n = mkname u (el_name e) /\ (u = el_ns e \/ inh = true /\ el_ns e = [])) -> (el_prefix e = [] -> el_name e <> xmlnsPrefix) -> sane ras ->
    (forall u, sget (el_n2p e) u <> [] -> In (dcl (sget (el_n2p e) u) u) ras) -> link (e :: es) ((n, ras) :: open).
Definition somewhere (open : list tag) (p u : bytes) : Prop := exists n b, In (n, b) open /\ In (dcl p u) b.
Definition refers (open : list tag) (ras rem : list attr) (p u : bytes) : Prop :=
  (p = xmlPrefix /\ u = xmlURL) \/ (p = xmlnsPrefix /\ u = xmlnsURL) \/
  (usable p /\ pol p = u /\ u <> [] /\ (In (dcl p u) ras \/ In (hand p u) rem \/ somewhere open p u)).
(** The tables of the element being started: what is written so far is [ras], the attributes still to come are [rem]. *)
Definition tabs (e : element) (ras rem : list attr) : Prop :=
  sane ras /\
  (forall u, sget (el_n2p e) u <> [] -> In (dcl (sget (el_n2p e) u) u) ras \/ In (hand (sget (el_n2p e) u) u) rem) /\
  (forall q, sget (el_p2n e) q <> [] -> pol q = sget (el_p2n e) q /\ sget (el_n2p e) (sget (el_p2n e) q) <> []).
Lemma find_link : forall es open, link es open -> forall u inner, find_prefix u inner es <> [] ->
  usable (find_prefix u inner es) /\ pol (find_prefix u inner es) = u /\ u <> [] /\ somewhere open (find_prefix u inner es) u.
Proof.
  induction 1 as [|e es n ras open L IH N RN RA EX NX SA TB]; intros u inn H; cbn [find_prefix] in *; [congruence|].
  destruct (beq (sget (el_n2p e) u) []) eqn:E.
  - destruct (IH _ _ H) as (A & B & C & (m & b & D & F)). split; auto. split; auto. split; auto. exists m, b. split; [right; auto|auto].
  - apply beq_neq in E. destruct (existsb _ inn); [congruence|]. specialize (TB _ E). destruct (SA _ _ TB) as (A & B & C). split; auto. split; auto. split; auto. exists n, ras. split; [left; auto|auto].
Qed.
Lemma hand_good : forall n rem p u, Forall (good_attr inh pol n) rem -> In (hand p u) rem -> usable p /\ pol p = u /\ u <> [] /\ agrees pol u p.
Proof.
  intros n rem p u F I. rewrite Forall_forall in F. specialize (F _ I). unfold good_attr, hand in F. cbn [aname avalue space local] in F. change xmlns_uri with xmlnsURL in F. rewrite beq_refl in F.
  destruct F as (_ & U & N & A). split; auto. split; auto. apply A. apply usable_candidate; auto.
Qed.
Lemma get_link : forall nm e es open ras rem u, link es open -> tabs e ras rem -> Forall (good_attr inh pol nm) rem ->
  get_prefix (e :: es) u <> [] -> refers open ras rem (get_prefix (e :: es) u) u.
Proof.
  intros nm e es open ras rem u L (SA & TB & _) G H. unfold get_prefix in *. destruct (beq u xmlURL) eqn:E1; [apply beq_eq in E1; left; auto|].
  destruct (beq u xmlnsURL) eqn:E2; [apply beq_eq in E2; right; left; auto|]. right. right. cbn [find_prefix] in *. destruct (beq (sget (el_n2p e) u) []) eqn:E.
  - destruct (find_link _ _ L _ _ H) as (A & B & C & D). split; auto.
  - apply beq_neq in E. cbn [existsb] in *. destruct (TB _ E) as [I|I].
    + destruct (SA _ _ I) as (A & B & C). split; auto.
    + destruct (hand_good _ _ _ _ G I) as (A & B & C & _). split; auto.
Qed.
Lemma get_link0 : forall es open u, link es open -> get_prefix es u <> [] -> refers open [] [] (get_prefix es u) u.
Proof.
  intros es open u L H. unfold get_prefix in *. destruct (beq u xmlURL) eqn:E1; [apply beq_eq in E1; left; auto|].
  destruct (beq u xmlnsURL) eqn:E2; [apply beq_eq in E2; right; left; auto|]. right. right. destruct (find_link _ _ L _ _ H) as (A & B & C & D). split; auto.
Qed.
Lemma create_ns : forall nm u q s e es open ras rem, p_elems s = e :: es -> 0 <= p_seq s -> link es open -> tabs e ras rem -> Forall (good_attr inh pol nm) rem ->
  exists p b s', create_prefix u q s = ([], s', Ok (p, b)) /\ inner s s' /\
    (b = false -> s' = s /\ refers open ras rem p u /\ (q = [] \/ p = q) /\ get_prefix (e :: es) u <> []) /\
    (b = true -> candidate u q p /\ exists e', p_elems s' = e' :: es /\ same_tag e e' /\
       el_n2p e' = (if beq (sget (el_n2p e) u) [] then sset (el_n2p e) u p else el_n2p e) /\ el_p2n e' = sset (el_p2n e) p u /\
       (usable q -> sget (el_p2n e) q = [] -> p = q) /\ (q = [] -> get_prefix (e :: es) u = [])).
Proof.
  intros nm u q s e es open ras rem ES Q L T G. destruct (create_ok u q s Q) as (p & b & s' & C & I & _). exists p, b, s'. split; [exact C|]. split; [exact I|].
  unfold create_prefix, mbind, mget, mret in C. rewrite ES in C. cbn [app] in C.
  destruct (negb (beq (get_prefix (e :: es) u) []) && _) eqn:GP.
  { injection C as <- <- <-. apply andb_true_iff in GP. destruct GP as [G1 G2]. apply negb_true_iff, beq_neq in G1. split; [|discriminate]. intros _. split; auto.
    split; [eapply get_link; eauto|]. split; [|exact G1]. apply orb_true_iff in G2. destruct G2 as [G2|G2]; apply beq_eq in G2; auto. }
  assert (GN : q = [] -> get_prefix (e :: es) u = []).
  { intros ->. change (beq [] []) with true in GP. rewrite orb_true_r, andb_true_r in GP. apply negb_false_iff, beq_eq in GP. exact GP. }
  set (r := pick_prefix (el_p2n e) u q) in C. destruct (pick_candidate (el_p2n e) u q) as (s0 & r0 & S0 & ST & E0). fold r in E0. subst r0.
  destruct (beq (sget (el_p2n e) r) []) eqn:TK.
  - cbn in C. injection C as <- <- <-. split; [discriminate|]. intros _. split; [exists s0, r; auto|]. eexists. cbn. split; [reflexivity|]. split; [unfold same_tag; cbn; auto|]. split; [reflexivity|]. split; [reflexivity|].
    split; [|exact GN]. intros U S. apply pick_usable; auto.
  - destruct (fresh_prefix _ (el_p2n e) r (p_seq s + 1)) as [[id n]|] eqn:F; [|cbn in C; discriminate].
    destruct (fresh_ok _ _ _ _ _ _ F) as (LE & ID & _). cbn in C. injection C as <- <- <-. split; [discriminate|]. intros _. split.
    + exists s0, r. split; auto. split; auto. right. exists (itoa n). split; [apply itoa_numeral; lia|]. exact ID.
    + eexists. cbn. split; [reflexivity|]. split; [unfold same_tag; cbn; auto|]. split; [reflexivity|]. split; [reflexivity|].
      split; [|exact GN]. intros U S. exfalso. apply beq_neq in TK. apply TK. unfold r. rewrite pick_usable; auto.
Qed.
Lemma find_mono : forall es open, link es open -> forall w p u e e' inn, pol p = u -> w <> u -> el_p2n e' = sset (el_p2n e) p u ->
  find_prefix w (inn ++ [e]) es <> [] -> find_prefix w (inn ++ [e']) es <> [].
Proof.
  induction 1 as [|e0 es n ras open L IH N RN RA EX NX SA TB]; intros w p u e e' inn P WU P2 H; cbn [find_prefix] in *; [congruence|].
  destruct (beq (sget (el_n2p e0) w) []) eqn:E.
  - apply (IH w p u e e' (e0 :: inn) P WU P2 H).
  - apply beq_neq in E. destruct (SA _ _ (TB _ E)) as (_ & PW & _). rewrite existsb_app in *. destruct (existsb _ inn); [cbn in H; congruence|]. cbn [orb existsb] in *. rewrite orb_false_r in *.
    rewrite P2, sget_set. destruct (beq p (sget (el_n2p e0) w)) eqn:Q; [apply beq_eq in Q; subst p; congruence|]. destruct (negb _); auto.
Qed.
Lemma get_mono : forall e e' es open u p, link es open -> p <> [] -> pol p = u ->
  el_n2p e' = (if beq (sget (el_n2p e) u) [] then sset (el_n2p e) u p else el_n2p e) -> el_p2n e' = sset (el_p2n e) p u ->
  get_prefix (e' :: es) u <> [] /\ forall w, get_prefix (e :: es) w <> [] -> get_prefix (e' :: es) w <> [].
Proof.
  intros e e' es open u p L PN P N2 P2. assert (K : get_prefix (e' :: es) u <> []).
  { unfold get_prefix. destruct (beq u xmlURL); [discriminate|]. destruct (beq u xmlnsURL); [discriminate|]. cbn [find_prefix existsb]. rewrite N2. destruct (beq (sget (el_n2p e) u) []) eqn:E.
    - rewrite sget_set, beq_refl. replace (beq p []) with false by (symmetry; now apply beq_neq). exact PN.
    - rewrite E. apply beq_neq in E. exact E. }
  split; auto. intros w H. destruct (bytes_dec w u) as [->|WU]; auto. revert H. unfold get_prefix. destruct (beq w xmlURL); auto. destruct (beq w xmlnsURL); auto. cbn [find_prefix existsb].
  assert (E : sget (el_n2p e') w = sget (el_n2p e) w). { rewrite N2. destruct (beq (sget (el_n2p e) u) []); auto. rewrite sget_set. replace (beq u w) with false by (symmetry; apply beq_neq; congruence). auto. }
  rewrite E. destruct (beq (sget (el_n2p e) w) []); auto. apply (find_mono es open L w p u e e' []); auto.
Qed.
Lemma sane_add : forall ras p u, sane ras -> usable p -> pol p = u -> u <> [] -> sane (ras ++ [dcl p u]).
Proof.
  intros ras p u S A B C p' u' I. apply in_app_iff in I. destruct I as [I|[I|[]]]; auto. unfold dcl in I. injection I as <- <-. auto.
Qed.
Lemma sane_other : forall ras x, sane ras -> space (aname x) <> xmlnsPrefix -> sane (ras ++ [x]).
Proof. intros ras x S N p u I. apply in_app_iff in I. destruct I as [I|[I|[]]]; auto. subst x. exfalso. apply N. reflexivity. Qed.
Lemma tabs_other : forall e ras rem x y, tabs e ras (y :: rem) -> space (aname x) <> xmlnsPrefix -> space (aname y) <> xmlnsURL -> tabs e (ras ++ [x]) rem.
Proof.
  intros e ras rem x y (A & B & C) N N2. split; [apply sane_other; auto|]. split; auto. intros u H. destruct (B u H) as [I|[I|I]].
  - left. apply in_app_iff. auto.
  - exfalso. apply N2. rewrite I. reflexivity.
  - auto.
Qed.
Lemma tabs_create : forall e e' ras rem u p, tabs e ras rem -> u <> [] -> usable p -> pol p = u ->
  el_n2p e' = (if beq (sget (el_n2p e) u) [] then sset (el_n2p e) u p else el_n2p e) -> el_p2n e' = sset (el_p2n e) p u -> tabs e' (ras ++ [dcl p u]) rem.
Proof.
  intros e e' ras rem u p (A & B & C) N U P N2 P2. split; [apply sane_add; auto|]. pose proof (usable_nonempty p U) as PN.
  assert (K : forall w, sget (el_n2p e') w <> [] <-> sget (el_n2p e) w <> [] \/ w = u).
  { intro w. rewrite N2. destruct (beq (sget (el_n2p e) u) []) eqn:E.
    - rewrite sget_set. destruct (beq u w) eqn:Q; [apply beq_eq in Q; subst; tauto|]. apply beq_neq in Q. split; [tauto|intros [X|X]; auto; congruence].
    - apply beq_neq in E. split; [tauto|]. intros [X|X]; auto. congruence. }
  split.
  - intros w H. assert (D : sget (el_n2p e') w = sget (el_n2p e) w /\ sget (el_n2p e) w <> [] \/ w = u /\ sget (el_n2p e') w = p).
    { rewrite N2 in H |- *. destruct (beq (sget (el_n2p e) u) []) eqn:E; [|left; auto]. rewrite sget_set in *. destruct (beq u w) eqn:Q; [apply beq_eq in Q; right; auto|left; auto]. }
    destruct D as [[-> D]|[-> ->]]; [destruct (B w D); [left; apply in_app_iff; auto|auto]|left; apply in_app_iff; cbn; auto].
  - intros q H. rewrite P2, sget_set in *. destruct (beq p q) eqn:Q; [apply beq_eq in Q; subst q; split; auto; apply K; auto|]. destruct (C q H) as [X Y]. split; auto. apply K. auto.
Qed.
Lemma tabs_hand : forall e e' ras rem u p q, tabs e ras (hand q u :: rem) -> u <> [] -> usable q -> pol q = u -> usable p -> pol p = u ->
  el_n2p e' = (if beq (sget (el_n2p e) u) [] then sset (el_n2p e) u p else el_n2p e) -> el_p2n e' = sset (el_p2n e) p u ->
  (sget (el_p2n e) q = [] -> p = q) -> tabs e' (ras ++ [dcl q u]) rem.
Proof.
  intros e e' ras rem u p q (A & B & C) N U Q PU P N2 P2 PQ. split; [apply sane_add; auto|]. pose proof (usable_nonempty p PU) as PN.
  assert (K : forall w, sget (el_n2p e') w <> [] <-> sget (el_n2p e) w <> [] \/ w = u).
  { intro w. rewrite N2. destruct (beq (sget (el_n2p e) u) []) eqn:E.
    - rewrite sget_set. destruct (beq u w) eqn:R; [apply beq_eq in R; subst; tauto|]. apply beq_neq in R. split; [tauto|intros [X|X]; auto; congruence].
    - apply beq_neq in E. split; [tauto|]. intros [X|X]; auto. congruence. }
  split.
  - intros w H. assert (D : sget (el_n2p e') w = sget (el_n2p e) w /\ sget (el_n2p e) w <> [] \/ w = u /\ sget (el_n2p e') w = p /\ sget (el_n2p e) u = []).
    { rewrite N2 in H |- *. destruct (beq (sget (el_n2p e) u) []) eqn:E; [|left; auto]. apply beq_eq in E. rewrite sget_set in *. destruct (beq u w) eqn:R; [apply beq_eq in R; right; auto|left; auto]. }
    destruct D as [[-> D]|(-> & -> & D)].
    + destruct (B w D) as [I|[I|I]]; [left; apply in_app_iff; auto| |auto]. left. apply in_app_iff. right. left. unfold hand in I. injection I as -> ->. reflexivity.
    + left. apply in_app_iff. right. left. f_equal. f_equal. destruct (bytes_dec (sget (el_p2n e) q) []) as [Z|Z]; [symmetry; auto|]. exfalso. destruct (C q Z) as [X Y]. apply Y. rewrite <- X, Q. exact D.
  - intros w H. rewrite P2, sget_set in *. destruct (beq p w) eqn:R; [apply beq_eq in R; subst w; split; auto; apply K; auto|]. destruct (C w H) as [X Y]. split; auto. apply K. auto.
Qed.
Lemma tabs_hand_known : forall e ras rem q u, tabs e ras (hand q u :: rem) -> u <> [] -> usable q -> pol q = u -> tabs e (ras ++ [dcl q u]) rem.
Proof.
  intros e ras rem q u (A & B & C) N U Q. split; [apply sane_add; auto|]. split; auto. intros w H. destruct (B w H) as [I|[I|I]]; [left; apply in_app_iff; auto| |auto].
  left. apply in_app_iff. right. left. unfold hand in I. injection I as -> ->. reflexivity.
Qed.
Lemma refers_mono : forall open ras rem ras' rem' p u, refers open ras rem p u -> incl ras ras' -> (forall q w, In (hand q w) rem -> In (hand q w) rem' \/ In (dcl q w) ras') -> refers open ras' rem' p u.
Proof.
  intros open ras rem ras' rem' p u [A|[A|(A & B & C & D)]] I H; [left; auto|right; left; auto|]. right. right. split; auto. split; auto. split; auto.
  destruct D as [D|[D|D]]; auto. destruct (H _ _ D); auto.
Qed.

(** *** Attributes *)
Ltac flat := repeat (progress (cbn [concat app flat_map]; rewrite ?app_nil_r, ?concat_app, <- ?app_assoc)).
(** What one attribute adds to the tag; [R p u]: the prefix p stands for u. *)
Inductive wrote (R : bytes -> bytes -> Prop) : attr -> list attr -> Prop :=
| W_hand q v : wrote R (hand q v) [dcl q v]
| W_plain l v : ~ In 58 l -> wrote R (mkattr (mkname [] l) v) [mkattr (mkname [] l) v]
| W_qual n v p q l pre : space n <> [] -> space n <> xmlnsURL -> R p (space n) -> parts (local n) q l ->
    pre = [] \/ pre = [dcl p (space n)] -> wrote R (mkattr n v) (pre ++ [mkattr (mkname p l) v]).
Lemma wrote_mono : forall (R S : bytes -> bytes -> Prop) a b, (forall p u, R p u -> S p u) -> wrote R a b -> wrote S a b.
Proof. intros R S a b I []; [constructor|constructor; auto|econstructor; eauto]. Qed.
Lemma usable_nc : forall p, usable p -> ncname p. Proof. intros p (A & B & _). split; auto. Qed.
Lemma xmlish_prefixes : xmlish xmlPrefix /\ xmlish xmlnsPrefix.
Proof. split; [exists 120, 109, 108, []|exists 120, 109, 108, (str "ns")]; (split; [reflexivity|]); lia. Qed.
Lemma usable_not_xml : forall p, usable p -> p <> xmlPrefix /\ p <> xmlnsPrefix.
Proof. intros p (_ & _ & X). split; intros ->; apply X; apply xmlish_prefixes. Qed.
Lemma nc_xmlns : ncname xmlnsPrefix. Proof. split; [reflexivity|]. intro H. vm_compute in H. intuition discriminate. Qed.
Lemma nc_xml : ncname xmlPrefix. Proof. split; [reflexivity|]. intro H. vm_compute in H. intuition discriminate. Qed.
Lemma refers_nc : forall open ras rem p u, refers open ras rem p u -> ncname p.
Proof. intros open ras rem p u [[-> _]|[[-> _]|(U & _)]]; [apply nc_xml|apply nc_xmlns|apply usable_nc; auto]. Qed.
Lemma raw_dcl : forall p u, ncname p -> xml_text u -> rawattr (dcl p u).
Proof. intros p u P U. split; [|exact U]. split; [right; apply nc_xmlns|exact P]. Qed.
Lemma dcl_text : forall p u, ncname p -> [32] ++ concat (prefix_attr p u) = attr_text (dcl p u).
Proof.
  intros p u N. unfold prefix_attr, attr_text, dcl, name_text, escape. cbn [aname avalue space local]. unfold xmlnsPrefix. rewrite !concat_app. cbn [concat app str list_ascii_of_string map String.list_ascii_of_string].
  rewrite ?app_nil_r, <- ?app_assoc. reflexivity.
Qed.
Lemma simple_split : forall l, ~ In 58 l -> split_prefixed l = ([], l).
Proof. intros l N. unfold split_prefixed. rewrite (proj2 (index_byte_none 58 l)); auto. Qed.
Lemma parts_simple : forall l, ~ In 58 l -> parts l [] l.
Proof. intros l N. right. split; auto. split; auto. intros q r (-> & _). apply N. apply in_app_iff. cbn. auto. Qed.
Lemma parts_split : forall s q l, parts s q l -> split_prefixed s = (q, l).
Proof. intros s q l P. destruct (parts_fun _ _ _ _ _ P (split_parts s)) as [-> ->]. destruct (split_prefixed s); auto. Qed.
Lemma simple_nonempty : forall l, simple l -> l <> []. Proof. intros l [N _] ->. discriminate. Qed.
Lemma parts_nonempty : forall s q l, parts s q l -> l <> [] -> s <> [].
Proof. intros s q l [(-> & P & _)|(_ & -> & _)] N; auto. destruct q; discriminate. Qed.

Lemma parts_prefixed : forall s q l, parts s q l -> q <> [] -> prefixed s q l.
Proof. intros s q l [P|(-> & _)] N; [auto|congruence]. Qed.

Lemma inner_elems : forall s s' e es, inner s s' -> p_elems s = e :: es -> 0 <= p_seq s -> exists e', p_elems s' = e' :: es /\ same_tag e e' /\ 0 <= p_seq s'.
Proof.
  intros s s' e es I E Q. unfold inner in I. rewrite E in I. destruct I as (_ & _ & _ & _ & _ & I1 & I2). destruct (p_elems s') as [|e' es']; [tauto|]. destruct I2 as [-> I2]. eauto.
Qed.
Lemma attr_step : forall nm x s e es open ras rem, p_elems s = e :: es -> 0 <= p_seq s -> link es open -> tabs e ras (x :: rem) -> Forall (good_attr inh pol nm) (x :: rem) ->
  exists cs s' e' add, write_attr x s = (cs, s', Ok tt) /\ inner s s' /\ p_elems s' = e' :: es /\ tabs e' (ras ++ add) rem /\
    concat cs = flat_map attr_text add /\ Forall rawattr add /\ wrote (refers open (ras ++ add) rem) x add /\
    (forall p u, In (dcl p u) add -> declaration_of x \/ ~ unprefixed (local (aname x)) \/ get_prefix (e :: es) u = []) /\
    (forall p u, In (dcl p u) add -> get_prefix (e' :: es) u <> []) /\ (forall u, get_prefix (e :: es) u <> [] -> get_prefix (e' :: es) u <> []).
Proof.
  intros nm x s e es open ras rem ES Q L T G. inversion G as [|? ? GX GR]; subst. unfold good_attr in GX. change xmlns_uri with xmlnsURL in GX. destruct x as [[sp lo] v]. cbn [aname avalue space local] in GX.
  destruct GX as [XV GX]. unfold write_attr. cbn [aname avalue space local]. destruct (beq sp xmlnsURL) eqn:E1.
  - apply beq_eq in E1. subst sp. destruct GX as (U & NV & AG). destruct U as (U1 & U2 & U3). assert (U : usable lo) by (split; auto).
    assert (LN : lo <> []) by (apply usable_nonempty; auto). replace (beq lo []) with false by (symmetry; now apply beq_neq). rewrite simple_split by auto.
    destruct (create_ns nm v lo s e es open ras (hand lo v :: rem) ES Q L T G) as (p & b & s1 & C & I & CF & CT).
    unfold mbind, emit. rewrite C. eexists _, s1. assert (PL : pol lo = v) by (apply AG; apply usable_candidate; auto).
    assert (E' : exists e', p_elems s1 = e' :: es /\ tabs e' (ras ++ [dcl lo v]) rem /\ get_prefix (e' :: es) v <> [] /\ (forall u, get_prefix (e :: es) u <> [] -> get_prefix (e' :: es) u <> [])).
    { destruct b.
      - destruct (CT eq_refl) as (CA & e' & EE & ST & N2 & P2 & PP & _). exists e'. split; auto. split; [eapply (tabs_hand e e' ras rem v p lo); eauto; eapply candidate_usable; eauto|].
        eapply (get_mono e e' es open v p); eauto. apply usable_nonempty. eapply candidate_usable; eauto.
      - destruct (CF eq_refl) as (-> & RF & _ & GN). exists e. split; auto. split; [apply tabs_hand_known; auto|auto]. }
    destruct E' as (e' & EE & TE & GV & GM). exists e', [dcl lo v]. split; [reflexivity|]. split; auto. split; auto. split; auto. split.
    + unfold attr_text, dcl, name_text, escape. cbn [aname avalue space local flat_map]. change xmlnsPrefix with (str "xmlns"). cbn. rewrite !concat_app. cbn. rewrite ?app_nil_r, <- ?app_assoc. cbn. rewrite ?app_nil_r, <- ?app_assoc. reflexivity.
    + split; [constructor; [apply raw_dcl; auto; split; auto|constructor]|]. split; [constructor|]. split; [left; reflexivity|]. split; [|exact GM]. intros p0 u0 [X|[]]. unfold dcl in X. injection X as _ <-. exact GV.
  - apply beq_neq in E1. destruct (beq sp []) eqn:E2.
    + apply beq_eq in E2. subst sp. cbn [negb]. destruct GX as [[SN SC] SX]. assert (LN : lo <> []) by (intros ->; discriminate). replace (beq lo []) with false by (symmetry; now apply beq_neq). rewrite simple_split by auto.
      unfold mbind, emit, mret. eexists _, s, e, [mkattr (mkname [] lo) v]. split; [reflexivity|]. split; [apply inner_refl|]. split; auto. split; [eapply tabs_other; eauto; cbn; discriminate|]. split.
      * unfold attr_text, name_text, escape. cbn. rewrite !concat_app. cbn. rewrite ?app_nil_r, <- ?app_assoc. reflexivity.
      * split; [constructor; [|constructor]; split; [|exact XV]; split; [left; auto|split; auto]|]. split; [constructor; auto|]. split; [intros p0 u0 [X|[]]; discriminate X|]. split; [intros p0 u0 [X|[]]; discriminate X|auto].
    + apply beq_neq in E2. cbn [negb]. destruct GX as (_ & XU & q & l & PT & QS & LS & AG). pose proof (parts_nonempty _ _ _ PT (simple_nonempty _ LS)) as LN.
      replace (beq lo []) with false by (symmetry; now apply beq_neq). rewrite (parts_split _ _ _ PT).
      destruct (create_ns nm sp q s e es open ras (mkattr (mkname sp lo) v :: rem) ES Q L T G) as (p & b & s1 & C & I & CF & CT).
      unfold mbind, emit. rewrite C. destruct b.
      * destruct (CT eq_refl) as (CA & e' & EE & ST & N2 & P2 & PP & GN). pose proof (candidate_usable _ _ _ CA) as U. pose proof (AG _ CA) as PL.
        destruct (get_mono e e' es open sp p L (usable_nonempty _ U) PL N2 P2) as [GV GM].
        assert (T1 : tabs e' (ras ++ [dcl p sp]) (mkattr (mkname sp lo) v :: rem)) by (eapply tabs_create; eauto).
        assert (RW : rawattr (mkattr (mkname p l) v)) by (split; [split; [right; apply usable_nc; auto|exact LS]|exact XV]).
        eexists _, s1, e', [dcl p sp; mkattr (mkname p l) v]. split; [reflexivity|]. split; auto. split; auto. split.
        { change [dcl p sp; mkattr (mkname p l) v] with ([dcl p sp] ++ [mkattr (mkname p l) v]). rewrite app_assoc. eapply tabs_other; eauto. cbn. apply usable_not_xml; auto. }
        split.
        { cbn [flat_map]. rewrite <- (dcl_text p sp) by (apply usable_nc; auto). unfold attr_text, name_text, escape. cbn [aname avalue space local].
          destruct p as [|c0 p]; [exfalso; eapply usable_nonempty; eauto|]. flat. reflexivity. }
        split; [constructor; [apply raw_dcl; auto; apply usable_nc; auto|constructor; [exact RW|constructor]]|].
        split; [apply (W_qual _ (mkname sp lo) v p q l [dcl p sp]); cbn [space local]; auto; right; right; split; auto; split; auto; split; auto; left; apply in_app_iff; cbn; auto|].
        assert (ON : forall p0 u0, In (dcl p0 u0) [dcl p sp; mkattr (mkname p l) v] -> u0 = sp).
        { intros p0 u0 [X|[X|[]]]; [unfold dcl in X; injection X; auto|]. unfold dcl in X. injection X as X _ _. exfalso. eapply (proj2 (usable_not_xml _ U)); eauto. }
        split; [|split; [intros p0 u0 X; rewrite (ON _ _ X); exact GV|exact GM]]. intros p0 u0 X. rewrite (ON _ _ X). right. cbn [aname local]. destruct (bytes_dec q []) as [->|QN]; [right; auto|left].
        intro NP. apply (NP q l). apply (parts_prefixed _ _ _ PT QN).
      * destruct (CF eq_refl) as (-> & RF & _).
        assert (RW : rawattr (mkattr (mkname p l) v)) by (split; [split; [right; eapply refers_nc; eauto|exact LS]|exact XV]).
        assert (PX : p <> xmlnsPrefix).
        { destruct RF as [[-> _]|[[_ X]|(U & _)]]; [discriminate|congruence|apply usable_not_xml; auto]. }
        eexists _, s, e, [mkattr (mkname p l) v]. split; [reflexivity|]. split; auto. split; auto. split; [eapply tabs_other; eauto|]. split.
        { unfold attr_text, name_text, escape. cbn [aname avalue space local flat_map]. pose proof (ncname_nonempty _ (refers_nc _ _ _ _ _ RF)) as PN. destruct p as [|c0 p]; [congruence|].
          flat. reflexivity. }
        split; [constructor; [exact RW|constructor]|].
        split; [apply (W_qual _ (mkname sp lo) v p q l []); cbn [space local]; auto; eapply refers_mono; [exact RF|apply incl_appl, incl_refl|];
          intros q0 w [X|X]; auto; exfalso; unfold hand in X; injection X as X _ _; congruence|].
        split; [intros p0 u0 [X|[]]; unfold dcl in X; injection X as X _ _; congruence|]. split; [intros p0 u0 [X|[]]; unfold dcl in X; injection X as X _ _; congruence|auto].
Qed.
(** The name an attribute was given, from the name it was written with. *)
Definition back (x : attr) : name :=
  let n := aname x in
  if beq (space n) [] then n else if beq (space n) xmlnsPrefix then mkname xmlnsURL (local n) else if beq (space n) xmlPrefix then mkname xmlURL (local n) else mkname (pol (space n)) (local n).
Definition known (es : list element) (ras : list attr) : Prop := forall p u, In (dcl p u) ras -> get_prefix es u <> [].
Definition own (ras : list attr) : Prop := forall x, In x ras -> space (back x) = xmlnsURL -> exists p u, x = dcl p u.
Lemma unprefixed_parts : forall s q l, unprefixed s -> parts s q l -> q = [] /\ l = s.
Proof. intros s q l U [P|(A & B & _)]; [exfalso; eapply U; eauto|auto]. Qed.
Lemma back_qual : forall open ras rem p u l v, refers open ras rem p u -> u <> xmlnsURL -> back (mkattr (mkname p l) v) = mkname u l.
Proof.
  intros open ras rem p u l v [[-> ->]|[[_ X]|(U & P & _)]] N; [reflexivity|congruence|]. unfold back. cbn [aname space local]. destruct (usable_not_xml _ U) as [A B]. pose proof (usable_nonempty _ U) as C.
  replace (beq p []) with false by (symmetry; now apply beq_neq). replace (beq p xmlnsPrefix) with false by (symmetry; now apply beq_neq). replace (beq p xmlPrefix) with false by (symmetry; now apply beq_neq). rewrite P. reflexivity.
Qed.
Lemma tidy_step : forall open es es' x rem ras add, known es ras -> own ras -> declared_first (x :: rem) -> sane ras -> NoDup (map back ras ++ map aname (x :: rem)) ->
  forall rem', wrote (refers open (ras ++ add) rem') x add ->
  (forall p u, In (dcl p u) add -> declaration_of x \/ ~ unprefixed (local (aname x)) \/ get_prefix es u = []) ->
  (forall p u, In (dcl p u) add -> get_prefix es' u <> []) -> (forall u, get_prefix es u <> [] -> get_prefix es' u <> []) ->
  known es' (ras ++ add) /\ own (ras ++ add) /\ declared_first rem /\ NoDup (map back (ras ++ add) ++ map aname rem).
Proof.
  intros open es es' x rem ras add KN OW DF SA D rem' W F1 F2 F3. assert (KN' : known es' (ras ++ add)) by (intros p u I; apply in_app_iff in I; destruct I as [I|I]; [apply F3; eapply KN; eauto|eapply F2; eauto]).
  split; auto. assert (DF' : declared_first rem) by (inversion DF as [? F|]; subst; [inversion F; subst; constructor; auto|auto]).
  cbn [map] in D. destruct W as [q v|l v NI|m v p q l pre A B R PT PRE].
  - split; [|split; auto].
    + intros y I E. apply in_app_iff in I. destruct I as [I|[<-|[]]]; [apply OW; auto|]. eauto.
    + rewrite map_app, <- app_assoc. exact D.
  - split; [|split; auto].
    + intros y I E. apply in_app_iff in I. destruct I as [I|[<-|[]]]; [apply OW; auto|]. discriminate E.
    + rewrite map_app, <- app_assoc. exact D.
  - assert (BK : back (mkattr (mkname p l) v) = mkname (space m) l) by (eapply back_qual; eauto).
    assert (RF : Forall (fun x => ~ declaration_of x /\ unprefixed (local (aname x))) (mkattr m v :: rem)) by (inversion DF as [? F|? ? X Y]; subst; [exact F|exfalso; apply B; exact X]).
    inversion RF as [|? ? [_ UP] RF']; subst. cbn [aname] in UP. destruct (unprefixed_parts _ _ _ UP PT) as [-> ->]. assert (BK' : back (mkattr (mkname p (local m)) v) = m) by (rewrite BK; destruct m; reflexivity).
    assert (OWN : own (ras ++ pre ++ [mkattr (mkname p (local m)) v])).
    { intros y I E. apply in_app_iff in I. destruct I as [I|I]; [apply OW; auto|]. apply in_app_iff in I. destruct I as [I|[<-|[]]]; [|rewrite BK' in E; congruence].
      destruct PRE as [->| ->]; [destruct I|]. destruct I as [<-|[]]. eauto. }
    split; auto. split; auto. destruct PRE as [->| ->]; cbn [app]; rewrite map_app, <- app_assoc; cbn [map app]; rewrite BK'; [exact D|].
    (* a new declaration *)
    assert (NEW : forall u, ~ In (dcl p u) ras).
    { intros u I. destruct (SA _ _ I) as (_ & PU & _). assert (IP : In (dcl p (space m)) ([dcl p (space m)] ++ [mkattr (mkname p (local m)) v])) by (left; reflexivity).
      assert (PM : pol p = space m). { destruct R as [[-> _]|[[_ X]|(_ & PM & _)]]; [|congruence|exact PM]. destruct (SA _ _ I) as (U & _). exfalso. eapply (proj1 (usable_not_xml _ U)); reflexivity. }
      destruct (F1 _ _ IP) as [X|[X|X]]; [apply B; exact X|apply X; exact UP|]. apply (KN p u I). congruence. }
    change (back (dcl p (space m))) with (mkname xmlnsURL p). apply (NoDup_Add (a := mkname xmlnsURL p) (l := map back ras ++ m :: map aname rem)); [apply Add_app|]. split; [exact D|].
    intro I. apply in_app_iff in I. destruct I as [I|[I|I]].
    + apply in_map_iff in I. destruct I as (y & E & I). destruct (OW y I) as (p' & u' & ->); [rewrite E; reflexivity|]. unfold back in E. cbn in E. injection E as ->. eapply NEW; eauto.
    + apply B. rewrite I. reflexivity.
    + apply in_map_iff in I. destruct I as (y & E & I). rewrite Forall_forall in RF'. destruct (RF' y I) as [X _]. apply X. unfold declaration_of. rewrite E. reflexivity.
Qed.
Lemma attrs_steps : forall nm rem s e es open ras, p_elems s = e :: es -> 0 <= p_seq s -> link es open -> tabs e ras rem -> Forall (good_attr inh pol nm) rem ->
  exists cs s' e' adds, write_attrs rem s = (cs, s', Ok tt) /\ inner s s' /\ p_elems s' = e' :: es /\ tabs e' (ras ++ concat adds) [] /\
    concat cs = flat_map attr_text (concat adds) /\ Forall rawattr (concat adds) /\ Forall2 (wrote (refers open (ras ++ concat adds) [])) rem adds /\
    (known (e :: es) ras -> own ras -> declared_first rem -> NoDup (map back ras ++ map aname rem) -> NoDup (map back (ras ++ concat adds))).
Proof.
  induction rem as [|x rem IH]; intros s e es open ras ES Q L T G; cbn [write_attrs].
  - eexists _, s, e, []. split; [reflexivity|]. split; [apply inner_refl|]. cbn. rewrite !app_nil_r. split; [auto|]. split; [auto|]. split; [reflexivity|]. split; [constructor|]. split; [constructor|auto].
  - destruct (attr_step nm x s e es open ras rem ES Q L T G) as (cs1 & s1 & e1 & add & W1 & I1 & E1 & T1 & C1 & R1 & X1 & F1 & F2 & F3). unfold mbind. rewrite W1.
    destruct (inner_elems _ _ _ _ I1 ES Q) as (e1' & _ & _ & Q1). inversion G; subst.
    destruct (IH s1 e1 es open (ras ++ add) E1 Q1 L T1 H2) as (cs2 & s2 & e2 & adds & W2 & I2 & E2 & T2 & C2 & R2 & X2 & ND). rewrite W2.
    exists (cs1 ++ cs2), s2, e2, (add :: adds). split; [reflexivity|]. split; [eapply inner_trans; eauto|]. split; auto. cbn [concat]. rewrite app_assoc. split; auto. split; [rewrite concat_app, flat_map_app; congruence|].
    split; [apply Forall_app; auto|]. split.
    2: { intros KN OW DF D. rewrite <- app_assoc in ND. destruct (tidy_step open (e :: es) (e1 :: es) x rem ras add KN OW DF (proj1 T) D rem X1 F1 F2 F3) as (A1 & A2 & A3 & A4). rewrite <- app_assoc. apply ND; auto. }
    constructor; auto. eapply wrote_mono; [|exact X1]. intros p u RF. eapply refers_mono; [exact RF|apply incl_appl, incl_refl|].
    intros q w I. right. assert (K : forall r ad, Forall2 (wrote (refers open ((ras ++ add) ++ concat adds) [])) r ad -> In (hand q w) r -> In (dcl q w) (concat ad)).
    { clear. induction 1 as [|y b r ad Y F IHF]; intro I; [destruct I|]. cbn [concat]. apply in_app_iff. destruct I as [I|I]; [|auto]. left. subst y. inversion Y as [|l v NI EQ1 EQ2|n v p q0 l pre A B C D E0 EQ1 EQ2]; subst; cbn; auto. exfalso. apply B. reflexivity. }
    apply in_app_iff. right. eapply K; eauto.
Qed.

(** *** Declarations found when reading *)
Lemma declares_cases : forall x p, declares x = Some p -> x = dcl p (avalue x) \/ (p = [] /\ x = dflt (avalue x)).
Proof.
  intros [[sp lo] v] p H. unfold declares in H. cbn [aname avalue space local] in *. change (str "xmlns") with xmlnsPrefix in H. destruct (beq sp xmlnsPrefix) eqn:E1.
  - apply beq_eq in E1. injection H as <-. subst sp. left. reflexivity.
  - destruct (beq sp [] && beq lo xmlnsPrefix) eqn:E2; [|discriminate]. injection H as <-. apply andb_true_iff in E2. destruct E2 as [A B]. apply beq_eq in A, B. subst. right. split; reflexivity.
Qed.
Lemma declared_some : forall a p v, declared a p = Some v -> exists x, In x a /\ declares x = Some p /\ avalue x = v.
Proof.
  induction a as [|x a IH]; intros p v H; cbn in H; [discriminate|]. destruct (declared a p) as [w|] eqn:E.
  - injection H as <-. destruct (IH _ _ E) as (y & Y & Z). exists y. split; [right; auto|auto].
  - destruct (declares x) as [q|] eqn:D; [|discriminate]. destruct (beq q p) eqn:B; [|discriminate]. apply beq_eq in B. subst. injection H as <-. exists x. split; [left; auto|auto].
Qed.
Lemma declared_none : forall a p, declared a p = None -> forall x, In x a -> declares x <> Some p.
Proof.
  induction a as [|y a IH]; intros p H x I; [destruct I|]. cbn in H. destruct (declared a p) eqn:E; [discriminate|]. destruct I as [<-|I]; [|eapply IH; eauto].
  destruct (declares y) as [q|]; [|discriminate]. destruct (beq q p) eqn:B; [discriminate|]. apply beq_neq in B. congruence.
Qed.
Lemma declares_dcl : forall p u, declares (dcl p u) = Some p.
Proof. intros. unfold declares, dcl. cbn [aname space local]. change (str "xmlns") with xmlnsPrefix. rewrite beq_refl. reflexivity. Qed.
Lemma sane_declared : forall a p v, sane a -> p <> [] -> declared a p = Some v -> v = pol p.
Proof.
  intros a p v S N H. destruct (declared_some _ _ _ H) as (x & I & D & <-). destruct (declares_cases _ _ D) as [E|[E _]]; [|congruence]. rewrite E in I. destruct (S _ _ I) as (_ & X & _). auto.
Qed.
Lemma link_resolve : forall es open, link es open -> forall p v, p <> [] -> resolve open p = Some v -> v = pol p.
Proof.
  induction 1 as [|e es n ras open L IH N RN RA EX NX SA TB]; intros p v P H; cbn in H; [discriminate|]. destruct (declared ras p) eqn:E; [injection H as <-; eapply sane_declared; eauto|eauto].
Qed.
Lemma somewhere_resolve : forall es open, link es open -> forall p u, usable p -> somewhere open p u -> exists v, resolve open p = Some v.
Proof.
  induction 1 as [|e es n ras open L IH N RN RA EX NX SA TB]; intros p u U (m & b & I & D); [destruct I|]. cbn. destruct (declared ras p) eqn:E; [eauto|]. destruct I as [I|I].
  - injection I as <- <-. exfalso. eapply (declared_none _ _ E _ D). apply declares_dcl.
  - apply (IH p u U). exists m, b. auto.
Qed.
Lemma refers_expand : forall es open n ras p u l el, link es open -> sane ras -> refers open ras [] p u -> expand ((n, ras) :: open) el (mkname p l) = mkname u l.
Proof.
  intros es open n ras p u l el L S [[-> ->]|[[-> ->]|(U & P & N & D)]]; [reflexivity|reflexivity|].
  assert (R : resolve ((n, ras) :: open) p = Some u).
  { cbn. pose proof (usable_nonempty p U) as PN. destruct (declared ras p) as [v|] eqn:E; [f_equal; rewrite (sane_declared _ _ _ S PN E); auto|].
    destruct D as [D|[[]|D]]; [exfalso; eapply (declared_none _ _ E _ D); apply declares_dcl|]. destruct (somewhere_resolve _ _ L _ _ U D) as [v V]. rewrite V. f_equal. rewrite (link_resolve _ _ L p v PN V). auto. }
  unfold expand. cbn [space local]. change (str "xmlns") with xmlnsPrefix. change (str "xml") with xmlPrefix. destruct (usable_not_xml p U) as [X1 X2].
  replace (beq p xmlnsPrefix) with false by (symmetry; now apply beq_neq). replace (beq p xmlPrefix) with false by (symmetry; now apply beq_neq).
  replace (beq p []) with false by (symmetry; apply beq_neq; apply usable_nonempty; auto). cbn [andb]. rewrite R. reflexivity.
Qed.
(** What the attributes read as. *)
Lemma refers_nonempty : forall open ras rem p u, refers open ras rem p u -> u <> [].
Proof. intros open ras rem p u [[_ ->]|[[_ ->]|(_ & _ & N & _)]]; auto; discriminate. Qed.
Lemma attrs_plain : forall es open n ras, link es open -> sane ras ->
  forall a adds, Forall2 (wrote (refers open ras [])) a adds -> plain_attrs a (map (expand_attr ((n, ras) :: open)) (concat adds)).
Proof.
  intros es open n ras L S a adds F. induction F as [|x add a adds W F [IH1 IH2]]; [split; [constructor|apply incl_refl]|].
  unfold plain_attrs. cbn [concat filter]. rewrite map_app, !filter_app.
  assert (ED : forall q v, expand_attr ((n, ras) :: open) (dcl q v) = hand q v) by reflexivity.
  assert (HK : forall q v, is_declaration (hand q v) = true) by (intros; unfold is_declaration, hand; cbn [aname space]; change xmlns_uri with xmlnsURL; rewrite beq_refl; reflexivity).
  assert (KK : forall q v, kept (hand q v) = false) by (intros; unfold kept; rewrite HK; reflexivity).
  destruct W as [q v|l v NC|m v p q l pre A B R PT PRE].
  - cbn [map filter]. rewrite !ED, !HK, !KK. cbn [app]. split; [exact IH1|]. intros y [<-|I]; [left; auto|right; apply IH2; auto].
  - cbn [map filter].
    assert (EP : expand_attr ((n, ras) :: open) (mkattr (mkname [] l) v) = mkattr (mkname [] l) v).
    { unfold expand_attr, expand. cbn [aname avalue space local]. reflexivity. }
    rewrite EP. unfold kept. destruct (is_declaration (mkattr (mkname [] l) v)) eqn:D; cbn [negb app].
    + split; [exact IH1|]. intros y [<-|I]; [left; auto|right; apply IH2; auto].
    + split; [|exact IH2]. constructor; auto. split; [|reflexivity]. split; [reflexivity|]. exists []. apply parts_simple; auto.
  - rewrite map_app, !filter_app. cbn [map filter]. assert (EQ : expand_attr ((n, ras) :: open) (mkattr (mkname p l) v) = mkattr (mkname (space m) l) v).
    { unfold expand_attr. cbn [aname avalue]. f_equal. eapply refers_expand; eauto. }
    rewrite EQ. assert (ND : forall nm w, space nm = space m -> is_declaration (mkattr nm w) = false).
    { intros nm w E. unfold is_declaration. cbn [aname]. rewrite E. change xmlns_uri with xmlnsURL. replace (beq (space m) xmlnsURL) with false by (symmetry; now apply beq_neq).
      replace (beq (space m) []) with false by (symmetry; now apply beq_neq). reflexivity. }
    unfold kept. rewrite (ND m v), (ND (mkname (space m) l) v) by reflexivity. cbn [negb].
    assert (PK : filter (fun a => negb (is_declaration a)) (map (expand_attr ((n, ras) :: open)) pre) = []).
    { destruct PRE as [->| ->]; [reflexivity|]. cbn [map filter]. rewrite ED, HK. reflexivity. }
    rewrite PK. cbn [app]. split.
    + constructor; auto. split; [|reflexivity]. split; [reflexivity|]. exists q. exact PT.
    + intros y I. apply in_app_iff. right. apply IH2; auto.
Qed.

(** *** The element itself *)
Lemma exp_unprefixed : forall open l, l <> xmlnsPrefix -> expand open true (mkname [] l) = match resolve open [] with Some u => mkname u l | None => mkname [] l end.
Proof.
  intros open l N. unfold expand. cbn [space local]. change (str "xmlns") with xmlnsPrefix. replace (beq l xmlnsPrefix) with false by (symmetry; now apply beq_neq). reflexivity.
Qed.
Lemma link_unprefixed : forall es open u, link es open -> u <> [] -> existsb (fun x => beq (el_prefix x) [] && beq (el_ns x) u) es = true -> unprefixed_in open u.
Proof.
  intros es open u L N H. induction L as [|e es n ras open L IH NE RN RA EX NX SA TB]; [discriminate|]. cbn in H. apply orb_true_iff in H. destruct H as [H|H].
  - apply andb_true_iff in H. destruct H as [A B]. apply beq_eq in A, B. exists [], n, ras, open. split; auto. subst n. cbn [space]. rewrite A in *. split; auto.
    destruct EX as (w0 & EX & [->|[_ X]]); [|congruence].
    rewrite exp_unprefixed in EX by auto. destruct (resolve ((mkname [] (el_name e), ras) :: open) []) as [w|]; injection EX as EX; congruence.
  - destruct (IH H) as (i & m & a & o & -> & X). exists ((n, ras) :: i), m, a, o. split; auto.
Qed.
Lemma tabs_empty : forall e rem, el_n2p e = [] -> el_p2n e = [] -> tabs e [] rem.
Proof. intros e rem A B. split; [intros p u []|]. rewrite A, B. split; intros x H; cbn in H; congruence. Qed.
Lemma tabs_prefix : forall e p ras rem, tabs e ras rem -> tabs (mkel (el_ns e) p (el_name e) (el_n2p e) (el_p2n e)) ras rem.
Proof. intros e p ras rem T. exact T. Qed.
Definition same_layout (s s' : pstate) : Prop := p_indent s' = p_indent s /\ p_prefix s' = p_prefix s.
Lemma inner_layout : forall s s', inner s s' -> same_layout s s'.
Proof. intros s s' (A & B & _). split; auto. Qed.
Definition hand_free (a : list attr) : Prop := forall v, ~ In (dflt v) a.
Lemma hand_dflt : forall n a v, Forall (good_attr inh pol n) a -> In (dflt v) a -> (v = space n \/ inherits inh n) /\ forall p l, ~ prefixed (local n) p l.
Proof.
  intros n a v F I. pose proof F as F0. rewrite Forall_forall in F. specialize (F _ I). unfold good_attr, dflt in F. cbn [aname avalue space local] in F. change (beq [] xmlns_uri) with false in F. change (beq [] []) with true in F. cbn match in F.
  destruct F as (_ & _ & F). destruct (F eq_refl) as [X NP]. split; auto.
Qed.
Lemma hand_default_dec : forall n a, {hand_default n a} + {~ hand_default n a}.
Proof. intros n a. apply in_dec. intros [[s1 l1] v1] [[s2 l2] v2]. decide equality; [apply bytes_dec|decide equality; apply bytes_dec]. Qed.
Lemma hand_default_b : forall n a, existsb (fun x => beq (space (aname x)) [] && beq (local (aname x)) xmlnsPrefix && beq (avalue x) (space n)) a = true <-> hand_default n a.
Proof.
  intros n a. rewrite existsb_exists. unfold hand_default. split.
  - intros ([[sp lo] v] & I & E). cbn [aname avalue space local] in E. apply andb_true_iff in E. destruct E as [E C]. apply andb_true_iff in E. destruct E as [A B]. apply beq_eq in A, B, C. subst. exact I.
  - intro I. eexists. split; [exact I|]. cbn [aname avalue space local]. change (str "xmlns") with xmlnsPrefix. rewrite !beq_refl. reflexivity.
Qed.

(** How the element's namespace is settled. *)
Lemma settle : forall n a s es open q l, p_elems s = es -> 0 <= p_seq s -> link es open -> Forall (good_attr inh pol n) a -> parts (local n) q l -> (q = [] \/ usable q \/ simple q) ->
  let e0 := mkel (space n) q l [] [] in
  exists b s1 e1, space_defined es e0 a (with_elems (e0 :: es) s) = ([], s1, Ok b) /\ p_elems s1 = e1 :: es /\ 0 <= p_seq s1 /\ same_layout s s1 /\
    el_ns e1 = space n /\ el_name e1 = l /\ tabs e1 [] a /\
    ((space n = [] /\ b = false /\ el_prefix e1 = q) \/
     (space n <> [] /\ b = true /\ el_prefix e1 = [] /\ q = [] /\ (hand_default n a \/ unprefixed_in open (space n))) \/
     (space n <> [] /\ ~ hand_default n a /\ b = true /\ el_prefix e1 <> [] /\ refers open [] a (el_prefix e1) (space n)) \/
     (space n <> [] /\ ~ hand_default n a /\ b = false /\ el_prefix e1 = q)).
Proof.
  intros n a s es open q l ES Q L G PT QS e0. set (s0 := with_elems (e0 :: es) s). unfold space_defined. change (el_ns e0) with (space n). change (el_prefix e0) with q.
  assert (T0 : tabs e0 [] a) by (apply tabs_empty; reflexivity).
  destruct (beq (space n) []) eqn:E0.
  { apply beq_eq in E0. exists false, s0, e0. split; [reflexivity|]. split; [reflexivity|]. split; [exact Q|]. split; [split; reflexivity|]. split; [reflexivity|]. split; [reflexivity|]. split; [exact T0|]. left. auto. }
  apply beq_neq in E0. destruct (existsb (fun x => beq (space (aname x)) [] && beq (local (aname x)) xmlnsPrefix && beq (avalue x) (space n)) a) eqn:E1.
  { apply hand_default_b in E1. destruct (hand_dflt n a (space n) G E1) as (_ & NP). exists true, s0, e0. split; [reflexivity|]. split; [reflexivity|]. split; [exact Q|]. split; [split; reflexivity|]. split; [reflexivity|]. split; [reflexivity|]. split; [exact T0|].
    right. left. assert (q = []). { destruct (bytes_dec q []); auto. exfalso. eapply NP. eapply parts_prefixed; eauto. } cbn. split; auto. }
  assert (NH : ~ hand_default n a) by (intro X; apply hand_default_b in X; congruence).
  destruct (beq q []) eqn:E2; cbn [negb].
  2: { exists false, s0, e0. split; [reflexivity|]. split; [reflexivity|]. split; [exact Q|]. split; [split; reflexivity|]. split; [reflexivity|]. split; [reflexivity|]. split; [exact T0|]. right. right. right. auto. }
  apply beq_eq in E2. subst q. destruct (existsb (fun x => beq (el_prefix x) [] && beq (el_ns x) (space n)) es) eqn:E3.
  { exists true, s0, e0. split; [reflexivity|]. split; [reflexivity|]. split; [exact Q|]. split; [split; reflexivity|]. split; [reflexivity|]. split; [reflexivity|]. split; [exact T0|].
    right. left. cbn. split; auto. split; auto. split; auto. split; auto. right. eapply link_unprefixed; eauto. }
  destruct (find _ a) as [x|] eqn:E4.
  - apply find_some in E4. destruct E4 as [I E4]. destruct x as [[sp lo] v]. cbn [aname avalue space local] in *. apply andb_true_iff in E4. destruct E4 as [E4 E5]. apply andb_true_iff in E4. destruct E4 as [E4 E6].
    apply beq_eq in E4, E5. subst sp v. change (In (hand lo (space n)) a) in I. destruct (hand_good n a lo (space n) G I) as (U & P & _ & AG).
    destruct (create_ns n (space n) lo s0 e0 es open [] a eq_refl Q L T0 G) as (p & b & s1 & C & IN & CF & CT). unfold mbind. rewrite C. unfold set_prefix.
    destruct (inner_elems _ _ _ _ IN eq_refl Q) as (e1 & EE & ST & Q1). rewrite EE.
    assert (PQ : p = lo). { destruct b; [destruct (CT eq_refl) as (_ & e' & _ & _ & _ & _ & X & _); apply X; auto|destruct (CF eq_refl) as (_ & _ & [X|X] & _); auto; exfalso; eapply usable_nonempty; eauto]. }
    assert (T1 : tabs e1 [] a).
    { destruct b.
      - destruct (CT eq_refl) as (_ & e' & EE' & _ & N2 & P2 & _). rewrite EE in EE'. injection EE' as <-. split; [intros ? ? []|]. split.
        + intros w H. rewrite N2 in *. cbn in *. destruct (beq (space n) w) eqn:R; [|congruence]. apply beq_eq in R. subst w p. right. exact I.
        + intros w H. rewrite P2, N2 in *. cbn in *. destruct (beq p w) eqn:R; [|congruence]. apply beq_eq in R. subst w p. split; auto. rewrite beq_refl. apply usable_nonempty; auto.
      - destruct (CF eq_refl) as (-> & _). cbn in EE. injection EE as <-. exact T0. }
    subst p. eexists _, _, _. split; [reflexivity|]. split; [reflexivity|]. split; [exact Q1|]. split; [exact (inner_layout _ _ IN)|]. destruct ST as (ST1 & ST2 & _). cbn. split; [rewrite <- ST1; reflexivity|]. split; [rewrite <- ST2; reflexivity|].
    split; [exact T1|]. right. right. left. split; auto. split; auto. split; auto. split; [apply usable_nonempty; auto|]. right. right. split; auto.
  - unfold mbind, mget. cbn [app]. unfold set_prefix. change (p_elems s0) with (e0 :: es). set (p := get_prefix (e0 :: es) (space n)).
    eexists _, _, _. split; [reflexivity|]. split; [reflexivity|]. split; [exact Q|]. split; [split; reflexivity|]. split; [reflexivity|]. split; [reflexivity|]. split; [exact T0|]. cbn [el_prefix].
    destruct (beq p []) eqn:E5; [apply beq_eq in E5; right; right; right; auto|]. apply beq_neq in E5. right. right. left. split; auto. split; auto. split; auto. split; auto. eapply get_link; eauto.
Qed.
Lemma indent_white : forall d s, exists cs s', write_indent d s = (cs, s', Ok tt) /\ p_elems s' = p_elems s /\ p_seq s' = p_seq s /\ same_layout s s' /\
  (white (p_prefix s) -> white (p_indent s) -> white (concat cs)) /\ (p_prefix s = [] -> p_indent s = [] -> concat cs = []).
Proof.
  intros d s. unfold write_indent, mbind, mget, mret, mput, emit. cbn [app].
  destruct (beq (p_prefix s) [] && beq (p_indent s) []) eqn:E.
  { eexists _, s. split; [reflexivity|]. split; auto. split; auto. split; [split; reflexivity|]. split; [intros; constructor|reflexivity]. }
  assert (NE : p_prefix s = [] -> p_indent s = [] -> False) by (intros X Y; rewrite X, Y in E; discriminate).
  destruct ((d <? 0) && p_indented s).
  - eexists _, _. split; [reflexivity|]. destruct (d <? 0); (split; [auto|split; [auto|split; [split; reflexivity|split; [intros; constructor|reflexivity]]]]).
  - eexists _, _. split; [reflexivity|]. assert (X : forall (nl : bool) (pre ind : bytes) k, white pre -> white ind ->
      white (concat ((if nl then [[10]] else []) ++ match pre with [] => [] | z :: l => [z :: l] end ++ match ind with [] => [] | z :: l => repeat (z :: l) k end))).
    { intros nl pre ind k W1 W2. rewrite !concat_app. unfold white. apply Forall_app. split; [destruct nl; cbn; [constructor; [auto|constructor]|constructor]|]. apply Forall_app. split.
      - destruct pre; cbn; [constructor|rewrite app_nil_r; exact W1].
      - destruct ind as [|c i]; [constructor|]. induction k as [|k IH]; cbn; [constructor|]. inversion W2; subst. constructor; auto. apply Forall_app. split; auto. }
    cbn. destruct (d <? 0); cbn; (split; [auto|split; [auto|split; [split; reflexivity|split; [|intros; exfalso; auto]]]]); rewrite ?app_nil_r; intros; apply X; auto.
Qed.

Lemma name_text_join : forall p l, name_text (mkname p l) = join_prefixed p l. Proof. intros [|c p] l; reflexivity. Qed.
Lemma dflt_text : forall u, concat ([str " xmlns="""] ++ esc_writes EAttr u ++ [[34]]) = attr_text (dflt u).
Proof. intro u. unfold attr_text, dflt, name_text, escape. cbn [aname avalue space local]. unfold xmlnsPrefix. flat. reflexivity. Qed.
Lemma raw_dflt : forall u, xml_text u -> rawattr (dflt u).
Proof. intros u X. split; [|exact X]. split; [left; reflexivity|apply nc_xmlns]. Qed.

Lemma wrote_dflt1 : forall (R : bytes -> bytes -> Prop) a adds, (forall p u, R p u -> p <> []) -> Forall2 (wrote R) a adds -> forall v, In (dflt v) (concat adds) -> In (dflt v) a.
Proof.
  intros R a adds RN X4 v I. induction X4 as [|x add a adds W F IH]; [destruct I|]. cbn [concat] in I. apply in_app_iff in I. destruct I as [I|I]; [left|right; auto].
  destruct W as [q v0|l0 v0 NC|m v0 p q l0 pre A B R0 PT PRE].
  - destruct I as [I|[]]. discriminate I.
  - destruct I as [I|[]]. exact I.
  - apply in_app_iff in I. destruct I as [I|[I|[]]].
    + destruct PRE as [->| ->]; [destruct I|destruct I as [I|[]]; discriminate I].
    + unfold dflt in I. injection I as I1 I2 I3. exfalso. eapply RN; eauto.
Qed.
Lemma wrote_dflt2 : forall R a adds, Forall2 (wrote R) a adds -> forall v, In (dflt v) a -> In (dflt v) (concat adds).
Proof.
  intros R a adds X4 v I. induction X4 as [|x add a adds W F IH]; [destruct I|]. cbn [concat]. apply in_app_iff. destruct I as [I|I]; [left|right; auto]. subst x.
  inversion W as [q v0 E|l0 v0 NC E|m v0 p q l0 pre A B R0 PT PRE E]; subst; cbn; auto. exfalso. apply A. reflexivity.
Qed.
Lemma wrote_hand : forall R a adds, Forall2 (wrote R) a adds -> forall q w, In (hand q w) a -> In (dcl q w) (concat adds).
Proof.
  intros R a adds X4 q0 w I. induction X4 as [|x add a adds W F IH]; [destruct I|]. cbn [concat]. apply in_app_iff. destruct I as [I|I]; [left|right; auto]. subst x.
  inversion W as [q v0 E|l0 v0 NC E|m v0 p q l0 pre A B R0 PT PRE E]; subst; cbn; auto. exfalso. apply B. reflexivity.
Qed.

(** A start tag that fits reads back with its namespaces. *)
Lemma start_ns : forall n a s open, 0 <= p_seq s -> link (p_elems s) open -> fits inh pol open n a ->
  exists cs s' e ras W, write_start n a s = (cs, s', Ok tt) /\ p_elems s' = e :: p_elems s /\ 0 <= p_seq s' /\ same_layout s s' /\
    concat cs = W ++ start_text (mkname (el_prefix e) (el_name e)) ras /\
    (white (p_prefix s) -> white (p_indent s) -> white W) /\ (p_prefix s = [] -> p_indent s = [] -> W = []) /\
    link (p_elems s') ((mkname (el_prefix e) (el_name e), ras) :: open) /\
    tag_name inh n (expand ((mkname (el_prefix e) (el_name e), ras) :: open) true (mkname (el_prefix e) (el_name e))) /\
    plain_attrs a (map (expand_attr ((mkname (el_prefix e) (el_name e), ras) :: open)) ras) /\
    (tidy n a -> NoDup (map aname ras)).
Proof.
  intros n a s open Q L [GE GA].
  (* the parts of the name *)
  assert (PP : exists q l, parts (local n) q l /\ (q = [] \/ simple q) /\ simple l /\ (q = [] -> l <> xmlnsPrefix) /\ (space n = [] -> q = []) /\
    (space n <> [] -> xml_text (space n) /\ agrees pol (space n) q)).
  { unfold good_element in GE. destruct (beq (space n) []) eqn:E.
    - apply beq_eq in E. destruct GE as (S & NX & _). exists [], (local n). split; [apply parts_simple; apply S|]. split; auto. split; auto. split; auto. split; auto. intro X. congruence.
    - apply beq_neq in E. destruct GE as ((_ & XU & q & l & PT & QS & LS & AG) & NX & _). exists q, l. split; auto. split; auto. split; auto. split; [|split; [congruence|auto]].
      intros -> ->. destruct PT as [(_ & X & _)|(_ & X & _)]; [congruence|]. apply NX. rewrite <- X. reflexivity. }
  destruct PP as (q & l & PT & QS & LS & NX & NSQ & NSU). pose proof (parts_nonempty _ _ _ PT (simple_nonempty _ LS)) as LN.
  unfold write_start. replace (beq (local n) []) with false by (symmetry; now apply beq_neq).
  assert (NE : new_element n = mkel (space n) q l [] []) by (unfold new_element; rewrite (parts_split _ _ _ PT); reflexivity). rewrite NE.
  set (e0 := mkel (space n) q l [] []).
  unfold mbind at 1. unfold mget at 1. unfold mbind at 1. unfold mput at 1.
  destruct (settle n a s (p_elems s) open q l eq_refl Q L GA PT) as (b & s1 & e1 & SD & EL1 & Q1 & LY1 & NS1 & NM1 & T1 & CASES); [tauto|]. fold e0 in SD.
  unfold mbind at 1. rewrite SD. clear SD.
  destruct (indent_white 1 s1) as (ci & s2 & WI & EL2 & SQ2 & LY2 & WH & WN). unfold mbind at 1. rewrite WI. clear WI.
  unfold mbind at 1. unfold emit at 1. unfold mbind at 1. unfold mget at 1. change (el_ns e0) with (space n). change (el_name e0) with l.
  assert (TP : top_prefix s2 = el_prefix e1) by (unfold top_prefix; rewrite EL2, EL1; reflexivity). rewrite TP.
  (* the name and the declaration of its namespace *)
  assert (NAME : exists cs3 s3 e3 ras0,
    (if negb (beq (el_prefix e1) []) then
            mdo (p, created) <- (if negb (beq (space n) []) && negb b
                                 then create_prefix (space n) (el_prefix e1)
                                 else mret (el_prefix e1, false)) ;
            mdo_ set_prefix p ;
            emit ([p; [58]; l] ++ (if created : bool then [[32]] ++ prefix_attr p (space n) else []))
          else if negb (beq (space n) []) then
            emit ([l] ++ (if b then [] else [str " xmlns="""] ++ esc_writes EAttr (space n) ++ [[34]]))
          else emit [l]) s2 = (cs3, s3, Ok tt) /\ p_elems s3 = e3 :: p_elems s /\ 0 <= p_seq s3 /\ same_layout s s3 /\ el_ns e3 = space n /\ el_name e3 = l /\
    concat cs3 = name_text (mkname (el_prefix e3) l) ++ flat_map attr_text ras0 /\ tabs e3 ras0 a /\ Forall rawattr ras0 /\
    filter kept (map (expand_attr []) ras0) = [] /\ (forall x, In x ras0 -> x = dflt (space n) \/ exists p, x = dcl p (space n)) /\
    (q = [] -> ras0 = [] \/ ras0 = [dflt (space n)] /\ space n <> [] /\ ~ hand_default n a) /\
    ((el_prefix e3 <> [] /\ refers open ras0 a (el_prefix e3) (space n) /\ ~ hand_default n a /\ forall v, ~ In (dflt v) ras0) \/
     (el_prefix e3 = [] /\ q = [] /\ (hand_default n a \/ In (dflt (space n)) ras0 \/
        ((forall v, ~ In (dflt v) ras0) /\ ~ hand_default n a /\ (resolve open [] = Some (space n) \/ space n = [] /\ (resolve open [] = None \/ inh = true))))))).
  { destruct (beq (el_prefix e1) []) eqn:E1; cbn [negb].
    - apply beq_eq in E1. destruct (beq (space n) []) eqn:E2; cbn [negb].
      + apply beq_eq in E2. specialize (NSQ E2). eexists _, s2, e1, []. split; [reflexivity|]. split; [rewrite EL2; auto|]. split; [rewrite SQ2; auto|]. split; [destruct LY1, LY2; split; congruence|]. split; auto. split; auto.
        split; [rewrite E1; cbn; rewrite !app_nil_r; reflexivity|]. split; auto. split; [constructor|]. split; [reflexivity|]. split; [intros x []|]. split; [auto|]. right. split; auto. split; auto.
        unfold good_element in GE. rewrite E2 in GE. change (beq [] []) with true in GE. destruct GE as (_ & _ & GE).
        destruct (hand_default_dec n a) as [H|H]; [left; auto|]. right. right. split; [intros v []|]. split; auto. rewrite E2. destruct GE as [GE|[GE|[GE|GE]]]; [right; auto| |right; auto|left; auto]. tauto.
      + apply beq_neq in E2. destruct CASES as [(X & _)|[(_ & -> & _ & QE & HU)|[(_ & _ & _ & X & _)|(_ & NH & -> & PE)]]]; [congruence| |congruence|].
        * eexists _, s2, e1, []. split; [reflexivity|]. split; [rewrite EL2; auto|]. split; [rewrite SQ2; auto|]. split; [destruct LY1, LY2; split; congruence|]. split; auto. split; auto.
          split; [rewrite E1; cbn; rewrite !app_nil_r; reflexivity|]. split; auto. split; [constructor|]. split; [reflexivity|]. split; [intros x []|]. split; [auto|]. right. split; auto. split; auto.
          destruct (hand_default_dec n a) as [H|H]; [left; auto|]. right. right. split; [intros v []|]. split; auto. left. destruct HU as [HU|HU]; [tauto|].
          unfold good_element in GE. replace (beq (space n) []) with false in GE by (symmetry; now apply beq_neq). destruct GE as (_ & _ & GE). destruct GE as [GE|GE]; auto; [|tauto].
          intros p0 l0 P0. destruct (parts_fun _ _ _ _ _ PT (or_introl P0)) as [X _]. destruct P0 as (_ & X2 & _). congruence.
        * destruct (NSU E2) as [XU AG]. eexists _, s2, e1, [dflt (space n)]. split; [reflexivity|]. split; [rewrite EL2; auto|]. split; [rewrite SQ2; auto|]. split; [destruct LY1, LY2; split; congruence|]. split; auto. split; auto.
          split; [rewrite E1; unfold name_text; cbn [space local flat_map]; rewrite <- dflt_text; flat; reflexivity|].
          split; [apply (tabs_other e1 [] a (dflt (space n)) (mkattr (mkname [] []) [])); [|cbn; discriminate|cbn; discriminate]; destruct T1 as (TA & TB & TC); split; [auto|split; [|auto]]; intros u HU; destruct (TB u HU); [left; auto|right; right; auto]|].
          split; [constructor; [apply raw_dflt; auto|constructor]|]. split; [reflexivity|]. split; [intros x [<-|[]]; auto|]. split; [auto|]. right. split; auto. split; [congruence|]. right. left. left. reflexivity.
    - apply beq_neq in E1.
      assert (CR : exists p c s3 e3 ras0, (if negb (beq (space n) []) && negb b then create_prefix (space n) (el_prefix e1) else mret (el_prefix e1, false)) s2 = ([], s3, Ok (p, c)) /\
        p_elems s3 = e3 :: p_elems s /\ 0 <= p_seq s3 /\ same_layout s2 s3 /\ same_tag e1 e3 /\ tabs e3 ras0 a /\ p <> [] /\ ras0 = (if c : bool then [dcl p (space n)] else []) /\ refers open ras0 a p (space n) /\ ~ hand_default n a /\ Forall rawattr ras0 /\ space n <> [] /\ (q = [] -> ras0 = [])).
      { destruct CASES as [(X & _ & PE)|[(_ & _ & X & _)|[(E2 & NH & -> & _ & RF)|(E2 & NH & -> & PE)]]]; [specialize (NSQ X); congruence|congruence| |].
        - rewrite andb_false_r. eexists _, _, s2, e1, []. split; [reflexivity|]. split; [rewrite EL2; auto|]. split; [rewrite SQ2; auto|]. split; [split; reflexivity|]. split; [unfold same_tag; auto|]. split; [auto|]. split; [auto|]. split; [auto|]. split; [auto|]. split; [auto|]. split; [constructor|split; auto].
        - replace (beq (space n) []) with false by (symmetry; now apply beq_neq). cbn [negb andb]. destruct (NSU E2) as [XU AG]. rewrite PE in *.
          assert (EL2' : p_elems s2 = e1 :: p_elems s) by (rewrite EL2; auto). assert (Q2 : 0 <= p_seq s2) by (rewrite SQ2; auto).
          destruct (create_ns n (space n) q s2 e1 (p_elems s) open [] a EL2' Q2 L T1 GA) as (p & c & s3 & C & I & CF & CT).
          destruct (inner_elems _ _ _ _ I EL2' Q2) as (e3 & EE & ST & Q3). destruct c.
          + destruct (CT eq_refl) as (CA & e' & EE' & _ & N2 & P2 & _). rewrite EE in EE'. injection EE' as <-. pose proof (candidate_usable _ _ _ CA) as U.
            exists p, true, s3, e3, [dcl p (space n)]. split; auto. split; auto. split; auto. split; [apply inner_layout; auto|]. split; auto. split; [apply (tabs_create e1 e3 [] a (space n) p); auto|].
            split; [apply usable_nonempty; auto|]. split; auto. split; [right; right; split; auto; split; auto; split; auto; left; left; auto|]. split; auto. split; [constructor; [apply raw_dcl; auto; apply usable_nc; auto|constructor]|split; [auto|congruence]].
          + destruct (CF eq_refl) as (-> & RF & _). rewrite EL2' in EE. injection EE as <-. exists p, false, s2, e1, []. split; auto. split; auto. split; auto. split; [split; reflexivity|]. split; auto. split; auto.
            split; [eapply ncname_nonempty; eapply refers_nc; eauto|]. split; [auto|]. split; [auto|]. split; [auto|]. split; [constructor|split; auto]. }
      destruct CR as (p & c & s3 & e3 & ras0 & CE & EE & Q3 & LY3 & (ST1 & ST2 & ST3) & T3 & PN & R0 & RF & NH & RW & E2 & QR). unfold mbind. rewrite CE. unfold set_prefix. rewrite EE. unfold emit.
      eexists _, _, _, ras0. split; [reflexivity|]. split; [reflexivity|]. split; [exact Q3|]. split; [destruct LY1, LY2, LY3; split; cbn; congruence|]. split; [cbn; congruence|]. split; [cbn; congruence|]. cbn [el_prefix].
      split; [|split; [exact T3|split; [auto|split; [subst ras0; destruct c; reflexivity|split; [subst ras0; destruct c; [intros x [<-|[]]; eauto|intros x []]|split; [intro X; left; auto|]; left; split; auto; split; auto; split; auto; subst ras0; destruct c; [intros v [X|[]]; discriminate X|intros v []]]]]]].
      unfold name_text. cbn [space local]. destruct p as [|c0 p]; [congruence|]. subst ras0. destruct c.
      + cbn [flat_map]. rewrite <- (dcl_text (c0 :: p) (space n)) by (eapply refers_nc; eauto). flat. reflexivity.
      + flat. reflexivity. }
  destruct NAME as (cs3 & s3 & e3 & ras0 & E3 & EL3 & Q3 & LY3 & NS3 & NM3 & C3 & T3 & RW3 & K3 & D3 & QD & DISP). unfold mbind at 1. rewrite E3. clear E3.
  destruct (attrs_steps n a s3 e3 (p_elems s) open ras0 EL3 Q3 L T3 GA) as (cs4 & s4 & e4 & adds & E4 & I4 & EL4 & T4 & C4 & RW4 & X4 & NDD). unfold mbind. rewrite E4. unfold emit.
  destruct (inner_elems _ _ _ _ I4 EL3 Q3) as (e4' & EE & (ST1 & ST2 & ST3) & Q4). rewrite EL4 in EE. injection EE as <-. set (ras := ras0 ++ concat adds) in *.
  assert (RN : rawname (mkname (el_prefix e4) (el_name e4))).
  { rewrite <- ST3, <- ST2, NM3. split; [|exact LS]. cbn. destruct DISP as [(P & RF & _)|(P & _)]; [right; eapply refers_nc; eauto|left; auto]. }
  destruct T4 as (SA & TB & TC).
  (* default declarations among the attributes *)
  assert (DA : forall v, In (dflt v) (concat adds) -> In (dflt v) a).
  { intro v. apply (wrote_dflt1 (refers open ras [])); auto. intros p u R. eapply ncname_nonempty. eapply refers_nc; eauto. }
  assert (DB : forall v, In (dflt v) a -> In (dflt v) (concat adds)) by (intro v; eapply wrote_dflt2; eauto).
  assert (EX : exists u, expand ((mkname (el_prefix e4) (el_name e4), ras) :: open) true (mkname (el_prefix e4) (el_name e4)) = mkname u (el_name e4) /\ (u = el_ns e4 \/ inh = true /\ el_ns e4 = [])).
  { rewrite <- ST1, <- ST2, <- ST3, NS3, NM3. destruct DISP as [(P & RF & NH & ND)|(P & QE & DD)].
    - exists (space n). split; auto. eapply refers_expand; eauto. eapply refers_mono; [exact RF|unfold ras; apply incl_appl, incl_refl|]. intros q0 w I. right. unfold ras. apply in_app_iff. right.
      eapply wrote_hand; eauto.
    - rewrite P. rewrite exp_unprefixed by auto.
      assert (ID : inherits inh n \/ ~ inherits inh n) by (unfold inherits; destruct inh, (bytes_dec (space n) []); intuition congruence).
      destruct ID as [[IN S0]|NI]; [destruct (resolve ((mkname [] l, ras) :: open) []) as [u|]; [exists u|exists []]; auto|].
      exists (space n). split; auto.
      assert (DV : forall v, In (dflt v) ras -> v = space n).
      { intros v I. unfold ras in I. apply in_app_iff in I. destruct I as [I|I]; [|apply DA in I; destruct (hand_dflt _ _ _ GA I) as [[X|X] _]; tauto].
        destruct (D3 _ I) as [X|[p X]]; [unfold dflt in X; injection X; auto|discriminate X]. }
      assert (RD : forall v, declared ras [] = Some v -> v = space n).
      { intros v H. destruct (declared_some _ _ _ H) as (x & I & D & <-). destruct (declares_cases _ _ D) as [X|[_ X]]; rewrite X in I; [|apply DV in I; exact I].
        exfalso. destruct (SA _ _ I) as (U & _). eapply usable_nonempty; eauto. }
      cbn [resolve]. destruct (declared ras []) as [v|] eqn:DE; [rewrite (RD v eq_refl); reflexivity|].
      assert (NOD : forall v, ~ In (dflt v) ras) by (intros v I; eapply (declared_none _ _ DE _ I); reflexivity).
      destruct DD as [H|[H|(_ & _ & [H|[H1 H2]])]].
      + exfalso. apply (NOD (space n)). unfold ras. apply in_app_iff. right. apply DB. exact H.
      + exfalso. apply (NOD (space n)). unfold ras. apply in_app_iff. left. exact H.
      + rewrite H. reflexivity.
      + rewrite H1. destruct H2 as [-> |H2]; [reflexivity|]. destruct NI. split; auto. }
  exists (ci ++ [60] :: cs3 ++ cs4 ++ [[62]]), s4, e4, ras, (concat ci).
  split; [f_equal; f_equal; cbn [app]; rewrite ?app_nil_r; auto|]. split; [exact EL4|]. split; [exact Q4|]. split; [destruct LY3, (inner_layout _ _ I4); split; congruence|]. split.
  { unfold start_text. rewrite <- ST2, <- ST3, NM3. unfold ras. rewrite flat_map_app, <- C4. rewrite !concat_app. cbn [concat]. rewrite !concat_app, C3. flat. reflexivity. }
  split; [destruct LY1 as [A1 A2]; rewrite <- A1, <- A2; exact WH|]. split; [destruct LY1 as [A1 A2]; rewrite <- A1, <- A2; exact WN|]. split.
  { rewrite EL4. constructor; auto; [unfold ras; apply Forall_app; auto| |].
    - intro PE. rewrite <- ST2, NM3. apply NX. destruct DISP as [(P & _)|(_ & X & _)]; [congruence|auto].
    - intros u H. destruct (TB u H) as [I|[]]. exact I. }
  split; [destruct EX as (u & -> & XU); split; cbn; [destruct XU as [->|[X1 X2]]; [left; congruence|right; split; congruence]|exists q; rewrite <- ST2, NM3; exact PT]|].
  unfold ras at 2. rewrite map_app. destruct (attrs_plain (p_elems s) open (mkname (el_prefix e4) (el_name e4)) ras L SA a adds X4) as [Y1 Y2]. split.
  1: split; [|rewrite filter_app; intros y I; apply in_app_iff; right; apply Y2; exact I].
  - rewrite filter_app. replace (filter kept (map (expand_attr ((mkname (el_prefix e4) (el_name e4), ras) :: open)) ras0)) with (@nil attr); [exact Y1|].
    symmetry. generalize ras. clear ras SA TB TC X4 NDD QD RN DA DB EX Y1 Y2 EL4 C3 T3 RW3 K3 DISP E4 C4. intro ras. induction ras0 as [|x r IH]; [reflexivity|]. cbn [map filter]. destruct (D3 x (or_introl eq_refl)) as [->|[p ->]]; cbn; apply IH; intros y I; apply D3; right; auto.
  - intros (U & DF & D). assert (QE : q = []) by (destruct (unprefixed_parts _ _ _ U PT); auto).
    apply (NoDup_map_inv (fun n => back (mkattr n []))). rewrite map_map. change (fun x => back (mkattr (aname x) [])) with back. fold ras in NDD. apply NDD; [| |exact DF|].
    + destruct (QD QE) as [->|[-> _]]; intros p u I; [destruct I|]. destruct I as [I|[]]. discriminate I.
    + destruct (QD QE) as [->|[-> _]]; intros x I B; [destruct I|]. destruct I as [<-|[]]. discriminate B.
    + destruct (QD QE) as [->|(-> & SN & NH)]; [exact D|]. cbn [map app]. constructor; [|exact D]. intro I. apply in_map_iff in I. destruct I as ([m v] & E & I). cbn in E. change (m = mkname [] xmlnsPrefix) in E. subst m.
      apply NH. unfold hand_default. rewrite Forall_forall in GA. pose proof (GA _ I) as [_ G]. cbn in G. destruct G as [_ G]. destruct (G eq_refl) as [[G1|[_ G1]] _]; [rewrite <- G1; exact I|congruence].
Qed.
End Policy.
