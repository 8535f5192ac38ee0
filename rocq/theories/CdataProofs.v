(** CDATA sections are read back. *)
From Coq Require Import String.
From Coq Require Import ZArith List Bool Lia.
From Coq Require Import ZifyBool ZifyNat ZifyN.
From Verif Require Import Base Utf8 NameTables Lexer LexerProofs Escape EscapeSpec EscapeProofs.
Import ListNotations.
Open Scope Z_scope.

Lemma is_prefix_app : forall p s, is_prefix p s = true <-> exists t, s = p ++ t.
Proof.
  induction p as [|x p IH]; intro s; cbn [is_prefix app].
  - split; eauto.
  - destruct s as [|y s]; [split; [discriminate|intros (t & E); discriminate]|].
    rewrite andb_true_iff, IH, Z.eqb_eq. split.
    + intros (-> & t & ->). eauto.
    + intros (t & E). injection E as -> ->. eauto.
Qed.
Lemma index_some : forall p s i, index p s = Some i -> s = firstn i s ++ p ++ skipn (i + length p) s /\ (forall j, (j < i)%nat -> is_prefix p (skipn j s) = false) /\ (i <= length s)%nat.
Proof.
  induction s as [|x s IH]; intros i H; unfold index in H; fold index in H.
  - destruct (is_prefix p []) eqn:E; [|discriminate]. injection H as <-. destruct p; [|discriminate]. cbn. split; auto. split; [lia|lia].
  - destruct (is_prefix p (x :: s)) eqn:E.
    + injection H as <-. apply is_prefix_app in E. destruct E as (t & E). rewrite E. cbn [firstn app plus].
      rewrite skipn_app, skipn_all, Nat.sub_diag. cbn [skipn app]. split; [reflexivity|]. split; lia.
    + destruct (index p s) as [i'|] eqn:EI; [|discriminate]. cbn in H. injection H as <-. destruct (IH i' eq_refl) as (A & B & C).
      cbn [firstn app plus skipn length]. split; [now rewrite <- A|]. split; [|lia].
      intros [|j] L; [exact E|]. cbn [skipn]. apply B. lia.
Qed.
Lemma index_none : forall p s, index p s = None <-> forall j, is_prefix p (skipn j s) = false.
Proof.
  induction s as [|x s IH]; unfold index; fold index.
  - destruct (is_prefix p []) eqn:E; split; try discriminate.
    + intro H. specialize (H O). cbn in H. congruence.
    + intros _ j. destruct j; exact E.
    + auto.
  - destruct (is_prefix p (x :: s)) eqn:E; split; try discriminate.
    + intro H. specialize (H O). cbn [skipn] in H. congruence.
    + intros H [|j]; [exact E|]. cbn [skipn]. apply IH. destruct (index p s); [discriminate|auto].
    + intro H. replace (index p s) with (@None nat); auto. symmetry. apply IH. intro j. apply (H (S j)).
Qed.

Notation e3 := [93; 93; 62].
Lemma index_step : forall b0 b1 b w, index e3 (b0 :: b1 :: b :: w) = None -> (b0 = 93 /\ b1 = 93 /\ b = 62 -> False) /\ index e3 (b1 :: b :: w) = None.
Proof.
  intros b0 b1 b w H. split.
  - intros (-> & -> & ->). discriminate.
  - apply index_none. intro j. apply index_none with (j := S j) in H. exact H.
Qed.

Lemma cdata_bytes : forall w b0 b1 buf t, index e3 (b0 :: b1 :: w) = None -> ~ In 13 w -> b1 <> 13 ->
  exists c0 c1, tloop None true b0 b1 buf (w ++ t) = tloop None true c0 c1 (buf ++ w) t /\ c1 <> 13.
Proof.
  induction w as [|b w IH]; intros b0 b1 buf t H N N1.
  - exists b0, b1. rewrite app_nil_r. auto.
  - apply index_step in H. destruct H as [H1 H2]. assert (b <> 13 /\ ~ In 13 w) as [NB NW] by (cbn in N; tauto).
    destruct (IH b1 b (buf ++ [b]) t H2 NW NB) as (c0 & c1 & E & EN). exists c0, c1. split; auto.
    rewrite <- app_assoc in E. cbn [app] in E. rewrite <- E. cbn [app]. unfold tloop at 1. cbn [length].
    remember (S (length (w ++ t))) as k eqn:K. cbn [text_loop negb].
    assert (Q : true && (b0 =? 93) && (b1 =? 93) && (b =? 62) = false) by lia. rewrite Q.
    rewrite !andb_false_r. cbn [andb]. replace (b =? 13) with false by lia. replace (b1 =? 13) with false by lia. cbn [andb]. subst k. reflexivity.
Qed.
Lemma cdata_end : forall b0 b1 buf t, b1 <> 13 -> tloop None true b0 b1 buf (e3 ++ t) = ROk buf t.
Proof.
  intros b0 b1 buf t N. unfold tloop. cbn [app length text_loop negb].
  change (93 =? 62) with false. change (93 =? 60) with false. change (93 =? 38) with false. change (93 =? 13) with false. change (93 =? 10) with false.
  rewrite !andb_false_r. cbn [andb]. change (62 =? 62) with true. change (93 =? 93) with true. cbn [andb].
  rewrite <- app_assoc. cbn [app]. rewrite app_length. cbn [length]. replace (length buf + 2 - 2)%nat with (length buf + 0)%nat by lia.
  rewrite firstn_app_2. cbn [firstn]. now rewrite app_nil_r.
Qed.

Lemma xml_text_good : forall s, xml_text s -> forallb good_piece (pieces s) = true.
Proof. intros s H. rewrite <- (clean_id s H). apply clean_good. now apply xml_text_bytes. Qed.

Lemma raw_cdata : forall w rest, index e3 w = None -> ~ In 13 w -> xml_text w ->
  raw_token (str "<![CDATA[" ++ w ++ e3 ++ rest) = ROk (TChar w, None) rest.
Proof.
  intros w rest H N X. change (str "<![CDATA[") with [60; 33; 91; 67; 68; 65; 84; 65; 91]. cbn [app raw_token].
  change (60 =? 60) with true. change (33 =? 47) with false. change (33 =? 63) with false. change (33 =? 33) with true.
  change (91 =? 45) with false. change (91 =? 91) with true. cbn [negb].
  assert (EX : expect (str "CDATA[") (67 :: 68 :: 65 :: 84 :: 65 :: 91 :: w ++ 93 :: 93 :: 62 :: rest) = ROk tt (w ++ 93 :: 93 :: 62 :: rest)) by reflexivity.
  rewrite EX. unfold text. fold (tloop None true 0 0 [] (w ++ 93 :: 93 :: 62 :: rest)).
  destruct (cdata_bytes w 0 0 [] (e3 ++ rest)) as (c0 & c1 & E & NC); auto; [|lia|].
  { apply index_none. intros [|[|j]]; [reflexivity|reflexivity|]. cbn [skipn]. apply index_none. exact H. }
  cbn [app] in E. rewrite E. change (93 :: 93 :: 62 :: rest) with (e3 ++ rest). rewrite cdata_end by auto. rewrite xml_text_good by auto. reflexivity.
Qed.

(** Splitting text at an ASCII byte. *)
Lemma encode_tail : forall r b u, scalar r -> encode_rune r = b :: u -> Forall (fun c => 128 <= c) u.
Proof.
  intros r b u S E. assert (G : Forall (fun c => 128 <= c) (tl (encode_rune r))).
  { unfold scalar, encode_rune in *. destruct ((r <? 0) || (1114111 <? r) || ((55296 <=? r) && (r <=? 57343))) eqn:E0; [lia|].
    clear E. unb; cbn [tl]; repeat (apply Forall_cons; [Z.to_euclidean_division_equations; lia|]); apply Forall_nil. }
  now rewrite E in G.
Qed.
Lemma xml_text_split : forall x, xml_text x -> forall a c b, x = a ++ c :: b -> 0 <= c < 128 -> xml_text a /\ xml_text (c :: b).
Proof.
  induction 1 as [|r u s U X H IH]; intros a c b E C; [destruct a; discriminate|].
  destruct a as [|a0 a'].
  - cbn in E. split; [constructor|]. rewrite <- E. now apply X_cons with r.
  - pose proof U as U'. apply utf8_encode in U'. destruct U' as [S EU].
    destruct (Nat.le_gt_cases (length u) (length (a0 :: a'))) as [L|L].
    + (* u is inside a *)
      assert (EA : a0 :: a' = u ++ skipn (length u) (a0 :: a')).
      { apply (f_equal (firstn (length u))) in E as E1. rewrite firstn_app, firstn_all, Nat.sub_diag in E1. cbn [firstn] in E1. rewrite app_nil_r in E1.
        rewrite firstn_app in E1. replace (length u - length (a0 :: a'))%nat with 0%nat in E1 by lia. cbn [firstn] in E1. rewrite app_nil_r in E1.
        rewrite E1 at 1. symmetry. apply firstn_skipn. }
      assert (ES : s = skipn (length u) (a0 :: a') ++ c :: b).
      { rewrite EA in E. rewrite <- app_assoc in E. now apply app_inv_head in E. }
      destruct (IH _ _ _ ES C) as [H1 H2]. split; auto. rewrite EA. now apply X_cons with r.
    + exfalso. destruct u as [|u0 u']; [cbn in L; lia|]. cbn [app] in E. injection E as -> E.
      pose proof (encode_tail r a0 u' S (eq_sym EU)) as T.
      assert (IN : In c u').
      { apply (f_equal (fun l => nth (length a') l 0)) in E. rewrite (app_nth2 a') in E by lia. rewrite Nat.sub_diag in E. cbn [nth] in E.
        cbn [length] in L. rewrite app_nth1 in E by lia. rewrite <- E. apply nth_In. lia. }
      rewrite Forall_forall in T. apply T in IN. lia.
Qed.
Lemma xml_text_app : forall a b, xml_text a -> xml_text b -> xml_text (a ++ b).
Proof. induction 1 as [|r u s U X H IH]; intro B; auto. rewrite <- app_assoc. apply X_cons with r; auto. Qed.
Lemma xml_text_ascii : forall l, Forall (fun c => 32 <= c < 128 \/ c = 9 \/ c = 10 \/ c = 13) l -> xml_text l.
Proof.
  induction 1 as [|c l H F IH]; [constructor|]. change (c :: l) with ([c] ++ l). apply X_cons with c; auto.
  - apply U1. lia.
  - unfold xml_char. lia.
Qed.

Lemma xml_text_tail : forall c b, xml_text (c :: b) -> 0 <= c < 128 -> xml_text b.
Proof.
  intros c b X C. remember (c :: b) as x eqn:E. destruct X as [|r u s U X H]; [discriminate|].
  assert (E1 := f_equal (hd 0) E). assert (E2 := f_equal (@tl Z) E).
  destruct U; cbn [app hd tl] in E1, E2; try lia. now subst.
Qed.

(** Successive character data tokens. *)
Inductive reads_text : bytes -> list bytes -> bytes -> Prop :=
| RT_nil : forall inp, reads_text inp [] inp
| RT_cons : forall inp s mid ss rest, raw_token inp = ROk (TChar s, None) mid -> reads_text mid ss rest -> reads_text inp (s :: ss) rest.

Lemma cdata_sections : forall k pre s rest, pre = [] \/ pre = [62] -> (length s < k)%nat -> xml_text s -> ~ In 13 s ->
  exists parts, concat parts = pre ++ s /\ reads_text (str "<![CDATA[" ++ pre ++ concat (cdata_loop k s) ++ rest) parts rest.
Proof.
  induction k as [|k IH]; intros pre s rest P L X N; [lia|]. cbn [cdata_loop].
  assert (XP : xml_text pre) by (destruct P as [->| ->]; apply xml_text_ascii; repeat constructor; lia).
  assert (NP : ~ In 13 pre) by (destruct P as [->| ->]; cbn; lia).
  assert (IP : forall w, index e3 w = None -> index e3 (pre ++ w) = None).
  { intros w H. destruct P as [->| ->]; auto. apply index_none. intros [|j]; [reflexivity|]. cbn [skipn]. now apply index_none. }
  change (str "]]>") with e3. unfold cut. destruct (index e3 s) as [i|] eqn:I.
  - destruct (index_some _ _ _ I) as (E & F & LI). set (before := firstn i s) in *. set (after := skipn (i + length e3) s) in *.
    assert (LB : length before = i) by (apply firstn_length_le; auto).
    clearbody before after.
    assert (XS : xml_text before /\ xml_text (93 :: 93 :: 62 :: after)).
    { apply (xml_text_split s X before 93 (93 :: 62 :: after)); [exact E|lia]. }
    destruct XS as [XB XA].
    assert (XA' : xml_text (62 :: after)). { apply (xml_text_split _ XA [93; 93] 62 after); [reflexivity|lia]. }
    assert (XA2 : xml_text after).
    { now apply (xml_text_tail 62). }
    assert (NA : ~ In 13 before /\ ~ In 13 after). { rewrite E in N. rewrite !in_app_iff in N. tauto. }
    destruct NA as [NB NA].
    destruct (IH [62] after rest) as (parts & EP & R); auto.
    { apply (f_equal (@length Z)) in E. rewrite !app_length in E. cbn [length] in E. lia. }
    exists ((pre ++ before ++ [93; 93]) :: parts). split.
    + cbn [concat]. rewrite EP. rewrite <- !app_assoc. f_equal. cbn [app]. symmetry. exact E.
    + cbn [concat]. eapply RT_cons; [|exact R].
      assert (EQ : str "<![CDATA[" ++ pre ++ (before ++ str "]]]]><![CDATA[>" ++ concat (cdata_loop k after)) ++ rest
        = str "<![CDATA[" ++ (pre ++ before ++ [93; 93]) ++ e3 ++ str "<![CDATA[" ++ [62] ++ concat (cdata_loop k after) ++ rest).
      { change (str "]]]]><![CDATA[>") with ([93; 93] ++ e3 ++ str "<![CDATA[" ++ [62]). rewrite <- !app_assoc. reflexivity. }
      rewrite EQ. apply raw_cdata.
      * apply IP. apply index_none. intro j. destruct (is_prefix e3 (skipn j (before ++ [93; 93]))) eqn:PX; auto. exfalso.
        apply is_prefix_app in PX. destruct PX as (t & PX).
        assert (LJ : (j < i)%nat). { apply (f_equal (@length Z)) in PX. rewrite skipn_length, !app_length in PX. cbn [length] in PX. lia. }
        specialize (F j LJ). assert (G : is_prefix e3 (skipn j s) = true); [|congruence].
        apply is_prefix_app. exists (t ++ [62] ++ after).
        assert (SE : s = (before ++ [93; 93]) ++ [62] ++ after) by (rewrite <- app_assoc; exact E).
        rewrite SE. rewrite skipn_app. rewrite PX. replace (j - length (before ++ [93; 93]%Z))%nat with 0%nat by (rewrite app_length; cbn [length]; lia).
        cbn [skipn]. now rewrite <- app_assoc.
      * rewrite !in_app_iff. cbn. intros [|[|]]; try tauto. lia.
      * apply xml_text_app; auto. apply xml_text_app; auto. apply xml_text_ascii. repeat constructor; lia.
  - exists [pre ++ s]. split; [cbn; now rewrite app_nil_r|]. cbn [concat].
    replace (pre ++ (s ++ e3 ++ []) ++ rest) with ((pre ++ s) ++ e3 ++ rest) by (rewrite app_nil_r, <- !app_assoc; reflexivity).
    eapply RT_cons; [|constructor]. apply raw_cdata; auto.
    + rewrite in_app_iff. tauto.
    + now apply xml_text_app.
Qed.
Lemma read_cdata : forall s rest, xml_text s -> ~ In 13 s -> exists parts, concat parts = s /\ reads_text (emit_cdata s ++ rest) parts rest.
Proof.
  intros s rest X N. unfold emit_cdata, cdata_writes. destruct s as [|b t] eqn:ES.
  - exists []. split; [reflexivity|]. constructor.
  - rewrite <- ES in *. destruct (cdata_sections (S (length s)) [] s rest) as (parts & E & R); auto.
    exists parts. split; [exact E|]. cbn [concat]. rewrite <- app_assoc. exact R.
Qed.
