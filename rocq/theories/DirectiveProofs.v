(** Directives, comments and processing instructions: what is accepted and how it is read back. *)
From Coq Require Import String.
From Coq Require Import ZArith List Bool Lia ZifyBool ZifyNat.
From Verif Require Import Base Utf8 NameTables Lexer LexerProofs Escape Decoder Printer NameProofs EncoderSpec.
Import ListNotations.
Open Scope Z_scope.

(** *** The end of a comment inside a directive *)
Lemma skip_comment_len : forall s b0 b1 s', skip_comment b0 b1 s = Some s' -> (length s' < length s)%nat.
Proof.
  induction s as [|b s IH]; intros b0 b1 s' H; cbn in H; [discriminate|]. destruct (_ && _ && _); [injection H as <-; cbn; lia|]. apply IH in H. cbn. lia.
Qed.
(** The first "-->" in the text with the two previous bytes put back. *)
Lemma skip_comment_some : forall s b0 b1 s', skip_comment b0 b1 s = Some s' -> exists x, s = x ++ s' /\ x <> [] /\
  (exists y, b0 :: b1 :: x = y ++ [45; 45; 62]) /\ (forall a b, b0 :: b1 :: x = a ++ [45; 45; 62] ++ b -> b = []).
Proof.
  induction s as [|b s IH]; intros b0 b1 s' H; cbn in H; [discriminate|]. destruct ((b0 =? 45) && (b1 =? 45) && (b =? 62)) eqn:E.
  - injection H as <-. exists [b]. split; auto. split; [discriminate|]. assert (b0 = 45 /\ b1 = 45 /\ b = 62) as (-> & -> & ->) by lia. split; [exists []; auto|].
    intros a c X. destruct a as [|a0 a]; [cbn in X; injection X as <-; auto|]. destruct a as [|a1 a]; [discriminate|]. destruct a as [|a2 a]; [discriminate|]. destruct a; discriminate.
  - destruct (IH _ _ _ H) as (x & -> & N & (y & Y) & O). exists (b :: x). split; auto. split; [discriminate|]. split; [exists (b0 :: y); rewrite Y; auto|].
    intros a c X. destruct a as [|a0 a]; [cbn in X; injection X as -> -> -> X; cbn in E; lia|]. cbn in X. injection X as -> X. eapply O. exact X.
Qed.
Lemma skip_comment_app : forall x s b0 b1, (exists y, b0 :: b1 :: x = y ++ [45; 45; 62]) -> (forall a b, b0 :: b1 :: x = a ++ [45; 45; 62] ++ b -> b = []) ->
  x <> [] -> skip_comment b0 b1 (x ++ s) = Some s.
Proof.
  induction x as [|b x IH]; intros s b0 b1 Y O N; [congruence|]. cbn. destruct ((b0 =? 45) && (b1 =? 45) && (b =? 62)) eqn:E.
  - assert (b0 = 45 /\ b1 = 45 /\ b = 62) as (-> & -> & ->) by lia. specialize (O [] x eq_refl). subst x. reflexivity.
  - destruct Y as (y & Y). destruct y as [|y0 y]; [cbn in Y; injection Y as -> -> -> ->; cbn in E; lia|]. cbn in Y. injection Y as -> Y. apply IH.
    + exists y. exact Y.
    + intros a c X. apply (O (y0 :: a) c). cbn. rewrite X. reflexivity.
    + intros ->. destruct y as [|? [|? y]]; cbn in Y; try discriminate. destruct y; discriminate.
Qed.
(** From the start: the text before the first "-->". *)
Lemma skip_comment_00 : forall s s', skip_comment 0 0 s = Some s' <-> exists z, s = z ++ [45; 45; 62] ++ s' /\ ends_once z.
Proof.
  intros s s'. split.
  - intro H. destruct (skip_comment_some _ _ _ _ H) as (x & -> & N & (y & Y) & O). destruct y as [|y0 [|y1 y]]; cbn in Y; try discriminate.
    injection Y as <- <- ->. exists y. rewrite <- app_assoc. split; auto. intros a b X. apply (O (0 :: 0 :: a)). cbn. rewrite X. reflexivity.
  - intros (z & -> & O). replace (z ++ [45; 45; 62] ++ s') with ((z ++ [45; 45; 62]) ++ s') by (rewrite <- app_assoc; auto). apply skip_comment_app.
    + exists (0 :: 0 :: z). reflexivity.
    + intros a b X. destruct a as [|a0 [|a1 a]]; cbn in X; try discriminate. injection X as _ _ X. apply (O a). exact X.
    + destruct z; discriminate.
Qed.
(** Just after "<!--", counting its hyphens: the two short comments are the only difference. *)
Definition plain_start (s : bytes) : Prop := forall r, s <> 62 :: r /\ s <> 45 :: 62 :: r.
Lemma skip_comment_45 : forall s, (exists t, s = 62 :: t /\ skip_comment 45 45 s = Some t) \/ (exists t, s = 45 :: 62 :: t /\ skip_comment 45 45 s = Some t) \/
  (plain_start s /\ skip_comment 45 45 s = skip_comment 0 0 s).
Proof.
  intro s. destruct s as [|b s]; [right; right; split; [intro; split; discriminate|reflexivity]|]. cbn [skip_comment]. cbn [Z.eqb andb]. destruct (Z.eqb_spec b 62) as [->|N]; [left; eauto|]. cbn [andb]. right.
  destruct s as [|c s].
  - right. split; [intro; split; congruence|]. reflexivity.
  - cbn [skip_comment]. destruct (Z.eqb_spec b 45) as [->|M]; cbn [andb].
    + destruct (Z.eqb_spec c 62) as [->|K]; [left; eexists; split; reflexivity|]. right. split; [intro; split; congruence|]. reflexivity.
    + right. split; [intro; split; congruence|]. reflexivity.
Qed.

(** *** isValidDirective *)
Lemma valid_comment : forall s b1 b0 bf d, exists bf', valid_directive (b1 :: b0 :: bf) s d 0 true =
  match skip_comment b0 b1 s with Some s' => valid_directive bf' s' d 0 false | None => false end.
Proof.
  induction s as [|b s IH]; intros b1 b0 bf d.
  - exists []. cbn. rewrite andb_false_r. reflexivity.
  - cbn [valid_directive skip_comment].
    assert (X : ((b =? 62) && match b1 :: b0 :: bf with 45 :: 45 :: _ => true | _ => false end) = ((b0 =? 45) && (b1 =? 45) && (b =? 62))).
    { assert (Y : match b1 :: b0 :: bf with 45 :: 45 :: _ => true | _ => false end = ((b0 =? 45) && (b1 =? 45))).
      { destruct (Z.eqb_spec b1 45) as [->|N]; [destruct (Z.eqb_spec b0 45) as [->|M]; [reflexivity|]|].
        - destruct b0 as [|p|p]; try reflexivity. do 6 (destruct p as [p|p|]; try reflexivity; try (exfalso; lia)).
        - rewrite andb_false_r. destruct b1 as [|p|p]; try reflexivity. do 6 (destruct p as [p|p|]; try reflexivity; try (exfalso; lia)). }
      rewrite Y. apply andb_comm. }
    rewrite X. destruct ((b0 =? 45) && (b1 =? 45) && (b =? 62)); cbn [negb].
    + eexists. reflexivity.
    + apply IH.
Qed.
(** Outside comments, with [d] brackets open. *)
Lemma valid_open_comment : forall bf r d, 0 <= d -> exists bf', valid_directive bf (60 :: 33 :: 45 :: 45 :: r) d 0 false =
  match skip_comment 45 45 r with Some s' => valid_directive bf' s' d 0 false | None => false end.
Proof.
  intros bf r d D. destruct r as [|c r].
  - exists []. cbn. replace (d + 1 =? 0) with false by lia. reflexivity.
  - destruct (valid_comment (c :: r) 45 45 (33 :: 60 :: bf) d) as [bf' E]. exists bf'. rewrite <- E. cbn. reflexivity.
Qed.
Lemma index_byte_split : forall c s, match index_byte c s with
  | Some i => exists x t, s = x ++ c :: t /\ ~ In c x /\ i = length x
  | None => ~ In c s end.
Proof.
  induction s as [|y s IH]; cbn; auto. destruct (Z.eqb_spec y c) as [->|N]; [exists [], s; auto|].
  destruct (index_byte c s) as [i|]; cbn.
  - destruct IH as (x & t & -> & NI & ->). exists (y :: x), t. split; auto. split; auto. intros [X|X]; auto.
  - intros [X|X]; auto.
Qed.
Lemma split_unique : forall (c : Z) x x' t t', ~ In c x -> ~ In c x' -> x ++ c :: t = x' ++ c :: t' -> x = x' /\ t = t'.
Proof.
  intros c x. induction x as [|a x IH]; intros [|b x'] t t' N N' E; cbn in *.
  - injection E as ->; auto.
  - injection E as <- _. exfalso; auto.
  - injection E as -> _. exfalso; auto.
  - injection E as <- E. destruct (IH x' t t') as [-> ->]; tauto.
Qed.
Lemma valid_quote_in : forall x q t bf d, q <> 0 -> ~ In q x -> exists bf', valid_directive bf (x ++ q :: t) d q false = valid_directive bf' t d 0 false.
Proof.
  induction x as [|c x IH]; intros q t bf d Q N.
  - eexists. cbn [app valid_directive]. replace (q =? 0) with false by lia. cbn [negb]. rewrite Z.eqb_refl. reflexivity.
  - cbn [app valid_directive]. replace (q =? 0) with false by lia. cbn [negb]. destruct (Z.eqb_spec c q) as [->|M]; [exfalso; apply N; cbn; auto|]. apply IH; auto. intro; apply N; cbn; auto.
Qed.
Lemma valid_quote_out : forall s q bf d, q <> 0 -> ~ In q s -> valid_directive bf s d q false = false.
Proof.
  induction s as [|c s IH]; intros q bf d Q N; cbn [valid_directive].
  - replace (q =? 0) with false by lia. rewrite andb_false_r. reflexivity.
  - replace (q =? 0) with false by lia. cbn [negb]. destruct (Z.eqb_spec c q) as [->|M]; [exfalso; apply N; cbn; auto|]. apply IH; auto. intro; apply N; cbn; auto.
Qed.
Lemma bang_dec : forall s, (exists r, s = 33 :: 45 :: 45 :: r) \/ (forall r, s <> 33 :: 45 :: 45 :: r).
Proof.
  intro s. destruct s as [|a [|b [|c r]]]; try (right; intros; discriminate). destruct (Z.eq_dec a 33) as [->|]; [|right; congruence]. destruct (Z.eq_dec b 45) as [->|]; [|right; congruence].
  destruct (Z.eq_dec c 45) as [->|]; [left; eauto|right; congruence].
Qed.
Lemma is_prefix_bang : forall s, (forall r, s <> 33 :: 45 :: 45 :: r) -> is_prefix (str "<!--") (60 :: s) = false.
Proof.
  intros s N. destruct (is_prefix (str "<!--") (60 :: s)) eqn:H; auto. exfalso. change (str "<!--") with [60; 33; 45; 45] in H. cbn [is_prefix] in H.
  destruct s as [|a [|b [|c r]]]; cbn [is_prefix] in H; try (rewrite ?andb_false_r in H; discriminate).
  apply (N r). assert (a = 33 /\ b = 45 /\ c = 45) as (-> & -> & ->) by lia. reflexivity.
Qed.
Lemma short_comment : forall d r t out, skip_comment 45 45 r = Some t -> dir true d t out -> dir true d ([60; 33; 45; 45] ++ r) (32 :: out).
Proof.
  intros d r t out H D. destruct (skip_comment_45 r) as [(t' & -> & E)|[(t' & -> & E)|(P & E)]].
  - rewrite E in H. injection H as <-. apply (D_short true d [62]); auto.
  - rewrite E in H. injection H as <-. apply (D_short true d [45; 62]); auto.
  - rewrite E in H. apply skip_comment_00 in H. destruct H as (z & -> & O). apply D_comment; auto. intros _ r'. split; intros ->; destruct (P (r' ++ [45; 45; 62] ++ t)) as [A B]; auto.
Qed.
Lemma comment_long : forall z s', (forall r, z <> 62 :: r /\ z <> 45 :: 62 :: r) -> ends_once z -> skip_comment 45 45 (z ++ [45; 45; 62] ++ s') = Some s'.
Proof.
  intros z s' N O. destruct (skip_comment_45 (z ++ [45; 45; 62] ++ s')) as [(t & X & E)|[(t & X & E)|(P & E)]].
  - destruct z as [|z0 z]; [discriminate|]. injection X as -> X. destruct (N z). congruence.
  - destruct z as [|z0 z]; [discriminate|]. injection X as -> X. destruct z as [|z1 z]; [discriminate|]. injection X as -> X. destruct (N z). congruence.
  - rewrite E. apply skip_comment_00. eauto.
Qed.
Lemma valid_step : forall c s bf d, c <> 60 -> valid_directive bf (c :: s) d 0 false =
  if (c =? 39) || (c =? 34) then valid_directive (c :: bf) s d c false
  else if c =? 62 then if d =? 0 then false else valid_directive (c :: bf) s (d - 1) 0 false else valid_directive (c :: bf) s d 0 false.
Proof. intros c s bf d N. cbn [valid_directive]. cbn [Z.eqb negb]. replace (c =? 60) with false by lia. reflexivity. Qed.
Lemma valid_dir : forall n s, (length s <= n)%nat -> forall bf d, valid_directive bf s (Z.of_nat d) 0 false = true <-> exists out, dir true d s out.
Proof.
  induction n as [|n IH]; intros s L bf d.
  { destruct s; cbn in L; [|lia]. cbn. split.
    - intro H. assert (d = O) as -> by lia. exists []. constructor.
    - intros [out D]. inversion D; subst; try reflexivity; destruct x; discriminate. }
  destruct s as [|c s].
  { cbn. split; [intro H; assert (d = O) as -> by lia; exists []; constructor|]. intros [out D]. inversion D; subst; reflexivity. }
  cbn [length] in L. destruct (Z.eq_dec c 60) as [->|NL].
  - destruct (bang_dec s) as [[r ->]|NB].
    + destruct (valid_open_comment bf r (Z.of_nat d) ltac:(lia)) as [bf' E]. rewrite E. cbn [length] in L. destruct (skip_comment 45 45 r) as [t|] eqn:SK.
      * pose proof (skip_comment_len _ _ _ _ SK) as LT. rewrite (IH t ltac:(lia)). split.
        -- intros [out D]. exists (32 :: out). apply (short_comment d r t out SK D).
        -- intros [out D]. inversion D as [|? ? ? ? OR|? ? ? ? ? Q|? ? ? NB _|? ? ?|? z s' ? O NS D' E1 E2|? x s' ? _ XX D' E1 E2]; subst.
           ++ exfalso. destruct OR as (_ & OR & _). congruence.
           ++ destruct Q; lia.
           ++ exfalso. eapply NB. reflexivity.
           ++ exists out0. pose proof (comment_long z s' (NS eq_refl) O) as CL; cbn [app] in CL; rewrite CL in SK. injection SK as <-. auto.
           ++ exists out0. replace t with s'; auto. destruct XX as [-> | ->]; cbn in SK; congruence.
      * split; [discriminate|]. intros [out D]. exfalso.
        inversion D as [|? ? ? ? OR|? ? ? ? ? Q|? ? ? NB _|? ? ?|? z s' ? O NS D' E1 E2|? x s' ? _ XX D' E1 E2]; subst.
        -- destruct OR as (_ & OR & _). congruence.
        -- destruct Q; lia.
        -- eapply NB. reflexivity.
        -- pose proof (comment_long z s' (NS eq_refl) O) as CL; cbn [app] in CL; rewrite CL in SK. discriminate.
        -- destruct XX as [-> | ->]; discriminate.
    + cbn [valid_directive Z.eqb Pos.eqb negb orb]. rewrite (is_prefix_bang s NB). cbn [andb]. replace (Z.of_nat d + 1) with (Z.of_nat (S d)) by lia. rewrite (IH s ltac:(lia)). split.
      * intros [out D]. exists (60 :: out). apply D_open; auto.
      * intros [out D]. inversion D as [|? ? ? ? OR|? ? ? ? ? Q|? ? ? _ D'|? ? ?|? z s' ? O NS D' E1 E2|? x s' ? _ XX D' E1 E2]; subst.
        -- destruct OR as (_ & OR & _). congruence.
        -- destruct Q; lia.
        -- eauto.
        -- exfalso. eapply NB. reflexivity.
        -- exfalso. eapply NB. reflexivity.
  - rewrite valid_step by auto. destruct ((c =? 39) || (c =? 34)) eqn:QC.
    + assert (Q : quote c) by (unfold quote; lia). assert (C0 : c <> 0) by (destruct Q; lia). pose proof (index_byte_split c s) as IX. destruct (index_byte c s) as [i|].
      * destruct IX as (x & t & -> & NI & _). destruct (valid_quote_in x c t (c :: bf) (Z.of_nat d) C0 NI) as [bf' E]. rewrite E. rewrite app_length in L. cbn [length] in L. rewrite (IH t ltac:(lia)). split.
        -- intros [out D]. exists (c :: x ++ c :: out). apply D_quoted; auto.
        -- intros [out D]. inversion D as [|? ? ? ? OR|? ? x' s' ? _ NI' D' E1|? ? ? _ D'|? ? ?|? z s' ? O NS D' E1 E2|? x' s' ? _ XX D' E1 E2]; subst; try congruence.
           ++ destruct OR as (OR & _). tauto.
           ++ match goal with H : _ ++ _ :: _ = _ ++ _ :: _ |- _ => destruct (split_unique _ _ _ _ _ NI' NI H) as [-> ->] end. eauto.
           ++ destruct Q; discriminate.
      * rewrite valid_quote_out; auto. split; [discriminate|]. intros [out D]. exfalso. inversion D as [|? ? ? ? OR|? ? x' s' ? _ NI' D' E1|? ? ? _ D'|? ? ?|? z s' ? O NS D' E1 E2|? x' s' ? _ XX D' E1 E2]; subst; try congruence.
        -- destruct OR as (OR & _). tauto.
        -- apply IX. apply in_elt.
        -- destruct Q; discriminate.
    + destruct (Z.eqb_spec c 62) as [->|NC].
      * destruct d as [|d].
        -- cbn. split; [discriminate|]. intros [out D]. exfalso. inversion D as [|? ? ? ? OR|? ? x' s' ? Q NI' D' E1|? ? ? _ D'|? ? ?|? z s' ? O NS D' E1 E2|? x' s' ? _ XX D' E1 E2]; subst.
           ++ destruct OR as (_ & _ & OR). congruence.
           ++ destruct Q; lia.
        -- replace (Z.of_nat (S d) =? 0) with false by lia. replace (Z.of_nat (S d) - 1) with (Z.of_nat d) by lia. rewrite (IH s ltac:(lia)). split.
           ++ intros [out D]. exists (62 :: out). apply D_close; auto.
           ++ intros [out D]. inversion D as [|? ? ? ? OR|? ? x' s' ? Q NI' D' E1|? ? ? _ D'|? ? ? D'|? z s' ? O NS D' E1 E2|? x' s' ? _ XX D' E1 E2]; subst; eauto.
              ** destruct OR as (_ & _ & OR). congruence.
              ** destruct Q; lia.
      * rewrite (IH s ltac:(lia)). assert (OR : ordinary c) by (unfold ordinary, quote; lia). split.
        -- intros [out D]. exists (c :: out). apply D_byte; auto.
        -- intros [out D]. inversion D as [|? ? ? ? _ D'|? ? x' s' ? Q NI' D' E1|? ? ? _ D'|? ? ? D'|? z s' ? O NS D' E1 E2|? x' s' ? _ XX D' E1 E2]; subst; eauto; try congruence.
           destruct OR as (OR & _). tauto.
Qed.

(** *** Reading a directive back *)
Lemma match_bang_no : forall s, (forall r, s <> 33 :: 45 :: 45 :: r) -> forall t,
  exists n b r, match_bang (str "!--") 0 (s ++ 62 :: t) = inr (Some (n, b, r)) /\ firstn n (str "!--") ++ b :: r = s ++ 62 :: t /\ (n <= 2)%nat /\
    (b = 62 /\ r = t /\ s = firstn n (str "!--") \/ exists s', s = firstn n (str "!--") ++ b :: s' /\ r = s' ++ 62 :: t).
Proof.
  intros s N t.
  assert (L : forall n, (n <= 2)%nat -> s = firstn n (str "!--") -> match_bang (str "!--") 0 (s ++ 62 :: t) = inr (Some (n, 62, t)) ->
     exists n b r, match_bang (str "!--") 0 (s ++ 62 :: t) = inr (Some (n, b, r)) /\ firstn n (str "!--") ++ b :: r = s ++ 62 :: t /\ (n <= 2)%nat /\
    (b = 62 /\ r = t /\ s = firstn n (str "!--") \/ exists s', s = firstn n (str "!--") ++ b :: s' /\ r = s' ++ 62 :: t)).
  { intros n K E M. exists n, 62, t. split; [exact M|]. split; [rewrite <- E; reflexivity|]. split; [exact K|]. left. auto. }
  assert (R : forall n b s', (n <= 2)%nat -> s = firstn n (str "!--") ++ b :: s' -> match_bang (str "!--") 0 (s ++ 62 :: t) = inr (Some (n, b, s' ++ 62 :: t)) ->
     exists n b r, match_bang (str "!--") 0 (s ++ 62 :: t) = inr (Some (n, b, r)) /\ firstn n (str "!--") ++ b :: r = s ++ 62 :: t /\ (n <= 2)%nat /\
    (b = 62 /\ r = t /\ s = firstn n (str "!--") \/ exists s', s = firstn n (str "!--") ++ b :: s' /\ r = s' ++ 62 :: t)).
  { intros n b s' K E M. exists n, b, (s' ++ 62 :: t). split; [exact M|]. split; [rewrite E, <- app_assoc; reflexivity|]. split; [exact K|]. right. exists s'. auto. }
  destruct s as [|a s]; [apply (L O); [lia|reflexivity|reflexivity]|]. destruct (Z.eq_dec a 33) as [->|NA].
  2: { apply (R O a s); [lia|reflexivity|]. change (str "!--") with [33; 45; 45]. cbn [app match_bang]. replace (a =? 33) with false by lia. reflexivity. }
  destruct s as [|b s]; [apply (L 1%nat); [lia|reflexivity|reflexivity]|]. destruct (Z.eq_dec b 45) as [->|NB].
  2: { apply (R 1%nat b s); [lia|reflexivity|]. change (str "!--") with [33; 45; 45]. cbn [app match_bang Z.eqb Pos.eqb]. replace (b =? 45) with false by lia. reflexivity. }
  destruct s as [|c s]; [apply (L 2%nat); [lia|reflexivity|reflexivity]|]. destruct (Z.eq_dec c 45) as [->|NC].
  2: { apply (R 2%nat c s); [lia|reflexivity|]. change (str "!--") with [33; 45; 45]. cbn [app match_bang Z.eqb Pos.eqb]. replace (c =? 45) with false by lia. reflexivity. }
  exfalso. eapply N. reflexivity.
Qed.
Lemma directive_pend : forall k b d buf inp, d <> 0 -> directive_loop k (Some b) 0 d buf inp = directive_loop k None 0 d buf (b :: inp).
Proof. intros [|k] b d buf inp D; auto. cbn [directive_loop]. replace (d =? 0) with false by lia. rewrite andb_false_r. reflexivity. Qed.
Lemma directive_quote : forall x q d t k buf, q <> 0 -> ~ In q x ->
  directive_loop (length x + S k) None q d buf (x ++ q :: t) = directive_loop k None 0 d (buf ++ x ++ [q]) t.
Proof.
  induction x as [|c x IH]; intros q d t k buf Q N; cbn [length plus app directive_loop].
  - replace (q =? 0) with false by lia. cbn [andb]. rewrite Z.eqb_refl. reflexivity.
  - replace (q =? 0) with false by lia. cbn [andb negb]. destruct (Z.eqb_spec c q) as [->|M]; [exfalso; apply N; cbn; auto|].
    rewrite IH; auto; [|intro; apply N; cbn; auto]. rewrite <- app_assoc. reflexivity.
Qed.
Lemma directive_app : forall n d s out, (length s <= n)%nat -> dir false d s out -> forall k buf rest, (length s < k)%nat ->
  directive_loop k None 0 (Z.of_nat d) buf (s ++ 62 :: rest) = ROk (buf ++ out) rest.
Proof.
  induction n as [|n IH]; intros d s out L D k buf rest K.
  { destruct s; cbn in L; [|lia]. inversion D; subst. destruct k; [lia|]. cbn. rewrite app_nil_r. reflexivity. }
  destruct k as [|k]; [lia|].
  inversion D as [|? c s0 out0 OR D'|? q x s0 out0 Q NI D'|? s0 out0 NB D'|d0 s0 out0 D'|? z s' out0 O NS D' E1 E2|? x s' ? SH]; subst; [| | | | | |discriminate].
  - cbn. rewrite app_nil_r. reflexivity.
  - cbn [length app directive_loop] in *. destruct OR as (OQ & O1 & O2). replace (c =? 62) with false by lia. rewrite andb_false_r. cbn [andb].
    assert (G : directive_loop k None 0 (Z.of_nat d) (buf ++ [c]) (s0 ++ 62 :: rest) = ROk (buf ++ c :: out0) rest).
    { rewrite (IH d s0 out0); auto; try lia. rewrite <- app_assoc. reflexivity. }
    cbn [Z.eqb negb]. replace (c =? 60) with false by lia. unfold quote in OQ. replace ((c =? 39) || (c =? 34)) with false by lia. destruct (c =? 0); exact G.
  - assert (Q0 : q <> 0 /\ q <> 62) by (destruct Q; lia). cbn [length] in *. rewrite app_length in *. cbn [length] in *. cbn [app directive_loop]. replace (q =? 62) with false by lia. rewrite andb_false_r. cbn [andb].
    replace (q =? 0) with false by lia. cbn [Z.eqb negb]. replace ((q =? 39) || (q =? 34)) with true by (destruct Q; lia).
    rewrite <- app_assoc. cbn [app]. replace k with (length x + S (k - length x - 1))%nat by lia. rewrite directive_quote by tauto. rewrite (IH d s0 out0); auto; try lia. rewrite <- !app_assoc. reflexivity.
  - cbn [length app directive_loop] in *. cbn [Z.eqb Pos.eqb andb negb orb].
    destruct (match_bang_no s0 NB rest) as (m & b & r & E & F & M2 & X). rewrite E.
    assert (INV : exists s1 out1, s0 = firstn m (str "!--") ++ s1 /\ out0 = firstn m (str "!--") ++ out1 /\ dir false (S d) s1 out1).
    { clear - X D' M2. assert (PF : exists s1, s0 = firstn m (str "!--") ++ s1) by (destruct X as [(_ & _ & ->)|(s' & -> & _)]; [exists []; rewrite app_nil_r; auto|eauto]). destruct PF as [s1 ->]. clear X.
      destruct m as [|[|[|m]]]; [exists s1, out0; auto| | |lia]; change (str "!--") with [33; 45; 45] in *; cbn [firstn app] in *;
        (inversion D' as [|? ? ? o1 _ D1|? ? ? ? ? Q|? ? ? _ _|? ? ? _|? ? ? ? _ _ _|? ? ? ? SH]; subst; [|destruct Q; discriminate]).
      - eauto.
      - inversion D1 as [|? ? ? o2 _ D2|? ? ? ? ? Q|? ? ? _ _|? ? ? _|? ? ? ? _ _ _|? ? ? ? SH]; subst; [|destruct Q; discriminate]. eauto. }
    destruct INV as (s1 & out1 & -> & -> & D1). rewrite <- app_assoc in F. apply app_inv_head in F.
    destruct X as [(_ & _ & X)|(s' & X & R)].
    { rewrite <- (app_nil_r (firstn m (str "!--"))) in X at 2. apply app_inv_head in X. subst s1. inversion D1. }
    apply app_inv_head in X. subst s1 r. rewrite directive_pend by lia. replace (Z.of_nat d + 1) with (Z.of_nat (S d)) by lia.
    change (b :: s' ++ 62 :: rest) with ((b :: s') ++ 62 :: rest). rewrite app_length in *. rewrite (IH (S d) (b :: s') out1); auto; try lia. rewrite <- !app_assoc. reflexivity.
  - cbn [length app directive_loop] in *. replace (Z.of_nat (S d0) =? 0) with false by lia. cbn [Z.eqb Pos.eqb andb negb orb]. replace (Z.of_nat (S d0) - 1) with (Z.of_nat d0) by lia.
    rewrite (IH d0 s0 out0); auto; try lia. rewrite <- app_assoc. reflexivity.
  - rewrite !app_length in *. cbn [length] in *. cbn [app directive_loop]. cbn [Z.eqb Pos.eqb andb negb orb].
    replace ((z ++ 45 :: 45 :: 62 :: s') ++ 62 :: rest) with (z ++ [45; 45; 62] ++ (s' ++ 62 :: rest)) by (rewrite <- app_assoc; reflexivity).
    assert (SK : skip_comment 0 0 (z ++ [45; 45; 62] ++ s' ++ 62 :: rest) = Some (s' ++ 62 :: rest)) by (apply skip_comment_00; eauto).
    change (str "!--") with [33; 45; 45]. cbn [match_bang Z.eqb Pos.eqb]. rewrite SK. rewrite (IH d s' out0); auto; try lia. rewrite <- app_assoc. reflexivity.
Qed.

(** *** Searching *)
Lemma is_prefix_app : forall p s, is_prefix p s = true <-> exists r, s = p ++ r.
Proof.
  induction p as [|x p IH]; intros s; cbn; [split; eauto|]. destruct s as [|y s]; [split; [discriminate|intros [r R]; discriminate]|].
  rewrite andb_true_iff, IH. split; [intros [E [r ->]]; exists r; f_equal; lia|intros [r R]; injection R as -> ->; split; [lia|eauto]].
Qed.
Lemma contains_spec : forall p s, contains p s = true <-> exists a b, s = a ++ p ++ b.
Proof.
  intros p s. unfold contains. induction s as [|x s IH]; cbn [index].
  - destruct (is_prefix p []) eqn:E.
    + split; auto. intros _. apply is_prefix_app in E. destruct E as [r E]. exists [], r. auto.
    + split; [discriminate|]. intros (a & b & H). destruct a; [|discriminate]. assert (is_prefix p [] = true) by (apply is_prefix_app; eauto). congruence.
  - destruct (is_prefix p (x :: s)) eqn:E.
    + split; auto. intros _. apply is_prefix_app in E. destruct E as [r E]. exists [], r. auto.
    + destruct (index p s) as [i|] eqn:I; cbn [option_map].
      * split; auto. intros _. destruct IH as [IH _]. destruct (IH eq_refl) as (a & b & ->). exists (x :: a), b. auto.
      * split; [discriminate|]. intros (a & b & H). destruct a as [|y a].
        -- assert (is_prefix p (x :: s) = true) by (apply is_prefix_app; exists b; auto). congruence.
        -- injection H as -> H. apply IH. exists a, b. auto.
Qed.

(** *** Comments *)
Fixpoint adjacent (l : bytes) : bool := match l with a :: (b :: _) as t => (a =? 45) && (b =? 45) || adjacent t | _ => false end.
Lemma adjacent_spec : forall l, adjacent l = true <-> exists a b, l = a ++ [45; 45] ++ b.
Proof.
  induction l as [|x l IH]; [cbn; split; [discriminate|intros ([|] & b & H); discriminate]|]. destruct l as [|y l].
  - cbn. split; [discriminate|]. intros ([|a0 a] & b & H); [discriminate|]. injection H as _ H. destruct a; discriminate.
  - change (adjacent (x :: y :: l)) with ((x =? 45) && (y =? 45) || adjacent (y :: l)). rewrite orb_true_iff, IH. split.
    + intros [H|(a & b & H)]; [exists [], l; cbn; f_equal; [lia|f_equal; lia]|]. exists (x :: a), b. rewrite H. reflexivity.
    + intros (a & b & H). destruct a as [|a0 a]; [left; cbn in H; injection H as -> -> _; reflexivity|right; cbn [app] in H; injection H as _ H; exists a, b; exact H].
Qed.
Lemma contains_tail : forall p x s, contains p (x :: s) = false -> contains p s = false.
Proof.
  intros p x s H. apply not_true_iff_false. intros C. apply contains_spec in C. destruct C as (a & b & ->).
  apply not_true_iff_false in H. apply H. apply contains_spec. exists (x :: a), b. reflexivity.
Qed.
Lemma comment_app : forall s b0 b1 buf rest, ~ (b0 = 45 /\ b1 = 45) -> contains [45; 45; 62] (b1 :: s) = false ->
  comment_loop b0 b1 buf (s ++ [45; 45; 62] ++ rest) =
  if adjacent (b1 :: s ++ [45]) then RErr (ESyntax (str "invalid sequence ""--"" not allowed in comments")) else ROk (buf ++ s) rest.
Proof.
  induction s as [|c s IH]; intros b0 b1 buf rest N C.
  - cbn [app comment_loop]. replace ((b0 =? 45) && (b1 =? 45)) with false by lia. change (adjacent [b1; 45]) with ((b1 =? 45) && true || false). rewrite andb_true_r, orb_false_r. destruct (b1 =? 45); cbn [andb Z.eqb Pos.eqb]; [reflexivity|].
    rewrite !app_length. cbn [length]. replace (length buf + 1 + 1 - 2)%nat with (length buf) by lia. rewrite <- !app_assoc, firstn_app, firstn_all, Nat.sub_diag. cbn [firstn]. reflexivity.
  - cbn [app comment_loop]. replace ((b0 =? 45) && (b1 =? 45)) with false by lia. change (adjacent (b1 :: c :: s ++ [45])) with ((b1 =? 45) && (c =? 45) || adjacent (c :: s ++ [45])).
    destruct ((b1 =? 45) && (c =? 45)) eqn:E; cbn [orb].
    + destruct s as [|x s]; cbn [app comment_loop]; rewrite E; [reflexivity|]. destruct (x =? 62) eqn:X; [|reflexivity].
      exfalso. apply not_true_iff_false in C. apply C. apply contains_spec. exists [], s. cbn. repeat f_equal; lia.
    + replace (45 :: 45 :: 62 :: rest) with ([45; 45; 62] ++ rest) by reflexivity.
      rewrite IH; [|lia|apply (contains_tail _ b1); exact C]. rewrite <- app_assoc. reflexivity.
Qed.

(** *** Processing instructions *)
Lemma pi_app : forall s b0 buf rest, contains [63; 62] (b0 :: s) = false -> pi_loop b0 buf (s ++ [63; 62] ++ rest) = ROk (buf ++ s) rest.
Proof.
  induction s as [|c s IH]; intros b0 buf rest C; cbn [app pi_loop].
  - replace ((b0 =? 63) && (63 =? 62)) with false by lia. cbn [Z.eqb Pos.eqb andb]. rewrite !app_length. cbn [length].
    replace (length buf + 1 - 1)%nat with (length buf) by lia. rewrite firstn_app, firstn_all, Nat.sub_diag. reflexivity.
  - destruct ((b0 =? 63) && (c =? 62)) eqn:E.
    + exfalso. apply not_true_iff_false in C. apply C. apply contains_spec. exists [], s. cbn. repeat f_equal; lia.
    + replace (63 :: 62 :: rest) with ([63; 62] ++ rest) by reflexivity. rewrite IH; [|apply (contains_tail _ b0); exact C]. rewrite <- app_assoc. reflexivity.
Qed.
