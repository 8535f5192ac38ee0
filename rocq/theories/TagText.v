(** Start and end tags as text: names put together from parts, and reading a tag back. *)
From Coq Require Import String.
From Coq Require Import ZArith List Bool Lia ZifyBool ZifyNat.
From Verif Require Import Base Utf8 NameTables Lexer Escape EscapeSpec EscapeProofs LexerProofs NameProofs.
Import ListNotations.
Open Scope Z_scope.

(** *** Names *)
Lemma decode_app : forall s t r n, s <> [] -> decode_rune s = (r, n) -> ~ (r = rune_error /\ n = 1%nat) -> decode_rune (s ++ t) = (r, n).
Proof.
  intros [|b s] t r n N D B; [congruence|]. cbn [app]. unfold decode_rune in *. destruct (lead b) as [[[m lo] hi]|]; [|injection D as <- <-; tauto].
  destruct m as [|[|m]].
  - destruct s as [|b1 s]; [injection D as <- <-; tauto|]. cbn [app]. destruct (negb (within lo hi b1)); [injection D as <- <-; tauto|].
    destruct s as [|b2 s]; [injection D as <- <-; tauto|]. cbn [app]. destruct (negb (within 128 191 b2)); [injection D as <- <-; tauto|].
    destruct s as [|b3 s]; [injection D as <- <-; tauto|]. cbn [app]. exact D.
  - exact D.
  - destruct s as [|b1 s]; [injection D as <- <-; tauto|]. cbn [app]. destruct (negb (within lo hi b1)); [injection D as <- <-; tauto|]. destruct m as [|m]; [exact D|].
    destruct s as [|b2 s]; [injection D as <- <-; tauto|]. cbn [app]. destruct (negb (within 128 191 b2)); [injection D as <- <-; tauto|]. destruct m as [|m]; [exact D|].
    destruct s as [|b3 s]; [injection D as <- <-; tauto|]. cbn [app]. exact D.
Qed.
Lemma pieces_app : forall a b, forallb (fun p => negb (bad_piece p)) (pieces a) = true -> pieces (a ++ b) = pieces a ++ pieces b.
Proof.
  intros a b. pattern a. apply pieces_ind; [reflexivity|]. clear a. intros s N IH H. rewrite (pieces_cons s) in H |- * by auto. cbn [forallb] in H. apply andb_true_iff in H. destruct H as [H1 H2].
  destruct (decode_size s N) as [D1 D2]. destruct (decode_rune s) as [r n] eqn:E. cbn [fst snd] in *. unfold bad_piece in H1. cbn [fst snd] in H1.
  assert (B : ~ (r = rune_error /\ n = 1%nat)). { intros [-> ->]. rewrite firstn_length in H1. lia. }
  pose proof (decode_app s b r n N E B) as E2. rewrite (pieces_cons (s ++ b)) by (destruct s; [congruence|discriminate]). rewrite E2. cbn [fst snd app].
  rewrite firstn_app, skipn_app. replace (n - length s)%nat with 0%nat by lia. cbn [firstn skipn]. rewrite app_nil_r. f_equal. apply IH. exact H2.
Qed.
Lemma name_pieces : forall s, is_name s = true -> forallb name_piece (pieces s) = true.
Proof.
  intros s H. unfold is_name in H. destruct (pieces s) as [|p ps]; [discriminate|]. apply andb_true_iff in H. destruct H as [H1 H2]. apply andb_true_iff in H1. destruct H1 as [H0 H1].
  cbn [forallb]. unfold name_piece at 1. rewrite H0, H1. exact H2.
Qed.
Lemma name_good : forall ps, forallb name_piece ps = true -> forallb (fun p => negb (bad_piece p)) ps = true.
Proof. intros ps H. rewrite forallb_forall in *. intros x I. specialize (H x I). unfold name_piece in H. apply andb_true_iff in H. tauto. Qed.
(** A name followed by bytes whose runes may appear in names is a name. *)
Lemma is_name_app : forall a b, is_name a = true -> forallb name_piece (pieces b) = true -> is_name (a ++ b) = true.
Proof.
  intros a b A B. pose proof (name_pieces a A) as P. unfold is_name. rewrite (pieces_app a b (name_good _ P)). unfold is_name in A. destruct (pieces a) as [|p ps]; [discriminate|]. cbn [app].
  apply andb_true_iff in A. destruct A as [A1 A2]. rewrite A1. cbn [andb]. rewrite forallb_app. apply andb_true_iff. split; [exact A2|exact B].
Qed.
Lemma pieces_ascii : forall b s, 0 <= b < 128 -> pieces (b :: s) = (b, [b]) :: pieces s.
Proof.
  intros b s B. rewrite pieces_cons by discriminate. assert (D : decode_rune (b :: s) = (b, 1%nat)).
  { unfold decode_rune, lead. replace (b <? 0) with false by lia. replace (b <? 128) with true by lia. reflexivity. }
  rewrite D. reflexivity.
Qed.
Lemma name_tail : forall w, Forall (fun b => b = 95 \/ 48 <= b <= 57) w -> forallb name_piece (pieces w) = true.
Proof.
  induction w as [|b w IH]; intro H; [reflexivity|]. inversion H; subst. rewrite pieces_ascii by lia. cbn [forallb]. rewrite IH by auto. rewrite andb_true_r.
  destruct H2 as [->|H2]; [reflexivity|]. assert (X : In b (map Z.of_nat (seq 48 10))). { apply in_map_iff. exists (Z.to_nat b). split; [lia|apply in_seq; lia]. }
  clear - X. cbn in X. repeat destruct X as [<-|X]; try reflexivity; tauto.
Qed.
(** A name without a colon. *)
Definition ncname (s : bytes) : Prop := is_name s = true /\ ~ In 58 s.
Lemma ncname_nonempty : forall s, ncname s -> s <> [].
Proof. intros s [H _] ->. discriminate. Qed.
Lemma is_name_join : forall p l, is_name p = true -> is_name l = true -> is_name (p ++ 58 :: l) = true.
Proof. intros p l P L. apply is_name_app; auto. rewrite pieces_ascii by lia. cbn [forallb]. rewrite (name_pieces l L). reflexivity. Qed.

(** *** Qualified names as text *)
(** A name as it stands in a tag: prefix and local part. *)
Definition rawname (n : name) : Prop := (space n = [] \/ ncname (space n)) /\ ncname (local n).
Definition name_text (n : name) : bytes := match space n with [] => local n | p => p ++ 58 :: local n end.
Lemma count_none : forall c s, ~ In c s -> count_byte c s = 0%nat.
Proof.
  intros c s N. unfold count_byte. induction s as [|x s IH]; [reflexivity|]. cbn. cbn in N. destruct (c =? x) eqn:E; [exfalso; apply N; left; lia|]. apply IH. tauto.
Qed.
Lemma count_app : forall c a b, count_byte c (a ++ b) = (count_byte c a + count_byte c b)%nat.
Proof. intros. unfold count_byte. rewrite filter_app, app_length. reflexivity. Qed.
Lemma index_first : forall c p l, ~ In c p -> index_byte c (p ++ c :: l) = Some (length p).
Proof.
  intros c p l. induction p as [|x p IH]; intro N; cbn; [now rewrite Z.eqb_refl|]. cbn in N. destruct (x =? c) eqn:E; [exfalso; apply N; left; lia|]. rewrite IH by tauto. reflexivity.
Qed.
Lemma split_ns_text : forall n, rawname n -> split_ns (name_text n) = Some n.
Proof.
  intros [sp lo] [S L]. cbn [space local] in *. unfold name_text, split_ns. cbn [space local]. destruct L as [L1 L2]. destruct sp as [|c sp].
  - rewrite (count_none _ _ L2). reflexivity.
  - destruct S as [S|[S1 S2]]; [discriminate|]. rewrite count_app, (count_none _ _ S2). change (count_byte 58 (58 :: lo)) with (S (count_byte 58 lo)). rewrite (count_none _ _ L2). cbn [plus].
    rewrite index_first by auto. pose proof (ncname_nonempty lo (conj L1 L2)) as NL. rewrite app_length. cbn [length].
    destruct lo as [|b lo]; [congruence|]. cbn [length]. replace ((S (length sp) <? 1)%nat || (S (length sp) + S (S (length lo)) - 2 <? S (length sp))%nat) with false by lia.
    f_equal. f_equal.
    + change (S (length sp)) with (length (c :: sp)). rewrite firstn_app, Nat.sub_diag, firstn_all. cbn [firstn]. apply app_nil_r.
    + change (S (S (length sp))) with (S (length (c :: sp))). replace (S (length (c :: sp))) with (length ((c :: sp) ++ [58])) by (rewrite app_length; cbn; lia).
      change (58 :: b :: lo) with ([58] ++ b :: lo). rewrite app_assoc. rewrite skipn_app, skipn_all, Nat.sub_diag. reflexivity.
Qed.
Lemma name_text_name : forall n, rawname n -> is_name (name_text n) = true.
Proof.
  intros n [S [L1 L2]]. unfold name_text. destruct (space n) as [|c sp]; [auto|]. destruct S as [S|[S1 S2]]; [discriminate|]. apply is_name_join; auto.
Qed.
Lemma get_nsname_text : forall n c rest, rawname n -> name_byte c = false -> get_nsname (name_text n ++ c :: rest) = inl (n, c :: rest).
Proof. intros n c rest R C. unfold get_nsname. rewrite get_name_app by (auto; apply name_text_name; auto). rewrite split_ns_text; auto. Qed.
Lemma name_text_head : forall n, rawname n -> exists b t, name_text n = b :: t /\ (128 <= b \/ within 65 90 b || within 97 122 b || (b =? 95) || (b =? 58) = true).
Proof.
  intros n R. pose proof (name_text_name n R) as H. destruct (name_text n) as [|b t] eqn:E; [discriminate|]. exists b, t. split; auto. eapply is_name_first; eauto.
Qed.

(** *** Tags as text *)
Definition attr_text (a : attr) : bytes := [32] ++ name_text (aname a) ++ [61; 34] ++ escape EAttr (avalue a) ++ [34].
Definition start_text (n : name) (a : list attr) : bytes := [60] ++ name_text n ++ flat_map attr_text a ++ [62].
Definition end_text (n : name) : bytes := [60; 47] ++ name_text n ++ [62].
Definition rawattr (a : attr) : Prop := rawname (aname a) /\ xml_text (avalue a).
Lemma attrs_text : forall a k acc rest, Forall rawattr a -> (length a < k)%nat ->
  attrs_loop k acc (flat_map attr_text a ++ 62 :: rest) = ROk (acc ++ a, false) rest.
Proof.
  induction a as [|x a IH]; intros k acc rest F K; (destruct k as [|k]; [lia|]); cbn [flat_map app].
  - cbn. rewrite app_nil_r. reflexivity.
  - inversion F as [|? ? [R T] F']; subst. unfold attr_text at 1. rewrite <- !app_assoc. cbn [app]. cbn [attrs_loop skip_space].
    change (is_space 32) with true. cbn match. destruct (name_text_head _ R) as (b & t & E & H).
    assert (G : get_nsname (name_text (aname x) ++ 61 :: 34 :: escape EAttr (avalue x) ++ 34 :: flat_map attr_text a ++ 62 :: rest) = inl (aname x, 61 :: 34 :: escape EAttr (avalue x) ++ 34 :: flat_map attr_text a ++ 62 :: rest)) by (apply get_nsname_text; auto).
    rewrite E in G |- *. cbn [app] in G |- *. cbn [skip_space]. replace (is_space b) with false by (unfold is_space, within in *; lia).
    replace (b =? 47) with false by (unfold within in *; lia). replace (b =? 62) with false by (unfold within in *; lia). rewrite G. cbn [skip_space]. change (is_space 61) with false. cbn match.
    change (negb (61 =? 61)) with false. cbn match. cbn [skip_space]. change (is_space 34) with false. cbn match.
    unfold attrval. change ((34 =? 34) || (34 =? 39)) with true. cbn match. rewrite text_escape_quoted by (auto using xml_text_bytes). rewrite clean_id by auto.
    cbn [length] in K. rewrite IH by (auto; lia). rewrite <- app_assoc. destruct x as [nx vx]. reflexivity.
Qed.
Lemma start_reads : forall n a rest, rawname n -> Forall rawattr a -> raw_token (start_text n a ++ rest) = ROk (TStart n a, None) rest.
Proof.
  intros n a rest R F. unfold start_text. rewrite <- !app_assoc. cbn [app]. destruct (name_text_head _ R) as (b & t & E & H).
  assert (S : exists c r, flat_map attr_text a ++ 62 :: rest = c :: r /\ name_byte c = false).
  { destruct a as [|x a]; [exists 62, rest; split; reflexivity|]. cbn. eexists 32, _. split; reflexivity. }
  destruct S as (c & r & S & NB).
  assert (G : get_nsname (name_text n ++ flat_map attr_text a ++ 62 :: rest) = inl (n, flat_map attr_text a ++ 62 :: rest)) by (rewrite S; apply get_nsname_text; auto).
  unfold raw_token. change (negb (60 =? 60)) with false. cbn match. rewrite E in G |- *. cbn [app] in G |- *.
  replace (b =? 47) with false by (unfold within in *; lia). replace (b =? 63) with false by (unfold within in *; lia). replace (b =? 33) with false by (unfold within in *; lia).
  rewrite G, attrs_text; auto. rewrite app_length. cbn [length].
  assert (L : (length a <= length (flat_map attr_text a))%nat). { clear. induction a as [|x a IH]; cbn; [lia|]. rewrite app_length. lia. } lia.
Qed.
Lemma end_reads : forall n rest, rawname n -> raw_token (end_text n ++ rest) = ROk (TEnd n, None) rest.
Proof.
  intros n rest R. unfold end_text. rewrite <- !app_assoc. cbn [app]. unfold raw_token. change (negb (60 =? 60)) with false. cbn match. change (47 =? 47) with true. cbn match.
  rewrite get_nsname_text by auto. reflexivity.
Qed.
