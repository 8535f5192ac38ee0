From Coq Require Import String.
From Coq Require Import ZArith List Bool Lia ZifyBool ZifyNat.
From Verif Require Import Base Utf8 Lexer Printer EncoderSpec NameProofs NsProofs GoType TypeInfo TagSpec.
Import ListNotations.
Open Scope Z_scope.

Lemma cut_here : forall c a b, ~ In c a -> cut c (a ++ c :: b) = Some (a, b).
Proof.
  induction a as [|x a IH]; intros b H; cbn; [rewrite Z.eqb_refl; reflexivity|].
  replace (x =? c) with false by (symmetry; apply Z.eqb_neq; intros ->; apply H; left; reflexivity). rewrite IH; [reflexivity|]. intros X. apply H. right; exact X.
Qed.
Lemma cut_none : forall c a, ~ In c a -> cut c a = None.
Proof.
  induction a as [|x a IH]; intros H; cbn; [reflexivity|].
  replace (x =? c) with false by (symmetry; apply Z.eqb_neq; intros ->; apply H; left; reflexivity). rewrite IH; [reflexivity|]. intros X. apply H. right; exact X.
Qed.
Lemma split_none : forall c a, ~ In c a -> split c a = [a].
Proof.
  induction a as [|x a IH]; intros H; cbn; [reflexivity|].
  replace (x =? c) with false by (symmetry; apply Z.eqb_neq; intros ->; apply H; left; reflexivity). rewrite IH; [reflexivity|]. intros X. apply H. right; exact X.
Qed.
Lemma split_here : forall c a b, ~ In c a -> split c (a ++ c :: b) = a :: split c b.
Proof.
  induction a as [|x a IH]; intros b H; cbn; [rewrite Z.eqb_refl; reflexivity|].
  replace (x =? c) with false by (symmetry; apply Z.eqb_neq; intros ->; apply H; left; reflexivity). rewrite IH; [reflexivity|]. intros X. apply H. right; exact X.
Qed.
Lemma split_path : forall ps n, Forall (fun x => ~ In 62 x) ps -> ~ In 62 n -> split 62 (path_part ps ++ n) = ps ++ [n].
Proof.
  induction ps as [|p ps IH]; intros n H N; cbn; [apply split_none; exact N|]. inversion H; subst. unfold path_part. cbn.
  rewrite <- !app_assoc. cbn. rewrite split_here by assumption. f_equal. apply IH; assumption.
Qed.
Lemma split_flags : forall fs t, ~ In 44 t -> Forall (fun f => ~ In 44 (str f)) fs -> split 44 (t ++ flag_part fs) = t :: map str fs.
Proof.
  induction fs as [|f fs IH]; intros t N H; cbn; [rewrite app_nil_r; apply split_none; exact N|]. inversion H; subst. unfold flag_part. cbn.
  rewrite split_here by assumption. f_equal. apply IH; assumption.
Qed.

Lemma in_path : forall c ps, c <> 62 -> Forall (fun x => ~ In c x) ps -> ~ In c (path_part ps).
Proof.
  intros c ps Hc H X. unfold path_part in X. apply in_concat in X as (y & Hy & X). apply in_map_iff in Hy as (z & <- & Hz). rewrite Forall_forall in H.
  apply in_app_or in X as [X|[X|[]]]; [exact (H z Hz X)|congruence].
Qed.
Lemma in_name : forall c p n, c <> 58 -> ~ In c p -> ~ In c n -> ~ In c (name_part p n).
Proof. intros c p n Hc Hp Hn. unfold name_part. destruct p as [|x p]; [exact Hn|]. intros X. apply in_app_or in X as [X|[X|X]]; [contradiction|congruence|contradiction]. Qed.
Lemma split_name : forall p n, word p -> word n -> n <> [] -> split_prefixed (name_part p n) = (p, n).
Proof.
  intros p n (_ & _ & Hp & _) (_ & _ & Hn & _) N. unfold name_part. destruct p as [|x p]; [apply simple_split; exact Hn|]. apply parts_split. left. split; [reflexivity|]. split; [discriminate|auto].
Qed.
Lemma word_split : forall n, word n -> split_prefixed n = ([], n).
Proof. intros n (_ & _ & H & _). apply simple_split. exact H. Qed.

Section Tag.
Variables (f : fdecl) (ns : bytes) (ps : list bytes) (p n : bytes) (fs : list string).
Hypotheses (Hns : ~ In 32 ns) (Hps : Forall word ps) (Hp : word p) (Hn : word n) (N : n <> []).
Hypothesis (Hf : Forall (fun f => ~ In 44 (str f) /\ ~ In 32 (str f)) fs).
Hypothesis (T : fd_tag f = tag_text ns ps p n fs).
Let body := path_part ps ++ name_part p n.
Lemma body_44 : ~ In 44 body.
Proof.
  intros X. apply in_app_or in X as [X|X].
  - revert X. apply in_path; [lia|]. eapply Forall_impl; [|exact Hps]. intros a A; apply A.
  - revert X. apply in_name; [lia|apply Hp|apply Hn].
Qed.
Lemma body_32 : ~ In 32 body.
Proof.
  intros X. apply in_app_or in X as [X|X].
  - revert X. apply in_path; [lia|]. eapply Forall_impl; [|exact Hps]. intros a A; apply A.
  - revert X. apply in_name; [lia|apply Hp|apply Hn].
Qed.
Lemma flag_32 : ~ In 32 (flag_part fs).
Proof.
  intros X. unfold flag_part in X. apply in_concat in X as (y & Hy & X). apply in_map_iff in Hy as (z & <- & Hz). rewrite Forall_forall in Hf.
  destruct X as [X|X]; [lia|]. exact (proj2 (Hf z Hz) X).
Qed.
Lemma body_ne : beq body [] = false.
Proof. clear - N. apply beq_neq. intros X. apply app_eq_nil in X as (_ & X). unfold name_part in X. destruct p; [contradiction|discriminate]. Qed.
Lemma tag_cut : match cut 32 (fd_tag f) with Some (a, t) => (a, t) | None => ([], fd_tag f) end = (ns, body ++ flag_part fs).
Proof.
  rewrite T. unfold tag_text, space_part. fold body. destruct ns as [|x ns'].
  - cbn [app]. rewrite cut_none; [reflexivity|]. intros X. apply in_app_or in X as [X|X]; [exact (body_32 X)|exact (flag_32 X)].
  - rewrite <- app_assoc. cbn [app]. change (x :: ns' ++ 32 :: body ++ flag_part fs) with ((x :: ns') ++ 32 :: body ++ flag_part fs). rewrite cut_here by exact Hns. reflexivity.
Qed.
Lemma tag_split : split 44 (body ++ flag_part fs) = body :: map str fs.
Proof. apply split_flags; [exact body_44|]. eapply Forall_impl; [|exact Hf]. intros a A; apply A. Qed.
Lemma last_name : last (ps ++ [name_part p n]) [] = name_part p n.
Proof. apply last_last. Qed.
Lemma body_split : split 62 body = ps ++ [name_part p n].
Proof.
  apply split_path.
  - eapply Forall_impl; [|exact Hps]. intros a A; apply A.
  - apply in_name; [lia|apply Hp|apply Hn].
Qed.
Lemma parents_map : map (fun x => snd (split_prefixed x)) (ps ++ [name_part p n]) = ps ++ [n].
Proof.
  rewrite map_app. cbn. rewrite (split_name p n Hp Hn N). f_equal. clear - Hps. induction Hps as [|x l A B IH]; [reflexivity|]. cbn. rewrite (word_split _ A). cbn. f_equal. exact (IH B).
Qed.
End Tag.

Lemma parse_tag_attr : forall f ns p n omit, ~ In 32 ns -> word p -> word n -> n <> [] -> fd_name f <> str "XMLName" ->
  fd_tag f = tag_text ns [] p n ("attr"%string :: omit_flag omit) -> parse_tag f = Ok (ns, name_part p n, attr_flags omit).
Proof.
  intros f ns p n omit H1 H2 H3 H4 H5 T. unfold parse_tag.
  assert (HF : Forall (fun f => ~ In 44 (str f) /\ ~ In 32 (str f)) ("attr"%string :: omit_flag omit)).
  { destruct omit; repeat constructor; cbn; intuition lia. }
  rewrite (tag_cut f ns [] p n _ H1 (Forall_nil _) H2 H3 HF T).
  rewrite (tag_split [] p n _ (Forall_nil _) H2 H3 HF).
  cbn [path_part map concat app].
  pose proof (body_ne [] p n H4) as BN. cbn [path_part map concat app] in BN.
  change (map str ("attr"%string :: omit_flag omit)) with (str "attr" :: map str (omit_flag omit)). cbn iota.
  replace (fold_left add_flag (str "attr" :: map str (omit_flag omit)) no_flags) with (attr_flags omit) by (destruct omit; reflexivity).
  change (mode_eqb (attr_flags omit) no_flags) with false. change (mode_eqb (attr_flags omit) m_attr) with true. change (mode_eqb (attr_flags omit) m_any) with false.
  cbn [orb negb andb]. replace (beq (fd_name f) xml_name) with false by (symmetry; apply beq_neq; exact H5). rewrite BN. cbn [orb negb andb attr_flags g_omit g_element g_attr].
  rewrite andb_false_r. cbn [negb andb bind]. rewrite BN, andb_false_r. reflexivity.
Qed.
Lemma parse_tag_element : forall f ns ps p n omit, ~ In 32 ns -> Forall word ps -> word p -> word n -> n <> [] ->
  fd_tag f = tag_text ns ps p n (omit_flag omit) -> parse_tag f = Ok (ns, path_part ps ++ name_part p n, element_flags omit).
Proof.
  intros f ns ps p n omit H1 H0 H2 H3 H4 T. unfold parse_tag.
  assert (HF : Forall (fun f => ~ In 44 (str f) /\ ~ In 32 (str f)) (omit_flag omit)).
  { destruct omit; repeat constructor; cbn; intuition lia. }
  rewrite (tag_cut f ns ps p n _ H1 H0 H2 H3 HF T).
  rewrite (tag_split ps p n _ H0 H2 H3 HF).
  pose proof (body_ne ps p n H4) as BN.
  destruct omit; cbn [omit_flag map] in *.
  - replace (fold_left add_flag [str "omitempty"] no_flags) with (mkff false false false false false false false true) by reflexivity.
    match goal with |- context [bind ?x _] => replace x with (Ok (E := terr) (path_part ps ++ name_part p n, element_flags true)) by reflexivity end.
    cbn [bind]. rewrite BN, andb_false_r. reflexivity.
  - cbn [flag_part map concat]. rewrite app_nil_r. cbn [bind]. rewrite BN, andb_false_r. reflexivity.
Qed.
Lemma path_field : forall env i f ns ps p n g, Forall word ps -> Forall (fun x => x <> []) ps -> word p -> word n -> n <> [] -> fd_name f <> str "XMLName" ->
  parse_tag f = Ok (ns, path_part ps ++ name_part p n, g) -> ps = [] \/ g_element g = true ->
  struct_field_info env i f = match (if g_element g then lookup_xmlname env (fd_type f) else None) with
                              | Some x => if beq (fi_name x) n then Ok (mkfi [i] p n ns g ps) else Err (NameConflict (fd_name f))
                              | None => Ok (mkfi [i] p n ns g ps)
                              end.
Proof.
  intros env i f ns ps p n g H0 He H1 H2 H3 H4 P HG. unfold struct_field_info.
  replace (beq (fd_name f) xml_name) with false by (symmetry; apply beq_neq; exact H4). rewrite P. cbn [bind]. rewrite (body_ne ps p n H3).
  rewrite (body_split ps p n H0 H1 H2).
  replace (match ps ++ [name_part p n] with [] :: r => fd_name f :: r | q => q end) with (ps ++ [name_part p n]).
  2:{ destruct ps as [|[|y z] ps]; cbn; [|inversion He; congruence|reflexivity]. destruct (name_part p n) eqn:E; [|reflexivity]. unfold name_part in E. destruct p; [contradiction|discriminate]. }
  rewrite last_last. replace (beq (name_part p n) []) with false.
  2:{ symmetry. apply beq_neq. intros E. unfold name_part in E. destruct p; [contradiction|discriminate]. }
  rewrite (split_name p n H1 H2 H3), (parents_map ps p n H0 H1 H2 H3), removelast_last.
  replace ((1 <? length (ps ++ [n]))%nat && negb (g_element g)) with false; [reflexivity|].
  symmetry. destruct HG as [->| ->]; [reflexivity|]. cbn. apply andb_false_r.
Qed.
