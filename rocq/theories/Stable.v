(** Values with the same content are written alike. *)
From Coq Require Import String.
From Coq Require Import ZArith List Bool Lia SpecFloat.
From Verif Require Import Base Utf8 Lexer Printer GoType TypeInfo Simple Marshal MarshalProofs Plan Io RoundTripSpec RoundTripCheck RoundTripParts.
Import ListNotations.
Open Scope Z_scope.

Section Stable.
Variables (F : floats) (env : tenv) (ek : nat).

(** The lists of captured attributes in a value, one for each element that has a place for them, in document order. *)
Fixpoint captures (t : gtype) (v : gval) {struct v} : list (list gval) :=
  match v with
  | VPtr w => match t with TPtr t => captures t w | _ => [] end
  | VList l => match t with TSlice TAttr => [l] | TSlice t => (fix go (l : list gval) : list (list gval) := match l with [] => [] | w :: l => captures t w ++ go l end) l | _ => [] end
  | VRec l =>
      match t with
      | TStruct s => (fix go (fs : list fdecl) (l : list gval) {struct l} : list (list gval) := match fs, l with f :: fs, w :: l => (if skipped f then [] else captures (fd_type f) w) ++ go fs l | _, _ => [] end) (fields_of env s) l
      | _ => []
      end
  | _ => []
  end.
(** The same content, with the same captured attributes. *)
Inductive twin : gtype -> gval -> gval -> Prop :=
| Tw_ptr t w w' : twin t w w' -> twin (TPtr t) (VPtr w) (VPtr w')
| Tw_attrs l : twin (TSlice TAttr) (VList l) (VList l)
| Tw_list t l l' : t <> TAttr -> Forall2 (twin t) l l' -> twin (TSlice t) (VList l) (VList l')
| Tw_rec s l l' : length l = length (fields_of env s) -> length l' = length (fields_of env s) ->
    (forall x f w w', nth_error (fields_of env s) x = Some f -> nth_error l x = Some w -> nth_error l' x = Some w' -> skipped f = true \/ twin (fd_type f) w w') -> twin (TStruct s) (VRec l) (VRec l')
| Tw_leaf t v : (match v with VPtr _ | VList _ | VRec _ => False | _ => True end) -> twin t v v.
Lemma app_split : forall {A} (a b c d : list A), length a = length b -> a ++ c = b ++ d -> a = b /\ c = d.
Proof. induction a as [|x a IH]; intros [|y b] c d L E; try discriminate; cbn in *; auto. injection E as -> E. destruct (IH b c d) as [-> ->]; auto. Qed.
(** The same places, and with the same attributes in them the values are twins. *)
Lemma same_twin : forall v t v', same env t v v' -> length (captures t v) = length (captures t v') /\ (captures t v = captures t v' -> twin t v v').
Proof.
  fix IH 1. intros v t v' S. destruct v as [x|b|z|f| |w|l|l|n|a]; try (cbn [same] in S; subst v'; split; [reflexivity|]; intros _; apply Tw_leaf; exact I).
  - cbn [same] in S. destruct t; try contradiction. destruct v'; try contradiction. cbn [captures]. destruct (IH w t v' S) as [A B]. split; auto. intro E. constructor. auto.
  - cbn [same] in S. destruct t as [| | | | | | | |t| | |]; try contradiction. destruct v' as [| | | | | |l'| | |]; try (destruct t; contradiction).
    assert (A : t = TAttr \/ t <> TAttr) by (destruct t; auto; right; discriminate). destruct A as [->|A]; [split; [reflexivity|]; cbn [captures]; intro E; injection E as ->; constructor|].
    assert (S' : (fix go (l l' : list gval) {struct l} : Prop := match l, l' with [], [] => True | w :: l, w' :: l' => same env t w w' /\ go l l' | _, _ => False end) l l') by (destruct t; try exact S; congruence). clear S.
    assert (C : forall l, captures (TSlice t) (VList l) = (fix go (l : list gval) : list (list gval) := match l with [] => [] | w :: l => captures t w ++ go l end) l) by (destruct t; try reflexivity; congruence). rewrite !C. clear C.
    assert (G : length ((fix go (l : list gval) : list (list gval) := match l with [] => [] | w :: l => captures t w ++ go l end) l) = length ((fix go (l : list gval) : list (list gval) := match l with [] => [] | w :: l => captures t w ++ go l end) l') /\
      ((fix go (l : list gval) : list (list gval) := match l with [] => [] | w :: l => captures t w ++ go l end) l = (fix go (l : list gval) : list (list gval) := match l with [] => [] | w :: l => captures t w ++ go l end) l' -> Forall2 (twin t) l l')).
    { revert l' S'. induction l as [|w l IHl]; intros [|w' l'] S'; try contradiction; [split; [reflexivity|constructor]|]. destruct S' as [S1 S2]. destruct (IH w t w' S1) as [L1 T1]. destruct (IHl l' S2) as [L2 T2]. rewrite !app_length, L1, L2. split; [reflexivity|].
      intro E. apply app_split in E; auto. destruct E as [E1 E2]. constructor; auto. }
    destruct G as [G1 G2]. split; auto. intro E. apply Tw_list; auto.
  - cbn [same] in S. destruct t as [| | | | | | | | |s| |]; try contradiction. destruct v' as [| | | | | | |l'| |]; try contradiction. pose proof (proj1 (same_fields env ek l _ l') S) as (L1 & L2 & _). cbn [captures].
    assert (G : forall fs, (fix go (fs : list fdecl) (l l' : list gval) {struct l} : Prop :=
             match fs, l, l' with
             | [], [], [] => True
             | f :: fs, w :: l, w' :: l' => (skipped f = true \/ same env (fd_type f) w w') /\ go fs l l'
             | _, _, _ => False
             end) fs l l' ->
       let go := (fix go (fs : list fdecl) (l : list gval) {struct l} : list (list gval) := match fs, l with f :: fs, w :: l => (if skipped f then [] else captures (fd_type f) w) ++ go fs l | _, _ => [] end) in
       length (go fs l) = length (go fs l') /\ (go fs l = go fs l' -> forall x f w w', nth_error fs x = Some f -> nth_error l x = Some w -> nth_error l' x = Some w' -> skipped f = true \/ twin (fd_type f) w w')).
    { clear S L1 L2. revert l'. induction l as [|w l IHl]; intros [|w' l'] [|f fs] S; try contradiction; cbv zeta.
      - split; [reflexivity|]. intros _ [|x]; discriminate.
      - destruct S as [S1 S2]. destruct (IHl l' fs S2) as [L2 T2].
        assert (H : length (if skipped f then [] else captures (fd_type f) w) = length (if skipped f then [] else captures (fd_type f) w') /\ ((if skipped f then [] else captures (fd_type f) w) = (if skipped f then [] else captures (fd_type f) w') -> skipped f = true \/ twin (fd_type f) w w')).
        { destruct (skipped f); [split; auto|]. destruct S1 as [S1|S1]; [discriminate|]. destruct (IH w (fd_type f) w' S1) as [L1 T1]. split; auto. }
        destruct H as [L1 T1]. rewrite !app_length, L1, L2. split; [reflexivity|]. intro E. apply app_split in E; auto. destruct E as [E1 E2]. intros [|x] g u u' N M M'; cbn in N, M, M'.
        + injection N as <-. injection M as <-. injection M' as <-. auto.
        + eapply T2; eauto. }
    destruct (G _ S) as [G1 G2]. split; [exact G1|]. intro E. apply Tw_rec; [exact L1|exact L2|exact (G2 E)].
Qed.

Lemma twin_empty : forall t v v', twin t v v' -> is_empty v = is_empty v'.
Proof. intros t v v' H. destruct H as [| |t l l' _ H| |]; auto. destruct H; reflexivity. Qed.
Lemma twin_drill : forall t v v' ad, twin t v v' ->
  match drill t v ad, drill t v' ad with
  | None, None => True
  | Some (t1, w, a), Some (t2, w', a') => t1 = t2 /\ a = a' /\ twin t1 w w' /\ height w = height v /\ height w' = height v'
  | _, _ => False
  end.
Proof.
  induction t; intros v v' ad H; cbn [drill]; auto. inversion H; subst; cbn [drill height].
  - apply IHt; auto.
  - destruct v'; auto. contradiction.
Qed.
Lemma path_field : forall E idx s v v' ad, twin (TStruct s) v v' -> path_ok env s idx = true ->
  match @field_at E env s idx v ad, @field_at E env s idx v' ad with
  | Ok None, Ok None => True
  | Ok (Some (t, w, a)), Ok (Some (t', w', a')) => t = t' /\ a = a' /\ twin t w w' /\ (height w < height v)%nat /\ (height w' < height v')%nat
  | Panic, Panic => True
  | _, _ => False
  end.
Proof.
  intros E. induction idx as [|x rest IH]; intros s v v' ad T P; [discriminate|]. cbn [path_ok] in P. destruct (nth_error (fields_of env s) x) as [f|] eqn:N; [|discriminate]. apply andb_true_iff in P. destruct P as [SK P]. apply negb_true_iff in SK.
  inversion T as [| | |? l l' L1 L2 FA|? ? LF]; subst. 2: { destruct v'; try contradiction; exact I. }
  cbn [field_at]. rewrite N. destruct (nth_error l x) as [w|] eqn:M; [|exfalso; apply nth_error_None in M; assert (nth_error (fields_of env s) x <> None) by congruence; apply nth_error_Some in H; lia].
  destruct (nth_error l' x) as [w'|] eqn:M'; [|exfalso; apply nth_error_None in M'; assert (nth_error (fields_of env s) x <> None) by congruence; apply nth_error_Some in H; lia].
  destruct (FA x f w w' N M M') as [X|X]; [congruence|]. apply nth_error_In in M, M'. pose proof (height_field _ _ M) as H1. pose proof (height_field _ _ M') as H2.
  destruct rest as [|y rest]; [repeat split; auto|]. destruct (fd_type f) as [| | | | | | |t'| |s'| |]; try discriminate.
  - destruct t' as [| | | | | | | | |s'| |]; try discriminate. apply andb_true_iff in P. destruct P as [_ P]. inversion X as [? u u' XU| | | |? ? LF]; subst.
    + specialize (IH s' u u' true XU P). change (height (VPtr u)) with (height u) in H1. change (height (VPtr u')) with (height u') in H2. destruct (@field_at E env s' (y :: rest) u true) as [[[[t1 w1] a1]|]| | |], (@field_at E env s' (y :: rest) u' true) as [[[[t2 w2] a2]|]| | |]; try contradiction; auto. destruct IH as (-> & -> & IH & H3 & H4). repeat split; auto; lia.
    + destruct w'; try contradiction; exact I.
  - apply andb_true_iff in P. destruct P as [_ P]. specialize (IH s' w w' ad X P). destruct (@field_at E env s' (y :: rest) w ad) as [[[[t1 w1] a1]|]| | |], (@field_at E env s' (y :: rest) w' ad) as [[[[t2 w2] a2]|]| | |]; try contradiction; auto. destruct IH as (-> & -> & IH & H3 & H4). repeat split; auto; lia.
Qed.

(** *** Attributes and texts *)
Lemma twin_simple : forall t v v', twin t v v' -> simple_text F t v = simple_text F t v' /\ method_text F t v = method_text F t v' /\
  (match t, v with TAttr, VAttr a => Some a | _, _ => None end) = (match t, v' with TAttr, VAttr a => Some a | _, _ => None end).
Proof. intros t v v' H. destruct H; auto. Qed.
Lemma twin_each : forall (g : gval -> outcome eerr (list attr)) l l', Forall2 (fun w w' => g w = g w') l l' -> each g l = each g l'.
Proof. induction 1 as [|w w' l l' H _ IH]; [reflexivity|]. cbn [each]. rewrite H, IH. reflexivity. Qed.
Lemma twin_attr : forall t v v', twin t v v' -> forall nm ad, marshal_attr F nm ad t v = marshal_attr F nm ad t v'.
Proof.
  fix IH 1. intros t v v' T nm ad.
  assert (SL : forall t0 l l', t0 = TAttr \/ t0 <> TAttr -> twin (TSlice t0) (VList l) (VList l') -> (forall v v', twin t0 v v' -> marshal_attr F nm true t0 v = marshal_attr F nm true t0 v') -> each (marshal_attr F nm true t0) l = each (marshal_attr F nm true t0) l').
  { intros t0 l l' _ H G. inversion H as [| |? ? ? _ FA| |? ? LF]; subst; [reflexivity| |contradiction]. apply twin_each. clear - FA G. induction FA; constructor; auto. }
  assert (DEC : forall t0, t0 = TAttr \/ t0 <> TAttr) by (intros []; auto; right; discriminate).
  destruct t as [| |z|z|z| | |t0|t0|s| |]; cbn [marshal_attr].
  1-7,10-12: (destruct (twin_simple _ _ _ T) as (E1 & E2 & E3); cbn [has_method andb]; inversion T; subst; reflexivity).
  - inversion T as [? w w' TW| | | |? ? LF]; subst; [|reflexivity]. destruct (twin_simple _ _ _ TW) as (E1 & E2 & E3). destruct (has_method t0); [rewrite E2; reflexivity|].
    destruct t0 as [| |z|z|z| | |t1|t1|s| |]; try (rewrite E1; reflexivity).
    + inversion TW as [| l|? l l' N FA| |? ? LF]; subst; [reflexivity| |destruct w'; try contradiction; reflexivity]. apply SL; auto.
    + destruct w, w'; cbn in *; try congruence; reflexivity.
  - inversion T as [| l|? l l' N FA| |? ? LF]; subst; [reflexivity| |destruct v'; try contradiction; reflexivity]. apply SL; auto.
Qed.
Lemma twin_text : forall t v v', twin t v v' -> chardata_text F t v = chardata_text F t v'.
Proof.
  intros t v v' H. unfold chardata_text. pose proof (twin_drill t v v' true H) as D. destruct (drill t v true) as [[[t1 w] a]|], (drill t v' true) as [[[t2 w'] a']|]; try contradiction; auto. destruct D as (-> & _ & T & _). destruct (twin_simple _ _ _ T) as (-> & _). reflexivity.
Qed.
Hypothesis SEEN : forall s ti, type_info ek env s = Ok ti -> forallb (path_ok env s) (compared ti) = true.
Lemma seen_field : forall s ti f, type_info ek env s = Ok ti -> In f (ti_fields ti) -> path_ok env s (fi_idx f) = true.
Proof. intros s ti f T I. specialize (SEEN s ti T). rewrite forallb_forall in SEEN. apply SEEN. unfold compared. apply in_map. destruct (dynamic ti); [right|]; exact I. Qed.
Lemma twin_attrs : forall s v v', twin (TStruct s) v v' -> forall fs, (forall f, In f fs -> path_ok env s (fi_idx f) = true) -> marshal_attrs F env s fs v true = marshal_attrs F env s fs v' true.
Proof.
  intros s v v' T fs. induction fs as [|f fs IH]; intros H; [reflexivity|]. cbn [marshal_attrs]. rewrite IH by (intros; apply H; right; auto). destruct (negb (g_attr (fi_flags f))); [reflexivity|].
  pose proof (path_field eerr (fi_idx f) s v v' true T (H f (or_introl eq_refl))) as P. destruct (field_at env s (fi_idx f) v true) as [[[[t w] a]|]| | |], (field_at env s (fi_idx f) v' true) as [[[[t' w'] a']|]| | |]; try contradiction; try reflexivity.
  destruct P as (<- & <- & TW & _). cbn [bind]. rewrite (twin_empty _ _ _ TW), (twin_attr _ _ _ TW). reflexivity.
Qed.
Lemma twin_name : forall s ti v v' fi, type_info ek env s = Ok ti -> twin (TStruct s) v v' -> start_name env ti (TStruct s) v true fi None = start_name env ti (TStruct s) v' true fi None.
Proof.
  intros s ti v v' fi TI T. unfold start_name. destruct (ti_xmlname ti) as [x|] eqn:X; [|reflexivity]. destruct (beq (fi_name x) []) eqn:B; cbn [negb]; [|reflexivity].
  assert (P : path_ok env s (fi_idx x) = true). { specialize (SEEN s ti TI). unfold compared, dynamic in SEEN. rewrite X, B in SEEN. cbn [map forallb] in SEEN. apply andb_true_iff in SEEN. tauto. }
  pose proof (path_field eerr (fi_idx x) s v v' true T P) as PF. destruct (field_at env s (fi_idx x) v true) as [[[[t w] a]|]| | |], (field_at env s (fi_idx x) v' true) as [[[[t' w'] a']|]| | |]; try contradiction; try reflexivity.
  destruct PF as (<- & <- & TW & _). inversion TW; subst; reflexivity.
Qed.
Lemma height_pos : forall v, (1 <= height v)%nat.
Proof. induction v; cbn [height]; lia. Qed.
(** The plans are the same. *)
Lemma plan_twin : forall k t v v' fi ps k', twin t v v' -> plan_value F env ek k t v fi = Ok ps -> (height v' <= k')%nat -> plan_value F env ek k' t v' fi = Ok ps.
Proof.
  induction k as [|k IH]; intros t v v' fi ps k' T E H; [discriminate|]. destruct k' as [|k']; [pose proof (height_pos v'); lia|].
  cbn [plan_value] in *. rewrite <- (twin_empty _ _ _ T). destruct (match fi with Some f => g_omit (fi_flags f) && is_empty v | None => false end); [exact E|].
  pose proof (twin_drill t v v' true T) as D. destruct (drill t v true) as [[[t1 w] a]|], (drill t v' true) as [[[t2 w'] a']|]; try contradiction; [|exact E]. destruct D as (<- & <- & TW & _ & H2). rewrite <- H2 in H. clear t v v' T H2 a.
  destruct t1 as [| |z|z|z| | |t0|t0|s| |]; try exact E.
  1-7: (destruct (twin_simple _ _ _ TW) as (<- & _); unfold start_name in *; exact E).
  - inversion TW as [| l|? l l' N FA| |? ? LF]; subst; [|clear N|destruct w'; try contradiction; exact E].
    + destruct l as [|x l]; [exact E|]. destruct k; [discriminate|]. destruct k'; [exfalso; cbn [height map fold_right] in H; pose proof (height_pos x); lia|]. exact E.
    + cbn [height] in H. revert ps E. clear TW. induction FA as [|x x' l l' X FA IHl]; intros ps E; cbn [gather] in *; [exact E|]. cbn [map fold_right] in H.
      destruct (plan_value F env ek k t0 x fi) as [p| | |] eqn:P; try discriminate. rewrite (IH _ _ _ _ _ k' X P) by lia. cbn [bind] in *. destruct (gather (fun w => plan_value F env ek k t0 w fi) l) as [q| | |] eqn:Q; try discriminate. rewrite (IHl ltac:(lia) q eq_refl). exact E.
  - destruct (type_info ek env s) as [ti| | |] eqn:TI; try discriminate. rewrite <- (twin_name s ti w w' fi TI TW). destruct (start_name env ti (TStruct s) w true fi None) as [n| | |]; try discriminate. cbn [bind] in *. destruct (bare ti n); [discriminate|].
    rewrite <- (twin_attrs s w w' TW (ti_fields ti)) by (intros; eapply seen_field; eauto). destruct (marshal_attrs F env s (ti_fields ti) w true) as [at0| | |]; try discriminate. cbn [bind] in *.
    assert (PF : forall fs ps, (forall f, In f fs -> path_ok env s (fi_idx f) = true) -> plan_fields F env (fun t w f => plan_value F env ek k t w (Some f)) s fs w = Ok ps -> plan_fields F env (fun t w f => plan_value F env ek k' t w (Some f)) s fs w' = Ok ps).
    { clear E ps. induction fs as [|f fs IHf]; intros ps HP E; cbn [plan_fields] in *; [exact E|]. destruct (g_attr (fi_flags f)); [apply IHf; auto; intros; apply HP; right; auto|].
      pose proof (path_field eerr (fi_idx f) s w w' true TW (HP f (or_introl eq_refl))) as P. destruct (field_at env s (fi_idx f) w true) as [[[[t1 u] a]|]| | |], (field_at env s (fi_idx f) w' true) as [[[[t2 u'] a']|]| | |]; try contradiction; try discriminate; cbn [bind] in *.
      2: { apply IHf; auto. intros; apply HP; right; auto. }
      destruct P as (<- & <- & TU & _ & HU). destruct (fi_parents f); [|discriminate]. rewrite <- (twin_text _ _ _ TU). destruct (mode_eqb (fi_flags f) m_chardata).
      - cbn [bind] in *. destruct (plan_fields F env (fun t w f => plan_value F env ek k t w (Some f)) s fs w) as [q| | |] eqn:Q; try discriminate. rewrite (IHf q) by (auto; intros; apply HP; right; auto). exact E.
      - destruct (mode_eqb (fi_flags f) m_element); [|discriminate]. destruct (plan_value F env ek k t1 u (Some f)) as [p| | |] eqn:PV; try discriminate. rewrite (IH _ _ _ _ _ k' TU PV) by lia. cbn [bind] in *.
        destruct (plan_fields F env (fun t w f => plan_value F env ek k t w (Some f)) s fs w) as [q| | |] eqn:Q; try discriminate. rewrite (IHf q) by (auto; intros; apply HP; right; auto). exact E. }
    destruct (plan_fields F env (fun t w f => plan_value F env ek k t w (Some f)) s (ti_fields ti) w) as [c| | |] eqn:PL; try discriminate. rewrite (PF _ _ ltac:(intros; eapply seen_field; eauto) PL). exact E.
Qed.
End Stable.
