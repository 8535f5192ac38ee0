(** Values that differ in their durations, but not in the texts of these, are written alike. *)
From Coq Require Import String.
From Coq Require Import ZArith List Bool Lia SpecFloat.
From Verif Require Import Base Utf8 Lexer Duration Printer GoType TypeInfo Simple ValueSpec Marshal MarshalProofs Plan Io RoundTripSpec RoundTripCheck RoundTripParts RoundTripExact Stable Settled ReadText.
Import ListNotations.
Open Scope Z_scope.

Section Rounded.
Variables (F : floats) (env : tenv) (ek : nat).

(** A value with each of its durations [d] replaced by [g d]; in package mpd every duration is behind a pointer. *)
Fixpoint retime (g : Z -> Z) (t : gtype) (v : gval) {struct v} : gval :=
  match v with
  | VPtr w => match t with TPtr TDuration => match w with VInt d => VPtr (VInt (g d)) | _ => v end | TPtr t => VPtr (retime g t w) | _ => v end
  | VList l => match t with TSlice t => VList (map (retime g t) l) | _ => v end
  | VRec l =>
      match t with
      | TStruct s => VRec ((fix go (fs : list fdecl) (l : list gval) {struct l} : list gval := match fs, l with f :: fs, w :: l => retime g (fd_type f) w :: go fs l | _, _ => l end) (fields_of env s) l)
      | _ => v
      end
  | _ => v
  end.
(** The durations of a value. *)
Fixpoint times (t : gtype) (v : gval) {struct v} : list Z :=
  match v with
  | VPtr w => match t with TPtr TDuration => match w with VInt d => [d] | _ => [] end | TPtr t => times t w | _ => [] end
  | VList l => match t with TSlice t => concat (map (times t) l) | _ => [] end
  | VRec l =>
      match t with
      | TStruct s => (fix go (fs : list fdecl) (l : list gval) {struct l} : list Z := match fs, l with f :: fs, w :: l => times (fd_type f) w ++ go fs l | _, _ => [] end) (fields_of env s) l
      | _ => []
      end
  | _ => []
  end.

(** *** Values with the same texts *)
Inductive near : gtype -> gval -> gval -> Prop :=
| Ne_time d d' : method_text F TDuration (VInt d) = method_text F TDuration (VInt d') -> near (TPtr TDuration) (VPtr (VInt d)) (VPtr (VInt d'))
| Ne_ptr t w w' : near t w w' -> near (TPtr t) (VPtr w) (VPtr w')
| Ne_list t l l' : Forall2 (near t) l l' -> near (TSlice t) (VList l) (VList l')
| Ne_rec s l l' : length l = length (fields_of env s) -> length l' = length (fields_of env s) ->
    (forall x f w w', nth_error (fields_of env s) x = Some f -> nth_error l x = Some w -> nth_error l' x = Some w' -> near (fd_type f) w w') -> near (TStruct s) (VRec l) (VRec l')
| Ne_leaf t v : (match v with VPtr _ | VList _ | VRec _ => False | _ => True end) -> near t v v.

Definition timed (t : gtype) : bool := match item t with TDuration => true | _ => false end.
Lemma near_empty : forall t v v', near t v v' -> is_empty v = is_empty v'.
Proof. intros t v v' H. destruct H as [| |t l l' H| |]; auto. destruct H; reflexivity. Qed.
Lemma near_drill : forall t v v' ad, near t v v' -> timed t = false ->
  match drill t v ad, drill t v' ad with
  | None, None => True
  | Some (t1, w, a), Some (t2, w', a') => t1 = t2 /\ a = a' /\ near t1 w w' /\ timed t1 = false /\ height w = height v /\ height w' = height v'
  | _, _ => False
  end.
Proof.
  induction t; intros v v' ad H N; cbn [drill]; try (split; [reflexivity|]; split; [reflexivity|]; auto; fail). inversion H; subst; cbn [drill height].
  - vm_compute in N. discriminate N.
  - apply IHt; auto.
  - destruct v'; auto. contradiction.
Qed.
Lemma near_field : forall E idx s v v' ad, near (TStruct s) v v' -> path_ok env s idx = true ->
  match @field_at E env s idx v ad, @field_at E env s idx v' ad with
  | Ok None, Ok None => True
  | Ok (Some (t, w, a)), Ok (Some (t', w', a')) => t = t' /\ a = a' /\ near t w w' /\ (height w < height v)%nat /\ (height w' < height v')%nat /\ option_map fd_type (decl_at env s idx) = Some t
  | Panic, Panic => True
  | _, _ => False
  end.
Proof.
  intros E. induction idx as [|x rest IH]; intros s v v' ad T P; [discriminate|]. cbn [path_ok] in P. destruct (nth_error (fields_of env s) x) as [f|] eqn:N; [|discriminate]. apply andb_true_iff in P. destruct P as [SK P]. clear SK.
  inversion T as [| | |? l l' L1 L2 FA|? ? LF]; subst. 2: { destruct v'; try contradiction; exact I. }
  cbn [field_at decl_at]. rewrite N. destruct (nth_error l x) as [w|] eqn:M; [|exfalso; apply nth_error_None in M; assert (nth_error (fields_of env s) x <> None) by congruence; apply nth_error_Some in H; lia].
  destruct (nth_error l' x) as [w'|] eqn:M'; [|exfalso; apply nth_error_None in M'; assert (nth_error (fields_of env s) x <> None) by congruence; apply nth_error_Some in H; lia].
  pose proof (FA x f w w' N M M') as X. apply nth_error_In in M, M'. pose proof (height_field _ _ M) as H1. pose proof (height_field _ _ M') as H2.
  destruct rest as [|y rest]; [repeat split; auto|]. destruct (fd_type f) as [| | | | | | |t'| |s'| |]; try discriminate.
  - destruct t' as [| | | | | | | | |s'| |]; try discriminate. apply andb_true_iff in P. destruct P as [_ P]. inversion X as [|? u u' XU| | |? ? LF]; subst.
    + specialize (IH s' u u' true XU P). change (height (VPtr u)) with (height u) in H1. change (height (VPtr u')) with (height u') in H2. destruct (@field_at E env s' (y :: rest) u true) as [[[[t1 w1] a1]|]| | |], (@field_at E env s' (y :: rest) u' true) as [[[[t2 w2] a2]|]| | |]; try contradiction; auto. destruct IH as (-> & -> & IH & H3 & H4 & H5). repeat split; auto; lia.
    + destruct w'; try contradiction; exact I.
  - apply andb_true_iff in P. destruct P as [_ P]. specialize (IH s' w w' ad X P). destruct (@field_at E env s' (y :: rest) w ad) as [[[[t1 w1] a1]|]| | |], (@field_at E env s' (y :: rest) w' ad) as [[[[t2 w2] a2]|]| | |]; try contradiction; auto. destruct IH as (-> & -> & IH & H3 & H4 & H5). repeat split; auto; lia.
Qed.

Lemma near_simple : forall t v v', near t v v' -> simple_text F t v = simple_text F t v' /\
  (match t, v with TAttr, VAttr a => Some a | _, _ => None end) = (match t, v' with TAttr, VAttr a => Some a | _, _ => None end).
Proof. intros t v v' H. destruct H; auto. Qed.
Lemma near_method : forall t v v', near t v v' -> has_method t = true -> method_text F t v = method_text F t v'.
Proof. intros t v v' H M. destruct H; try discriminate. reflexivity. Qed.
Lemma near_attr : forall t v v', near t v v' -> forall nm ad, marshal_attr F nm ad t v = marshal_attr F nm ad t v'.
Proof.
  fix IH 1. intros t v v' T nm ad.
  assert (SL : forall t0 l l', Forall2 (near t0) l l' -> (forall v v', near t0 v v' -> marshal_attr F nm true t0 v = marshal_attr F nm true t0 v') -> each (marshal_attr F nm true t0) l = each (marshal_attr F nm true t0) l').
  { intros t0 l l' FA G. apply twin_each. clear - FA G. induction FA; constructor; auto. }
  destruct t as [| |z|z|z| | |t0|t0|s| |]; cbn [marshal_attr].
  1-7,10-12: (cbn [has_method andb]; inversion T; subst; reflexivity).
  - inversion T as [d d' EQ|? w w' TW| | |? ? LF]; subst; [cbn [has_method]; rewrite EQ; reflexivity| |reflexivity]. destruct (near_simple _ _ _ TW) as (E1 & E3). destruct (has_method t0) eqn:HM; [rewrite (near_method _ _ _ TW HM); reflexivity|].
    destruct t0 as [| |z|z|z| | |t1|t1|s| |]; try (rewrite E1; reflexivity).
    + inversion TW as [| |? l l' FA| |? ? LF]; subst; [|destruct w'; try contradiction; reflexivity]. apply SL; auto.
    + destruct w, w'; cbn in *; try congruence; reflexivity.
  - inversion T as [| |? l l' FA| |? ? LF]; subst; [|destruct v'; try contradiction; reflexivity]. apply SL; auto.
Qed.
Lemma near_text : forall t v v', near t v v' -> timed t = false -> chardata_text F t v = chardata_text F t v'.
Proof.
  intros t v v' H N. unfold chardata_text. pose proof (near_drill t v v' true H N) as D. destruct (drill t v true) as [[[t1 w] a]|], (drill t v' true) as [[[t2 w'] a']|]; try contradiction; auto. destruct D as (-> & _ & T & _). destruct (near_simple _ _ _ T) as (-> & _). reflexivity.
Qed.

(** Paths lead to fields, and durations are attributes. *)
Hypothesis SEEN : forall s ti, type_info ek env s = Ok ti -> forallb (path_ok env s) (compared ti) = true.
Hypothesis ATTRS : forall s ti f, type_info ek env s = Ok ti -> In f (ti_fields ti) -> g_attr (fi_flags f) = false -> forall fd, decl_at env s (fi_idx f) = Some fd -> timed (fd_type fd) = false.
Lemma near_attrs : forall s v v', near (TStruct s) v v' -> forall fs, (forall f, In f fs -> path_ok env s (fi_idx f) = true) -> marshal_attrs F env s fs v true = marshal_attrs F env s fs v' true.
Proof.
  intros s v v' T fs. induction fs as [|f fs IH]; intros H; [reflexivity|]. cbn [marshal_attrs]. rewrite IH by (intros; apply H; right; auto). destruct (negb (g_attr (fi_flags f))); [reflexivity|].
  pose proof (near_field eerr (fi_idx f) s v v' true T (H f (or_introl eq_refl))) as P. destruct (field_at env s (fi_idx f) v true) as [[[[t w] a]|]| | |], (field_at env s (fi_idx f) v' true) as [[[[t' w'] a']|]| | |]; try contradiction; try reflexivity.
  destruct P as (<- & <- & TW & _). cbn [bind]. rewrite (near_empty _ _ _ TW), (near_attr _ _ _ TW). reflexivity.
Qed.
Lemma near_name : forall s ti v v' fi, type_info ek env s = Ok ti -> near (TStruct s) v v' -> start_name env ti (TStruct s) v true fi None = start_name env ti (TStruct s) v' true fi None.
Proof.
  intros s ti v v' fi TI T. unfold start_name. destruct (ti_xmlname ti) as [x|] eqn:X; [|reflexivity]. destruct (beq (fi_name x) []) eqn:B; cbn [negb]; [|reflexivity].
  assert (P : path_ok env s (fi_idx x) = true). { specialize (SEEN s ti TI). unfold compared, dynamic in SEEN. rewrite X, B in SEEN. cbn [map forallb] in SEEN. apply andb_true_iff in SEEN. tauto. }
  pose proof (near_field eerr (fi_idx x) s v v' true T P) as PF. destruct (field_at env s (fi_idx x) v true) as [[[[t w] a]|]| | |], (field_at env s (fi_idx x) v' true) as [[[[t' w'] a']|]| | |]; try contradiction; try reflexivity.
  destruct PF as (<- & <- & TW & _). inversion TW; subst; reflexivity.
Qed.
Lemma height_pos : forall v, (1 <= height v)%nat.
Proof. clear. induction v; cbn [height]; lia. Qed.
(** The plans are the same. *)
Lemma plan_near : forall k t v v' fi ps k', near t v v' -> timed t = false -> plan_value F env ek k t v fi = Ok ps -> (height v' <= k')%nat -> plan_value F env ek k' t v' fi = Ok ps.
Proof.
  induction k as [|k IH]; intros t v v' fi ps k' T NT E H; [discriminate|]. destruct k' as [|k']; [pose proof (height_pos v'); lia|].
  cbn [plan_value] in *. rewrite <- (near_empty _ _ _ T). destruct (match fi with Some f => g_omit (fi_flags f) && is_empty v | None => false end); [exact E|].
  pose proof (near_drill t v v' true T NT) as D. destruct (drill t v true) as [[[t1 w] a]|], (drill t v' true) as [[[t2 w'] a']|]; try contradiction; [|exact E]. destruct D as (<- & <- & TW & NW & _ & H2). rewrite <- H2 in H. clear t v v' T H2 a NT.
  destruct t1 as [| |z|z|z| | |t0|t0|s| |]; try exact E.
  1-7: (destruct (near_simple _ _ _ TW) as (<- & _); unfold start_name in *; exact E).
  - inversion TW as [| |? l l' FA| |? ? LF]; subst; [|destruct w'; try contradiction; exact E].
    cbn [height] in H. revert ps E. clear TW. change (timed t0 = false) in NW. induction FA as [|x x' l l' X FA IHl]; intros ps E; cbn [gather] in *; [exact E|]. cbn [map fold_right] in H.
    destruct (plan_value F env ek k t0 x fi) as [p| | |] eqn:P; try discriminate. rewrite (IH _ _ _ _ _ k' X NW P) by lia. cbn [bind] in *. destruct (gather (fun w => plan_value F env ek k t0 w fi) l) as [q| | |] eqn:Q; try discriminate. rewrite (IHl ltac:(lia) q eq_refl). exact E.
  - destruct (type_info ek env s) as [ti| | |] eqn:TI; try discriminate. rewrite <- (near_name s ti w w' fi TI TW). destruct (start_name env ti (TStruct s) w true fi None) as [n| | |]; try discriminate. cbn [bind] in *. destruct (bare ti n); [discriminate|].
    rewrite <- (near_attrs s w w' TW (ti_fields ti)) by (intros; eapply seen_field; eauto). destruct (marshal_attrs F env s (ti_fields ti) w true) as [at0| | |]; try discriminate. cbn [bind] in *.
    assert (PF : forall fs ps, (forall f, In f fs -> In f (ti_fields ti)) -> plan_fields F env (fun t w f => plan_value F env ek k t w (Some f)) s fs w = Ok ps -> plan_fields F env (fun t w f => plan_value F env ek k' t w (Some f)) s fs w' = Ok ps).
    { clear E ps. induction fs as [|f fs IHf]; intros ps HP E; cbn [plan_fields] in *; [exact E|]. destruct (g_attr (fi_flags f)) eqn:GA; [apply IHf; auto; intros; apply HP; right; auto|].
      pose proof (near_field eerr (fi_idx f) s w w' true TW (seen_field env ek SEEN s ti f TI (HP f (or_introl eq_refl)))) as P. destruct (field_at env s (fi_idx f) w true) as [[[[t1 u] a]|]| | |], (field_at env s (fi_idx f) w' true) as [[[[t2 u'] a']|]| | |]; try contradiction; try discriminate; cbn [bind] in *.
      2: { apply IHf; auto. intros; apply HP; right; auto. }
      destruct P as (<- & <- & TU & _ & HU & DE). destruct (decl_at env s (fi_idx f)) as [fd|] eqn:DA; [|discriminate]. injection DE as <-. pose proof (ATTRS s ti f TI (HP f (or_introl eq_refl)) GA fd DA) as NT.
      destruct (fi_parents f); [|discriminate]. rewrite <- (near_text _ _ _ TU NT). destruct (mode_eqb (fi_flags f) m_chardata).
      - cbn [bind] in *. destruct (plan_fields F env (fun t w f => plan_value F env ek k t w (Some f)) s fs w) as [q| | |] eqn:Q; try discriminate. rewrite (IHf q) by (auto; intros; apply HP; right; auto). exact E.
      - destruct (mode_eqb (fi_flags f) m_element); [|discriminate]. destruct (plan_value F env ek k (fd_type fd) u (Some f)) as [p| | |] eqn:PV; try discriminate. rewrite (IH _ _ _ _ _ k' TU NT PV) by lia. cbn [bind] in *.
        destruct (plan_fields F env (fun t w f => plan_value F env ek k t w (Some f)) s fs w) as [q| | |] eqn:Q; try discriminate. rewrite (IHf q) by (auto; intros; apply HP; right; auto). exact E. }
    destruct (plan_fields F env (fun t w f => plan_value F env ek k t w (Some f)) s (ti_fields ti) w) as [c| | |] eqn:PL; try discriminate. rewrite (PF _ _ (fun f I => I) PL). exact E.
Qed.

(** *** What does not depend on durations *)
Definition gone (g : Z -> Z) : list fdecl -> list gval -> list gval := fix go (fs : list fdecl) (l : list gval) {struct l} : list gval := match fs, l with f :: fs, w :: l => retime g (fd_type f) w :: go fs l | _, _ => l end.
Lemma retime_rec : forall g s l, retime g (TStruct s) (VRec l) = VRec (gone g (fields_of env s) l).
Proof. reflexivity. Qed.
Lemma gone_length : forall g l fs, length (gone g fs l) = length l.
Proof. intros g. induction l as [|w l IH]; intros [|f fs]; cbn [gone length]; auto. Qed.
Lemma gone_nth : forall g l fs x f w', nth_error fs x = Some f -> nth_error (gone g fs l) x = Some w' -> exists w, nth_error l x = Some w /\ w' = retime g (fd_type f) w.
Proof.
  intros g. induction l as [|w l IH]; intros [|f0 fs] [|x] f w' N M; cbn in *; try discriminate.
  - injection N as ->. injection M as <-. eauto.
  - exact (IH fs x f w' N M).
Qed.
Definition timer (t : gtype) : bool := match t with TPtr TDuration => true | _ => false end.
Lemma retime_ptr : forall g t w, timer (TPtr t) = false -> retime g (TPtr t) (VPtr w) = VPtr (retime g t w).
Proof. intros g t w N. destruct t; try reflexivity. discriminate. Qed.
Lemma times_ptr : forall t w, timer (TPtr t) = false -> times (TPtr t) (VPtr w) = times t w.
Proof. intros t w N. destruct t; try reflexivity. discriminate. Qed.
Lemma near_refl_ptr : forall w, wt env TDuration w = true -> exists d, w = VInt d.
Proof. intros w W. destruct w; try discriminate. eauto. Qed.
(** Values whose durations are replaced by durations with the same texts. *)
Lemma retime_near : forall g v t, wt env t v = true -> (forall d, In d (times t v) -> method_text F TDuration (VInt (g d)) = method_text F TDuration (VInt d)) -> near t (retime g t v) v.
Proof.
  clear SEEN ATTRS ek. intro g. fix IH 1. intros v t W T. destruct v as [x|b|z|f| |w|l|l|n|a]; try (apply Ne_leaf; exact I).
  - destruct t as [| | | | | | |t| | | |]; try discriminate. cbn [wt] in W. destruct (timer (TPtr t)) eqn:TI.
    + destruct t; try discriminate. destruct (near_refl_ptr w W) as [d ->]. cbn [retime]. apply Ne_time. apply T. left. reflexivity.
    + rewrite retime_ptr by exact TI. apply Ne_ptr. apply IH; [exact W|]. rewrite times_ptr in T by exact TI. exact T.
  - destruct t as [| | | | | | | |t| | |]; try discriminate. cbn [wt] in W. cbn [retime]. apply Ne_list. cbn [times] in T. induction l as [|w l IHl]; [constructor|]. cbn [map forallb concat] in *. apply andb_true_iff in W. destruct W as [W1 W2].
    constructor; [apply IH; [exact W1|intros d D; apply T; apply in_or_app; left; exact D]|apply IHl; [exact W2|intros d D; apply T; apply in_or_app; right; exact D]].
  - destruct t as [| | | | | | | | |s| |]; try discriminate. rewrite retime_rec. cbn [wt times] in *.
    assert (G : length l = length (fields_of env s) /\ forall x f w w', nth_error (fields_of env s) x = Some f -> nth_error (gone g (fields_of env s) l) x = Some w -> nth_error l x = Some w' -> near (fd_type f) w w').
    { revert W T. generalize (fields_of env s). induction l as [|w l IHl]; intros [|f fs] W T; try discriminate; [split; [reflexivity|]; intros [|x]; discriminate|]. apply andb_true_iff in W. destruct W as [W1 W2].
      destruct (IHl fs W2 (fun d D => T d (in_or_app _ _ _ (or_intror D)))) as [G1 G2]. split; [cbn [length]; lia|]. intros [|x] f0 u u' N M M'; cbn in N, M, M'; [|exact (G2 x f0 u u' N M M')].
      injection N as <-. injection M as <-. injection M' as <-. apply IH; [exact W1|]. intros d D. apply T. apply in_or_app. left. exact D. }
    destruct G as [G1 G2]. apply Ne_rec; [rewrite gone_length; exact G1|exact G1|exact G2].
Qed.
Lemma retime_wt : forall g, (forall d, - 2 ^ 63 <= d < 2 ^ 63 -> - 2 ^ 63 <= g d < 2 ^ 63) -> forall v t, wt env t v = true -> wt env t (retime g t v) = true.
Proof.
  intros g G. fix IH 1. intros v t W. destruct v as [x|b|z|f| |w|l|l|n|a]; try exact W.
  - destruct t as [| | | | | | |t| | | |]; try discriminate. cbn [wt] in W. destruct (timer (TPtr t)) eqn:TI.
    + destruct t; try discriminate. destruct (near_refl_ptr w W) as [d ->]. cbn [retime wt] in *. specialize (G d). lia.
    + rewrite retime_ptr by exact TI. cbn [wt]. apply IH. exact W.
  - destruct t as [| | | | | | | |t| | |]; try discriminate. cbn [wt retime] in *. induction l as [|w l IHl]; [reflexivity|]. cbn [map forallb] in *. apply andb_true_iff in W. destruct W as [W1 W2]. rewrite (IH _ _ W1), (IHl W2). reflexivity.
  - destruct t as [| | | | | | | | |s| |]; try discriminate. rewrite retime_rec. cbn [wt] in *. revert W. generalize (fields_of env s). induction l as [|w l IHl]; intros [|f fs] W; try discriminate; [reflexivity|]. apply andb_true_iff in W. destruct W as [W1 W2]. cbn [gone]. rewrite (IH _ _ W1). exact (IHl fs W2).
Qed.
Lemma retime_flat : forall g t v, (match v with VPtr _ | VList _ | VRec _ => False | _ => True end) -> retime g t v = v.
Proof. intros g t v H. destruct v; try contradiction; reflexivity. Qed.
Lemma retime_nil : forall g t v, retime g t v = VNil -> v = VNil.
Proof. intros g t v H. destruct v as [x|b|z|f| |w|l|l|n|a]; try exact H; cbn [retime] in H; destruct t as [| | | | | | |t| | | |]; try discriminate. destruct t; try discriminate. destruct w; discriminate. Qed.
Lemma retime_attr : forall g t v a, retime g t v = VAttr a -> v = VAttr a.
Proof. intros g t v a0 H. destruct v as [x|b|z|f| |w|l|l|n|a]; try exact H; cbn [retime] in H; destruct t as [| | | | | | |t| | | |]; try discriminate. destruct t; try discriminate. destruct w; discriminate. Qed.
Lemma retime_name : forall g t v a, retime g t v = VName a -> v = VName a.
Proof. intros g t v a0 H. destruct v as [x|b|z|f| |w|l|l|n|a]; try exact H; cbn [retime] in H; destruct t as [| | | | | | |t| | | |]; try discriminate. destruct t; try discriminate. destruct w; discriminate. Qed.
Lemma retime_float : forall g t v a, retime g t v = VFloat a -> v = VFloat a.
Proof. intros g t v a0 H. destruct v as [x|b|z|f| |w|l|l|n|a]; try exact H; cbn [retime] in H; destruct t as [| | | | | | |t| | | |]; try discriminate. destruct t; try discriminate. destruct w; discriminate. Qed.
Lemma retime_none : forall g t v, retime g t v = VList [] -> v = VList [].
Proof. intros g t v H. destruct v as [x|b|z|f| |w|l|l|n|a]; try exact H; cbn [retime] in H; destruct t as [| | | | | | |t|t| | |]; try discriminate; try exact H. - destruct t; try discriminate. destruct w; discriminate. - destruct l; [reflexivity|discriminate]. Qed.
Lemma retime_list : forall g t v l a, retime g t v = VList l -> In (VAttr a) l -> exists l0, v = VList l0 /\ In (VAttr a) l0.
Proof.
  intros g t v l a H I. destruct v as [x|b|z|f| |w|l0|l0|n|a0]; try discriminate; cbn [retime] in H.
  - destruct t as [| | | | | | |t|t| | |]; try discriminate. destruct t; try discriminate. destruct w; discriminate.
  - exists l0. split; [reflexivity|]. destruct t as [| | | | | | |t|t| | |]; injection H as <-; try exact I. apply in_map_iff in I. destruct I as (w & E & I). apply retime_attr in E. subst w. exact I.
  - destruct t as [| | | | | | |t|t| | |]; discriminate.
Qed.
Lemma list_retime : forall g t l0 a, In (VAttr a) l0 -> exists l, retime g t (VList l0) = VList l /\ In (VAttr a) l.
Proof.
  intros g t l0 a I. cbn [retime]. destruct t as [| | | | | | |t|t| | |]; try (exists l0; split; [reflexivity|exact I]). exists (map (retime g t) l0). split; [reflexivity|]. apply in_map_iff. exists (VAttr a). split; [reflexivity|exact I].
Qed.
Lemma gone_own : forall g l fs, own_name fs (gone g fs l) = own_name fs l.
Proof.
  intro g. induction l as [|w l IH]; intros [|f fs]; try reflexivity. cbn [gone own_name]. destruct (names_itself f); [|apply IH].
  destruct (retime g (fd_type f) w) eqn:E; try (destruct w; try reflexivity; cbn [retime] in E; congruence). apply retime_name in E. subst w. reflexivity.
Qed.
Lemma retime_own : forall g s v, own_of env s (retime g (TStruct s) v) = own_of env s v.
Proof. intros g s v. unfold own_of. destruct v; try reflexivity. rewrite retime_rec. apply gone_own. Qed.
Lemma retime_absent : forall g h t v, absent (retime g t v) -> absent (retime h t v).
Proof. intros g h t v [H|H]; [apply retime_nil in H; subst v; left; reflexivity|apply retime_none in H; subst v; right]. destruct t; reflexivity. Qed.
Lemma retime_kept : forall g h i s own f v, field_kept env i s own f (retime g (fd_type f) v) -> field_kept env i s own f (retime h (fd_type f) v).
Proof.
  intros g h i s own f v (K1 & K2 & K3 & K4 & K5). split; [intros A E; apply (K1 A); apply retime_nil in E; subst v; reflexivity|]. split; [intro A; exact (retime_absent _ _ _ _ (K2 A))|]. split; [intros A B C; exact (retime_absent _ _ _ _ (K3 A B C))|].
  split; [intro E; apply K4; apply retime_float in E; subst v; reflexivity|]. intros l a E I. destruct (retime_list _ _ _ _ _ E I) as (l0 & -> & I0). destruct (list_retime g (fd_type f) l0 a I0) as (l1 & E1 & I1). exact (K5 l1 a E1 I1).
Qed.
Lemma retime_clean : forall g h v i d l t, wt env t v = true -> clean F env i d l t (retime g t v) -> (forall x, In x (times t v) -> kept F TDuration (VInt (h x))) -> clean F env i d l t (retime h t v).
Proof.
  intros g h. fix IH 1. intros v i d l t W C T. destruct v as [x|b|z|f| |w|ws|ws|n|a]; try exact C.
  - destruct t as [| | | | | | |t| | | |]; try discriminate. cbn [wt] in W. destruct (timer (TPtr t)) eqn:TI.
    + destruct t; try discriminate. destruct (near_refl_ptr w W) as [e ->]. cbn [retime clean] in *. split; [discriminate|]. apply T. left. reflexivity.
    + rewrite retime_ptr in * by exact TI. rewrite times_ptr in T by exact TI. cbn [clean] in *. destruct C as [C1 C2]. split; [intro E; apply C1; apply retime_none in E; subst w; destruct t; reflexivity|]. exact (IH _ _ _ _ _ W C2 T).
  - destruct t as [| | | | | | | |t| | |]; try discriminate. cbn [wt retime clean times] in *. induction ws as [|w ws IHw]; [exact I|]. cbn [map forallb concat] in *. apply andb_true_iff in W. destruct W as [W1 W2]. destruct C as [[C1 C2] C3].
    split; [|exact (IHw W2 C3 (fun x D => T x (in_or_app _ _ _ (or_intror D))))]. split; [intro E; apply C1; apply retime_nil in E; subst w; reflexivity|]. exact (IH _ _ _ _ _ W1 C2 (fun x D => T x (in_or_app _ _ _ (or_introl D)))).
  - destruct t as [| | | | | | | | |s| |]; try discriminate. rewrite retime_rec in *. cbn [wt clean times] in *. rewrite gone_own in *. destruct C as (C1 & C2 & C3). cbv zeta in *. split; [exact C1|]. split; [exact C2|]. clear C1 C2.
    revert C3 W T. generalize (option_map space (own_name (fields_of env s) ws)). intro own. generalize (match own with Some u => Some u | None => d end). intro d1. generalize (fields_of env s).
    induction ws as [|w ws IHw]; intros [|f fs] C W T; try discriminate; [exact I|]. apply andb_true_iff in W. destruct W as [W1 W2]. cbn [gone] in *. destruct C as [C1 C2]. split; [|exact (IHw fs C2 W2 (fun x D => T x (in_or_app _ _ _ (or_intror D))))].
    destruct C1 as [C1|[C1 C3]]; [left; exact C1|right]. split; [exact (retime_kept _ _ _ _ _ _ _ C1)|]. exact (IH _ _ _ _ _ W1 C3 (fun x D => T x (in_or_app _ _ _ (or_introl D)))).
Qed.
Lemma retime_attrs : forall g l, map (retime g TAttr) l = l.
Proof. intro g. induction l as [|w l IH]; [reflexivity|]. cbn [map]. rewrite IH. destruct w; reflexivity. Qed.
Lemma retime_captures : forall g v t, captures env t (retime g t v) = captures env t v.
Proof.
  intro g. fix IH 1. intros v t. destruct v as [x|b|z|f| |w|l|l|n|a]; try reflexivity.
  - destruct t as [| | | | | | |t| | | |]; try reflexivity. destruct (timer (TPtr t)) eqn:TI; [destruct t; try discriminate; cbn [retime]; destruct w; reflexivity|]. rewrite retime_ptr by exact TI. cbn [captures]. apply IH.
  - destruct t as [| | | | | | | |t| | |]; try reflexivity. cbn [retime captures]. assert (D : t = TAttr \/ t <> TAttr) by (destruct t; auto; right; discriminate). destruct D as [->|D]; [rewrite retime_attrs; reflexivity|].
    assert (G : (fix go (l : list gval) : list (list gval) := match l with [] => [] | w :: l => captures env t w ++ go l end) (map (retime g t) l) = (fix go (l : list gval) : list (list gval) := match l with [] => [] | w :: l => captures env t w ++ go l end) l).
    { clear D. induction l as [|w l IHl]; [reflexivity|]. cbn [map]. rewrite IHl, IH. reflexivity. }
    destruct t; try exact G; congruence.
  - destruct t as [| | | | | | | | |s| |]; try reflexivity. rewrite retime_rec. cbn [captures]. generalize (fields_of env s). induction l as [|w l IHl]; intros [|f fs]; try reflexivity. cbn [gone]. rewrite IHl. f_equal. destruct (skipped f); [reflexivity|apply IH].
Qed.
Lemma retime_places : forall known g v c d t, places env known c d t (retime g t v) = places env known c d t v.
Proof.
  intros known g. fix IH 1. intros v c d t. destruct v as [x|b|z|f| |w|l|l|n|a]; try reflexivity.
  - destruct t as [| | | | | | |t| | | |]; try reflexivity. destruct (timer (TPtr t)) eqn:TI; [destruct t; try discriminate; cbn [retime]; destruct w; reflexivity|]. rewrite retime_ptr by exact TI. cbn [places]. apply IH.
  - destruct t as [| | | | | | | |t| | |]; try reflexivity. cbn [retime places]. assert (D : t = TAttr \/ t <> TAttr) by (destruct t; auto; right; discriminate). destruct D as [->|D]; [rewrite retime_attrs; reflexivity|].
    assert (G : (fix go (l : list gval) : list (fate * list gval) := match l with [] => [] | w :: l => places env known c d t w ++ go l end) (map (retime g t) l) = (fix go (l : list gval) : list (fate * list gval) := match l with [] => [] | w :: l => places env known c d t w ++ go l end) l).
    { clear D. induction l as [|w l IHl]; [reflexivity|]. cbn [map]. rewrite IHl, IH. reflexivity. }
    destruct t; try exact G; congruence.
  - destruct t as [| | | | | | | | |s| |]; try reflexivity. rewrite retime_rec. cbn [places]. rewrite gone_own. cbv zeta. generalize (fate_of known d (own_name (fields_of env s) l)), (next_space d (own_name (fields_of env s) l)). intros c1 d1.
    generalize (fields_of env s). induction l as [|w l IHl]; intros [|f fs]; try reflexivity. cbn [gone]. rewrite IHl. f_equal. destruct (skipped f); [reflexivity|apply IH].
Qed.
Lemma retime_legible : forall g v t, legible env t v -> legible env t (retime g t v).
Proof.
  intro g. fix IH 1. intros v t L. destruct v as [x|b|z|f| |w|l|l|n|a]; try exact L.
  - destruct t as [| | | | | | |t| | | |]; try (cbn [legible] in L; destruct L; contradiction). cbn [legible] in L. destruct L as [L1 L2]. destruct (timer (TPtr t)) eqn:TI.
    + destruct t; try discriminate. cbn [retime]. destruct w; cbn [legible]; (split; [first [exact L1|discriminate]|first [exact L2|exact I]]).
    + rewrite retime_ptr by exact TI. cbn [legible]. split; [intro E; apply L1; exact (retime_none _ _ _ E)|]. exact (IH _ _ L2).
  - destruct t as [| | | | | | | |t| | |]; try contradiction L. cbn [retime legible] in *. induction l as [|w l IHl]; [exact I|]. destruct L as [[L1 L2] L3]. cbn [map]. split; [|exact (IHl L3)]. split; [intro E; apply L1; exact (retime_nil _ _ _ E)|exact (IH _ _ L2)].
  - destruct t as [| | | | | | | | |s| |]; try contradiction L. rewrite retime_rec. cbn [legible] in *. revert L. generalize (fields_of env s). induction l as [|w l IHl]; intros [|f fs] L; try exact I. destruct L as [L1 L2]. cbn [gone]. split; [|exact (IHl fs L2)]. destruct L1 as [L1|L1]; [left; exact L1|right; exact (IH _ _ L1)].
Qed.
End Rounded.
