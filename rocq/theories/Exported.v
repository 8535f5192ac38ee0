(** Writing looks at the fields that are exported and not left out by their tags, and at no others. *)
From Coq Require Import String.
From Coq Require Import ZArith List Bool Lia SpecFloat.
From Verif Require Import Base Utf8 Lexer Escape Printer GoType TypeInfo Simple ValueSpec Marshal MarshalProofs Plan Io RoundTripSpec RoundTripCheck RoundTripParts Stable.
Import ListNotations.
Open Scope Z_scope.

Definition meq {A} (x y : M A) : Prop := forall st, x st = y st.
Lemma meq_refl : forall {A} (x : M A), meq x x.
Proof. intros A x st. reflexivity. Qed.
Lemma meq_bind : forall {A B} (x y : M A) (f g : A -> M B), meq x y -> (forall a, meq (f a) (g a)) -> meq (mbind x f) (mbind y g).
Proof. intros A B x y f g H G st. unfold mbind. rewrite (H st). destruct (y st) as [[c s] [a| | |]]; try reflexivity. rewrite (G a s). reflexivity. Qed.

Lemma meq_trans : forall {A} (x y z : M A), meq x y -> meq y z -> meq x z.
Proof. intros A x y z H G st. rewrite (H st). apply G. Qed.
Lemma meq_sym : forall {A} (x y : M A), meq x y -> meq y x.
Proof. intros A x y H st. symmetry. apply H. Qed.
Lemma meq_ret : forall {A B} (a : A) (f : A -> M B), meq (mbind (mret a) f) (f a).
Proof. intros A B a f st. unfold mbind, mret. destruct (f a st) as [[c s] r]. reflexivity. Qed.

Section Exported.
Variables (F : floats) (env : tenv) (ek : nat).
Notation twin := (twin env).

(** A value with what is in the fields that are not looked at replaced by anything. *)
Fixpoint rewired (h : fdecl -> gval -> gval) (t : gtype) (v : gval) {struct v} : gval :=
  match v with
  | VPtr w => match t with TPtr t => VPtr (rewired h t w) | _ => v end
  | VList l => match t with TSlice t => VList (map (rewired h t) l) | _ => v end
  | VRec l =>
      match t with
      | TStruct s => VRec ((fix go (fs : list fdecl) (l : list gval) {struct l} : list gval := match fs, l with f :: fs, w :: l => (if skipped f then h f w else rewired h (fd_type f) w) :: go fs l | _, _ => l end) (fields_of env s) l)
      | _ => v
      end
  | _ => v
  end.
Lemma rewired_twin : forall h v t, wt env t v = true -> twin t v (rewired h t v).
Proof.
  clear F ek. intro h. fix IH 1. intros v t W. destruct v as [x|b|z|f| |w|l|l|n|a]; try (apply Tw_leaf; exact I).
  - destruct t as [| | | | | | |t| | | |]; try discriminate. cbn [wt rewired] in *. apply Tw_ptr. apply IH. exact W.
  - destruct t as [| | | | | | | |t| | |]; try discriminate. cbn [wt rewired] in *. assert (D : t = TAttr \/ t <> TAttr) by (destruct t; auto; right; discriminate). destruct D as [->|D].
    + replace (map (rewired h TAttr) l) with l; [apply Tw_attrs|]. clear. induction l as [|w l IH]; [reflexivity|]. cbn [map]. rewrite <- IH. destruct w; reflexivity.
    + apply Tw_list; [exact D|]. clear D. induction l as [|w l IHl]; [constructor|]. cbn [map forallb] in *. apply andb_true_iff in W. destruct W as [W1 W2]. constructor; [exact (IH _ _ W1)|exact (IHl W2)].
  - destruct t as [| | | | | | | | |s| |]; try discriminate. cbn [wt rewired] in *.
    set (go := fix go (fs : list fdecl) (l : list gval) {struct l} : list gval := match fs, l with f :: fs, w :: l => (if skipped f then h f w else rewired h (fd_type f) w) :: go fs l | _, _ => l end).
    assert (G : length l = length (fields_of env s) /\ length (go (fields_of env s) l) = length (fields_of env s) /\ forall x f w w', nth_error (fields_of env s) x = Some f -> nth_error l x = Some w -> nth_error (go (fields_of env s) l) x = Some w' -> skipped f = true \/ twin (fd_type f) w w').
    { revert W. generalize (fields_of env s). induction l as [|w l IHl]; intros [|f fs] W; try discriminate; [split; [reflexivity|]; split; [reflexivity|]; intros [|x]; discriminate|]. apply andb_true_iff in W. destruct W as [W1 W2].
      destruct (IHl fs W2) as (G1 & G2 & G3). cbn [go length]. split; [lia|]. split; [fold go; lia|]. intros [|x] f0 u u' N M M'; cbn in N, M, M'; [|exact (G3 x f0 u u' N M M')].
      injection N as <-. injection M as <-. injection M' as <-. destruct (skipped f) eqn:S; [left; reflexivity|right]. exact (IH _ _ W1). }
    destruct G as (G1 & G2 & G3). apply Tw_rec; auto.
Qed.

Lemma twin_comment : forall t v v', twin t v v' -> emit_comment t v = emit_comment t v'.
Proof.
  intros t v v' H. unfold emit_comment. pose proof (twin_drill env t v v' true H) as D. destruct (drill t v true) as [[[t1 w] a]|], (drill t v' true) as [[[t2 w'] a']|]; try contradiction; auto. destruct D as (-> & _ & T & _). inversion T; subst; reflexivity.
Qed.
Lemma twin_raw : forall t v v', twin t v v' -> raw_xml t v = raw_xml t v'.
Proof.
  intros t v v' H. unfold raw_xml. pose proof (twin_drill env t v v' true H) as D. destruct (drill t v true) as [[[t1 w] a]|], (drill t v' true) as [[[t2 w'] a']|]; try contradiction; auto. destruct D as (-> & _ & T & _). inversion T; subst; reflexivity.
Qed.
Hypothesis SEEN : forall s ti, type_info ek env s = Ok ti -> forallb (path_ok env s) (compared ti) = true.
Lemma twin_attrs' : forall s v v' ad, twin (TStruct s) v v' -> forall fs, (forall f, In f fs -> path_ok env s (fi_idx f) = true) -> marshal_attrs F env s fs v ad = marshal_attrs F env s fs v' ad.
Proof.
  intros s v v' ad T fs. induction fs as [|f fs IH]; intros H; [reflexivity|]. cbn [marshal_attrs]. rewrite IH by (intros; apply H; right; auto). destruct (negb (g_attr (fi_flags f))); [reflexivity|].
  pose proof (path_field env eerr (fi_idx f) s v v' ad T (H f (or_introl eq_refl))) as P. destruct (field_at env s (fi_idx f) v ad) as [[[[t w] a]|]| | |], (field_at env s (fi_idx f) v' ad) as [[[[t' w'] a']|]| | |]; try contradiction; try reflexivity.
  destruct P as (<- & <- & TW & _). cbn [bind]. rewrite (twin_empty env _ _ _ TW), (twin_attr F env _ _ _ TW). reflexivity.
Qed.
Lemma twin_name' : forall s ti v v' ad fi tmpl, type_info ek env s = Ok ti -> twin (TStruct s) v v' -> start_name env ti (TStruct s) v ad fi tmpl = start_name env ti (TStruct s) v' ad fi tmpl.
Proof.
  intros s ti v v' ad fi tmpl TI T. unfold start_name. destruct tmpl as [[[n0 a0] c0]|]; [reflexivity|]. destruct (ti_xmlname ti) as [x|] eqn:X; [|reflexivity]. destruct (beq (fi_name x) []) eqn:B; cbn [negb]; [|reflexivity].
  assert (P : path_ok env s (fi_idx x) = true). { specialize (SEEN s ti TI). unfold compared, dynamic in SEEN. rewrite X, B in SEEN. cbn [map forallb] in SEEN. apply andb_true_iff in SEEN. tauto. }
  pose proof (path_field env eerr (fi_idx x) s v v' ad T P) as PF. destruct (field_at env s (fi_idx x) v ad) as [[[[t w] a]|]| | |], (field_at env s (fi_idx x) v' ad) as [[[[t' w'] a']|]| | |]; try contradiction; try reflexivity.
  destruct PF as (<- & <- & TW & _). inversion TW; subst; reflexivity.
Qed.
Lemma twin_absent : forall t w w', twin t w w' -> (match w with VNil => false | _ => true end) = (match w' with VNil => false | _ => true end).
Proof. intros t w w' H. inversion H; subst; reflexivity. Qed.
Lemma height1 : forall v, (1 <= height v)%nat.
Proof. clear. induction v; cbn [height]; lia. Qed.
Lemma fields_twin : forall k k' s ti v v' ad, type_info ek env s = Ok ti -> twin (TStruct s) v v' ->
  (forall ad t w w' f, twin t w w' -> (height w < height v)%nat -> (height w' < height v')%nat -> meq (marshal_value F env ek k ad t w (Some f) None) (marshal_value F env ek k' ad t w' (Some f) None)) ->
  forall fs, (forall f, In f fs -> In f (ti_fields ti)) -> forall stack,
  meq (struct_fields F env (fun ad t w f => marshal_value F env ek k ad t w (Some f) None) s fs v ad stack) (struct_fields F env (fun ad t w f => marshal_value F env ek k' ad t w (Some f) None) s fs v' ad stack).
Proof.
  intros k k' s ti v v' ad TI T V. induction fs as [|f fs IH]; intros HP stack; [apply meq_refl|]. cbn [struct_fields]. specialize (IH (fun g G => HP g (or_intror G))). destruct (g_attr (fi_flags f)); [apply IH|].
  pose proof (path_field env eerr (fi_idx f) s v v' ad T (seen_field env ek SEEN s ti f TI (HP f (or_introl eq_refl)))) as P.
  destruct (field_at env s (fi_idx f) v ad) as [[[[t1 u] a]|]| | |], (field_at env s (fi_idx f) v' ad) as [[[[t2 u'] a']|]| | |]; try contradiction; cbn [mlift]; try (intro st; reflexivity).
  - destruct P as (<- & <- & TU & H1 & H2). eapply meq_trans; [apply meq_ret|]. eapply meq_trans; [|apply meq_sym; apply meq_ret]. cbv beta iota.
    rewrite <- (twin_text F env _ _ _ TU), <- (twin_comment _ _ _ TU), <- (twin_raw _ _ _ TU), <- (twin_absent _ _ _ TU).
    assert (VA : meq (marshal_value F env ek k a t1 u (Some f) None) (marshal_value F env ek k' a t1 u' (Some f) None)) by (apply V; auto).
    apply meq_bind; [|intro x; apply IH]. repeat match goal with |- meq (if ?c then _ else _) (if ?c then _ else _) => destruct c end; repeat (apply meq_bind; [first [apply meq_refl|exact VA|idtac]|intro]); try apply meq_refl.
    destruct (raw_xml t1 u); [apply meq_refl|exact VA].
  - eapply meq_trans; [apply meq_ret|]. eapply meq_trans; [|apply meq_sym; apply meq_ret]. apply IH.
Qed.
Lemma struct_twin : forall k k' s ti v v' ad, type_info ek env s = Ok ti -> twin (TStruct s) v v' ->
  (forall ad t w w' f, twin t w w' -> (height w < height v)%nat -> (height w' < height v')%nat -> meq (marshal_value F env ek k ad t w (Some f) None) (marshal_value F env ek k' ad t w' (Some f) None)) ->
  meq (marshal_struct F env (fun ad t w f => marshal_value F env ek k ad t w (Some f) None) s ti v ad) (marshal_struct F env (fun ad t w f => marshal_value F env ek k' ad t w (Some f) None) s ti v' ad).
Proof. intros k k' s ti v v' ad TI T V. unfold marshal_struct. apply meq_bind; [|intro; apply meq_refl]. exact (fields_twin k k' s ti v v' ad TI T V (ti_fields ti) (fun f I => I) []). Qed.
(** Twins are written alike, whatever that gives. *)
Lemma marshal_twin : forall k k' ad t v v' fi tmpl, twin t v v' -> (height v <= k)%nat -> (height v' <= k')%nat -> meq (marshal_value F env ek k ad t v fi tmpl) (marshal_value F env ek k' ad t v' fi tmpl).
Proof.
  induction k as [|k IH]; intros k' ad t v v' fi tmpl T H H'; [pose proof (height1 v); lia|]. destruct k' as [|k']; [pose proof (height1 v'); lia|].
  cbn [marshal_value]. rewrite <- (twin_empty env _ _ _ T). destruct (match tmpl with Some (n, _, _) => beq (local n) [] | None => false end); [apply meq_refl|]. destruct (match fi with Some f => g_omit (fi_flags f) && is_empty v | None => false end); [apply meq_refl|].
  pose proof (twin_drill env t v v' ad T) as D. destruct (drill t v ad) as [[[t1 w] a]|], (drill t v' ad) as [[[t2 w'] a']|]; try contradiction; [|apply meq_refl]. destruct D as (<- & <- & TW & H1 & H2). rewrite <- H1 in H. rewrite <- H2 in H'. clear t v v' T H1 H2.
  destruct t1 as [| |z|z|z| | |t0|t0|s| |].
  1-7,8,11,12: (inversion TW; subst; try apply meq_refl).
  - inversion TW as [| l|? l l' N FA| |? ? LF]; subst; [|clear N|destruct w'; try contradiction; apply meq_refl].
    + destruct l as [|x l]; [apply meq_refl|]. destruct k as [|k]; [exfalso; cbn [height map fold_right] in H; pose proof (height1 x); lia|]. destruct k' as [|k']; [exfalso; cbn [height map fold_right] in H'; pose proof (height1 x); lia|].
      generalize (x :: l). clear. intro l. induction l as [|y l IHl]; [apply meq_refl|]. cbn [each_value]. apply meq_bind; [|intro; apply IHl]. apply meq_refl.
    + cbn [height] in H, H'. clear TW. induction FA as [|x x' l l' X FA IHl]; cbn [each_value]; [apply meq_refl|]. cbn [map fold_right] in H, H'. apply meq_bind; [apply IH; [exact X|lia|lia]|intro; apply IHl; lia].
  - cbn [info_of]. destruct (type_info ek env s) as [ti| | |] eqn:TI; [|intro st; reflexivity..].
    eapply meq_trans; [apply meq_ret|]. eapply meq_trans; [|apply meq_sym; apply meq_ret]. cbv beta. rewrite <- (twin_name' s ti w w' a fi tmpl TI TW), <- (twin_attrs' s w w' a TW (ti_fields ti)) by (intros; eapply seen_field; eauto).
    do 4 (apply meq_bind; [apply meq_refl|intro]). apply meq_bind; [|intro; apply meq_refl]. apply struct_twin; [exact TI|exact TW|]. intros ad' t u u' f TU L1 L2. apply IH; [exact TU|lia|lia].
Qed.
End Exported.
