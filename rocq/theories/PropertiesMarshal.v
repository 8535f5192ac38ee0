(** Property C43: when writing crashes. *)
From Coq Require Import String.
From Coq Require Import ZArith List Bool Lia ZifyBool ZifyNat.
From Verif Require Import Base Utf8 Lexer Escape Decoder Printer PrinterProofs Writer PropertiesWriter GoType Schema TypeInfo TypeInfoSpec TypeInfoProofs Simple Marshal Unmarshal Io ValueSpec UnmarshalProofs PropertiesUnmarshal MarshalProofs ReadNames PropertiesDocument.
Import ListNotations.
Open Scope Z_scope.

(** *** Structs in a value *)
(** [within t v s w]: the value [v] of type [t] is, or has in it, the struct [w] of type [s]; the fields that are tagged
    to be left out are not looked into. *)
Inductive within (env : tenv) : gtype -> gval -> bytes -> gval -> Prop :=
| in_here : forall s v, within env (TStruct s) v s v
| in_ptr : forall t v s w, within env t v s w -> within env (TPtr t) (VPtr v) s w
| in_list : forall t l v s w, In v l -> within env t v s w -> within env (TSlice t) (VList l) s w
| in_field : forall s0 l i f v s w, nth_error (fields_of env s0) i = Some f -> nth_error l i = Some v -> fd_tag f <> str "-" ->
    within env (fd_type f) v s w -> within env (TStruct s0) (VRec l) s w.
(** A struct one of whose embedded pointers is nil. *)
Definition lacks_embedded (env : tenv) (s : bytes) (w : gval) : Prop :=
  exists l i f, w = VRec l /\ nth_error (fields_of env s) i = Some f /\ fd_anon f = true /\ nth_error l i = Some VNil.

(** *** The types of package mpd can be written *)
Definition writes_struct (env : tenv) (ek : nat) (s : bytes) : bool :=
  match type_info ek env s with
  | Ok ti =>
      match ti_xmlname ti with
      | None => true
      | Some x => match fi_idx x with
                  | [i] => match nth_error (fields_of env s) i with Some fd => match fd_type fd with TName => true | _ => false end | None => false end
                  | _ => false
                  end && (beq (fi_name x) [] || name_ok (field_name x))
      end &&
      forallb (fun f => beq (concat (fi_parents f)) [] && match fi_parents f with [] => true | _ => false end && match decl_at env s (fi_idx f) with Some fd => writable f (fd_type fd) | None => true end) (ti_fields ti)
  | _ => false
  end.
Lemma writes_check : forall ek env, forallb (fun d => writes_struct env (S ek) (sd_name d)) env = true -> writes_ok (S ek) env.
Proof.
  intros ek env H. rewrite forallb_forall in H.
  assert (K : forall s, writes_struct env (S ek) s = true).
  { intros s. destruct (declared env s) as [(d & I & <-)|U]; [exact (H d I)|]. unfold writes_struct. rewrite (undeclared_info _ _ _ U). reflexivity. }
  clear H. split; intros s; specialize (K s); unfold writes_struct in K.
  - destruct (type_info (S ek) env s); try discriminate. eauto.
  - intros ti x TI X. rewrite TI, X in K. apply andb_true_iff in K as (K & _). apply andb_true_iff in K as (A & B).
    destruct (fi_idx x) as [|i [|]]; try discriminate. destruct (nth_error (fields_of env s) i) as [fd|] eqn:N; [|discriminate]. split; [exists i, fd; split; [reflexivity|]; split; [exact N|destruct (fd_type fd); try discriminate; reflexivity]|].
    apply orb_true_iff in B as [B|B]; [left; apply beq_eq in B; exact B|right; exact B].
  - intros ti f fd TI I D. rewrite TI in K. apply andb_true_iff in K as (_ & K). rewrite forallb_forall in K. specialize (K f I). rewrite D in K. apply andb_true_iff in K as (A & B). split; [|exact B].
    apply andb_true_iff in A as (_ & A). destruct (fi_parents f); [reflexivity|discriminate].
Qed.
Lemma mpd_writes_ok : writes_ok embed_depth mpd_types.
Proof. apply writes_check. vm_compute. reflexivity. Qed.

(** *** A crash comes from a nil embedded pointer *)
Definition REPLACE := str "AlternativeMPDReplaceEventType".
Fixpoint tags_ok (env : tenv) (s : bytes) (idx : list nat) : bool :=
  match idx with
  | [] => true
  | x :: rest =>
      match nth_error (fields_of env s) x with
      | Some f => negb (beq (fd_tag f) (str "-")) && match rest with [] => true | _ => match fd_type f with TStruct s' | TPtr (TStruct s') => tags_ok env s' rest | _ => true end end
      | None => true
      end
  end.
Lemma within_path : forall env idx s v ad t u ad' s' w, tags_ok env s idx = true -> @field_at eerr env s idx v ad = Ok (Some (t, u, ad')) -> within env t u s' w -> within env (TStruct s) v s' w.
Proof.
  intros env. induction idx as [|x rest IH]; intros s v ad t u ad' s' w T H W; [discriminate|]. cbn [field_at] in H. destruct v; try discriminate. cbn [tags_ok] in T.
  destruct (nth_error (fields_of env s) x) as [f|] eqn:N; [|discriminate]. destruct (nth_error l x) as [y|] eqn:Ny; [|discriminate].
  apply andb_true_iff in T as (T1 & T2). apply negb_true_iff, beq_neq in T1. refine (in_field env s l x f y s' w N Ny T1 _). destruct rest as [|z rest].
  - injection H as <- <- _. exact W.
  - destruct (fd_type f) as [| | | | | | |t0| |s0| |]; try discriminate; [|exact (IH _ _ _ _ _ _ _ _ T2 H W)]. destruct t0; try discriminate. destruct y; try discriminate. apply in_ptr. exact (IH _ _ _ _ _ _ _ _ T2 H W).
Qed.
Fixpoint all_struct (env : tenv) (s : bytes) (idx : list nat) : bool :=
  match idx with
  | [] | [_] => true
  | x :: rest => match nth_error (fields_of env s) x with Some f => match fd_type f with TStruct s' => all_struct env s' rest | _ => false end | None => false end
  end.
Lemma all_struct_some : forall {E} env idx s v ad, all_struct env s idx = true -> @field_at E env s idx v ad <> Ok None.
Proof.
  intros E env. induction idx as [|x rest IH]; intros s v ad H; [discriminate|]. cbn [field_at]. destruct v; try discriminate. destruct (nth_error (fields_of env s) x) as [f|] eqn:N; [|discriminate].
  destruct (nth_error l x); [|discriminate]. destruct rest as [|y rest]; [discriminate|]. cbn [all_struct] in H. rewrite N in H. destruct (fd_type f); try discriminate. apply IH. exact H.
Qed.
Definition crash_source (s : bytes) : bool :=
  match type_info embed_depth mpd_types s with
  | Ok ti => forallb (fun f => tags_ok mpd_types s (fi_idx f) && (all_struct mpd_types s (fi_idx f) || beq s REPLACE && match fi_idx f with [3%nat; _] => true | _ => false end)) (ti_fields ti)
  | _ => false
  end.
Lemma crash_sources : forall s, crash_source s = true.
Proof.
  assert (H : forallb (fun d => crash_source (sd_name d)) mpd_types = true) by (vm_compute; reflexivity). rewrite forallb_forall in H.
  intros s. destruct (declared mpd_types s) as [(d & I & <-)|U]; [exact (H d I)|]. unfold crash_source, embed_depth. rewrite (undeclared_info _ _ _ U). reflexivity.
Qed.
Lemma crash_within : forall k t v fi, wt mpd_types t v = true -> crash mpd_types embed_depth k t v fi = true -> exists w, within mpd_types t v REPLACE w /\ lacks_embedded mpd_types REPLACE w.
Proof.
  induction k as [|k IH]; intros t v fi Hv H; [discriminate|]. cbn [crash] in H. destruct (match fi with Some f => g_omit (fi_flags f) && is_empty v | None => false end); [discriminate|].
  assert (DR : forall t v t' v' ad a, drill t v a = Some (t', v', ad) -> wt mpd_types t v = true -> wt mpd_types t' v' = true /\ forall s w, within mpd_types t' v' s w -> within mpd_types t v s w).
  { clear. induction t; intros v t' v' ad a D Hv; cbn [drill] in D; try (injection D as <- <- _; auto; fail). destruct v; try discriminate. destruct (IHt _ _ _ _ _ D Hv) as (A & B). split; [exact A|]. intros s w W. apply in_ptr. auto. }
  destruct (drill t v true) as [((t', v'), ad)|] eqn:D; [|discriminate]. destruct (DR _ _ _ _ _ _ D Hv) as (Hv' & LIFT). enough (X : exists w, within mpd_types t' v' REPLACE w /\ lacks_embedded mpd_types REPLACE w) by (destruct X as (w & A & B); eauto).
  clear LIFT D DR Hv. destruct t'; try discriminate.
  - destruct v'; try discriminate. apply existsb_exists in H as (w & I & C). cbn [wt] in Hv'. rewrite forallb_forall in Hv'. destruct (IH _ _ _ (Hv' w I) C) as (x & A & B). exists x. split; [|exact B]. eapply in_list; eauto.
  - pose proof (crash_sources s) as CS. unfold crash_source in CS. destruct (type_info embed_depth mpd_types s) as [ti| | |] eqn:TI; try discriminate. rewrite forallb_forall in CS.
    apply orb_true_iff in H as [H|H].
    + unfold hollow in H. apply existsb_exists in H as (f & I & C). apply andb_true_iff in C as (_ & C). specialize (CS f I). apply andb_true_iff in CS as (_ & CS).
      destruct (field_at mpd_types s (fi_idx f) v' true) as [[|]| | |] eqn:FA; try discriminate. apply orb_true_iff in CS as [CS|CS]; [destruct (all_struct_some _ _ _ _ _ CS FA)|].
      apply andb_true_iff in CS as (S0 & IX). apply beq_eq in S0. subst s. clear TI IH I. destruct (fi_idx f) as [|[|[|[|[|i]]]] [|j [|]]]; try discriminate. exists v'. split; [apply in_here|].
      apply wt_rec in Hv' as (l & -> & Fl). cbn [field_at] in FA. change (nth_error (fields_of mpd_types REPLACE) 3) with (Some (mkfd (str "AlternativeMPDEventType") true (str "") (TPtr (TStruct (str "AlternativeMPDEventType"))))) in FA.
      destruct (nth_error l 3) as [y|] eqn:N; [|discriminate]. cbn [fd_type] in FA. destruct y; try discriminate.
      * exists l, 3%nat. eexists. split; [reflexivity|]. split; [reflexivity|]. split; [reflexivity|exact N].
      * exfalso. revert FA. generalize (fields_of mpd_types (str "AlternativeMPDEventType")). intros fs FA. destruct y; try discriminate. destruct (nth_error fs j); try discriminate. destruct (nth_error l0 j); discriminate.
    + apply existsb_exists in H as (f & I & C). apply andb_true_iff in C as (_ & C). specialize (CS f I). apply andb_true_iff in CS as (TG & _).
      destruct (field_decl _ _ _ _ _ TI I) as (fd & DF). destruct (@field_at_ok eerr mpd_types (fi_idx f) s v' true fd Hv' DF) as [N|(w & ad' & N & Hw & _)]; rewrite N in C; [discriminate|].
      destruct (IH _ _ _ Hw C) as (x & A & B). exists x. split; [|exact B]. exact (within_path _ _ _ _ _ _ _ _ _ _ TG N A).
Qed.

(** *** A nil embedded pointer makes it crash *)
(** From the struct at the top down the embedded structs. *)
Inductive embedded_at (env : tenv) (s0 : bytes) (v0 : gval) : list nat -> bytes -> gval -> Prop :=
| at_top : embedded_at env s0 v0 [] s0 v0
| at_field : forall p s l i f u s', embedded_at env s0 v0 p s (VRec l) -> nth_error (fields_of env s) i = Some f -> nth_error l i = Some u ->
    fd_type f = TStruct s' -> embedded_at env s0 v0 (p ++ [i]) s' u
| at_pointer : forall p s l i f u s', embedded_at env s0 v0 p s (VRec l) -> nth_error (fields_of env s) i = Some f -> nth_error l i = Some (VPtr u) ->
    fd_type f = TPtr (TStruct s') -> embedded_at env s0 v0 (p ++ [i]) s' u.
Lemma field_at_embedded : forall {E} env s0 v0 p s v, embedded_at env s0 v0 p s v -> forall ad rest, rest <> [] -> exists ad', @field_at E env s0 (p ++ rest) v0 ad = @field_at E env s rest v ad'.
Proof.
  intros E env s0 v0 p s v H. induction H as [|p s l i f u s' H IH Nf Nu T|p s l i f u s' H IH Nf Nu T]; intros ad rest NE; [exists ad; reflexivity| |].
  - destruct (IH ad (i :: rest) ltac:(discriminate)) as (ad' & X). exists ad'. rewrite <- app_assoc. cbn [app]. rewrite X. cbn [field_at]. rewrite Nf, Nu. destruct rest; [congruence|]. rewrite T. reflexivity.
  - destruct (IH ad (i :: rest) ltac:(discriminate)) as (ad' & X). exists true. rewrite <- app_assoc. cbn [app]. rewrite X. cbn [field_at]. rewrite Nf, Nu. destruct rest; [congruence|]. rewrite T. reflexivity.
Qed.
Fixpoint nat_eqb_list (a b : list nat) : bool := match a, b with [], [] => true | x :: a, y :: b => Nat.eqb x y && nat_eqb_list a b | _, _ => false end.
Lemma nat_eqb_list_eq : forall a b, nat_eqb_list a b = true -> a = b.
Proof. induction a as [|x a IH]; intros [|y b] H; try discriminate; [reflexivity|]. cbn [nat_eqb_list] in H. apply andb_true_iff in H as (A & B). apply Nat.eqb_eq in A. subst. f_equal. auto. Qed.
Fixpoint forall_i {A} (p : nat -> A -> bool) (i : nat) (l : list A) : bool := match l with [] => true | x :: l => p i x && forall_i p (S i) l end.
Lemma forall_i_nth : forall {A} (p : nat -> A -> bool) l i j x, forall_i p i l = true -> nth_error l j = Some x -> p (i + j)%nat x = true.
Proof.
  induction l as [|y l IH]; intros i j x H N; [destruct j; discriminate|]. cbn [forall_i] in H. apply andb_true_iff in H as (H1 & H2). destruct j as [|j]; [injection N as <-; rewrite Nat.add_0_r; exact H1|].
  replace (i + S j)%nat with (S i + j)%nat by lia. eapply IH; eauto.
Qed.
Definition has_struct (t : gtype) : bool := match item t with TStruct _ => true | _ => false end.
Definition embeds (f : fdecl) : option bytes := if fd_anon f then match fd_type f with TStruct s | TPtr (TStruct s) => Some s | _ => None end else None.
(** All fields that can hold structs are written. *)
Fixpoint complete (n : nat) (ti : tinfo) (p : list nat) (s : bytes) : bool :=
  match n with
  | O => false
  | S n => forall_i (fun i f => beq (fd_tag f) (str "-") || negb (has_struct (fd_type f)) ||
             match embeds f with
             | Some s' => negb (beq s' REPLACE) && complete n ti (p ++ [i]) s'
             | None => existsb (fun g => nat_eqb_list (fi_idx g) (p ++ [i]) && childlike g) (ti_fields ti)
             end) O (fields_of mpd_types s)
  end.
Definition all_written (s : bytes) : bool :=
  match type_info embed_depth mpd_types s with
  | Ok ti => complete 5 ti [] s && (negb (beq s REPLACE) || existsb (fun f => nat_eqb_list (fi_idx f) [3%nat; 0%nat] && g_attr (fi_flags f) && negb (g_omit (fi_flags f))) (ti_fields ti))
  | _ => false
  end.
Lemma all_written_mpd : forall s, all_written s = true.
Proof.
  assert (H : forallb (fun d => all_written (sd_name d)) mpd_types = true) by (vm_compute; reflexivity). rewrite forallb_forall in H.
  intros s. destruct (declared mpd_types s) as [(d & I & <-)|U]; [exact (H d I)|]. unfold all_written, embed_depth. rewrite (undeclared_info _ _ _ U). cbn [complete]. rewrite U. cbn [forall_i andb].
  destruct (beq s REPLACE) eqn:E; [|reflexivity]. apply beq_eq in E. subst s. discriminate U.
Qed.
Lemma within_not_empty : forall env t v s w, within env t v s w -> wt env t v = true -> is_empty v = false.
Proof. intros env t v s w H W. destruct H; try reflexivity; [apply wt_rec in W as (l & -> & _); reflexivity|destruct l; [contradiction|reflexivity]]. Qed.
Lemma within_has_struct : forall env t v s w, within env t v s w -> has_struct t = true.
Proof. intros env t v s w H. unfold has_struct. induction H; cbn [item]; auto. Qed.
Lemma embedded_wt : forall env s0 v0 p s v, embedded_at env s0 v0 p s v -> wt env (TStruct s0) v0 = true -> wt env (TStruct s) v = true /\ (height v <= height v0)%nat.
Proof.
  intros env s0 v0 p s v H W. induction H as [|p s l i f u s' H IH Nf Nu T|p s l i f u s' H IH Nf Nu T]; [auto| |].
  - destruct IH as (A & B). apply wt_rec in A as (l' & E & Fl). injection E as <-. destruct (nth_error_Forall2 _ _ _ _ _ Fl Nf) as (x & Nx & Hx). rewrite Nu in Nx. injection Nx as <-. rewrite T in Hx.
    pose proof (height_field l u (nth_error_In _ _ Nu)). split; [exact Hx|lia].
  - destruct IH as (A & B). apply wt_rec in A as (l' & E & Fl). injection E as <-. destruct (nth_error_Forall2 _ _ _ _ _ Fl Nf) as (x & Nx & Hx). rewrite Nu in Nx. injection Nx as <-. rewrite T in Hx.
    pose proof (height_field l _ (nth_error_In _ _ Nu)) as HF. change (height (VPtr u)) with (height u) in HF. split; [exact Hx|lia].
Qed.
Definition struct_crash (k : nat) (s : bytes) (ti : tinfo) (v : gval) : bool :=
  hollow mpd_types s ti v || existsb (fun f => childlike f && match @field_at eerr mpd_types s (fi_idx f) v true with Ok (Some (t, w, _)) => crash mpd_types embed_depth k t w (Some f) | _ => false end) (ti_fields ti).
(** [v], of type [t], is the struct [u] of type [e] or points to it. *)
Definition leads (t : gtype) (v : gval) (e : bytes) (u : gval) : Prop := t = TStruct e /\ v = u \/ t = TPtr (TStruct e) /\ v = VPtr u.
Lemma within_crash : forall t v s w, within mpd_types t v s w -> s = REPLACE -> lacks_embedded mpd_types s w ->
  (forall k fi, wt mpd_types t v = true -> (height v < k)%nat -> crash mpd_types embed_depth k t v fi = true) /\
  (forall e u s0 v0 p ti n k, leads t v e u -> embedded_at mpd_types s0 v0 p e u -> wt mpd_types (TStruct s0) v0 = true -> type_info embed_depth mpd_types s0 = Ok ti -> complete n ti p e = true ->
     (p = [] \/ e <> REPLACE) -> (height v0 <= k)%nat -> struct_crash k s0 ti v0 = true).
Proof.
  assert (TOP : forall t v, (forall e u s0 v0 p ti n k, leads t v e u -> embedded_at mpd_types s0 v0 p e u -> wt mpd_types (TStruct s0) v0 = true -> type_info embed_depth mpd_types s0 = Ok ti -> complete n ti p e = true ->
     (p = [] \/ e <> REPLACE) -> (height v0 <= k)%nat -> struct_crash k s0 ti v0 = true) ->
     forall s0, t = TStruct s0 -> forall k fi, wt mpd_types t v = true -> (height v < k)%nat -> crash mpd_types embed_depth k t v fi = true).
  { intros t v H s0 -> k fi W L. destruct k as [|k]; [lia|]. cbn [crash drill].
    replace (match fi with Some f => g_omit (fi_flags f) && is_empty v | None => false end) with false by (destruct fi; [|reflexivity]; apply wt_rec in W as (l & -> & _); cbn [is_empty]; rewrite andb_false_r; reflexivity).
    pose proof (all_written_mpd s0) as AW. unfold all_written in AW. destruct (type_info embed_depth mpd_types s0) as [ti| | |] eqn:TI; try discriminate. apply andb_true_iff in AW as (AW & _).
    apply (H s0 v s0 v [] ti 5%nat k); auto; [left; auto|apply at_top|lia]. }
  intros t v s w H SR LE. induction H as [s v|t v s w H IH|t l v s w I H IH|s0 l i f v s w Nf Nv T H IH].
  - assert (B : forall e u s0 v0 p ti n k, leads (TStruct s) v e u -> embedded_at mpd_types s0 v0 p e u -> wt mpd_types (TStruct s0) v0 = true -> type_info embed_depth mpd_types s0 = Ok ti -> complete n ti p e = true ->
       (p = [] \/ e <> REPLACE) -> (height v0 <= k)%nat -> struct_crash k s0 ti v0 = true).
    { intros e u s0 v0 p ti n k [(E & <-)|(E & _)] EM W TI _ PE _; [|discriminate]. injection E as <-. destruct PE as [->|NE]; [|congruence]. inversion EM as [A|p ? ? ? ? ? ? ? ? ? ? A|p ? ? ? ? ? ? ? ? ? ? A]; subst; try (destruct p; discriminate).
      unfold struct_crash. apply orb_true_iff. left. unfold hollow. pose proof (all_written_mpd REPLACE) as AW. unfold all_written in AW. rewrite TI in AW. apply andb_true_iff in AW as (_ & AW). rewrite beq_refl in AW. cbn [negb orb] in AW.
      apply existsb_exists in AW as (g & Ig & C). apply existsb_exists. exists g. split; [exact Ig|]. apply andb_true_iff in C as (C & C3). apply andb_true_iff in C as (C1 & C2). rewrite C2, C3. cbn [andb]. apply nat_eqb_list_eq in C1. rewrite C1.
      destruct LE as (l & i & f & -> & Nf & AN & Nl).
      assert (i = 3%nat). { destruct i as [|[|[|[|i]]]]; try reflexivity; try (injection Nf as <-; discriminate AN). exfalso. destruct i; discriminate Nf. }
      subst i. cbn [field_at]. rewrite Nf, Nl. injection Nf as <-. reflexivity. }
    split; [|exact B]. exact (TOP _ _ B s eq_refl).
  - destruct (IH SR LE) as (A & B). split.
    + intros k fi W L. destruct k as [|k]; [lia|]. specialize (A (S k) fi W L). cbn [crash] in *. cbn [drill]. cbn [is_empty].
      replace (match fi with Some f => g_omit (fi_flags f) && false | None => false end) with false by (destruct fi; [rewrite andb_false_r|]; reflexivity).
      destruct (match fi with Some f => g_omit (fi_flags f) && is_empty v | None => false end); [discriminate|exact A].
    + intros e u s0 v0 p ti n k [(E & _)|(E & E')] EM W TI C PE L; [discriminate|]. injection E as ->. injection E' as ->. apply (B e u s0 v0 p ti n k); auto. left. auto.
  - destruct (IH SR LE) as (A & _). split.
    + intros k fi W L. destruct k as [|k]; [lia|]. cbn [crash drill].
      replace (match fi with Some f => g_omit (fi_flags f) && is_empty (VList l) | None => false end) with false by (destruct fi; [|reflexivity]; destruct l; [contradiction|]; cbn [is_empty]; rewrite andb_false_r; reflexivity).
      apply existsb_exists. exists v. split; [exact I|]. apply A.
      * cbn [wt] in W. rewrite forallb_forall in W. auto.
      * cbn [height] in L. pose proof (height_in l v I). lia.
    + intros e u s0 v0 p ti n k [(E & _)|(E & _)]; discriminate.
  - destruct (IH SR LE) as (A & B).
    assert (B' : forall e u s1 v0 p ti n k, leads (TStruct s0) (VRec l) e u -> embedded_at mpd_types s1 v0 p e u -> wt mpd_types (TStruct s1) v0 = true -> type_info embed_depth mpd_types s1 = Ok ti -> complete n ti p e = true ->
       (p = [] \/ e <> REPLACE) -> (height v0 <= k)%nat -> struct_crash k s1 ti v0 = true).
    { intros e u s1 v0 p ti n k [(E & <-)|(E & _)] EM W TI C _ L; [|discriminate]. injection E as <-. destruct n as [|n]; [discriminate|]. cbn [complete] in C. pose proof (forall_i_nth _ _ _ _ _ C Nf) as K. cbn beta in K. rewrite Nat.add_0_l in K.
      destruct (beq (fd_tag f) (str "-")) eqn:TD; [apply beq_eq in TD; congruence|]. rewrite (within_has_struct _ _ _ _ _ H) in K. cbn [negb orb] in K.
      assert (LOOK : existsb (fun g => nat_eqb_list (fi_idx g) (p ++ [i]) && childlike g) (ti_fields ti) = true -> struct_crash k s1 ti v0 = true).
      { intros X. apply existsb_exists in X as (g & Ig & X). apply andb_true_iff in X as (X & CL). apply nat_eqb_list_eq in X. unfold struct_crash. apply orb_true_iff. right. apply existsb_exists. exists g. split; [exact Ig|]. rewrite CL. cbn [andb]. rewrite X.
        destruct (@field_at_embedded eerr _ _ _ _ _ _ EM true [i] ltac:(discriminate)) as (ad' & Y). rewrite Y. cbn [field_at]. rewrite Nf, Nv. destruct (embedded_wt _ _ _ _ _ _ EM W) as (W1 & L1).
        apply A; [|pose proof (height_field l v (nth_error_In _ _ Nv)); lia]. apply wt_rec in W1 as (l' & E & Fl). injection E as <-. destruct (nth_error_Forall2 _ _ _ _ _ Fl Nf) as (x & Nx & Hx). congruence. }
      unfold embeds in K. destruct (fd_anon f); [|exact (LOOK K)]. destruct (fd_type f) as [| | | | | | |t0| |s'| |] eqn:FT; try exact (LOOK K).
      - destruct t0 as [| | | | | | | | |s'| |]; try exact (LOOK K). apply andb_true_iff in K as (K1 & K2). apply negb_true_iff, beq_neq in K1.
        inversion H as [|t1 u s2 w2 H1| |]; subst. apply (B s' u s1 v0 (p ++ [i]) ti n k); auto; [right; auto|]. eapply at_pointer; eauto.
      - apply andb_true_iff in K as (K1 & K2). apply negb_true_iff, beq_neq in K1. apply (B s' v s1 v0 (p ++ [i]) ti n k); auto; [left; auto|]. eapply at_field; eauto. }
    split; [|exact B']. exact (TOP _ _ B' s0 eq_refl).
Qed.

(** *** When writing crashes *)
(** The value can be written unless there is a replace event in it whose embedded pointer is nil. *)
Definition has_hollow_event (s : bytes) (v : gval) : Prop := exists w, within mpd_types (TStruct s) v REPLACE w /\ lacks_embedded mpd_types REPLACE w.
Lemma struct_names_ok : forall d, In d mpd_types -> name_ok (mkname [] (sd_name d)) = true.
Proof. assert (H : forallb (fun d => name_ok (mkname [] (sd_name d))) mpd_types = true) by (vm_compute; reflexivity). rewrite forallb_forall in H. exact H. Qed.
Theorem C43_written : forall F d v indent, In d mpd_types -> wt mpd_types (TStruct (sd_name d)) v = true -> plain_names v = true ->
  (has_hollow_event (sd_name d) v /\ result (program F (sd_name d) v) indent = Panic) \/
  (~ has_hollow_event (sd_name d) v /\ result (program F (sd_name d) v) indent = Ok tt).
Proof.
  intros F d v indent I W P. set (s := sd_name d) in *.
  assert (E := value_ends F mpd_types embed_depth mpd_writes_ok (S (height v)) true (TPtr (TStruct s)) (VPtr v) None (mkp 0 indent [] 0 false false [])
    eq_refl (ex_intro _ s (conj eq_refl (struct_names_ok d I))) W P (Nat.lt_succ_diag_r _) ltac:(cbn; lia)).
  apply ends_ok in E as (E1 & E2). unfold result, program. destruct (crash mpd_types embed_depth (S (height v)) (TPtr (TStruct s)) (VPtr v) None) eqn:C.
  - left. destruct (E1 eq_refl) as (cs & st & ->). split; [|reflexivity]. destruct (crash_within (S (height v)) (TPtr (TStruct s)) (VPtr v) None W C) as (w & A & B). exists w. split; [|exact B]. inversion A; assumption.
  - right. destruct (E2 eq_refl) as (cs & st & [] & -> & _). split; [|reflexivity]. intros (w & A & B).
    destruct (within_crash _ _ _ _ (in_ptr _ _ _ _ _ A) eq_refl B) as (X & _). rewrite (X (S (height v)) None W (Nat.lt_succ_diag_r _)) in C. discriminate.
Qed.
Print Assumptions C43_written.
(** So for everything that was read. *)
Theorem C43_read_written : forall F inp v indent, read_mpd F inp = Ok v ->
  (has_hollow_event MPD v /\ result (program F MPD v) indent = Panic) \/ (~ has_hollow_event MPD v /\ result (program F MPD v) indent = Ok tt).
Proof.
  intros F inp v indent R. pose proof (C59_mpd F inp) as W. rewrite R in W. destruct W as (W & _).
  refine (C43_written F T_MPD v indent (or_introl eq_refl) W _). exact (decode_plain _ _ _ _ _ _ _ _ (plain_zero _ _ _) R).
Qed.
Print Assumptions C43_read_written.
(** Both cases occur. *)
Example C43_hollow_example : forall F, exists v, read_mpd F (in_event "<ReplacePresentation returnOffset=""1""></ReplacePresentation>") = Ok v /\ has_hollow_event MPD v.
Proof.
  intros F. destruct (C43_refuted F) as (v & R & P). exists v. split; [exact R|]. destruct (C43_read_written F _ v [] R) as [(H & _)|(_ & H)]; [exact H|]. rewrite P in H. discriminate H.
Qed.
Example C43_whole_example : forall F, exists v, read_mpd F (in_event "<ReplacePresentation returnOffset=""1"" uri=""x""></ReplacePresentation>") = Ok v /\ ~ has_hollow_event MPD v.
Proof.
  intros F. destruct (C43_example F) as (v & R & P & _). exists v. split; [exact R|]. destruct (C43_read_written F _ v [] R) as [(_ & H)|(H & _)]; [|exact H]. unfold writes in P. rewrite H in P. discriminate P.
Qed.
