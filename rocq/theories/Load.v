(** Reading a value from nodes, and that unmarshalling their tokens does the same. *)
From Coq Require Import String.
From Coq Require Import ZArith List Bool Lia ZifyBool ZifyNat.
From Verif Require Import Base Utf8 Lexer Decoder DecoderSpec Printer GoType TypeInfo Simple ValueSpec Unmarshal NsSpec NsHistory NsTags Plan PlanText Lens.
Import ListNotations.
Open Scope Z_scope.

Fixpoint texts (c : list node) : bytes := match c with [] => [] | NText s :: c => s ++ texts c | _ :: c => texts c end.
Section Load.
Variables (F : floats) (env : tenv) (ek : nat).
Definition nreader := gtype -> gval -> node -> outcome uerr gval.
Definition load_child (read : nreader) (s : bytes) (fs : list finfo) (v : gval) (nd : node) : outcome uerr gval :=
  match nd with
  | NText _ => Ok v
  | NElem m _ _ _ =>
      match find_path fs [] m with
      | Field f => do (v', _) <- update_at ek env s (fi_idx f) v (fun t w => with_unit (read t w nd)) ; Ok v'
      | _ => OutOfFuel
      end
  end.
Fixpoint load_children (step : gval -> node -> outcome uerr gval) (v : gval) (c : list node) : outcome uerr gval :=
  match c with [] => Ok v | nd :: c => do v' <- step v nd ; load_children step v' c end.
Definition none {A} (x : option A) : bool := match x with None => true | Some _ => false end.
Definition set_name (ti : tinfo) (s : bytes) (v : gval) (m : name) : outcome uerr gval :=
  match ti_xmlname ti with
  | None => Ok v
  | Some x =>
      if negb (beq (fi_name x) []) && negb (beq (fi_name x) (local m)) || negb (beq (fi_xmlns x) []) && negb (beq (fi_xmlns x) (space m))
      then Err (UExpected (mkname (fi_xmlns x) (fi_name x)) m)
      else do (v', _) <- update_at ek env s (fi_idx x) v (fun t w => Ok (match t with TName => VName m | _ => w end, tt)) ; Ok v'
  end.
Definition set_data (s : bytes) (f : option finfo) (v : gval) (data : bytes) : outcome uerr gval :=
  match f with
  | None => Ok v
  | Some f => do (v', _) <- update_at ek env s (fi_idx f) v (fun t _ => with_unit (copy_value F t data)) ; Ok v'
  end.
Definition load_struct (read : nreader) (s : bytes) (ti : tinfo) (v : gval) (m : name) (b : list attr) (tx : bool) (c : list node) : outcome uerr gval :=
  let fs := ti_fields ti in
  do v <- set_name ti s v m ;
  do v <- set_attrs F env ek ti s v b ;
  do v <- touch env ek s (first_mode is_data fs) v ;
  if none (first_mode is_comment fs) && none (first_mode is_any fs) && none (first_mode is_inner fs) && (tx || none (first_mode is_data fs)) then
    do v <- load_children (load_child read s fs) v c ;
    set_data s (first_mode is_data fs) v (texts c)
  else OutOfFuel.
Definition load_body (read : nreader) (t : gtype) (v : gval) (nd : node) : outcome uerr gval :=
  match nd with
  | NText _ => OutOfFuel
  | NElem m b tx c =>
      match t with
      | TSlice t' => match v with VList l => do x <- read t' (zero_of env ek t') nd ; Ok (VList (l ++ [x])) | _ => Panic end
      | TString | TBool | TInt _ | TUint _ | TFloat _ | TDuration | TFloatInf => if tx && forallb is_ntext c then copy_value F t (texts c) else OutOfFuel
      | TStruct s => match type_info ek env s with Ok ti => load_struct read s ti v m b tx c | _ => OutOfFuel end
      | _ => OutOfFuel
      end
  end.
Fixpoint load (r : nat) (t : gtype) (v : gval) (nd : node) : outcome uerr gval :=
  match r with
  | O => Err UDepth
  | S r =>
      match t with
      | TPtr t' => do w' <- load_body (load r) t' (match v with VPtr w => w | _ => zero_of env ek t' end) nd ; Ok (VPtr w')
      | _ => load_body (load r) t v nd
      end
  end.

(** *** Tokens *)
Lemma calls_app : forall a d b d', calls d (a ++ b) d' <-> exists d1, calls d a d1 /\ calls d1 b d'.
Proof.
  induction a as [|t a IH]; intros d b d'; cbn [app].
  - split; [intro H; exists d; split; [constructor|auto]|]. intros (d1 & A & B). inversion A; subst. auto.
  - split.
    + intro H. inversion H; subst. apply IH in H5. destruct H5 as (d2 & A & B). exists d2. split; auto. econstructor; eauto.
    + intros (d1 & A & B). inversion A; subst. econstructor; eauto. apply IH. eauto.
Qed.
Lemma merge_close : forall xs acc t ys, is_char t = false -> merge acc (xs ++ t :: ys) = merge acc (xs ++ [t]) ++ merge [] ys.
Proof.
  induction xs as [|x xs IH]; intros acc t ys C; cbn [app].
  - destruct t; cbn [merge is_char] in *; try discriminate; destruct acc; reflexivity.
  - destruct x; cbn [merge]; try apply IH; auto; rewrite (IH [] t ys) by auto; destruct acc; reflexivity.
Qed.
Inductive calm (i : bool) : node -> Prop :=
| Cm_text s : calm i (NText s)
| Cm_elem m b tx c : i = false \/ tx = false \/ forallb is_ntext c = true -> Forall (calm i) c -> calm i (NElem m b tx c).

Definition rest_tokens (cts : list token) (w' : bytes) (m : name) : list token := merge [] (cts ++ [TChar w'; TEnd m]).
Definition handles (i : bool) (K : nat) (step : gval -> node -> outcome uerr gval) (ch : child_fun) (c : list node) : Prop :=
  forall v v' m b tx c0 cts w' d d', In (NElem m b tx c0) c -> spelt i c0 cts -> layout i w' -> (forallb is_ntext c0 = true -> w' = []) ->
    calls d (rest_tokens cts w' m) d' -> (length (rest_tokens cts w' m) < K)%nat -> step v (NElem m b tx c0) = Ok v' -> ch v m b d = Ok (v', d').
Lemma merge_head : forall acc t ts, is_char t = false -> merge acc (t :: ts) = (match acc with [] => [] | _ => [TChar acc] end) ++ t :: merge [] ts.
Proof. intros acc t ts C. destruct t; cbn [merge is_char] in *; try discriminate; destruct acc; reflexivity. Qed.
Lemma content_text : forall k ch v data com d acc ts d', calls d ((match acc with [] => [] | _ => [TChar acc] end) ++ ts) d' ->
  (length ((match acc with [] => [] | _ => [TChar acc] end) ++ ts) < k)%nat -> exists d1 k', calls d1 ts d' /\ (length ts < k')%nat /\ (k' <= k)%nat /\ content_loop k ch v data com d = content_loop k' ch v (data ++ acc) com d1.
Proof.
  intros k ch v data com d acc ts d' C L. destruct acc as [|x acc].
  - exists d, k. rewrite app_nil_r. auto.
  - cbn [app] in C, L. inversion C; subst. destruct k as [|k]; [cbn in L; lia|]. exists d1, k. split; auto. split; [cbn in L; lia|]. split; [lia|]. cbn [content_loop]. rewrite H2. reflexivity.
Qed.
Lemma content_nodes : forall i K step ch c ts, spelt i c ts -> handles i K step ch c -> forall k v v' data com d d' acc w' m, (k <= K)%nat ->
  calls d (merge acc (ts ++ [TChar w'; TEnd m])) d' -> (length (merge acc (ts ++ [TChar w'; TEnd m])) < k)%nat -> load_children step v c = Ok v' ->
  (forall u s, In (NText s) c -> step u (NText s) = Ok u) ->
  exists more d1, content_loop k ch v data com d = Ok (v', data ++ more, com, d1, d') /\ (forallb is_ntext c = true \/ i = false -> more = acc ++ texts c ++ w').
Proof.
  intros i K step ch c ts SP. induction SP as [|s c ts SP IH|w m0 b tx c w0 cts rest ts L1 L2 L3 SP1 _ SP2 IH]; intros H k v v' data com d d' acc w' m KK C L LC ST.
  - cbn [app load_children] in *. injection LC as <-. change (merge acc [TChar w'; TEnd m]) with (merge (acc ++ w') [TEnd m]) in C, L. rewrite merge_head in C, L by reflexivity. cbn [merge] in C, L.
    destruct (content_text k ch v data com d (acc ++ w') [TEnd m] d' C L) as (d1 & k' & C1 & L1 & _ & ->). inversion C1; subst. destruct k' as [|k']; [lia|]. cbn [content_loop]. rewrite H3.
    match goal with X : calls _ [] _ |- _ => inversion X; subst end. eexists (acc ++ w'), _. split; [reflexivity|]. intros _. reflexivity.
  - cbn [app merge load_children] in *. rewrite ST in LC by (left; auto). cbn [bind] in LC.
    destruct (IH (fun v v' m b tx c0 cts w' d d' I => H v v' m b tx c0 cts w' d d' (or_intror I)) k v v' data com d d' (acc ++ s) w' m KK C L LC (fun u s I => ST u s (or_intror I))) as (more & d1 & E & X).
    exists more, d1. split; auto. cbn [forallb texts andb is_ntext]. rewrite <- app_assoc in X. rewrite <- app_assoc. exact X.
  - cbn [load_children] in LC. destruct (step v (NElem m0 b tx c)) as [v1| | |] eqn:ST1; cbn [bind] in LC; try discriminate.
    assert (TS : merge acc ((TChar w :: TStart m0 b :: cts ++ TChar w0 :: TEnd m0 :: ts) ++ [TChar w'; TEnd m]) = (match acc ++ w with [] => [] | _ => [TChar (acc ++ w)] end) ++ TStart m0 b :: rest_tokens cts w0 m0 ++ merge [] (ts ++ [TChar w'; TEnd m])).
    { cbn [app]. match goal with |- merge acc (TChar w :: ?x) = _ => change (merge acc (TChar w :: x)) with (merge (acc ++ w) x) end. rewrite merge_head by reflexivity. f_equal. f_equal. rewrite <- app_assoc. cbn [app]. unfold rest_tokens.
      change (cts ++ TChar w0 :: TEnd m0 :: ts ++ [TChar w'; TEnd m]) with (cts ++ [TChar w0] ++ TEnd m0 :: ts ++ [TChar w'; TEnd m]). rewrite app_assoc, merge_close by reflexivity. rewrite <- app_assoc. reflexivity. }
    rewrite TS in C, L. destruct (content_text k ch v data com d (acc ++ w) _ d' C L) as (d1 & k' & C1 & L1' & KK' & ->). inversion C1; subst.
    match goal with X : calls _ (rest_tokens _ _ _ ++ _) _ |- _ => apply calls_app in X; destruct X as (dm & C2 & C3) end.
    cbn [length] in L1'. rewrite app_length in L1'. destruct k' as [|k']; [lia|]. cbn [content_loop]. match goal with X : next_token d1 = _ |- _ => rewrite X end.
    rewrite (H v v1 m0 b tx c cts w0 _ dm) by (auto; try (left; reflexivity); try lia). cbn [bind].
    destruct (IH (fun v v' m b tx c0 cts w' d d' I => H v v' m b tx c0 cts w' d d' (or_intror I)) k' v1 v' (data ++ acc ++ w) com dm d' [] w' m) as (more & d3 & E & X); auto; try lia; [intros u s I; apply ST; right; auto|].
    exists ((acc ++ w) ++ more), d3. split; [rewrite E, <- !app_assoc; reflexivity|]. intros [Y|Y]; [cbn in Y; discriminate|]. subst i. cbn in L1. subst w. cbn [texts]. rewrite X by auto. rewrite app_nil_r. reflexivity.
Qed.

Lemma update_read : forall s idx v nd (read : nreader) (rd : gtype -> gval -> outcome uerr (gval * dstate)) v' d',
  update_at ek env s idx v (fun t w => with_unit (read t w nd)) = Ok (v', tt) -> (forall t w x, read t w nd = Ok x -> rd t w = Ok (x, d')) -> update_at ek env s idx v rd = Ok (v', d').
Proof.
  intros s idx v nd read rd v' d' U H. destruct (update_peek _ _ _ _ _ _ _ _ _ _ U) as (t & w & w' & P & E & ->). unfold with_unit in E. destruct (read t w nd) as [x| | |] eqn:R; try discriminate. cbn [bind] in E. injection E as ->.
  eapply update_poke; eauto.
Qed.
Lemma unmarshal_load : forall i K r t v m b tx c v' cts w' d d', load r t v (NElem m b tx c) = Ok v' -> calm i (NElem m b tx c) -> spelt i c cts -> layout i w' -> (forallb is_ntext c = true -> w' = []) ->
  calls d (rest_tokens cts w' m) d' -> (length (rest_tokens cts w' m) < K)%nat -> unmarshal F env ek r K t v m b d = Ok (v', d').
Proof.
  intros i K. induction r as [|r IH]; intros t v m b tx c v' cts w' d d' LD CM SP LW TW C L; [discriminate|].
  assert (BODY : forall t v v', load_body (load r) t v (NElem m b tx c) = Ok v' -> unmarshal_body F env ek (unmarshal F env ek r K) K t v m b d = Ok (v', d')).
  { clear LD t v v'. intros t v v' LB. inversion CM as [|? ? ? ? CT CC]; subst.
    assert (SIMPLE : forall (x : outcome uerr gval), (if tx && forallb is_ntext c then x else OutOfFuel) = Ok v' -> exists d1, content_loop K (skip_child K) v [] [] d = Ok (v, texts c, [], d1, d') /\ x = Ok v').
    { intros x X. destruct (tx && forallb is_ntext c) eqn:G; [|discriminate]. apply andb_true_iff in G. destruct G as [_ G].
      assert (LC : load_children (fun v _ => Ok v) v c = Ok v) by (clear; induction c; cbn; auto).
      assert (HN : handles i K (fun v _ => Ok v) (skip_child K) c).
      { intros v0 v0' m0 b0 tx0 c0 cts0 w0 d0 d0' I. rewrite forallb_forall in G. specialize (G _ I). discriminate. }
      destruct (content_nodes i K (fun v _ => Ok v) (skip_child K) c cts SP HN K v v [] [] d d' [] w' m (le_n _) C L LC (fun u s _ => eq_refl)) as (more & d1 & E & M).
      exists d1. split; auto. rewrite E, M, (TW G) by auto. cbn [app]. rewrite app_nil_r. reflexivity. }
    destruct t; cbn [load_body unmarshal_body] in *; try discriminate; try (destruct (SIMPLE _ LB) as (d1 & E & X); rewrite E; cbn [bind]; rewrite X; reflexivity).
    - destruct v; try discriminate. destruct (load r t (zero_of env ek t) (NElem m b tx c)) as [x| | |] eqn:LX; cbn [bind] in LB; try discriminate. injection LB as <-.
      rewrite (IH _ _ _ _ _ _ _ _ _ _ _ LX CM SP LW TW C L). reflexivity.
    - destruct (type_info ek env s) as [ti| | |]; try discriminate. unfold load_struct, set_name in LB.
      match type of LB with bind ?x _ = _ => destruct x as [v1| | |] eqn:E1; cbn [bind] in LB; try discriminate; cbn [bind] end.
      destruct (set_attrs F env ek ti s v1 b) as [v2| | |]; cbn [bind] in LB; try discriminate; cbn [bind]. destruct (touch env ek s (first_mode is_data (ti_fields ti)) v2) as [v3| | |]; cbn [bind] in LB; try discriminate; cbn [bind].
      destruct (first_mode is_comment (ti_fields ti)); [discriminate|]. destruct (first_mode is_any (ti_fields ti)); [discriminate|]. destruct (first_mode is_inner (ti_fields ti)); [discriminate|]. cbn [touch bind none andb] in *.
      destruct (tx || none (first_mode is_data (ti_fields ti))) eqn:G; [|discriminate].
      destruct (load_children (load_child (load r) s (ti_fields ti)) v3 c) as [v4| | |] eqn:LC; cbn [bind] in LB; try discriminate.
      match goal with |- bind (content_loop K ?f _ _ _ _) _ = _ => set (ch := f) end.
      assert (HN : handles i K (load_child (load r) s (ti_fields ti)) ch c).
      { intros v0 v0' m0 b0 tx0 c0 cts0 w0 d0 d0' I SP0 LW0 TW0 C0 L0 ST. unfold load_child in ST. unfold ch. unfold path_bound. cbn [path_child]. destruct (find_path (ti_fields ti) [] m0) as [f| |]; try discriminate.
        destruct (update_at ek env s (fi_idx f) v0 _) as [[v5 []]| | |] eqn:U; cbn [bind] in ST; try discriminate. injection ST as <-.
        rewrite (update_read s (fi_idx f) v0 _ (load r) (fun t w => unmarshal F env ek r K t w m0 b0 d0) v5 d0' U); [reflexivity|]. intros t0 w1 x LX. eapply IH; eauto. eapply Forall_forall in CC; eauto. }
      destruct (content_nodes i K _ ch c cts SP HN K v3 v4 [] [] d d' [] w' m (le_n _) C L LC (fun u s _ => eq_refl)) as (more & d1 & E & M). rewrite E. cbn [bind app].
      unfold set_data in LB. destruct (first_mode is_data (ti_fields ti)) as [f|] eqn:SD; [|injection LB as <-; reflexivity]. cbn [none] in G. rewrite orb_false_r in G. subst tx.
      assert (MD : more = texts c).
      { destruct CT as [CT|[CT|CT]]; [| discriminate |]; rewrite M by auto; cbn [app]; [subst i; cbn in LW; subst w'; apply app_nil_r|rewrite TW by auto; apply app_nil_r]. }
      rewrite MD. destruct (update_at ek env s (fi_idx f) v4 _) as [[v5 u]| | |]; cbn [bind] in *; try discriminate. injection LB as <-. reflexivity. }
  destruct t; cbn [load unmarshal] in *; try (apply BODY; exact LD).
  destruct (load_body (load r) t _ (NElem m b tx c)) as [x| | |] eqn:LB; cbn [bind] in LD; try discriminate. injection LD as <-. rewrite (BODY _ _ _ LB). reflexivity.
Qed.
End Load.
