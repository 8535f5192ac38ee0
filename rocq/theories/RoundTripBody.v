(** The content of an element is read as it was written. *)
From Coq Require Import String.
From Coq Require Import ZArith List Bool Lia ZifyBool ZifyNat SpecFloat.
From Verif Require Import Base Utf8 NameTables Lexer Escape EscapeSpec Printer EncoderSpec Decoder GoType TypeInfo DecoderProofs Simple ValueSpec Marshal Unmarshal Io MarshalProofs UnmarshalProofs PropertiesMarshal NsSpec NsProofs NsTags Plan PlanText Lens Load LeafProofs RoundTripSpec RoundTripCheck RoundTripParts RoundTripExact RoundTripAttrs.
Import ListNotations.
Open Scope Z_scope.

Lemma Forall2_flat : forall {A B C} (R : B -> C -> Prop) (key : A -> list nat) (P : A -> list B) fs c, NoDup (map key fs) -> Forall2 R (flat_map P fs) c ->
  exists h, c = flat_map h fs /\ forall f, In f fs -> Forall2 R (P f) (h f).
Proof.
  induction fs as [|f fs IH]; intros c ND H.
  - inversion H; subst. exists (fun _ => []). split; [reflexivity|]. intros f [].
  - cbn [flat_map] in H. apply Forall2_app_inv_l in H. destruct H as (c1 & c2 & H1 & H2 & ->). inversion ND as [|? ? NI ND']; subst. destruct (IH c2 ND' H2) as (h & -> & HF).
    exists (fun g => if nat_eqb_list (key g) (key f) then c1 else h g). assert (E : forall g, In g fs -> (if nat_eqb_list (key g) (key f) then c1 else h g) = h g).
    { intros g G. destruct (nat_eqb_list (key g) (key f)) eqn:E; auto. apply nat_eqb_list_eq in E. exfalso. apply NI. rewrite <- E. apply in_map. exact G. }
    split.
    + cbn [flat_map]. rewrite nat_eqb_list_refl. f_equal. clear - E. induction fs as [|g fs IH]; [reflexivity|]. cbn [flat_map]. rewrite E by (left; auto). f_equal. apply IH. intros g' G. apply E. right. exact G.
    + intros g [->|G]; [rewrite nat_eqb_list_refl; exact H1|]. rewrite E by exact G. auto.
Qed.
Lemma Forall2_none : forall {A B} (R : A -> B -> Prop) c, Forall2 R [] c -> c = [].
Proof. intros A B R c H. inversion H. reflexivity. Qed.
Lemma Forall2_one : forall {A B} (R : A -> B -> Prop) x c, Forall2 R [x] c -> exists y, c = [y] /\ R x y.
Proof. intros A B R x c H. inversion H as [|? y ? r HD HT]; subst. inversion HT; subst. eauto. Qed.
Lemma texts_app : forall a b, texts (a ++ b) = texts a ++ texts b.
Proof. induction a as [|[s|m b0 tx c] a IH]; intros b; cbn [app texts]; [reflexivity| |apply IH]. rewrite IH, app_assoc. reflexivity. Qed.

Section Body.
Variables (F : floats) (env : tenv) (ek : nat) (pfx : bytes -> bytes) (known : list bytes).
Hypothesis EO : env_ok ek env.
Let ZERO : forall s, wt env (TStruct s) (zero ek env (TStruct s)) = true := eo_zero _ _ EO.

(** *** Types are kept *)
Lemma update_wt : forall A (f : gtype -> gval -> outcome uerr (gval * A)) idx s v v' a, wt env (TStruct s) v = true -> (forall t w w' a, wt env t w = true -> f t w = Ok (w', a) -> wt env t w' = true) ->
  update_at ek env s idx v f = Ok (v', a) -> wt env (TStruct s) v' = true.
Proof.
  intros A f idx s v v' a W H U. apply update_peek in U. destruct U as (t & w & w' & P & E & ->). destruct (peek_wt env ek ZERO idx s v t w W P) as [W' _]. eapply poke_wt; eauto.
Qed.
Lemma copy_wt : forall t s w, copy_value F t s = Ok w -> wt env t w = true.
Proof.
  intros t s w H. destruct (text_readable t) eqn:R.
  - pose proof (copy_value_ok F env t s R) as Q. rewrite H in Q. exact Q.
  - destruct t as [| | | | | | |t|t| | |]; try discriminate R; [|discriminate H]. destruct t; try discriminate R. discriminate H.
Qed.
Lemma load_wt : forall r t w nd w', wt env t w = true -> load F env ek r t w nd = Ok w' -> wt env t w' = true.
Proof.
  induction r as [|r IH]; intros t w nd w' W H; [discriminate|].
  assert (BODY : forall t w w', wt env t w = true -> load_body F env ek (load F env ek r) t w nd = Ok w' -> wt env t w' = true).
  { clear t w w' W H. intros t w w' W H. destruct nd as [x|m b tx c]; [discriminate|]. cbn [load_body] in H.
    assert (SIMPLE : (if tx && forallb is_ntext c then copy_value F t (texts c) else OutOfFuel) = Ok w' -> wt env t w' = true) by (destruct (tx && forallb is_ntext c); [apply copy_wt|discriminate]).
    destruct t as [| | | | | | |t|t|s| |]; try (apply SIMPLE; exact H); try discriminate.
    - destruct w as [| | | | | |l| | |]; try discriminate. destruct (load F env ek r t (zero_of env ek t) (NElem m b tx c)) as [x| | |] eqn:L; try discriminate. cbn [bind] in H. injection H as <-. cbn [wt]. apply forallb_snoc; [exact W|]. eapply IH; [apply wt_zero; exact ZERO|exact L].
    - clear SIMPLE. destruct (type_info ek env s) as [ti| | |]; try discriminate. unfold load_struct in H. destruct (set_name env ek ti s w m) as [v1| | |] eqn:E1; try discriminate. cbn [bind] in H.
      assert (W1 : wt env (TStruct s) v1 = true).
      { unfold set_name in E1. destruct (ti_xmlname ti) as [x|]; [|injection E1 as <-; exact W]. destruct (_ || _); [discriminate|]. destruct (update_at _ _ _ _ _ _) as [[v' []]| | |] eqn:U; try discriminate. injection E1 as <-. eapply update_wt; [exact W| |exact U]. intros t w0 w1 a W0 X. injection X as <- _. destruct t; auto. }
      destruct (set_attrs F env ek ti s v1 b) as [v2| | |] eqn:E2; try discriminate. cbn [bind] in H.
      assert (W2 : wt env (TStruct s) v2 = true).
      { clear - W1 E2 ZERO. revert v1 W1 E2. induction b as [|a b IHb]; intros v1 W1 E2; cbn [set_attrs] in E2; [injection E2 as <-; exact W1|]. destruct (attr_field ti (aname a)); [|eauto]. destruct (update_at _ _ _ _ _ _) as [[v' []]| | |] eqn:U; try discriminate. cbn [bind] in E2. eapply IHb; [|exact E2]. eapply update_wt; [exact W1| |exact U].
        intros t w0 w1 u W0 X. unfold with_unit in X. destruct (unmarshal_attr F env ek t w0 a) as [y| | |] eqn:UA; try discriminate. injection X as <- _. eapply attr_wt; eauto. }
      destruct (touch env ek s (first_mode is_data (ti_fields ti)) v2) as [v3| | |] eqn:E3; try discriminate. cbn [bind] in H.
      assert (W3 : wt env (TStruct s) v3 = true).
      { unfold touch in E3. destruct (first_mode is_data (ti_fields ti)); [|injection E3 as <-; exact W2]. destruct (update_at _ _ _ _ _ _) as [[v' []]| | |] eqn:U; try discriminate. injection E3 as <-. eapply update_wt; [exact W2| |exact U]. intros t w0 w1 a W0 X. injection X as <- _. exact W0. }
      destruct (none _ && none _ && none _ && _); [|discriminate]. destruct (load_children (load_child env ek (load F env ek r) s (ti_fields ti)) v3 c) as [v4| | |] eqn:E4; try discriminate. cbn [bind] in H.
      assert (W4 : wt env (TStruct s) v4 = true).
      { clear - W3 E4 IH ZERO. revert v3 W3 E4. induction c as [|nd c IHc]; intros v3 W3 E4; cbn [load_children] in E4; [injection E4 as <-; exact W3|]. destruct (load_child env ek (load F env ek r) s (ti_fields ti) v3 nd) as [v'| | |] eqn:L; try discriminate. cbn [bind] in E4. eapply IHc; [|exact E4].
        unfold load_child in L. destruct nd as [x|m b tx c']; [injection L as <-; exact W3|]. destruct (find_path _ _ _); try discriminate. destruct (update_at _ _ _ _ _ _) as [[v'' []]| | |] eqn:U; try discriminate. injection L as <-. eapply update_wt; [exact W3| |exact U].
        intros t w0 w1 u W0 X. unfold with_unit in X. destruct (load F env ek r t w0 (NElem m b tx c')) as [y| | |] eqn:UA; try discriminate. injection X as <- _. eapply IH; eauto. }
      unfold set_data in H. destruct (first_mode is_data (ti_fields ti)); [|injection H as <-; exact W4]. destruct (update_at _ _ _ _ _ _) as [[v'' []]| | |] eqn:U; try discriminate. injection H as <-. eapply update_wt; [exact W4| |exact U].
      intros t w0 w1 u W0 X. unfold with_unit in X. destruct (copy_value F t (texts c)) as [y| | |] eqn:UA; try discriminate. injection X as <- _. eapply copy_wt; eauto. }
  cbn [load] in H. destruct t as [| | | | | | |t|t|s| |]; try (eapply BODY; eauto; fail).
  destruct (load_body F env ek (load F env ek r) t _ nd) as [x| | |] eqn:L; try discriminate. cbn [bind] in H. injection H as <-. cbn [wt]. eapply BODY; [|exact L]. destruct w; try discriminate W; [apply wt_zero; exact ZERO|exact W].
Qed.

Hypothesis KNOWN : forall u, In u known -> usable (pfx u) /\ ordinary u.
Hypothesis ONLY : forall u, usable (pfx u) -> In u known.
Variables (rk : bytes -> nat) (i : bool).
Hypothesis RANK : ranked ek env rk.

(** *** The elements of one field *)
Definition named (f : finfo) (nd : node) : Prop := match nd with NElem m _ _ _ => local m = fi_name f /\ (fi_xmlns f <> [] -> space m = fi_xmlns f) | NText _ => False end.
Definition load_feed (r : nat) := feed node (load F env ek r).
Definition back (k : nat) (d : option bytes) (t : gtype) (v : gval) (f : finfo) : Prop :=
  exists ps, plan_value F env ek k t v (Some f) = Ok ps /\ Forall (fits pfx d) ps /\ (absent v -> ps = []) /\
    forall nds, Forall2 (drawn pfx d) ps nds -> Forall (calm i) nds /\ Forall (named f) nds /\
      forall r w0, (needs rk t <= r)%nat -> blank env t w0 -> exists w', load_feed r t w0 nds = Ok w' /\ forall c, arrives env known c d t v w'.

Section Struct.
Variables (s : bytes) (ti : tinfo).
Hypothesis TI : type_info ek env s = Ok ti.
Hypothesis OK : round_ok env ek pfx known s ti = true.
Let FACTS := field_facts env ek pfx known s ti OK.
Lemma element_fields : forall f fd, role env ek pfx known s ti f fd -> g_element (fi_flags f) = true -> mode_eqb (fi_flags f) m_element = true /\ elem_ok env ek pfx known s ti f fd = true.
Proof. intros f fd [M A|M A|M A|M A] G; auto; apply mode_fields in M; decompose [and] M; cbn in *; congruence. Qed.
Lemma separate_sym : forall f g, separate f g = true -> separate g f = true.
Proof.
  intros f g H. unfold separate in *. rewrite (beq_sym (fi_name g) (fi_name f)), (beq_sym (fi_xmlns g) (fi_xmlns f)). destruct (g_element (fi_flags f)), (g_element (fi_flags g)), (beq (fi_name f) (fi_name g)), (beq (fi_xmlns f) []), (beq (fi_xmlns g) []), (beq (fi_xmlns f) (fi_xmlns g)); auto.
Qed.
Lemma find_named : forall f m b tx c, In f (ti_fields ti) -> g_element (fi_flags f) = true -> named f (NElem m b tx c) -> find_path (ti_fields ti) [] m = Field f.
Proof.
  intros f m b tx c I G (N1 & N2).
  assert (SEP : forall g, In g (ti_fields ti) -> g_element (fi_flags g) = true -> fi_name g = local m -> fi_xmlns g = [] \/ fi_xmlns g = space m -> g = f).
  { intros g J GE NM NS. destruct (ok_parts env ek pfx known s ti OK) as (_ & _ & SP & _). destruct (forall_pairs separate (ti_fields ti) separate_sym SP g f J I) as [X|X]; auto. exfalso. unfold separate in X. rewrite G, GE in X. cbn [negb orb] in X. rewrite NM, N1, beq_refl in X. cbn [negb orb] in X.
    apply andb_true_iff in X. destruct X as [X X3]. apply andb_true_iff in X. destruct X as [X1 X2]. apply negb_true_iff in X1, X2, X3. apply beq_neq in X1, X2, X3. destruct NS as [NS|NS]; [contradiction|]. rewrite N2 in NS by auto. contradiction. }
  assert (PAR : forall g, In g (ti_fields ti) -> fi_parents g = []) by (intros g J; destruct (FACTS g J) as (fd & _ & _ & X & _); exact X).
  revert I SEP PAR. clear - G N1 N2. generalize (ti_fields ti) as fs. induction fs as [|g fs IH]; intros I SEP PAR; [destruct I|]. cbn [find_path]. rewrite (PAR g) by (left; auto). cbn [is_pre length]. rewrite Nat.eqb_refl.
  assert (TAIL : In f fs -> find_path fs [] m = Field f) by (intro J; apply IH; auto; [intros h H; apply SEP; right; auto|intros h H; apply PAR; right; auto]).
  destruct (negb (g_element (fi_flags g)) || negb true || negb (beq (fi_xmlns g) []) && negb (beq (fi_xmlns g) (space m))) eqn:C.
  - apply TAIL. destruct I as [->|I]; auto. exfalso. rewrite G in C. cbn [negb orb] in C. apply andb_true_iff in C. destruct C as [C1 C2]. apply negb_true_iff in C1, C2. apply beq_neq in C1, C2. rewrite N2 in C2 by auto. contradiction.
  - destruct (beq (fi_name g) (local m)) eqn:B.
    + f_equal. apply orb_false_iff in C. destruct C as [C C2]. apply orb_false_iff in C. destruct C as [C1 _]. apply negb_false_iff in C1. apply beq_eq in B. apply SEP; auto; [left; auto|]. apply andb_false_iff in C2. destruct C2 as [C2|C2]; apply negb_false_iff in C2; apply beq_eq in C2; auto.
    + apply TAIL. destruct I as [->|I]; auto. apply beq_neq in B. congruence.
Qed.
Definition n_route (nd : node) : option finfo := match nd with NText _ => None | NElem m _ _ _ => match find_path (ti_fields ti) [] m with Field f => Some f | _ => None end end.
Lemma find_path_in : forall fs ps m f, find_path fs ps m = Field f -> In f fs /\ g_element (fi_flags f) = true.
Proof.
  induction fs as [|g fs IH]; intros ps m f H; cbn [find_path] in H; [discriminate|]. assert (K : find_path fs ps m = Field f -> In f (g :: fs) /\ g_element (fi_flags f) = true) by (intro X; apply IH in X; destruct X; split; [right|]; auto).
  destruct (negb (g_element (fi_flags g))) eqn:G; [cbn [orb] in H; auto|]. apply negb_false_iff in G. destruct (_ || _); auto. destruct (_ =? _)%nat; [destruct (beq _ _); [injection H as <-; split; [left|]; auto|auto]|]. destruct (beq _ _); [discriminate|auto].
Qed.
Lemma n_route_in : forall nd f, n_route nd = Some f -> In f (ti_fields ti) /\ g_element (fi_flags f) = true.
Proof. intros [x|m b tx c] f H; [discriminate|]. cbn [n_route] in H. destruct (find_path (ti_fields ti) [] m) as [|g|] eqn:E; try discriminate. injection H as ->. eapply find_path_in; eauto. Qed.
Lemma children_run : forall read c v1, (forall nd, In nd c -> is_ntext nd = true \/ n_route nd <> None) -> load_children (load_child env ek read s (ti_fields ti)) v1 c = run env ek node s n_route read v1 c.
Proof.
  induction c as [|nd c IH]; intros v1 H; [reflexivity|]. cbn [load_children run]. assert (T : forall v, load_children (load_child env ek read s (ti_fields ti)) v c = run env ek node s n_route read v c) by (intro; apply IH; intros x X; apply H; right; auto).
  destruct nd as [x|m b tx c']; [cbn [load_child bind n_route]; apply T|]. destruct (H (NElem m b tx c') (or_introl eq_refl)) as [X|X]; [discriminate|]. cbn [load_child n_route] in *. destruct (find_path (ti_fields ti) [] m) as [|g|]; try congruence. destruct (update_at _ _ _ _ _ _) as [[v' []]| | |]; cbn [bind]; auto.
Qed.

Section Value.
Variables (d : option bytes) (l : bytes) (v : gval) (k : nat).
Hypothesis CV : clean F env i d l (TStruct s) v.
Hypothesis WV : wt env (TStruct s) v = true.
Hypothesis CHILD : forall f fd w, In f (ti_fields ti) -> mode_eqb (fi_flags f) m_element = true -> decl_at env s (fi_idx f) = Some fd -> peek env ek s (fi_idx f) v = Some (fd_type fd, w) -> back k (next_space d (own_of env s v)) (fd_type fd) w f.
Definition field_plan (f : finfo) : list plan :=
  if g_attr (fi_flags f) then []
  else match @field_at eerr env s (fi_idx f) v true with
       | Ok (Some (t, w, _)) => if mode_eqb (fi_flags f) m_chardata then [PText (EText false) (chardata_text F t w)] else match plan_value F env ek k t w (Some f) with Ok p => p | _ => [] end
       | _ => []
       end.
Let AT := at_field F env ek EO s ti i d l v CV WV.
Inductive planned (f : finfo) (fd : fdecl) (w : gval) : Prop :=
| Pl_attr : g_attr (fi_flags f) = true -> field_plan f = [] -> planned f fd w
| Pl_data x : mode_eqb (fi_flags f) m_chardata = true -> data_ok ti f fd = true -> fd_type fd = TString -> w = VStr x -> xml_text x -> field_plan f = [PText (EText false) x] -> planned f fd w
| Pl_elem ps : mode_eqb (fi_flags f) m_element = true -> elem_ok env ek pfx known s ti f fd = true -> plan_value F env ek k (fd_type fd) w (Some f) = Ok ps -> field_plan f = ps -> planned f fd w.

Definition step_plan (f : finfo) : outcome eerr (list plan) :=
  if g_attr (fi_flags f) then Ok []
  else do x <- field_at env s (fi_idx f) v true ;
       match x with
       | None => Ok []
       | Some (t, w, _) =>
           match fi_parents f with
           | [] => if mode_eqb (fi_flags f) m_chardata then Ok [PText (EText false) (chardata_text F t w)]
                   else if mode_eqb (fi_flags f) m_element then plan_value F env ek k t w (Some f) else OutOfFuel
           | _ => OutOfFuel
           end
       end.
Lemma planned_all : forall f, In f (ti_fields ti) -> exists fd w, decl_at env s (fi_idx f) = Some fd /\ peek env ek s (fi_idx f) v = Some (fd_type fd, w) /\ planned f fd w /\ step_plan f = Ok (field_plan f).
Proof.
  intros f I. destruct (FACTS f I) as (fd & D & P & PA & _ & FL & R). destruct (AT f fd I D P) as (w & FA & PK & W & _ & C & _). exists fd, w. split; auto. split; auto. unfold step_plan, field_plan. destruct R as [M A|M A|M A|M A].
  - pose proof (mode_fields _ _ M) as X. decompose [and] X. cbn in *. split; [apply Pl_attr; auto; unfold field_plan|]; replace (g_attr (fi_flags f)) with true by congruence; reflexivity.
  - pose proof (mode_fields _ _ M) as X. decompose [and] X. cbn in *. split; [apply Pl_attr; auto; unfold field_plan|]; replace (g_attr (fi_flags f)) with true by congruence; reflexivity.
  - pose proof (mode_fields _ _ M) as X. decompose [and] X. cbn in *. replace (g_attr (fi_flags f)) with false by congruence. rewrite !FA, M, PA. cbn [bind]. split; [|reflexivity]. pose proof A as A'. unfold data_ok in A. apply andb_true_iff in A. destruct A as [A _]. destruct (fd_type fd) eqn:T; try discriminate. destruct w; try discriminate W. eapply Pl_data; eauto; [].
    unfold field_plan. replace (g_attr (fi_flags f)) with false by congruence. rewrite FA, M. reflexivity.
  - pose proof (mode_fields _ _ M) as X. decompose [and] X. cbn in *. replace (g_attr (fi_flags f)) with false by congruence. rewrite !FA, PA. cbn [bind]. assert (NC : mode_eqb (fi_flags f) m_chardata = false) by (destruct (mode_eqb (fi_flags f) m_chardata) eqn:Y; auto; apply mode_fields in Y; decompose [and] Y; cbn in *; congruence). rewrite NC, M.
    destruct (CHILD f fd w I M D PK) as (ps & PV & _). rewrite PV. split; [|reflexivity]. eapply Pl_elem; eauto. unfold field_plan. replace (g_attr (fi_flags f)) with false by congruence. rewrite FA, NC, PV. reflexivity.
Qed.
Lemma plan_content : plan_fields F env (fun t w f => plan_value F env ek k t w (Some f)) s (ti_fields ti) v = Ok (flat_map field_plan (ti_fields ti)).
Proof.
  assert (H : forall fs, incl fs (ti_fields ti) -> plan_fields F env (fun t w f => plan_value F env ek k t w (Some f)) s fs v = Ok (flat_map field_plan fs)); [|apply H; apply incl_refl].
  induction fs as [|f fs IH]; intros IN; [reflexivity|]. destruct (planned_all f (IN f (or_introl eq_refl))) as (fd & w & _ & _ & _ & ST). specialize (IH (fun x X => IN x (or_intror X))). cbn [plan_fields flat_map]. unfold step_plan in ST. destruct (g_attr (fi_flags f)); [injection ST as <-; rewrite IH; reflexivity|].
  destruct (field_at env s (fi_idx f) v true) as [[[[t w'] ad]|]| | |]; cbn [bind] in *; try discriminate; [|injection ST as <-; rewrite IH; reflexivity]. rewrite ST. cbn [bind]. rewrite IH. reflexivity.
Qed.
Lemma plan_fits : Forall (fits pfx (next_space d (own_of env s v))) (flat_map field_plan (ti_fields ti)).
Proof.
  apply Forall_forall. intros p X. apply in_flat_map in X. destruct X as (f & I & X). destruct (planned_all f I) as (fd & w & D & PK & [G E|x M A T -> XT E|ps M A PV E] & _); rewrite E in X.
  - destruct X.
  - destruct X as [<-|[]]. constructor. exact XT.
  - destruct (CHILD f fd w I M D PK) as (ps' & PV' & FT & _). rewrite PV in PV'. injection PV' as <-. rewrite Forall_forall in FT. auto.
Qed.
Lemma idx_nodup : NoDup (map fi_idx (ti_fields ti)).
Proof.
  assert (H : forall fs, NoDup fs -> incl fs (ti_fields ti) -> NoDup (map fi_idx fs)); [|apply H; [exact (fields_nodup env ek pfx known s ti OK)|apply incl_refl]].
  induction fs as [|f fs IH]; intros ND IN; [constructor|]. inversion ND as [|? ? NI ND']; subst. cbn [map]. constructor; [|apply IH; auto; intros x X; apply IN; right; auto]. intro X. apply in_map_iff in X. destruct X as (g & E & G).
  assert (g = f). { eapply same_idx; eauto; eapply in_family; apply IN; [right|left]; auto. } subst g. contradiction.
Qed.
Lemma data_unique : forall f g fd gd, In f (ti_fields ti) -> In g (ti_fields ti) -> data_ok ti f fd = true -> data_ok ti g gd = true -> f = g.
Proof.
  intros f g fd gd I J A B. unfold data_ok in A, B. apply andb_true_iff in A, B. destruct A as [_ A], B as [_ B]. destruct (first_mode is_data (ti_fields ti)) as [h|]; [|discriminate]. apply nat_eqb_list_eq in A, B. eapply same_idx; eauto; try (eapply in_family; eauto); congruence.
Qed.
Lemma content_back : forall c', Forall2 (drawn pfx (next_space d (own_of env s v))) (flat_map field_plan (ti_fields ti)) c' ->
  (i = false \/ takes_text ti = false \/ forallb is_ntext c' = true) /\ Forall (calm i) c' /\
  (forall f fd x, In f (ti_fields ti) -> mode_eqb (fi_flags f) m_chardata = true -> decl_at env s (fi_idx f) = Some fd -> peek env ek s (fi_idx f) v = Some (fd_type fd, VStr x) -> texts c' = x) /\
  forall r v1, (rk s <= r)%nat -> wt env (TStruct s) v1 = true ->
    (forall f fd, In f (ti_fields ti) -> g_attr (fi_flags f) = false -> decl_at env s (fi_idx f) = Some fd -> exists w, peek env ek s (fi_idx f) v1 = Some (fd_type fd, w) /\ blank env (fd_type fd) w) ->
    exists v2, load_children (load_child env ek (load F env ek r) s (ti_fields ti)) v1 c' = Ok v2 /\ wt env (TStruct s) v2 = true /\
      (forall f, In f (ti_fields ti) -> mode_eqb (fi_flags f) m_element = true -> exists t w w', peek env ek s (fi_idx f) v = Some (t, w) /\ peek env ek s (fi_idx f) v2 = Some (t, w') /\ forall c, arrives env known c (next_space d (own_of env s v)) t w w') /\
      (forall f, In f (ti_fields ti) -> mode_eqb (fi_flags f) m_element = false -> peek env ek s (fi_idx f) v2 = peek env ek s (fi_idx f) v1) /\
      (forall f, In f (ti_fields ti) -> alive env s (fi_idx f) v1 -> alive env s (fi_idx f) v2) /\
      (forall f, (forall g, In g (ti_fields ti) -> apart (fi_idx g) (fi_idx f) = true) -> peek env ek s (fi_idx f) v2 = peek env ek s (fi_idx f) v1).
Proof.
  intros c' DR. destruct (Forall2_flat _ fi_idx field_plan (ti_fields ti) c' idx_nodup DR) as (h & -> & HF).
  assert (EL : forall f fd w ps, In f (ti_fields ti) -> decl_at env s (fi_idx f) = Some fd -> peek env ek s (fi_idx f) v = Some (fd_type fd, w) -> mode_eqb (fi_flags f) m_element = true -> plan_value F env ek k (fd_type fd) w (Some f) = Ok ps -> field_plan f = ps ->
     (absent w -> h f = []) /\ Forall (calm i) (h f) /\ Forall (named f) (h f) /\ forall r w0, (needs rk (fd_type fd) <= r)%nat -> blank env (fd_type fd) w0 -> exists w', load_feed r (fd_type fd) w0 (h f) = Ok w' /\ forall c, arrives env known c (next_space d (own_of env s v)) (fd_type fd) w w').
  { intros f fd w ps I D PK M PV E. destruct (CHILD f fd w I M D PK) as (ps' & PV' & _ & AB & ND). rewrite PV in PV'. injection PV' as <-. specialize (HF f I). rewrite E in HF. destruct (ND (h f) HF) as (N1 & N2 & N3). split; auto. intro X. rewrite (AB X) in HF. apply Forall2_none in HF. exact HF. }
  assert (ND : forall f nd, In f (ti_fields ti) -> In nd (h f) -> (is_ntext nd = true /\ mode_eqb (fi_flags f) m_chardata = true) \/ (n_route nd = Some f /\ is_ntext nd = false /\ mode_eqb (fi_flags f) m_element = true)).
  { intros f nd I X. destruct (planned_all f I) as (fd & w & D & PK & [G E|x M A T -> XT E|ps M A PV E] & _).
    - specialize (HF f I). rewrite E in HF. apply Forall2_none in HF. rewrite HF in X. destruct X.
    - specialize (HF f I). rewrite E in HF. apply Forall2_one in HF. destruct HF as (y & HH & HD). inversion HD; subst. rewrite HH in X. destruct X as [<-|[]]. left. auto.
    - destruct (EL f fd w ps I D PK M PV E) as (_ & _ & NM & _). rewrite Forall_forall in NM. specialize (NM nd X). right. destruct nd as [y|m b tx c]; [destruct NM|]. cbn [n_route]. rewrite (find_named f m b tx c I); auto. apply mode_fields in M. decompose [and] M. auto. }
  split; [|split; [|split]].
  - destruct (bool_dec i false) as [EI|EI]; auto. apply not_false_iff_true in EI. right. destruct (takes_text ti) eqn:TT; auto. right. apply forallb_forall. intros nd X. apply in_flat_map in X. destruct X as (f & I & X). destruct (planned_all f I) as (fd & w & D & PK & PL & _). destruct (ND f nd I X) as [[Y _]|(_ & _ & M)]; auto. exfalso.
    destruct PL as [G E|x M' A T -> XT E|ps M' A PV E]; [apply mode_fields in M; decompose [and] M; cbn in *; congruence|apply mode_fields in M, M'; decompose [and] M; decompose [and] M'; cbn in *; congruence|].
    destruct (EL f fd w ps I D PK M PV E) as (AB & _). rewrite AB in X; [destruct X|]. unfold elem_ok in A. apply andb_true_iff in A. destruct A as [_ A]. unfold takes_text in TT. destruct (first_mode is_data (ti_fields ti)) as [g|]; [|discriminate]. cbn [none orb] in A. rewrite !andb_true_iff in A. destruct A as [[A1 A2] A3].
    destruct (FACTS f I) as (fd' & D' & P & _). rewrite D in D'. injection D' as <-. destruct (AT f fd I D P) as (w' & _ & PK' & _ & _ & _ & _ & s' & own & FK & DIR). rewrite PK in PK'. injection PK' as <-. unfold direct in A1. destruct (fi_idx f) as [|x [|]]; try discriminate A1. destruct DIR as (-> & _); [eauto|]. destruct FK as (_ & _ & FK & _). auto.
  - apply Forall_forall. intros nd X. apply in_flat_map in X. destruct X as (f & I & X). destruct (ND f nd I X) as [[Y _]|(_ & _ & M)]; [destruct nd; [constructor|discriminate]|]. destruct (planned_all f I) as (fd & w & D & PK & [G E|x M' A T -> XT E|ps M' A PV E] & _); [apply mode_fields in M; decompose [and] M; cbn in *; congruence|apply mode_fields in M, M'; decompose [and] M; decompose [and] M'; cbn in *; congruence|].
    destruct (EL f fd w ps I D PK M PV E) as (_ & CM & _). rewrite Forall_forall in CM. auto.
  - intros f fd x I M D PK. assert (TX : forall fs, incl fs (ti_fields ti) -> NoDup fs -> texts (flat_map h fs) = if existsb (fun g => nat_eqb_list (fi_idx g) (fi_idx f)) fs then x else []).
    { destruct (planned_all f I) as (fd' & w & D' & PK' & PL & _). rewrite D in D'. injection D' as <-. rewrite PK in PK'. injection PK' as <-. destruct PL as [G E|y M' A T EW XT E|ps M' A PV E]; [exfalso; apply mode_fields in M; decompose [and] M; cbn in *; congruence| |exfalso; apply mode_fields in M, M'; decompose [and] M; decompose [and] M'; cbn in *; congruence].
      injection EW as <-. induction fs as [|g fs IH]; intros IN NDF; [reflexivity|]. inversion NDF as [|? ? NI NDF']; subst. cbn [flat_map existsb]. rewrite texts_app, IH; [|intros z Z; apply IN; right; auto|auto]. assert (J : In g (ti_fields ti)) by (apply IN; left; auto).
      assert (TG : texts (h g) = if nat_eqb_list (fi_idx g) (fi_idx f) then x else []).
      { destruct (nat_eqb_list (fi_idx g) (fi_idx f)) eqn:B.
        - apply nat_eqb_list_eq in B. assert (g = f) by (eapply same_idx; eauto; eapply in_family; eauto). subst g. specialize (HF f I). rewrite E in HF. apply Forall2_one in HF. destruct HF as (z & HH & HD). inversion HD; subst. rewrite HH. cbn. apply app_nil_r.
        - assert (NT : forall nd, In nd (h g) -> is_ntext nd = false).
          { intros nd X. destruct (ND g nd J X) as [[Y MG]|(_ & Y & _)]; auto. exfalso. destruct (planned_all g J) as (gd & w' & _ & _ & [G' E'|z MZ AZ TZ EZ XZ E'|ps MZ AZ PVZ E'] & _); [apply mode_fields in MG; decompose [and] MG; cbn in *; congruence| |apply mode_fields in MG, MZ; decompose [and] MG; decompose [and] MZ; cbn in *; congruence].
            rewrite (data_unique g f gd fd J I AZ A) in B. rewrite nat_eqb_list_refl in B. discriminate. }
          clear - NT. induction (h g) as [|nd t IH]; [reflexivity|]. pose proof (NT nd (or_introl eq_refl)) as N. destruct nd; [discriminate|]. cbn [texts]. apply IH. intros y Y. apply NT. right. exact Y. }
      rewrite TG. destruct (nat_eqb_list (fi_idx g) (fi_idx f)) eqn:B; [|reflexivity]. cbn [orb]. apply nat_eqb_list_eq in B. assert (g = f) by (eapply same_idx; eauto; eapply in_family; eauto). subst g.
      replace (existsb (fun g => nat_eqb_list (fi_idx g) (fi_idx f)) fs) with false; [apply app_nil_r|]. symmetry. apply not_true_is_false. intro X. apply existsb_exists in X. destruct X as (g & Y & Z). apply nat_eqb_list_eq in Z. assert (g = f) by (eapply same_idx; eauto; eapply in_family; eauto; apply IN; right; auto). subst g. contradiction. }
    rewrite TX; [|apply incl_refl|exact (fields_nodup env ek pfx known s ti OK)]. replace (existsb _ (ti_fields ti)) with true; [reflexivity|]. symmetry. apply existsb_exists. exists f. split; auto. apply nat_eqb_list_refl.
  - intros r v1 RK W1 BL. rewrite children_run. 2: { intros nd X. apply in_flat_map in X. destruct X as (f & I & X). destruct (ND f nd I X) as [[Y _]|(Y & _)]; auto. right. congruence. }
    assert (FE : forall f, In f (ti_fields ti) -> mode_eqb (fi_flags f) m_element = true -> filter (for_field node n_route f) (flat_map h (ti_fields ti)) = h f).
    { intros f I M. apply filter_one; auto; [exact (fields_nodup env ek pfx known s ti OK)|]. intros g nd J X. destruct (ND g nd J X) as [[Y MG]|(Y & _ & _)].
      - unfold for_field. destruct nd; [|discriminate]. cbn [n_route]. split; [discriminate|]. intros ->. apply mode_fields in M, MG. decompose [and] M. decompose [and] MG. cbn in *. congruence.
      - unfold for_field. rewrite Y. split; [|intros ->; apply nat_eqb_list_refl]. intro E. apply nat_eqb_list_eq in E. eapply same_idx; eauto; eapply in_family; eauto. }
    assert (FN : forall f, In f (ti_fields ti) -> mode_eqb (fi_flags f) m_element = false -> filter (for_field node n_route f) (flat_map h (ti_fields ti)) = []).
    { intros f I M. apply filter_no. intros nd X. unfold for_field. destruct (n_route nd) as [g|] eqn:R; auto. destruct (nat_eqb_list (fi_idx g) (fi_idx f)) eqn:E; auto. apply nat_eqb_list_eq in E. pose proof (n_route_in nd g R) as [J G]. assert (g = f) by (eapply same_idx; eauto; eapply in_family; eauto). subst g.
      destruct (FACTS f I) as (fd & _ & _ & _ & _ & _ & RO). destruct (element_fields f fd RO G). congruence. }
    assert (FEED : forall f, In f (ti_fields ti) -> exists t w1 w2, peek env ek s (fi_idx f) v1 = Some (t, w1) /\ load_feed r t w1 (filter (for_field node n_route f) (flat_map h (ti_fields ti))) = Ok w2 /\ (mode_eqb (fi_flags f) m_element = true -> exists w, peek env ek s (fi_idx f) v = Some (t, w) /\ forall c, arrives env known c (next_space d (own_of env s v)) t w w2)).
    { intros f I. destruct (planned_all f I) as (fd & w & D & PK & PL & _). destruct (mode_eqb (fi_flags f) m_element) eqn:M.
      - rewrite FE by auto. destruct PL as [G E|y M' A T EW XT E|ps M' A PV E]; [apply mode_fields in M; decompose [and] M; cbn in *; congruence|apply mode_fields in M, M'; decompose [and] M; decompose [and] M'; cbn in *; congruence|].
        destruct (EL f fd w ps I D PK M PV E) as (_ & _ & _ & LD). destruct (BL f fd I) as (w1 & P1 & B1); auto; [apply mode_fields in M; decompose [and] M; auto|]. destruct (LD r w1) as (w2 & F2 & S2); auto.
        + etransitivity; [|exact RK]. eapply RANK; eauto. unfold element_like. apply mode_fields in M. decompose [and] M. cbn in *. rewrite H. reflexivity.
        + exists (fd_type fd), w1, w2. split; auto. split; auto. eauto.
      - rewrite FN by auto. destruct (decl_peek env ek ZERO (fi_idx f) s v1 fd W1 D) as (w1 & P1 & _). exists (fd_type fd), w1, w1. split; auto. split; [reflexivity|]. discriminate. }
    destruct (run_feeds env ek ZERO node s (ti_fields ti) n_route (load F env ek r) (fields_apart env ek pfx known s ti OK) (flat_map h (ti_fields ti)) v1 W1) as (v2 & RUN & W2 & PEEK & ALIVE & OTHER).
    + intros nd g _ R. apply (n_route_in nd g R).
    + intros f I. destruct (FEED f I) as (t & w1 & w2 & P1 & F1 & _). exists t, w1, w2. split; auto.
    + intros t w nd w' _. apply load_wt.
    + exists v2. split; auto. split; auto. split; [|split; [|split]]; auto.
      * intros f I M. destruct (FEED f I) as (t & w1 & w2 & P1 & F1 & G1). destruct (G1 M) as (w & PV & SM). destruct (PEEK f t w1 I P1) as (w' & P2 & F2). unfold load_feed in F1. rewrite F1 in F2. injection F2 as <-. exists t, w, w2. auto.
      * intros f I M. destruct (FEED f I) as (t & w1 & w2 & P1 & F1 & _). destruct (PEEK f t w1 I P1) as (w' & P2 & F2). rewrite (FN f I M) in F2. cbn in F2. injection F2 as <-. congruence.
Qed.

(** *** The whole element *)
Lemma name_apart : forall x f, ti_xmlname ti = Some x -> In f (ti_fields ti) -> apart (fi_idx x) (fi_idx f) = true /\ apart (fi_idx f) (fi_idx x) = true.
Proof.
  intros x f X I. destruct (ok_parts env ek pfx known s ti OK) as (P & _). pose proof P as P0. apply pairs_nodup in P; [|intro y; rewrite apart_irrefl; reflexivity]. unfold family in *. rewrite X in *. cbn [pairs] in P0. apply andb_true_iff in P0. destruct P0 as [P0 _]. rewrite forallb_forall in P0. specialize (P0 f I). apply andb_true_iff in P0. exact P0.
Qed.
Lemma apart_fields : forall f g, In f (ti_fields ti) -> In g (ti_fields ti) -> f <> g -> apart (fi_idx f) (fi_idx g) = true.
Proof. intros f g I J N. destruct (family_apart env ek pfx known s ti OK f g (in_family ti f I) (in_family ti g J)); [contradiction|auto]. Qed.
Lemma no_mode : forall p, (forall g, p g = true -> mode_eqb g m_attr = false /\ mode_eqb g m_any_attr = false /\ mode_eqb g m_chardata = false /\ mode_eqb g m_element = false) -> first_mode p (ti_fields ti) = None.
Proof.
  intros p H. destruct (first_mode p (ti_fields ti)) as [f|] eqn:E; auto. exfalso. unfold first_mode in E. apply find_some in E. destruct E as [I P]. apply H in P. destruct (FACTS f I) as (fd & _ & _ & _ & _ & _ & [M _|M _|M _|M _]); rewrite M in P; decompose [and] P; discriminate.
Qed.
Lemma modes_apart : forall g a b, mode_eqb g a = true -> mode_eqb a b = false -> mode_eqb g b = false.
Proof.
  intros g a b M N. destruct (mode_eqb g b) eqn:E; auto. rewrite <- N. symmetry. apply mode_fields in M, E. decompose [and] M. decompose [and] E. unfold mode_eqb. rewrite !andb_true_iff, !eqb_true_iff. repeat split; congruence.
Qed.
Lemma plain_content : none (first_mode is_comment (ti_fields ti)) && none (first_mode is_any (ti_fields ti)) && none (first_mode is_inner (ti_fields ti)) && (takes_text ti || none (first_mode is_data (ti_fields ti))) = true.
Proof.
  assert (C : first_mode is_comment (ti_fields ti) = None). { apply no_mode. intros g M. unfold is_comment in M. repeat split; (eapply modes_apart; [exact M|reflexivity]). }
  assert (A : first_mode is_any (ti_fields ti) = None). { apply no_mode. intros g M. unfold is_any in M. apply orb_true_iff in M. destruct M as [M|M]; repeat split; (eapply modes_apart; [exact M|reflexivity]). }
  assert (N : first_mode is_inner (ti_fields ti) = None). { apply no_mode. intros g M. unfold is_inner in M. repeat split; (eapply modes_apart; [exact M|reflexivity]). }
  rewrite C, A, N. cbn [none andb]. unfold takes_text. destruct (first_mode is_data (ti_fields ti)); reflexivity.
Qed.
Lemma data_field : forall f, first_mode is_data (ti_fields ti) = Some f -> In f (ti_fields ti) /\ mode_eqb (fi_flags f) m_chardata = true /\ exists fd x, decl_at env s (fi_idx f) = Some fd /\ fd_type fd = TString /\ peek env ek s (fi_idx f) v = Some (TString, VStr x).
Proof.
  intros f E. unfold first_mode in E. apply find_some in E. destruct E as [I P]. unfold is_data in P. split; auto. destruct (planned_all f I) as (fd & w & D & PK & [G E|x M A T -> XT E|ps M A PV E] & _).
  - exfalso. apply orb_true_iff in P. destruct P as [P|P]; apply mode_fields in P; decompose [and] P; cbn in *; congruence.
  - split; auto. exists fd, x. rewrite T in PK. auto.
  - exfalso. apply orb_true_iff in P. destruct P as [P|P]; apply mode_fields in P, M; decompose [and] P; decompose [and] M; cbn in *; congruence.
Qed.
Lemma struct_load : forall us u0 m b c' r v0, distinct pfx us -> carried pfx us u0 (all_attrs F env s ti v) b -> (u0 <> [] -> no_default ti = true) -> laid_as F env pfx s ti v (fate_of known d (own_of env s v)) b -> Forall2 (drawn pfx (next_space d (own_of env s v))) (flat_map field_plan (ti_fields ti)) c' ->
  (forall x, ti_xmlname ti = Some x -> (fi_name x = [] \/ fi_name x = local m) /\ (fi_xmlns x = [] \/ fi_xmlns x = space m)) -> (dynamic ti <> None -> own_of env s v = Some m) -> (rk s <= r)%nat -> blank env (TStruct s) v0 ->
  exists v', load_struct F env ek (load F env ek r) s ti v0 m b (takes_text ti) c' = Ok v' /\ forall c, arrives env known c d (TStruct s) v v'.
Proof.
  intros us u0 m b c' r v0 DI CA U0 LA DR NM DY RK B0. assert (W0 : wt env (TStruct s) v0 = true) by (destruct B0 as (k0 & _ & X); exact X).
  (* the name *)
  assert (N1 : exists v1, set_name env ek ti s v0 m = Ok v1 /\ wt env (TStruct s) v1 = true /\ (forall f, In f (ti_fields ti) -> peek env ek s (fi_idx f) v1 = peek env ek s (fi_idx f) v0) /\
    (forall x, ti_xmlname ti = Some x -> exists j fd, fi_idx x = [j] /\ nth_error (fields_of env s) j = Some fd /\ fd_type fd = TName /\ peek env ek s (fi_idx x) v1 = Some (TName, VName m))).
  { unfold set_name. destruct (ok_parts env ek pfx known s ti OK) as (_ & _ & _ & _ & NF & _). unfold name_field_ok in NF. destruct (ti_xmlname ti) as [x|] eqn:X; [|exists v0; repeat split; auto; discriminate].
    destruct (NM x eq_refl) as [NM1 NM2]. replace (negb (beq (fi_name x) []) && negb (beq (fi_name x) (local m)) || negb (beq (fi_xmlns x) []) && negb (beq (fi_xmlns x) (space m))) with false.
    2: { symmetry. apply orb_false_iff. split; apply andb_false_iff; [destruct NM1 as [-> | ->]|destruct NM2 as [-> | ->]]; rewrite beq_refl; auto. }
    destruct (fi_idx x) as [|j [|]] eqn:IX; try discriminate NF. apply andb_true_iff in NF. destruct NF as [NF _]. destruct (nth_error (fields_of env s) j) as [fd|] eqn:NT; [|discriminate]. destruct (fd_type fd) eqn:T; try discriminate NF.
    assert (D : decl_at env s [j] = Some fd) by (cbn [decl_at]; rewrite NT; reflexivity). destruct (decl_peek env ek ZERO [j] s v0 fd W0 D) as (w & PK & _). rewrite T in PK.
    rewrite (update_poke _ _ _ _ _ _ _ PK _ _ _ (VName m) tt); [|reflexivity]. cbn [bind]. eexists. split; [reflexivity|]. split; [eapply poke_wt; eauto; reflexivity|]. split.
    - intros f I. eapply poke_other; [exact PK|]. destruct (name_apart x f X I) as [Y _]. rewrite IX in Y. exact Y.
    - intros x' X'. injection X' as <-. exists j, fd. rewrite IX. split; auto. split; auto. split; auto. eapply poke_same; eauto. }
  destruct N1 as (v1 & E1 & W1 & P1 & X1).
  (* the attributes *)
  assert (BL : forall f fd, In f (ti_fields ti) -> decl_at env s (fi_idx f) = Some fd -> exists w, peek env ek s (fi_idx f) v1 = Some (fd_type fd, w) /\ blank env (fd_type fd) w).
  { intros f fd I D. rewrite P1 by auto. eapply blank_peek; eauto. }
  destruct (attrs_back F env ek pfx known EO KNOWN ONLY s ti TI OK i d l v CV WV (fate_of known d (own_of env s v)) (next_space d (own_of env s v)) us u0 b v1 LA DI CA U0 W1 BL) as (v2 & E2 & W2 & A2 & B2 & M2 & O2).
  (* the text field *)
  assert (N3 : exists v3, touch env ek s (first_mode is_data (ti_fields ti)) v2 = Ok v3 /\ wt env (TStruct s) v3 = true /\ (forall f, In f (family ti) -> peek env ek s (fi_idx f) v3 = peek env ek s (fi_idx f) v2) /\ (forall idx, In idx (musts env s ti) -> alive env s idx v3)).
  { unfold touch. destruct (first_mode is_data (ti_fields ti)) as [f|] eqn:FM; [|exists v2; auto]. destruct (data_field f FM) as (I & M & fd & x & D & T & _). destruct (decl_peek env ek ZERO (fi_idx f) s v2 fd W2 D) as (w & PK & WW).
    rewrite (update_poke _ _ _ _ _ _ _ PK _ _ _ w tt); [|reflexivity]. cbn [bind]. eexists. split; [reflexivity|]. split; [eapply poke_wt; eauto|]. split.
    - intros g J. destruct (family_apart env ek pfx known s ti OK f g (in_family ti f I) J) as [<-|AP]; [rewrite PK; eapply poke_same; eauto|eapply poke_other; eauto].
    - intros idx J. specialize (M2 idx J). unfold musts in J. apply in_map_iff in J. destruct J as (g & <- & J). apply filter_In in J. destruct J as [J _]. apply filter_In in J. destruct J as [J MG]. eapply poke_keeps; eauto. apply apart_fields; auto. intros ->. apply mode_fields in M, MG. decompose [and] M. decompose [and] MG. cbn in *. congruence. }
  destruct N3 as (v3 & E3 & W3 & P3 & M3).
  (* the children *)
  destruct (content_back c' DR) as (_ & _ & TX & LC). destruct (LC r v3 RK W3) as (v4 & E4 & W4 & A4 & B4 & L4 & O4).
  { intros f fd I G D. rewrite P3 by (apply in_family; auto). rewrite B2 by auto. auto. }
  (* the text *)
  assert (N5 : exists v5, set_data F env ek s (first_mode is_data (ti_fields ti)) v4 (texts c') = Ok v5 /\ wt env (TStruct s) v5 = true /\ (forall f, In f (family ti) -> mode_eqb (fi_flags f) m_chardata = false \/ ti_xmlname ti = Some f -> peek env ek s (fi_idx f) v5 = peek env ek s (fi_idx f) v4) /\
    (forall f, In f (ti_fields ti) -> mode_eqb (fi_flags f) m_chardata = true -> exists x, peek env ek s (fi_idx f) v = Some (TString, VStr x) /\ peek env ek s (fi_idx f) v5 = Some (TString, VStr x)) /\ (forall idx, In idx (musts env s ti) -> alive env s idx v5)).
  { assert (M4 : forall idx, In idx (musts env s ti) -> alive env s idx v4). { intros idx J. pose proof (M3 idx J) as J0. unfold musts in J. apply in_map_iff in J. destruct J as (g & <- & J). apply filter_In in J. destruct J as [J _]. apply filter_In in J. destruct J as [J MG]. apply L4; auto. }
    unfold set_data. destruct (first_mode is_data (ti_fields ti)) as [f|] eqn:FM.
    - destruct (data_field f FM) as (I & M & fd & x & D & T & PV). destruct (decl_peek env ek ZERO (fi_idx f) s v4 fd W4 D) as (w & PK & WW). rewrite T in PK. assert (TT : texts c' = x) by (eapply TX; eauto; rewrite T; exact PV). rewrite TT.
      rewrite (update_poke _ _ _ _ _ _ _ PK _ _ _ (VStr x) tt); [|reflexivity]. cbn [bind]. eexists. split; [reflexivity|]. split; [eapply poke_wt; eauto; reflexivity|]. split; [|split].
      + intros g J HG. eapply poke_other; [exact PK|]. destruct HG as [HG|HG]; [|destruct (name_apart g f HG I); auto]. destruct (family_apart env ek pfx known s ti OK f g (in_family ti f I) J) as [<-|AP]; [congruence|auto].
      + intros g J MG. assert (g = f). { destruct (planned_all g J) as (gd & w' & _ & _ & [G' E'|z MZ AZ TZ EZ XZ E'|ps MZ AZ PVZ E'] & _); [apply mode_fields in MG; decompose [and] MG; cbn in *; congruence| |apply mode_fields in MG, MZ; decompose [and] MG; decompose [and] MZ; cbn in *; congruence].
          unfold data_ok in AZ. apply andb_true_iff in AZ. destruct AZ as [_ AZ]. rewrite FM in AZ. apply nat_eqb_list_eq in AZ. eapply same_idx; eauto; eapply in_family; eauto. }
        subst g. exists x. split; auto. eapply poke_same; eauto.
      + intros idx J. specialize (M4 idx J). unfold musts in J. apply in_map_iff in J. destruct J as (g & <- & J). apply filter_In in J. destruct J as [J _]. apply filter_In in J. destruct J as [J MG]. eapply poke_keeps; eauto. apply apart_fields; auto. intros ->. apply mode_fields in M, MG. decompose [and] M. decompose [and] MG. cbn in *. congruence.
    - exists v4. split; auto. split; auto. split; auto. split; auto. intros f I M. exfalso. unfold first_mode in FM. apply (find_none _ _ FM) in I. unfold is_data in I. rewrite M, orb_true_r in I. discriminate. }
  destruct N5 as (v5 & E5 & W5 & P5 & T5 & M5).
  exists v5. split.
  { unfold load_struct. rewrite E1. cbn [bind]. rewrite E2. cbn [bind]. rewrite E3. cbn [bind]. rewrite plain_content, E4. cbn [bind]. exact E5. }
  destruct (ok_parts env ek pfx known s ti OK) as (_ & _ & _ & _ & NF & CO). intro c. assert (ISREC : exists ws, v = VRec ws) by (clear - WV; apply wt_struct in WV; destruct WV as (ws & E & _); eauto). cut (fields_arrive env known (fate_of known d (own_of env s v)) (next_space d (own_of env s v)) s v v5). { destruct ISREC as (ws & ->). intro FA. apply arrives_struct. exact FA. } clear ISREC.
  apply (covered_arrives env known ek ek s (compared ti) (musts env s ti)); auto.
  { intros idx J. unfold compared in J. apply in_map_iff in J. destruct J as (f & <- & J). assert (Q : In f (ti_fields ti) -> path_ok env s (fi_idx f) = true) by (intro I; destruct (FACTS f I) as (fd & _ & P & _); exact P). destruct (dynamic ti) as [x|] eqn:DX; [|auto]. destruct J as [<-|J]; [|auto]. left. unfold dynamic in DX. destruct (ti_xmlname ti) as [x'|] eqn:X; [|discriminate]. destruct (beq (fi_name x') []); [|discriminate]. injection DX as <-. destruct (X1 x' eq_refl) as (j & fd & IX & _). eauto. }
  - assert (FLD : forall f, In f (ti_fields ti) -> exists t w w', peek env ek s (fi_idx f) v = Some (t, w) /\ peek env ek s (fi_idx f) v5 = Some (t, w') /\ arrives env known (fate_of known d (own_of env s v)) (next_space d (own_of env s v)) t w w' /\ ((exists x, fi_idx f = [x]) \/ forall c, arrives env known c (next_space d (own_of env s v)) t w w')).
    { intros f I. pose proof (in_family ti f I) as IF. destruct (FACTS f I) as (fd & _ & _ & _ & _ & _ & R). destruct (mode_eqb (fi_flags f) m_chardata) eqn:MC; [destruct (T5 f I MC) as (x & Q1 & Q2); exists TString, (VStr x), (VStr x); split; [auto|split; [auto|split; [reflexivity|right; reflexivity]]]|]. rewrite P5 by auto. destruct (mode_eqb (fi_flags f) m_element) eqn:ME; [destruct (A4 f I ME) as (t & w & w' & Q1 & Q2 & Q3); exists t, w, w'; auto|].
      rewrite B4, P3 by auto. apply A2; auto. destruct R as [M _|M _|M _|M _]; [| |congruence|congruence]; apply mode_fields in M; decompose [and] M; auto. }
    intros idx J. unfold compared in J. apply in_map_iff in J. destruct J as (f & <- & J). destruct (dynamic ti) as [x|] eqn:DX; [|apply FLD; exact J]. destruct J as [<-|J]; [|apply FLD; exact J].
    unfold dynamic in DX. destruct (ti_xmlname ti) as [x'|] eqn:X; [|discriminate]. destruct (beq (fi_name x') []) eqn:BX; [|discriminate]. injection DX as <-. destruct (X1 x' eq_refl) as (j & fd & IX & NT & T & PX). specialize (DY ltac:(discriminate)).
    assert (IF : In x' (family ti)) by (unfold family; rewrite X; left; auto). exists TName, (VName m), (VName m). split; [|split; [|split; [reflexivity|right; reflexivity]]].
    + unfold name_field_ok in NF. rewrite X, IX, NT, T, BX in NF. cbn [andb] in NF. apply andb_true_iff in NF. destruct NF as [NF _]. destruct (first_self 0 (fields_of env s)) as [j'|] eqn:FS; [|discriminate]. apply Nat.eqb_eq in NF. subst j'.
      assert (D : decl_at env s [j] = Some fd) by (cbn [decl_at]; rewrite NT; reflexivity). destruct (decl_peek env ek ZERO [j] s v fd WV D) as (w & PK & WW). rewrite IX, PK, T. f_equal. f_equal. cbn [peek] in PK. destruct v as [| | | | | | |ws| |]; try discriminate PK. rewrite NT in PK. destruct (nth_error ws j) as [w0|] eqn:NW; [|discriminate]. injection PK as ->.
      unfold own_of in DY. rewrite (first_self_some (fields_of env s) ws 0 j w FS) in DY by (rewrite Nat.sub_0_r; exact NW). destruct w; try discriminate DY. injection DY as ->. reflexivity.
    + rewrite P5 by auto. rewrite O4 by (intros g G; apply (name_apart x' g X G)). rewrite P3 by auto. rewrite O2 by (intros g G; apply (name_apart x' g X G)). exact PX.
  - intros idx J. specialize (M5 idx J). unfold musts in J. apply in_map_iff in J. destruct J as (g & <- & J). apply filter_In in J. destruct J as [J _]. apply filter_In in J. destruct J as [J MG]. destruct (FACTS g J) as (fd & D & P & _). split; [intro E; rewrite E in D; discriminate|]. split; auto. destruct (AT g fd J D P) as (w & FA & _). exists (fd_type fd), w. apply FA.
Qed.
End Value.
End Struct.
End Body.
