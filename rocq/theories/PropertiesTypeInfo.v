(** Properties C39, C40, C57: struct tags, embedded structs and the fields attributes go to. *)
From Coq Require Import String.
From Coq Require Import ZArith List Bool Lia ZifyBool ZifyNat.
From Verif Require Import Base Utf8 Lexer Decoder Printer EncoderSpec NameProofs NsProofs GoType Schema TypeInfo TypeInfoSpec TypeInfoProofs TagSpec TagProofs Simple Unmarshal.
Import ListNotations.
Open Scope Z_scope.

(** C40. The check for conflicting fields is the one specified. *)
Theorem C40_conflict_spec : forall f g, conflict f g = true <-> clash f g.
Proof. exact conflict_spec. Qed.
Print Assumptions C40_conflict_spec.

(** C40. The fields kept are fields of the struct or promoted ones, none twice, no two of them clash, and every other promoted
    field clashes with a shallower promoted one. *)
Theorem C40_kept : forall k env s ti, type_info k env s = Ok ti ->
  (forall f, In f (ti_fields ti) -> promoted env s f) /\ NoDup (map fi_idx (ti_fields ti)) /\ clash_free (ti_fields ti) /\
  (forall g, promoted env s g -> In g (ti_fields ti) \/ exists f, promoted env s f /\ clash f g /\ shallower f g).
Proof.
  intros k env s ti H. destruct (type_info_good _ _ _ _ H) as ((A & B) & C). split; [exact A|].
  split; [exact (type_info_idx _ _ _ _ H)|]. split; [exact (proj1 (apart_clash_free _) C)|].
  intros g Hg. destruct (B g Hg) as [X|(f & P & Q & D)]; [left; exact X|]. right. exists f. split; [exact P|]. split; [apply conflict_spec; exact Q|exact D].
Qed.
Print Assumptions C40_kept.

(** C40. Without element paths in the tags: of the promoted fields with the same kind, name and namespace exactly the
    shallowest is kept. *)
Theorem C40_shallowest : forall k env s ti, type_info k env s = Ok ti -> (forall f, promoted env s f -> flat f) ->
  (forall f g, In f (ti_fields ti) -> promoted env s g -> same_slot f g -> f = g \/ shallower f g) /\
  (forall g, promoted env s g -> exists f, In f (ti_fields ti) /\ same_slot f g).
Proof.
  intros k env s ti H Hfl. destruct (type_info_good _ _ _ _ H) as ((A & B) & C).
  assert (E : forall d g, (depth g < d)%nat -> promoted env s g -> exists f, In f (ti_fields ti) /\ same_slot f g /\ (f = g \/ shallower f g)).
  { induction d as [|d IH]; intros g Hd Hg; [lia|]. destruct (B g Hg) as [X|(f & P & Q & D)].
    - exists g. split; [exact X|]. split; [unfold same_slot; auto|auto].
    - destruct (IH f ltac:(lia) P) as (f' & X & S & L). exists f'. split; [exact X|].
      apply conflict_flat in Q; [|auto|auto]. split; [exact (slot_trans _ _ _ S Q)|]. right. destruct L as [->|L]; [exact D|]. unfold shallower, depth in *. lia. }
  split.
  - intros f g Hf Hg SL. destruct (E (S (depth g)) g ltac:(lia) Hg) as (f' & X & S' & L).
    assert (f = f'). { apply (apart_same _ _ _ C Hf X). apply conflict_flat; auto. exact (slot_trans _ _ _ SL (slot_sym _ _ S')). } subst f'. exact L.
  - intros g Hg. destruct (E (S (depth g)) g ltac:(lia) Hg) as (f & X & S & _). eauto.
Qed.
Print Assumptions C40_shallowest.

(** C40. A conflict is reported only if two different promoted fields clash at the same depth. *)
Theorem C40_error : forall k env s i j, type_info k env s = Err (TagPathError i j) ->
  exists f g, promoted env s f /\ promoted env s g /\ fi_idx f <> fi_idx g /\ clash f g /\ level f g.
Proof.
  intros k env s i j H. destruct (type_info_err _ _ _ _ _ H) as (f & g & A & B & C & D & E). exists f, g.
  split; [exact A|]. split; [exact B|]. split; [exact C|]. split; [apply conflict_spec; exact D|exact E].
Qed.
Print Assumptions C40_error.

(** C40. Without element paths, the conflicts reported are exactly these: a candidate meets an earlier one with the same kind,
    name, namespace and depth, and no shallower one before. *)
Theorem C40_error_iff : forall k env s cs, listed env (type_info k env) 0 (fields_of env s) cs -> Forall flat cs ->
  ((exists e, type_info (S k) env s = Err e) <->
   exists a y b x, cs = a ++ y :: b /\ In x a /\ same_slot x y /\ level x y /\ forall z, In z a -> same_slot z y -> ~ shallower z y).
Proof.
  intros k env s cs L Hf. destruct (listed_field_loop _ _ _ _ _ L None []) as (x' & E). cbn [type_info]. rewrite E.
  transitivity (exists e, add_fields [] cs = Err e).
  { destruct (add_fields [] cs) as [r|e| |]; cbn; split; intros (z & Z); try discriminate; eauto. }
  rewrite (add_fields_flat_err cs Hf). split; intros (a & y & b & x & C1 & C2 & C3 & C4 & C5); exists a, y, b, x; repeat split; try assumption;
    try (destruct C3 as (K1 & K2 & K3); assumption); intros z Hz Sz; specialize (C5 z Hz Sz); unfold shallower, depth in *; lia.
Qed.
Print Assumptions C40_error_iff.

(** An embedded struct's attribute is hidden by one of the struct's own, wherever it is declared. *)
Definition inner_first : tenv := [
  mksd (str "Base") [mkfd (str "ID") false (str "id,attr") TString; mkfd (str "Lang") false (str "lang,attr") TString];
  mksd (str "Outer") [mkfd (str "Base") true (str "") (TStruct (str "Base")); mkfd (str "Own") false (str "id,attr") (TPtr TString)];
  mksd (str "Other") [mkfd (str "Number") false (str "id,attr") (TUint 32)];
  mksd (str "Both") [mkfd (str "Base") true (str "") (TPtr (TStruct (str "Base"))); mkfd (str "Other") true (str "") (TStruct (str "Other"))];
  mksd (str "Three") [mkfd (str "Own") false (str "id,attr") TString; mkfd (str "Base") true (str "") (TStruct (str "Base")); mkfd (str "Other") true (str "") (TStruct (str "Other"))] ].
Example C40_example_hidden : option_map (fun ti => map fi_idx (ti_fields ti)) (match type_info 5 inner_first (str "Outer") with Ok t => Some t | _ => None end) = Some [[0; 1]; [1]]%nat.
Proof. vm_compute. reflexivity. Qed.
(** Two embedded structs with the same attribute: an error, unless a field of the struct itself hides both. *)
Example C40_example_error : type_info 5 inner_first (str "Both") = Err (TagPathError [0; 0]%nat [1; 0]%nat).
Proof. vm_compute. reflexivity. Qed.
Example C40_example_three : option_map (fun ti => map fi_idx (ti_fields ti)) (match type_info 5 inner_first (str "Three") with Ok t => Some t | _ => None end) = Some [[0]; [1; 1]]%nat.
Proof. vm_compute. reflexivity. Qed.
(** C40. That an error is reported only if the shallowest fields of a name are equally shallow is false: with the struct's own
    field declared after the embedded structs, the two embedded ones are reported. *)
Definition own_last : tenv := [
  mksd (str "Base") [mkfd (str "ID") false (str "id,attr") TString];
  mksd (str "Other") [mkfd (str "Number") false (str "id,attr") (TUint 32)];
  mksd (str "Three") [mkfd (str "Base") true (str "") (TStruct (str "Base")); mkfd (str "Other") true (str "") (TStruct (str "Other")); mkfd (str "Own") false (str "id,attr") TString] ].
Theorem C40_only_shallowest_refuted :
  type_info 5 own_last (str "Three") = Err (TagPathError [0; 0]%nat [1; 0]%nat) /\
  exists f, promoted own_last (str "Three") f /\ fi_name f = str "id" /\ length (fi_idx f) = 1%nat.
Proof.
  split; [vm_compute; reflexivity|]. exists (mkfi [2%nat] [] (str "id") [] m_attr []). split; [|split; reflexivity].
  apply (P_own own_last (str "Three") 2 (mkfd (str "Own") false (str "id,attr") TString)).
  - vm_compute. reflexivity.
  - split; [left; reflexivity|discriminate].
  - intros s' (X & _). discriminate.
  - discriminate.
  - vm_compute. reflexivity.
Qed.
Print Assumptions C40_only_shallowest_refuted.

(** C40. All struct types of package mpd are analysed without error, and no field is hidden. *)
Fixpoint spread (k : nat) (env : tenv) (s : bytes) : nat :=
  match k with
  | O => O
  | S k => fold_right (fun f n => (n + if beq (fd_name f) xml_name || beq (fd_tag f) (str "-") || negb (exported (fd_name f)) then 0 else match (if fd_anon f then embedded (fd_type f) else None) with Some s' => spread k env s' | None => 1 end)%nat) O (fields_of env s)
  end.
Example C40_mpd : forallb (fun d => match type_info 5 mpd_types (sd_name d) with Ok ti => (length (ti_fields ti) =? spread 5 mpd_types (sd_name d))%nat | _ => false end) mpd_types = true.
Proof. vm_compute. reflexivity. Qed.

(** *** C39 *)
Lemma find_attr_in : forall m n f, find_attr m n = Some f -> exists n', In (n', f) m /\ n' = n.
Proof.
  unfold find_attr. induction m as [|[n' g] m IH]; intros n f H; [discriminate|]. cbn in H. destruct (name_eqb n' n) eqn:E.
  - cbn in H. injection H as ->. exists n'. split; [left; reflexivity|]. unfold name_eqb in E. apply andb_true_iff in E as (E1 & E2). apply beq_eq in E1, E2. destruct n', n; cbn in *; congruence.
  - destruct (IH _ _ H) as (x & X & Y). exists x. split; [right; exact X|exact Y].
Qed.
Lemma find_attr_none : forall m n, find_attr m n = None -> forall f, ~ In (n, f) m.
Proof.
  unfold find_attr. induction m as [|[n' g] m IH]; intros n H f X; [exact X|]. cbn in H. destruct X as [X|X].
  - injection X as -> ->. unfold name_eqb in H. rewrite !beq_refl in H. discriminate.
  - destruct (name_eqb n' n); [discriminate|]. exact (IH _ H _ X).
Qed.
Lemma is_attr_mode : forall f, mode_eqb (fi_flags f) m_attr = true <-> is_attr f.
Proof. intros f. unfold is_attr. exact (mode_kind f (mkfi [] [] [] [] m_attr [])). Qed.
Lemma is_any_attr_mode : forall f, mode_eqb (fi_flags f) m_any_attr = true <-> is_any_attr f.
Proof. intros f. unfold is_any_attr. exact (mode_kind f (mkfi [] [] [] [] m_any_attr [])). Qed.
Lemma attrs_in : forall x fs n f, In (n, f) (ti_attrs (finish x fs)) <-> In f fs /\ is_attr f /\ n = mkname (fi_xmlns f) (fi_name f).
Proof.
  intros x fs n f. cbn. rewrite <- in_rev, in_map_iff. split.
  - intros (g & E & Hg). apply filter_In in Hg as (Hg & M). injection E as <- ->. split; [exact Hg|]. split; [apply is_attr_mode; exact M|reflexivity].
  - intros (A & B & ->). exists f. split; [reflexivity|]. apply filter_In. split; [exact A|apply is_attr_mode; exact B].
Qed.
Lemma finish_chosen : forall x fs n, chosen fs n (attr_field (finish x fs) n).
Proof.
  intros x fs n. unfold attr_field. destruct (find_attr _ n) as [f|] eqn:E.
  - destruct (find_attr_in _ _ _ E) as (n' & I & ->). apply attrs_in in I as (A & B & C). apply Ch_exact; [exact A|]. split; [exact B|]. destruct n; cbn; injection C; auto.
  - assert (NE : forall g, In g fs -> ~ exact n g).
    { intros g Hg (A & B & C). apply (find_attr_none _ _ E g). apply attrs_in. split; [exact Hg|]. split; [exact A|]. rewrite B, C. destruct n; reflexivity. }
    destruct (find_attr _ (mkname [] (local n))) as [f|] eqn:E2.
    + destruct (find_attr_in _ _ _ E2) as (n' & I & ->). apply attrs_in in I as (A & B & C). apply Ch_plain; [exact A|exact NE|]. split; [exact B|]. injection C; auto.
    + assert (NP : forall g, In g fs -> ~ no_space n g).
      { intros g Hg (A & B & C). apply (find_attr_none _ _ E2 g). apply attrs_in. split; [exact Hg|]. split; [exact A|]. rewrite B, C. reflexivity. }
      cbn [ti_anyattr finish]. destruct (find _ fs) as [f|] eqn:E3.
      * clear E E2. assert (exists a b, fs = a ++ f :: b /\ is_any_attr f /\ forall g, In g a -> ~ is_any_attr g) as (a & b & -> & A & B).
        { clear NE NP. revert E3. induction fs as [|g fs IH]; [discriminate|]. cbn. destruct (mode_eqb (fi_flags g) m_any_attr) eqn:M.
          - intros [= ->]. exists [], fs. split; [reflexivity|]. split; [apply is_any_attr_mode; exact M|intros ? []].
          - intros H. destruct (IH H) as (a & b & -> & A & B). exists (g :: a), b. split; [reflexivity|]. split; [exact A|].
            intros h [<-|Hh]; [|auto]. intros X. apply is_any_attr_mode in X. congruence. }
        apply (Ch_any _ _ a f b); auto.
      * apply Ch_none. intros g Hg. split; [auto|]. split; [auto|]. intros X. apply is_any_attr_mode in X. pose proof (find_none _ _ E3 g Hg) as Y. cbn in Y. congruence.
Qed.
Lemma type_info_finish : forall k env s ti, type_info k env s = Ok ti -> exists x, ti = finish x (ti_fields ti).
Proof. intros [|k] env s ti H; [discriminate|]. destruct (type_info_listed _ _ _ _ H) as (_ & x & _ & _ & E). eauto. Qed.
(** Fields that are not elements have no path. *)
Lemma own_attr_flat : forall env i f fi, struct_field_info env i f = Ok fi -> is_attr fi -> flat fi.
Proof.
  intros env i f fi H A. unfold struct_field_info in H. destruct (beq (fd_name f) xml_name).
  - unfold xmlname_info in H. destruct (parse_tag f) as [[[ns tg] g]| | |]; try discriminate. cbn [bind] in H. destruct (split_prefixed tg). injection H as <-. reflexivity.
  - destruct (parse_tag f) as [[[ns tg] g]| | |]; try discriminate. cbn [bind] in H. destruct (beq tg []).
    + destruct (lookup_xmlname env (fd_type f)); injection H as <-; reflexivity.
    + set (ps := match split 62 tg with [] :: r => fd_name f :: r | p => p end) in *. destruct (beq (last ps []) []); [discriminate|].
      destruct (split_prefixed (last ps [])) as [p n].
      match type of H with (if ?c then _ else _) = _ => destruct c eqn:C end; [discriminate|].
      assert (G : fi_flags fi = g /\ fi_parents fi = removelast (map (fun x => snd (split_prefixed x)) ps)).
      { destruct (if g_element g then lookup_xmlname env (fd_type f) else None) as [x|]; [destruct (beq (fi_name x) n); [|discriminate]|]; injection H as <-; split; reflexivity. }
      destruct G as (G1 & G2). unfold is_attr, kind in A. rewrite G1 in A. injection A as A1. rewrite A1, andb_true_r in C. apply Nat.ltb_ge in C.
      unfold flat. rewrite G2. destruct (map _ ps) as [|y [|z l]]; [reflexivity|reflexivity|cbn in C; lia].
Qed.
Lemma promoted_attr_flat : forall env s f, promoted env s f -> is_attr f -> flat f.
Proof.
  induction 1 as [s i f fi _ _ _ _ E|s i f s' fi _ _ _ P IH]; intros A; [exact (own_attr_flat _ _ _ _ E A)|exact (IH A)].
Qed.

(** C39. The field an attribute goes to is the one specified, and there is only one such field. *)
Theorem C39_field : forall k env s ti n, type_info k env s = Ok ti ->
  chosen (ti_fields ti) n (attr_field ti n) /\ forall r, chosen (ti_fields ti) n r -> r = attr_field ti n.
Proof.
  intros k env s ti n H. destruct (type_info_finish _ _ _ _ H) as (x & E).
  assert (C : chosen (ti_fields ti) n (attr_field ti n)). { rewrite E at 2. rewrite E. cbn [ti_fields finish]. apply finish_chosen. }
  split; [exact C|]. destruct (type_info_good _ _ _ _ H) as ((P & _) & AP).
  assert (U : forall f g, In f (ti_fields ti) -> In g (ti_fields ti) -> is_attr f -> is_attr g -> fi_xmlns f = fi_xmlns g -> fi_name f = fi_name g -> f = g).
  { intros f g Hf Hg Af Ag X Y. apply (apart_same _ _ _ AP Hf Hg). apply conflict_flat; [exact (promoted_attr_flat _ _ _ (P _ Hf) Af)|exact (promoted_attr_flat _ _ _ (P _ Hg) Ag)|].
    split; [unfold is_attr in *; congruence|auto]. }
  intros r R. destruct R as [f I (A1 & A2 & A3)|f I N (A1 & A2 & A3)|a f b E1 N A B|N]; destruct C as [f' I' (A1' & A2' & A3')|f' I' N' (A1' & A2' & A3')|a' f' b' E1' N' A' B'|N'].
  - f_equal. apply U; auto; congruence.
  - destruct (N' f I). split; auto.
  - destruct (N' f I) as (Z & _). destruct Z. split; auto.
  - destruct (N' f I) as (Z & _). destruct Z. split; auto.
  - destruct (N f' I'). split; auto.
  - f_equal. apply U; auto; congruence.
  - destruct (N' f I) as (_ & Z). destruct Z. split; auto.
  - destruct (N' f I) as (_ & Z & _). destruct Z. split; auto.
  - destruct (N f' I') as (Z & _). destruct Z. split; auto.
  - destruct (N f' I') as (_ & Z). destruct Z. split; auto.
  - f_equal. rewrite E1 in E1'. clear - E1' A B A' B'. revert a' E1' B'. induction a as [|y a IH]; intros [|y' a'] E1' B'; cbn in E1'; injection E1' as -> E1'; auto.
    + destruct (B' y' ltac:(left; reflexivity)). exact A.
    + destruct (B f' ltac:(left; reflexivity)). exact A'.
    + apply (IH ltac:(intros g Hg; apply B; right; exact Hg) a' E1'). intros g Hg. apply B'. right; exact Hg.
  - destruct (N' f) as (_ & _ & Z); [rewrite E1; apply in_or_app; right; left; reflexivity|]. contradiction.
  - destruct (N f' I') as (Z & _). destruct Z. split; auto.
  - destruct (N f' I') as (_ & Z & _). destruct Z. split; auto.
  - destruct (N f') as (_ & _ & Z); [rewrite E1'; apply in_or_app; right; left; reflexivity|]. contradiction.
  - reflexivity.
Qed.
Print Assumptions C39_field.

(** C39. Where at most one field matches, it is the field encoding/xml finds by looking at all fields one by one. *)
Theorem C39_linear_search : forall k env s ti n, type_info k env s = Ok ti -> (length (filter (matches n) (ti_fields ti)) <= 1)%nat ->
  linear_search (ti_fields ti) n = match attr_field ti n with Some f => [f] | None => [] end.
Proof.
  intros k env s ti n H L. destruct (C39_field _ _ _ _ n H) as (C & _). unfold linear_search.
  assert (M : forall f, matches n f = true <-> exact n f \/ no_space n f).
  { intros f. unfold matches, exact, no_space. rewrite !andb_true_iff, orb_true_iff, is_attr_mode, !beq_iff. intuition. }
  destruct C as [f I A|f I N A|a f b E N A B|N].
  - assert (In f (filter (matches n) (ti_fields ti))) by (apply filter_In; split; [exact I|apply M; auto]).
    destruct (filter (matches n) (ti_fields ti)) as [|g [|h l]]; [contradiction| |cbn in L; lia]. destruct H0 as [->|[]]. reflexivity.
  - assert (In f (filter (matches n) (ti_fields ti))) by (apply filter_In; split; [exact I|apply M; auto]).
    destruct (filter (matches n) (ti_fields ti)) as [|g [|h l]]; [contradiction| |cbn in L; lia]. destruct H0 as [->|[]]. reflexivity.
  - assert (F : filter (matches n) (ti_fields ti) = []).
    { destruct (filter (matches n) (ti_fields ti)) as [|g l] eqn:F; [reflexivity|]. exfalso. assert (X : In g (g :: l)) by (left; reflexivity). rewrite <- F in X. apply filter_In in X as (X1 & X2).
      apply M in X2. destruct (N g X1) as (N1 & N2). destruct X2; contradiction. }
    rewrite F. rewrite E. clear - A B. induction a as [|y a IH]; cbn.
    + rewrite (proj2 (is_any_attr_mode f) A). reflexivity.
    + destruct (mode_eqb (fi_flags y) m_any_attr) eqn:Y; [destruct (B y ltac:(left; reflexivity)); apply is_any_attr_mode; exact Y|]. apply IH. intros g Hg. apply B. right; exact Hg.
  - assert (F : filter (matches n) (ti_fields ti) = []).
    { destruct (filter (matches n) (ti_fields ti)) as [|g l] eqn:F; [reflexivity|]. exfalso. assert (X : In g (g :: l)) by (left; reflexivity). rewrite <- F in X. apply filter_In in X as (X1 & X2).
      apply M in X2. destruct (N g X1) as (N1 & N2 & _). destruct X2; contradiction. }
    rewrite F. destruct (find _ (ti_fields ti)) as [f|] eqn:Y; [|reflexivity]. apply find_some in Y as (Y1 & Y2). apply is_any_attr_mode in Y2. destruct (N f Y1) as (_ & _ & Z). contradiction.
Qed.
Print Assumptions C39_linear_search.

(** The attribute xlink:href of a Period and the attributes id, cenc:default_KID and an unknown one of a ContentProtection. *)
Definition goes_to (s : bytes) (n : name) : option (list nat * bytes) :=
  match type_info 5 mpd_types s with Ok ti => option_map (fun f => (fi_idx f, fi_name f)) (attr_field ti n) | _ => None end.
Definition field_called (s : bytes) (r : option (list nat * bytes)) : option bytes :=
  match r with Some ([i], _) => option_map fd_name (nth_error (fields_of mpd_types s) i) | _ => None end.
Example C39_example :
  field_called (str "Period") (goes_to (str "Period") (mkname (str "http://www.w3.org/1999/xlink") (str "href"))) = Some (str "XlinkHref") /\
  goes_to (str "Period") (mkname (str "urn:other") (str "href")) = None /\
  field_called (str "Period") (goes_to (str "Period") (mkname (str "urn:other") (str "id"))) = Some (str "Id").
Proof. vm_compute. repeat split; reflexivity. Qed.

(** *** C57 *)
(** C57. A tag for an attribute is understood as it is composed, whatever the namespace, prefix and name. *)
Theorem C57_attribute : forall env i f ns p n omit, ~ In 32 ns -> word p -> word n -> n <> [] -> fd_name f <> str "XMLName" ->
  fd_tag f = tag_text ns [] p n ("attr"%string :: omit_flag omit) ->
  struct_field_info env i f = Ok (mkfi [i] p n ns (attr_flags omit) []).
Proof.
  intros env i f ns p n omit H1 H2 H3 H4 H5 T. rewrite (path_field env i f ns [] p n (attr_flags omit)); auto. apply parse_tag_attr; auto.
Qed.
Print Assumptions C57_attribute.
(** C57. So is a tag for an element with any path of parents; an item type that gives another name is an error. *)
Theorem C57_element : forall env i f ns ps p n omit, ~ In 32 ns -> Forall (fun x => word x /\ x <> []) ps -> word p -> word n -> n <> [] -> fd_name f <> str "XMLName" ->
  fd_tag f = tag_text ns ps p n (omit_flag omit) ->
  struct_field_info env i f =
    match lookup_xmlname env (fd_type f) with
    | Some x => if beq (fi_name x) n then Ok (mkfi [i] p n ns (element_flags omit) ps) else Err (NameConflict (fd_name f))
    | None => Ok (mkfi [i] p n ns (element_flags omit) ps)
    end.
Proof.
  intros env i f ns ps p n omit H1 H2 H3 H4 H5 H6 T.
  assert (W : Forall word ps /\ Forall (fun x => x <> []) ps) by (split; eapply Forall_impl; try exact H2; cbn; intros a A; apply A).
  destruct W as (W1 & W2). rewrite (path_field env i f ns ps p n (element_flags omit)); auto. apply parse_tag_element; auto.
Qed.
Print Assumptions C57_element.
(** C57. Without a name in the tag the field is called as its type says (XMLName), or as the field. *)
Definition other_kinds : list (string * fflags) := [
  (""%string, m_element); (",omitempty"%string, element_flags true); (",attr"%string, m_attr); (",attr,omitempty"%string, attr_flags true);
  (",chardata"%string, m_chardata); (",cdata"%string, m_cdata); (",innerxml"%string, m_innerxml); (",comment"%string, m_comment);
  (",any"%string, m_any_element); (",any,attr"%string, m_any_attr)].
Theorem C57_nameless : forall env i f tag g, In (tag, g) other_kinds -> fd_tag f = str tag -> fd_name f <> str "XMLName" ->
  struct_field_info env i f = Ok (match lookup_xmlname env (fd_type f) with
                                  | Some x => mkfi [i] (fi_prefix x) (fi_name x) (fi_xmlns x) g []
                                  | None => mkfi [i] [] (fd_name f) [] g []
                                  end).
Proof.
  intros env i f tag g H T N. unfold struct_field_info. apply beq_neq in N. unfold parse_tag. rewrite T. change xml_name with (str "XMLName") in *. rewrite N.
  repeat (destruct H as [H|H]; [injection H as <- <-; cbn; destruct (lookup_xmlname env (fd_type f)); reflexivity|]). contradiction.
Qed.
Print Assumptions C57_nameless.
(** C57. The field XMLName: the element's name and namespace. *)
Theorem C57_xmlname : forall env i f ns p n, ~ In 32 ns -> word p -> word n -> n <> [] -> fd_name f = str "XMLName" ->
  fd_tag f = tag_text ns [] p n [] -> struct_field_info env i f = Ok (mkfi [i] p n ns m_element []).
Proof.
  intros env i f ns p n H1 H2 H3 H4 H5 T. unfold struct_field_info. rewrite H5. change (beq (str "XMLName") xml_name) with true. cbn iota. unfold xmlname_info.
  rewrite (parse_tag_element f ns [] p n false); auto. cbn [bind path_part map concat app]. rewrite (split_name p n H2 H3 H4). reflexivity.
Qed.
Print Assumptions C57_xmlname.
Example C57_example :
  struct_field_info mpd_types 3 (mkfd (str "XlinkHref") false (str "http://www.w3.org/1999/xlink xlink:href,attr,omitempty") TString) =
    Ok (mkfi [3]%nat (str "xlink") (str "href") (str "http://www.w3.org/1999/xlink") (attr_flags true) []) /\
  struct_field_info mpd_types 1 (mkfd (str "L") false (str "Other") (TPtr (TStruct (str "LabelType")))) = Err (NameConflict (str "L")) /\
  str "http://www.w3.org/1999/xlink xlink:href,attr,omitempty" = tag_text (str "http://www.w3.org/1999/xlink") [] (str "xlink") (str "href") ["attr"; "omitempty"]%string.
Proof. vm_compute. repeat split; reflexivity. Qed.
