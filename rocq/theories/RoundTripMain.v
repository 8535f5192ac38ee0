(** Elements are read as they were written. *)
From Coq Require Import String.
From Coq Require Import ZArith List Bool Lia ZifyBool ZifyNat SpecFloat.
From Verif Require Import Base Utf8 NameTables Lexer Escape EscapeSpec Printer EncoderSpec Decoder GoType TypeInfo DecoderProofs Simple ValueSpec Marshal Unmarshal Io MarshalProofs UnmarshalProofs PropertiesMarshal NsSpec NsProofs NsTags Plan PlanText Lens Load LeafProofs RoundTripSpec RoundTripCheck RoundTripParts RoundTripExact RoundTripAttrs RoundTripBody.
Import ListNotations.
Open Scope Z_scope.

Section Main.
Variables (F : floats) (env : tenv) (ek : nat) (pfx : bytes -> bytes) (known : list bytes).
Hypothesis EO : env_ok ek env.
Let ZERO : forall s, wt env (TStruct s) (zero ek env (TStruct s)) = true := eo_zero _ _ EO.
Hypothesis KNOWN : forall u, In u known -> usable (pfx u) /\ ordinary u.
Hypothesis ONLY : forall u, usable (pfx u) -> In u known.
Variables (rk : bytes -> nat) (i : bool).
Hypothesis RANK : ranked ek env rk.
Hypothesis CHECKED : forall s, checked env ek pfx known s = true.

(** *** Names *)
Lemma distinctb_distinct : forall us, distinctb pfx known us = true -> distinct pfx us.
Proof.
  intros us H. unfold distinctb in H. apply andb_true_iff in H. destruct H as [H1 H2]. rewrite forallb_forall in H1, H2. split.
  - intros u I. apply KNOWN. apply inb_in. apply H1. exact I.
  - intros u v I J E. specialize (H2 u I). rewrite forallb_forall in H2. specialize (H2 v J). rewrite E, beq_refl in H2. cbn in H2. apply beq_eq. exact H2.
Qed.
Lemma uses_in : forall u ti f, In f (ti_fields ti) -> mode_eqb (fi_flags f) m_attr = true -> fi_xmlns f <> [] -> In (fi_xmlns f) (uses u ti).
Proof. intros u ti f I M N. unfold uses. apply filter_In. split; [right; apply in_map; apply filter_In; auto|]. apply negb_true_iff. apply beq_neq. exact N. Qed.
Lemma uses_own : forall u ti, u <> [] -> In u (uses u ti).
Proof. intros u ti N. unfold uses. apply filter_In. split; [left; auto|]. apply negb_true_iff. apply beq_neq. exact N. Qed.
Lemma join_split : forall u l, In u known -> simple l -> snd (split_prefixed (join_prefixed (pfx u) l)) = l.
Proof. intros u l K S0. destruct (KNOWN u K) as [U _]. rewrite (parts_split _ _ _ (join_parts (pfx u) l U S0)). reflexivity. Qed.
Lemma simple_snd : forall l, simple l -> snd (split_prefixed l) = l.
Proof. intros l [_ N]. rewrite simple_split by exact N. reflexivity. Qed.
Lemma simple_name : forall l, simple l -> l <> [].
Proof. intros l [N _] ->. discriminate N. Qed.

(** *** One element of a struct type *)
Inductive naming (s : bytes) (ti : tinfo) (v : gval) (d : option bytes) : name -> bytes -> Prop :=
| Nm_plain lo : simple lo -> lo <> xmlnsPrefix -> distinct pfx (uses [] ti) -> d = None \/ no_default ti = true -> (forall x, ti_xmlname ti = Some x -> fi_name x = lo /\ fi_xmlns x = []) -> own_of env s v = None -> dynamic ti = None -> naming s ti v d (mkname [] lo) lo
| Nm_pre u lo : simple lo -> In u known -> u <> [] -> distinct pfx (uses u ti) -> no_default ti = true -> (forall x, ti_xmlname ti = Some x -> fi_name x = lo /\ fi_xmlns x = u) -> own_of env s v = None -> dynamic ti = None -> naming s ti v d (mkname u (join_prefixed (pfx u) lo)) lo
| Nm_own u lo x : simple lo -> lo <> xmlnsPrefix -> ordinary u -> no_default ti = true -> ti_xmlname ti = Some x -> fi_name x = [] -> fi_xmlns x = [] -> own_of env s v = Some (mkname u lo) -> (forall f, In f (ti_fields ti) -> mode_eqb (fi_flags f) m_attr = true -> fi_xmlns f = []) -> d = None \/ d = Some u ->
    naming s ti v d (mkname u lo) lo.
Definition loads (d : option bytes) (s : bytes) (v : gval) (r : nat) (nd : node) : Prop := forall v0, blank env (TStruct s) v0 -> exists v', load_body F env ek (load F env ek r) (TStruct s) v0 nd = Ok v' /\ forall c, arrives env known c d (TStruct s) v v'.
Lemma struct_item : forall k s ti d l v fi n lo, type_info ek env s = Ok ti -> round_ok env ek pfx known s ti = true -> clean F env i d l (TStruct s) v -> wt env (TStruct s) v = true ->
  (forall f fd w, In f (ti_fields ti) -> mode_eqb (fi_flags f) m_element = true -> decl_at env s (fi_idx f) = Some fd -> peek env ek s (fi_idx f) v = Some (fd_type fd, w) -> back F env ek pfx known rk i k (next_space d (own_of env s v)) (fd_type fd) w f) ->
  start_name env ti (TStruct s) v true fi None = Ok n -> naming s ti v d n lo ->
  exists p, plan_value F env ek (S k) (TStruct s) v fi = Ok [p] /\ fits pfx d p /\
    forall nd, drawn pfx d p nd -> calm i nd /\ (exists m b tx c, nd = NElem m b tx c /\ local m = lo /\ (space n <> [] -> space m = space n)) /\ forall r, (rk s <= r)%nat -> loads d s v r nd.
Proof.
  intros k s ti d l v fi n lo TI OK CV WV CH SN NM. set (a := all_attrs F env s ti v). set (c := flat_map (field_plan F env ek s v k) (ti_fields ti)).
  assert (MA : marshal_attrs F env s (ti_fields ti) v true = Ok a) by (eapply marshal_given; eauto).
  assert (PC : plan_fields F env (fun t w f => plan_value F env ek k t w (Some f)) s (ti_fields ti) v = Ok c) by (eapply plan_content; eauto).
  assert (PF : Forall (fits pfx (next_space d (own_of env s v))) c) by (eapply plan_fits; eauto).
  assert (AS : forall us, (forall f, In f (ti_fields ti) -> mode_eqb (fi_flags f) m_attr = true -> fi_xmlns f <> [] -> In (fi_xmlns f) us) -> Forall (asks_attr pfx us) a) by (intros us U; eapply given_asks; eauto).
  assert (DF : no_default ti = true -> forall u, In (dflt u) a -> own_space env s v = Some u) by (intros ND; eapply given_default; eauto).
  assert (LO : snd (split_prefixed (local n)) = lo) by (destruct NM; cbn [local]; [apply simple_snd|apply join_split|apply simple_snd]; auto).
  assert (BA : bare ti n = false). { unfold bare. destruct (ti_xmlname ti) as [x|] eqn:X; auto. destruct NM as [lo S0 _ _ _ HX _ _|u lo S0 K N _ _ HX _ _|u lo x0 S0 _ (N & _) _ _ _ _ _ _ _]; cbn [space].
    - destruct (HX x X) as [-> _]. rewrite (proj2 (beq_neq _ _) (simple_name lo S0)). apply andb_false_r.
    - rewrite (proj2 (beq_neq _ _) N). reflexivity.
    - rewrite (proj2 (beq_neq _ _) N). reflexivity. }
  assert (EM : is_empty v = false) by (destruct (clean_struct F env i d l s v CV WV) as (_ & _ & ws & -> & _); reflexivity).
  exists (PElem n lo a (takes_text ti) c). split.
  { cbn [plan_value drill]. replace (match fi with Some f => g_omit (fi_flags f) && is_empty v | None => false end) with false by (destruct fi; [rewrite EM, andb_false_r|]; reflexivity). rewrite TI, SN. cbn [bind]. rewrite BA, MA. cbn [bind]. rewrite PC. cbn [bind]. rewrite LO. reflexivity. }
  split.
  { destruct NM as [lo S0 NX D ND HX OW _|u lo S0 K N D ND HX OW _|u lo x0 S0 NX OR ND X1 X2 X3 OW HF DD]; unfold own_space in DF; rewrite OW in PF, DF; cbn [option_map space] in DF.
    - apply (Fi_none pfx d (uses [] ti)); auto; [apply AS; intros; apply uses_in; auto|]. destruct ND as [ND|ND]; auto. right. intros u I. specialize (DF ND u I). discriminate.
    - apply (Fi_pre pfx d (uses u ti)); auto; [apply uses_own; auto|apply AS; intros; apply uses_in; auto|]. intros w I. specialize (DF ND w I). discriminate.
    - apply Fi_ns; auto; [apply AS; intros f I M N; exfalso; apply N; apply HF; auto|]. intros w I. specialize (DF ND w I). congruence. }
  assert (IN : inside d n = next_space d (own_of env s v)).
  { unfold inside, by_itself, next_space. destruct NM as [lo S0 NX D ND HX OW _|u lo S0 K N D ND HX OW _|u lo x0 S0 NX (N & OR) ND X1 X2 X3 OW HF DD]; rewrite OW; cbn [space local option_map].
    - reflexivity.
    - destruct (KNOWN u K) as [U _]. rewrite (parts_split _ _ _ (join_parts (pfx u) lo U S0)). cbn [fst]. rewrite (proj2 (beq_neq _ _) (usable_nonempty _ U)), andb_false_r. reflexivity.
    - rewrite simple_split by (apply S0). cbn [fst]. rewrite (proj2 (beq_neq _ _) N). reflexivity. }
  intros nd DR. inversion DR as [|d' us n' l' a' tx c0 m b c' DI LM SM CA OA XA DC]; subst d' n' l' a' tx c0 nd. rewrite IN in DC. destruct (content_back F env ek pfx known EO rk i RANK s ti TI OK d l v k CV WV CH c' DC) as (CT & CC & _).
  split; [constructor; auto|]. split; [eauto 10|]. intros r RK v0 B0. cbn [load_body]. rewrite TI. eapply (struct_load F env ek pfx known EO KNOWN ONLY rk i RANK s ti TI OK d l v k CV WV CH us (space n)); eauto.
  - intros N. destruct NM; auto; try (cbn in N; congruence).
  - unfold fate_of. destruct NM as [lo S0 NX D ND HX OW _|u lo S0 K N D ND HX OW _|u lo x0 S0 NX (N & OR) ND X1 X2 X3 OW HF DD]; rewrite OW; [exact I|exact I|]. cbn [space local] in *. destruct (inb u known) eqn:KU; [exact I|]. clear SM CA OA.
    destruct XA as (pre & -> & XA). { unfold by_itself. cbn [space local]. rewrite simple_split by (apply S0). cbn [fst]. rewrite (proj2 (beq_neq _ _) N). reflexivity. } { intro U. apply ONLY in U. unfold inb in KU. rewrite <- not_true_iff_false in KU. apply KU. apply existsb_exists. exists u. split; [exact U|apply beq_refl]. } cbn [space] in XA.
    assert (PR : map plain_attr a = map (rename pfx) a). { apply map_ext_in. intros x X. specialize (AS [] ltac:(intros f0 I0 M0 N0; rewrite HF in N0 by auto; congruence)). rewrite Forall_forall in AS. destruct (AS x X) as (_ & [[Y _]|(? & ? & [] & _)]). unfold plain_attr, rename, read_name, strip. rewrite Y. reflexivity. }
    rewrite PR. destruct d as [u'|]; cbn [laid_as].
    + destruct XA as [[-> _]|(_ & _ & Z)]; [reflexivity|discriminate Z].
    + split; auto. f_equal. destruct XA as [[-> [J|J]]|(-> & J & _)]; [|congruence|].
      * replace (existsb is_default (all_attrs F env s ti v)) with true; [reflexivity|]. symmetry. apply existsb_exists. exists (dflt u). split; [exact J|reflexivity].
      * replace (existsb is_default (all_attrs F env s ti v)) with false; [reflexivity|]. symmetry. apply not_true_is_false. intro Z. apply existsb_exists in Z. destruct Z as (x & X & Z). apply (J (avalue x)). destruct x as [[sp lc] y]. unfold is_default in Z. cbn [aname space local] in Z. apply andb_true_iff in Z. destruct Z as [Z1 Z2]. apply beq_eq in Z1, Z2. subst sp lc. exact X.
  - intros x X. destruct NM as [lo S0 NX D ND HX OW _|u lo S0 K N D ND HX OW _|u lo x0 S0 NX OR ND X1 X2 X3 OW HF DD]; cbn [space] in *.
    + destruct (HX x X) as [-> ->]. auto.
    + destruct (HX x X) as [-> ->]. rewrite SM by auto. auto.
    + rewrite X in X1. injection X1 as <-. auto.
  - intros DY. destruct NM as [lo S0 NX D ND HX OW DN|u lo S0 K N D ND HX OW DN|u lo x0 S0 NX (N & OR) ND X1 X2 X3 OW HF DD]; try congruence. rewrite OW. f_equal. destruct m as [sp lc]. cbn [space local] in *. rewrite SM by auto. congruence.
Qed.

(** *** The struct in a field *)
Lemma own_dynamic : forall s ti v, round_ok env ek pfx known s ti = true -> wt env (TStruct s) v = true ->
  match dynamic ti with Some x => exists n, own_of env s v = Some n /\ @field_at eerr env s (fi_idx x) v true = Ok (Some (TName, VName n, true)) | None => own_of env s v = None end.
Proof.
  intros s ti v OK W. destruct (ok_parts env ek pfx known s ti OK) as (_ & _ & _ & _ & NF & _). unfold name_field_ok in NF. apply wt_struct in W. destruct W as (ws & -> & W). unfold dynamic, own_of.
  assert (FS : forall {A} (x : option A), none x = true -> x = None) by (intros A [x|]; auto; discriminate).
  destruct (ti_xmlname ti) as [x|] eqn:X; [|apply first_self_none with (i := 0%nat); auto]. destruct (fi_idx x) as [|j [|]] eqn:IX; try discriminate NF. apply andb_true_iff in NF. destruct NF as [NF1 NF2]. destruct (nth_error (fields_of env s) j) as [fd|] eqn:NT; [|discriminate]. destruct (fd_type fd) eqn:T; try discriminate NF1.
  destruct (beq (fi_name x) []) eqn:B; [|apply first_self_none with (i := 0%nat); auto]. apply andb_true_iff in NF2. destruct NF2 as [NF2 _]. destruct (first_self 0 (fields_of env s)) as [j'|] eqn:F0; [|discriminate]. apply Nat.eqb_eq in NF2. subst j'.
  destruct (Forall2_nth _ _ _ _ _ W NT) as (w & NW & WW). rewrite T in WW. destruct w as [| | | | | | | |n|]; try discriminate WW. exists n. rewrite (first_self_some (fields_of env s) ws 0 j (VName n) F0) by (rewrite Nat.sub_0_r; exact NW). split; auto. rewrite IX. cbn [field_at]. rewrite NT, NW, T. reflexivity.
Qed.
Lemma item_back : forall k s f fd d v, item_ok env ek pfx known s f fd = true -> simple (fi_name f) -> fi_name f <> xmlnsPrefix -> fi_name f = label env fd -> misnamed env fd = false ->
  (forall ti d' l' v', type_info ek env s = Ok ti -> round_ok env ek pfx known s ti = true -> clean F env i d' l' (TStruct s) v' -> wt env (TStruct s) v' = true -> (height v' <= S k)%nat ->
    forall g gd w, In g (ti_fields ti) -> mode_eqb (fi_flags g) m_element = true -> decl_at env s (fi_idx g) = Some gd -> peek env ek s (fi_idx g) v' = Some (fd_type gd, w) -> back F env ek pfx known rk i k (next_space d' (own_of env s v')) (fd_type gd) w g) ->
  clean F env i d (label env fd) (TStruct s) v -> wt env (TStruct s) v = true -> (height v <= S k)%nat ->
  exists p, plan_value F env ek (S k) (TStruct s) v (Some f) = Ok [p] /\ fits pfx d p /\
    forall nd, drawn pfx d p nd -> calm i nd /\ named f nd /\ forall r, (rk s <= r)%nat -> loads d s v r nd.
Proof.
  intros k s f fd d v IO SF NX FL MN CH CV WV HV. destruct (clean_struct F env i d (label env fd) s v CV WV) as (RAW & OWN & _).
  pose proof (CHECKED s) as CK. unfold checked in CK. unfold item_ok in IO. rewrite RAW in CK, IO. cbn [orb] in CK, IO. destruct (type_info ek env s) as [ti| | |] eqn:TI; try discriminate. specialize (CH ti d (label env fd) v eq_refl CK CV WV HV).
  apply andb_true_iff in IO. destruct IO as [ND IO]. pose proof (own_dynamic s ti v CK WV) as OD.
  assert (NMN : exists n, start_name env ti (TStruct s) v true (Some f) None = Ok n /\ naming s ti v d n (fi_name f) /\ (fi_xmlns f <> [] -> space n = fi_xmlns f)).
  { assert (FN : forall g, simple (fi_name g) -> local (field_name g) <> []). { intros g SG. unfold field_name. cbn [local]. unfold join_prefixed. destruct (fi_prefix g); [apply simple_name; exact SG|discriminate]. }
    assert (NAMES : forall g, fi_name g = fi_name f -> ns_ok pfx known g = true -> distinctb pfx known (uses (fi_xmlns g) ti) = true -> (forall x, ti_xmlname ti = Some x -> fi_name x = fi_name f /\ fi_xmlns x = fi_xmlns g) -> dynamic ti = None -> naming s ti v d (field_name g) (fi_name f)).
    { intros g NE NO DB HX DN. rewrite DN in OD. apply distinctb_distinct in DB. unfold ns_ok in NO. unfold field_name. rewrite NE. destruct (beq (fi_xmlns g) []) eqn:B.
      - apply beq_eq in B, NO. rewrite B, NO in *. change (join_prefixed [] (fi_name f)) with (fi_name f). apply Nm_plain; auto.
      - apply andb_true_iff in NO. destruct NO as [NO1 NO2]. apply beq_eq in NO2. apply beq_neq in B. apply inb_in in NO1. rewrite NO2. apply Nm_pre; auto. }
    unfold start_name. destruct (ti_xmlname ti) as [x|] eqn:X.
    - destruct (beq (fi_name x) []) eqn:B; cbn [negb].
      + rewrite !andb_true_iff in IO. destruct IO as [[I1 I2] I3]. apply beq_eq in I1, I2. assert (DN : dynamic ti = Some x) by (unfold dynamic; rewrite X, B; reflexivity). rewrite DN in OD. destruct OD as (n & OW & FA). rewrite FA. cbn [bind]. destruct (OWN n OW) as (O1 & O2 & O3). rewrite <- FL in O1.
        assert (LN : local n <> []) by (rewrite O1; apply simple_name; exact SF). rewrite (proj2 (beq_neq _ _) LN). cbv zeta. rewrite (proj2 (beq_neq _ _) LN). rewrite (proj2 (beq_neq _ _) LN). exists n. split; auto. split; [|congruence]. destruct n as [u lo]. cbn [local space] in *. subst lo. apply beq_eq in B. eapply Nm_own; eauto.
        intros g G M. rewrite forallb_forall in I3. apply beq_eq. apply I3. apply filter_In. auto.
      + destruct (beq (fi_name x) (fi_name f)) eqn:B2; [|congruence]. apply beq_eq in B2. rewrite !andb_true_iff in IO. destruct IO as [[I1 I2] I3]. assert (LN : local (field_name x) <> []) by (apply FN; rewrite B2; exact SF). cbn [bind]. cbv zeta. rewrite (proj2 (beq_neq _ _) LN). rewrite (proj2 (beq_neq _ _) LN).
        exists (field_name x). split; auto. split.
        * apply NAMES; auto; [|unfold dynamic; rewrite X, B; reflexivity]. intros y Y. injection Y as <-. auto.
        * intros N. apply orb_true_iff in I1. destruct I1 as [I1|I1]; apply beq_eq in I1; [contradiction|]. unfold field_name. cbn [space]. congruence.
    - apply andb_true_iff in IO. destruct IO as [I1 I2]. cbn [bind]. cbv zeta. change (beq (local (mkname [] [])) []) with true. cbn match. assert (LN : local (field_name f) <> []) by (apply FN; exact SF). rewrite (proj2 (beq_neq _ _) LN). exists (field_name f). split; auto. split; [|auto].
      apply NAMES; auto; [discriminate|unfold dynamic; rewrite X; reflexivity]. }
  destruct NMN as (n & SN & NM & SP). destruct (struct_item k s ti d (label env fd) v (Some f) n (fi_name f) TI CK CV WV CH SN NM) as (p & P1 & P2 & P3). exists p. split; auto. split; auto. intros nd DR. destruct (P3 nd DR) as (Q1 & (m & b & tx & c & -> & Q2 & Q3) & Q4). split; auto. split; auto. split; auto.
  intros N. rewrite Q3; auto. rewrite SP; auto.
Qed.
(** *** Simple values in elements *)
Lemma leaf_item : forall k t f d l v, plain_leaf t = true -> ns_ok pfx known f = true -> distinctb pfx known (uses (fi_xmlns f) empty_info) = true -> simple (fi_name f) -> fi_name f <> xmlnsPrefix ->
  wt env t v = true -> clean F env i d l t v ->
  exists p, (g_omit (fi_flags f) && is_empty v = false -> plan_value F env ek (S k) t v (Some f) = Ok [p]) /\ plan_value F env ek (S k) (TPtr t) (VPtr v) (Some f) = Ok [p] /\ fits pfx d p /\ (forall c, arrives env known c d t v v) /\ forall nd, drawn pfx d p nd -> calm i nd /\ named f nd /\ forall r v0, load_body F env ek r t v0 nd = Ok v.
Proof.
  intros k t f d l v PL NO DB SF NX W C. unfold plain_leaf in PL. apply andb_true_iff in PL. destruct PL as [PL HM]. apply andb_true_iff in PL. destruct PL as [ST BO]. apply negb_true_iff in HM. destruct (kept_leaf F env i d l t v ST BO W C) as (s & LT & XT & LV). unfold leaf_text, leaf_value in *. rewrite HM in LT, LV.
  assert (LN : local (field_name f) <> []). { unfold field_name. cbn [local]. unfold join_prefixed. destruct (fi_prefix f); [apply simple_name; exact SF|discriminate]. }
  assert (SN : start_name env empty_info t v true (Some f) None = Ok (field_name f)). { unfold start_name. change (ti_xmlname empty_info) with (@None finfo). cbn [bind]. cbv zeta. change (beq (local (mkname [] [])) []) with true. cbn match. rewrite (proj2 (beq_neq _ _) LN). reflexivity. }
  apply distinctb_distinct in DB. unfold ns_ok in NO.
  assert (N : snd (split_prefixed (local (field_name f))) = fi_name f /\ fits pfx d (PElem (field_name f) (fi_name f) [] true [PText EAttr s])).
  { unfold field_name. cbn [local]. destruct (beq (fi_xmlns f) []) eqn:B.
    - apply beq_eq in B, NO. rewrite B, NO in *. change (join_prefixed [] (fi_name f)) with (fi_name f). split; [apply simple_snd; exact SF|]. apply (Fi_none pfx d (uses [] empty_info)); auto. repeat constructor. exact XT.
    - apply andb_true_iff in NO. destruct NO as [NO1 NO2]. apply beq_eq in NO2. apply beq_neq in B. apply inb_in in NO1. rewrite NO2. split; [apply join_split; auto|]. apply (Fi_pre pfx d (uses (fi_xmlns f) empty_info)); auto; [apply uses_own; auto|]. repeat constructor. exact XT. }
  destruct N as [N1 N2]. exists (PElem (field_name f) (fi_name f) [] true [PText EAttr s]).
  assert (PV : forall b : bool, b = false -> (if b then Ok [] else do n <- start_name env empty_info t v true (Some f) None ; match simple_text F t v with Some s => Ok [PElem n (snd (split_prefixed (local n))) [] true [PText EAttr s]] | None => unsupported end) = Ok [PElem (field_name f) (fi_name f) [] true [PText EAttr s]]).
  { intros b ->. rewrite SN. cbn [bind]. rewrite LT, N1. reflexivity. }
  split; [intros O; specialize (PV _ O); destruct t; try discriminate ST; exact PV|]. split. { assert (O : g_omit (fi_flags f) && is_empty (VPtr v) = false) by apply andb_false_r. specialize (PV _ O). destruct t; try discriminate ST; exact PV. }
  split; auto. split; [intro c; destruct t; try discriminate ST; destruct v; try discriminate W; reflexivity|].
  intros nd DR. inversion DR as [|d' us n' l' a' tx c0 m b c' DI LM SM CA OA XA DC]; subst d' n' l' a' tx c0 nd. apply Forall2_one in DC. destruct DC as (y & -> & DY). inversion DY; subst.
  split; [constructor; auto; repeat constructor|]. split; [split; auto|]. intros r v0.
  assert (CP : copy_value F t (texts [NText s]) = Ok v) by (cbn [texts]; rewrite app_nil_r; exact LV). destruct t; try discriminate ST; exact CP.
Qed.

(** *** Structs and pointers to structs *)
Definition children_back (k : nat) : Prop := forall s ti d l v, type_info ek env s = Ok ti -> round_ok env ek pfx known s ti = true -> clean F env i d l (TStruct s) v -> wt env (TStruct s) v = true -> (height v <= S k)%nat ->
  forall f fd w, In f (ti_fields ti) -> mode_eqb (fi_flags f) m_element = true -> decl_at env s (fi_idx f) = Some fd -> peek env ek s (fi_idx f) v = Some (fd_type fd, w) -> back F env ek pfx known rk i k (next_space d (own_of env s v)) (fd_type fd) w f.
Lemma unit_back : forall k t f fd d v, children_back k -> unit_ok env ek pfx known t f fd = true -> simple (fi_name f) -> fi_name f <> xmlnsPrefix -> fi_name f = label env fd -> misnamed env fd = false ->
  clean F env i d (label env fd) t v -> wt env t v = true -> v <> VNil -> (height v <= S k)%nat ->
  exists p, plan_value F env ek (S k) t v (Some f) = Ok [p] /\ fits pfx d p /\
    forall nd, drawn pfx d p nd -> calm i nd /\ named f nd /\ forall r w0, (needs rk t <= r)%nat -> blank env t w0 -> exists w', load F env ek r t w0 nd = Ok w' /\ forall c, arrives env known c d t v w'.
Proof.
  intros k t f fd d v CB UO SF NX FL MN C W NV HV. unfold unit_ok in UO. destruct t as [| | | | | | |t|t|s| |]; try discriminate UO.
  - destruct t as [| | | | | | |t|t|s| |]; try discriminate UO. destruct v as [| | | | |v| | | |]; try discriminate W; [congruence|]. cbn [clean] in C. destruct C as [_ C]. cbn [wt] in W. cbn [height] in HV.
    destruct (item_back k s f fd d v UO SF NX FL MN (CB s) C W HV) as (p & P1 & P2 & P3). exists p. split.
    { rewrite <- P1. pose proof (proj1 (wt_struct env s v) W) as (l & -> & _). cbn [plan_value drill is_empty]. rewrite !andb_false_r. reflexivity. }
    split; auto. intros nd DR. destruct (P3 nd DR) as (Q1 & Q2 & Q3). split; auto. split; auto. intros r w0 R (k0 & -> & _). cbn [needs] in R. destruct r as [|r]; [lia|]. replace (zero k0 env (TPtr (TStruct s))) with VNil by (destruct k0; reflexivity). cbn [load].
    destruct (Q3 r ltac:(lia) (zero_of env ek (TStruct s))) as (v' & L & SM). { exists ek. split; [reflexivity|apply ZERO]. } change (load_body F env ek (load F env ek r) (TStruct s) (zero_of env ek (TStruct s)) nd) with (load_body F env ek (load F env ek r) (TStruct s) (zero_of env ek (TStruct s)) nd) in L. rewrite L. cbn [bind]. exists (VPtr v'). split; auto.
  - destruct (item_back k s f fd d v UO SF NX FL MN (CB s) C W HV) as (p & P1 & P2 & P3). exists p. split; auto. split; auto. intros nd DR. destruct (P3 nd DR) as (Q1 & Q2 & Q3). split; auto. split; auto. intros r w0 R B. cbn [needs] in R. destruct r as [|r]; [lia|]. cbn [load]. apply Q3; auto. lia.
Qed.
Lemma height_in : forall w l, In w l -> (height w < height (VList l))%nat.
Proof. intros w l I. cbn [height]. assert (height w <= fold_right Nat.max O (map height l))%nat; [|lia]. induction l as [|x l IH]; [destruct I|]. cbn [map fold_right]. destruct I as [->|I]; [lia|]. specialize (IH I). lia. Qed.
Lemma clean_list : forall d l t ws, clean F env i d l (TSlice t) (VList ws) -> Forall (fun w => w <> VNil /\ clean F env i d l t w) ws.
Proof. intros d l t ws H. cbn [clean] in H. induction ws as [|w ws IH]; constructor; [apply H|apply IH; apply H]. Qed.
Lemma list_back : forall k t f fd d ws, children_back k -> unit_ok env ek pfx known t f fd = true -> simple (fi_name f) -> fi_name f <> xmlnsPrefix -> fi_name f = label env fd -> misnamed env fd = false ->
  Forall (fun w => w <> VNil /\ clean F env i d (label env fd) t w) ws -> forallb (wt env t) ws = true -> (forall w, In w ws -> (height w <= S k)%nat) ->
  exists ps, gather (fun w => plan_value F env ek (S k) t w (Some f)) ws = Ok ps /\ Forall (fits pfx d) ps /\ (ws = [] -> ps = []) /\
    forall nds, Forall2 (drawn pfx d) ps nds -> Forall (calm i) nds /\ Forall (named f) nds /\ forall r acc, (needs rk t <= r)%nat -> exists ws', load_feed F env ek (S r) (TSlice t) (VList acc) nds = Ok (VList (acc ++ ws')) /\ forall c, Forall2 (arrives env known c d t) ws ws'.
Proof.
  intros k t f fd d ws CB UO SF NX FL MN. induction ws as [|w ws IH]; intros C W H.
  - exists []. split; [reflexivity|]. split; [constructor|]. split; auto. intros nds DR. apply Forall2_none in DR. subst nds. split; [constructor|]. split; [constructor|]. intros r acc R. exists []. rewrite app_nil_r. split; [reflexivity|intro c; constructor].
  - inversion C as [|? ? [C1 C2] C3]; subst. cbn [forallb] in W. apply andb_true_iff in W. destruct W as [W1 W2]. destruct (unit_back k t f fd d w CB UO SF NX FL MN C2 W1 C1 (H w (or_introl eq_refl))) as (p & P1 & P2 & P3). destruct (IH C3 W2 (fun x X => H x (or_intror X))) as (ps & Q1 & Q2 & _ & Q3). exists (p :: ps).
    cbn [gather]. rewrite P1, Q1. cbn [bind app]. split; auto. split; [constructor; auto|]. split; [discriminate|]. intros nds DR. inversion DR as [|? nd ? nds' D1 D2]; subst. destruct (P3 nd D1) as (A1 & A2 & A3). destruct (Q3 nds' D2) as (B1 & B2 & B3). split; [constructor; auto|]. split; [constructor; auto|]. intros r acc R.
    destruct (A3 r (zero_of env ek t) R) as (w' & L & SM). { exists ek. split; [reflexivity|]. apply wt_zero. exact ZERO. } destruct (B3 r (acc ++ [w']) R) as (ws' & L' & SM'). exists (w' :: ws'). split; [|intro c; constructor; auto]. unfold load_feed in *. cbn [feed]. replace (load F env ek (S r) (TSlice t) (VList acc) nd) with (Ok (VList (acc ++ [w'])) : outcome uerr gval).
    + cbn [bind]. rewrite L', <- app_assoc. reflexivity.
    + destruct nd as [x|m b tx c]; [destruct A2|]. cbn [load load_body]. rewrite L. reflexivity.
Qed.

(** *** Fields *)
Definition fields_back (k : nat) : Prop := forall s ti f fd d w, elem_ok env ek pfx known s ti f fd = true -> fi_name f = label env fd -> fi_flags f = flags_of fd -> wt env (fd_type fd) w = true ->
  clean F env i d (label env fd) (fd_type fd) w -> (misnamed env fd = true -> absent w) -> (w = VFloat (S754_zero true) -> g_omit (flags_of fd) = false) -> (height w <= k)%nat -> back F env ek pfx known rk i k d (fd_type fd) w f.
Lemma children_fields : forall k, fields_back k -> children_back k.
Proof.
  intros k FB s ti d l v TI OK CV WV HV f fd w I M D P. destruct (field_facts env ek pfx known s ti OK f I) as (fd' & D' & PO & _ & FN & FF & RO). rewrite D in D'. injection D' as <-. destruct (at_field F env ek EO s ti i d l v CV WV f fd I D PO) as (w' & _ & P' & W' & H' & C' & _ & s' & own & FK & _). rewrite P in P'. injection P' as <-.
  destruct FK as (_ & K1 & _ & K2 & _). destruct (element_fields env ek pfx known s ti f fd RO) as [_ EL]. { apply mode_fields in M. destruct M as [-> _]. reflexivity. } eapply FB; eauto. lia.
Qed.
Lemma no_back : forall k t f d w, plan_value F env ek k t w (Some f) = Ok [] -> (forall w0, blank env t w0 -> forall c, arrives env known c d t w w0) -> back F env ek pfx known rk i k d t w f.
Proof.
  intros k t f d w P H. exists []. split; auto. split; [constructor|]. split; auto. intros nds DR. apply Forall2_none in DR. subst nds. split; [constructor|]. split; [constructor|]. intros r w0 _ B. exists w0. split; [reflexivity|auto].
Qed.
Lemma needs_pos : forall t r, (needs rk t <= r)%nat -> (1 <= r)%nat.
Proof. intros t r H. destruct t as [| | | | | | |t|t|s| |]; cbn [needs] in H; try lia. destruct t; cbn [needs] in H; lia. Qed.
Lemma blank_ptr : forall t w0, blank env (TPtr t) w0 -> w0 = VNil.
Proof. intros t w0 (k & -> & _). destruct k; reflexivity. Qed.
Lemma blank_slice : forall t w0, blank env (TSlice t) w0 -> w0 = VList [].
Proof. intros t w0 (k & -> & _). destruct k; reflexivity. Qed.
Lemma one_back : forall k t f d w p, ~ absent w -> plan_value F env ek k t w (Some f) = Ok [p] -> fits pfx d p ->
  (forall nd, drawn pfx d p nd -> calm i nd /\ named f nd /\ forall r w0, (needs rk t <= r)%nat -> blank env t w0 -> exists w', load F env ek r t w0 nd = Ok w' /\ forall c, arrives env known c d t w w') -> back F env ek pfx known rk i k d t w f.
Proof.
  intros k t f d w p A P1 P2 P3. exists [p]. split; auto. split; [constructor; auto|]. split; [contradiction|]. intros nds DR. apply Forall2_one in DR. destruct DR as (nd & -> & DR). destruct (P3 nd DR) as (Q1 & Q2 & Q3). split; [constructor; auto|]. split; [constructor; auto|]. intros r w0 R B. destruct (Q3 r w0 R B) as (w' & L & SM). exists w'. split; auto. unfold load_feed. cbn [feed]. rewrite L. reflexivity.
Qed.
Lemma fields_all : forall k, fields_back k.
Proof.
  intros k. induction k as [k IH] using (well_founded_induction lt_wf). intros s ti f fd d w EL FN FF W C MN NZ H. unfold elem_ok in EL. rewrite !andb_true_iff in EL. destruct EL as [[[E1 E2] E3] _]. apply simpleb_simple in E1. apply negb_true_iff in E2. apply beq_neq in E2.
  destruct k as [|k]; [destruct w; cbn [height] in H; try lia|].
  - exfalso. clear - H. induction w; cbn [height] in H; try lia. 
  - assert (UNIT : forall t, fd_type fd = t -> unit_ok env ek pfx known t f fd = true -> back F env ek pfx known rk i (S k) d t w f).
    { intros t T UO. rewrite T in *. assert (CB : children_back k) by (apply children_fields; apply IH; lia).
      destruct (match w with VNil => true | _ => false end) eqn:WN.
      - destruct w; try discriminate WN. destruct t as [| | | | | | |t|t|s0| |]; try discriminate W. apply no_back; [|intros w0 B; apply blank_ptr in B; subst; reflexivity]. cbn [plan_value is_empty drill]. rewrite andb_true_r; destruct (g_omit (fi_flags f)); reflexivity.
      - assert (NW : w <> VNil) by (intros ->; discriminate). assert (NA : ~ absent w). { intros [A|A]; [contradiction|]. subst w. unfold unit_ok in UO. destruct t; try discriminate UO; discriminate W. }
        assert (MF : misnamed env fd = false) by (destruct (misnamed env fd); auto; exfalso; auto).
        destruct (unit_back k t f fd d w CB UO E1 E2 FN MF C W NW H) as (p & P1 & P2 & P3). eapply one_back; eauto. }
    assert (LEAF : forall t, fd_type fd = t -> plain_leaf t && ns_ok pfx known f && distinctb pfx known (uses (fi_xmlns f) empty_info) = true -> back F env ek pfx known rk i (S k) d t w f).
    { intros t T PL. rewrite !andb_true_iff in PL. destruct PL as [[P1 P2] P3]. rewrite T in *. destruct (leaf_item k t f d (label env fd) w P1 P2 P3 E1 E2 W C) as (p & Q1 & _ & Q2 & SM & Q3). assert (NA : ~ absent w) by (unfold plain_leaf in P1; intros [A|A]; subst w; destruct t; discriminate).
      destruct (g_omit (fi_flags f) && is_empty w) eqn:O.
      - apply no_back; [cbn [plan_value]; rewrite O; reflexivity|]. intros w0 B. apply andb_true_iff in O. destruct O as [O1 O2]. destruct (empty_blank env t w w0) as [-> S1]; auto; [intros s0 ->; discriminate P1|]. intros Z. specialize (NZ Z). congruence.
      - apply (one_back (S k) t f d w p NA); auto. intros nd DR. destruct (Q3 nd DR) as (R1 & R2 & R3). split; auto. split; auto. intros r w0 R _. exists w. split; auto. apply needs_pos in R. destruct r as [|r]; [inversion R|]. specialize (R3 (load F env ek r) w0). unfold plain_leaf in P1. destruct t; try discriminate P1; exact R3. }
    destruct (fd_type fd) as [| | | | | | |t|t|s0| |] eqn:T; try (apply orb_true_iff in E3; destruct E3 as [E3|E3]; [apply LEAF; auto|apply UNIT; auto]; fail).
    + apply orb_true_iff in E3. destruct E3 as [E3|E3]; [|apply UNIT; auto]. rewrite !andb_true_iff in E3. destruct E3 as [[P1 P2] P3]. destruct w as [| | | | |w| | | |]; try discriminate W.
      * apply no_back; [|intros w0 B; apply blank_ptr in B; subst; reflexivity]. cbn [plan_value is_empty drill]. rewrite andb_true_r; destruct (g_omit (fi_flags f)); reflexivity.
      * cbn [clean] in C. destruct C as [_ C]. destruct (leaf_item k t f d (label env fd) w P1 P2 P3 E1 E2 W C) as (p & _ & Q1 & Q2 & SM & Q3). apply (one_back (S k) (TPtr t) f d (VPtr w) p); auto; [intros [A|A]; discriminate|]. intros nd DR. destruct (Q3 nd DR) as (R1 & R2 & R3). split; auto. split; auto. intros r w0 R _. exists (VPtr w). split; [|exact SM].
        apply needs_pos in R. destruct r as [|r]; [inversion R|]. cbn [load]. rewrite R3. reflexivity.
    + destruct w as [| | | | | |ws| | |]; try discriminate W. cbn [wt] in W. assert (NAT : t <> TAttr) by (intros ->; discriminate E3).
      assert (EMPTY : ws = [] -> back F env ek pfx known rk i (S k) d (TSlice t) (VList ws) f). { intros ->. apply no_back; [cbn [plan_value is_empty drill gather]; rewrite andb_true_r; destruct (g_omit (fi_flags f)); reflexivity|]. intros w0 B. apply blank_slice in B. subst. intro c. apply arrives_list; auto. }
      destruct ws as [|w0 ws0]; [apply EMPTY; auto|]. set (ws := w0 :: ws0) in *. assert (MF : misnamed env fd = false) by (destruct (misnamed env fd) eqn:MM; auto; destruct (MN eq_refl) as [A|A]; discriminate A).
      destruct k as [|k]; [exfalso; pose proof (height_in w0 ws (or_introl eq_refl)) as HI; assert (1 <= height w0)%nat by (clear; induction w0; cbn [height]; lia); lia|].
      destruct (list_back k t f fd d ws) as (ps & G1 & G2 & _ & G3); auto; [apply children_fields; apply IH; lia|apply clean_list; exact C|intros x X; pose proof (height_in x ws X); lia|]. exists ps. split.
      { change (plan_value F env ek (S (S k)) (TSlice t) (VList ws) (Some f)) with (if g_omit (fi_flags f) && false then Ok [] else gather (fun w => plan_value F env ek (S k) t w (Some f)) ws). rewrite andb_false_r. exact G1. }
      split; auto. split; [intros [A|A]; discriminate A|]. intros nds DR. destruct (G3 nds DR) as (B1 & B2 & B3). split; auto. split; auto. intros r w1 R B. apply blank_slice in B. subst w1. cbn [needs] in R. destruct r as [|r]; [lia|]. destruct (B3 r [] ltac:(lia)) as (ws' & L & SM). exists (VList ws'). split; auto. intro c. apply arrives_list; auto.
Qed.

(** *** Whole values *)
Theorem struct_back : forall s ti d l v fi n lo k, type_info ek env s = Ok ti -> has_raw env s = false -> clean F env i d l (TStruct s) v -> wt env (TStruct s) v = true -> (height v <= S k)%nat ->
  start_name env ti (TStruct s) v true fi None = Ok n -> naming s ti v d n lo ->
  exists p, plan_value F env ek (S k) (TStruct s) v fi = Ok [p] /\ fits pfx d p /\
    forall nd, drawn pfx d p nd -> calm i nd /\ (exists m b tx c, nd = NElem m b tx c /\ local m = lo /\ (space n <> [] -> space m = space n)) /\ forall r, (rk s <= r)%nat -> loads d s v r nd.
Proof.
  intros s ti d l v fi n lo k TI RAW CV WV HV SN NM. pose proof (CHECKED s) as CK. unfold checked in CK. rewrite RAW, TI in CK. cbn [orb] in CK. eapply struct_item; eauto. eapply (children_fields k (fields_all k)); eauto.
Qed.
End Main.
