(** No start tag has an attribute twice. *)
From Coq Require Import String.
From Coq Require Import ZArith List Bool Lia ZifyBool ZifyNat SpecFloat.
From Verif Require Import Base Utf8 NameTables Lexer Escape EscapeSpec Printer Writer PropertiesWriter EncoderSpec Decoder DecoderSpec GoType TypeInfo DecoderProofs Simple ValueSpec Marshal Unmarshal Io MarshalProofs UnmarshalProofs PropertiesUnmarshal PropertiesMarshal
  TagText NsSpec NsProofs NsHistory NsTags PropertiesNamespace Plan PlanText Lens Load LeafProofs RoundTripSpec RoundTripCheck RoundTripParts RoundTripAttrs RoundTripBody RoundTripMain RoundTripRoot.
Import ListNotations.
Open Scope Z_scope.

(** *** Values and tokens without repeated attributes *)
(** What one field has for attributes: no captured name twice, and no list written as several attributes of one name. *)
Definition alone (f : fdecl) (w : gval) : Prop :=
  g_attr (flags_of f) = true ->
  match fd_type f, w with
  | TSlice TAttr, VList l => NoDup (map aname (attrs_in l))
  | TSlice _, VList l | TPtr (TSlice _), VPtr (VList l) => (length l <= 1)%nat
  | _, _ => True
  end.
Fixpoint single (env : tenv) (t : gtype) (v : gval) {struct v} : Prop :=
  match v with
  | VPtr w => match t with TPtr t => single env t w | _ => True end
  | VList ws => match t with TSlice t => (fix go (ws : list gval) : Prop := match ws with [] => True | w :: ws => single env t w /\ go ws end) ws | _ => True end
  | VRec ws =>
      match t with
      | TStruct s =>
          (fix go (fs : list fdecl) (ws : list gval) {struct ws} : Prop :=
             match fs, ws with
             | f :: fs, w :: ws => (skipped f = true \/ alone f w /\ single env (fd_type f) w) /\ go fs ws
             | _, _ => True
             end) (fields_of env s) ws
      | _ => True
      end
  | _ => True
  end.
(** A token with attributes has none of them twice. *)
Definition unrepeated (t : token) : Prop := match t with TStart _ b => NoDup (map aname b) | _ => True end.

Lemma single_fields : forall env s ws x f w, single env (TStruct s) (VRec ws) -> nth_error (fields_of env s) x = Some f -> nth_error ws x = Some w -> skipped f = true \/ alone f w /\ single env (fd_type f) w.
Proof.
  intros env s ws x f w H. cbn [single] in H. revert x ws H. generalize (fields_of env s) as fs. induction fs as [|g fs IH]; intros x ws H N NW; [destruct x; discriminate N|].
  destruct ws as [|w0 ws]; [destruct x; discriminate NW|]. destruct H as [H H']. destruct x as [|x]; [injection N as <-; injection NW as <-; exact H|]. eapply IH; eauto.
Qed.
Lemma single_at : forall env idx s v fd t w ad, single env (TStruct s) v -> path_ok env s idx = true -> decl_at env s idx = Some fd -> @field_at eerr env s idx v true = Ok (Some (t, w, ad)) -> alone fd w /\ single env (fd_type fd) w.
Proof.
  intros env. induction idx as [|x rest IH]; intros s v fd t w ad S P D H; [discriminate|]. cbn [path_ok decl_at field_at] in *. destruct v as [| | | | | | |ws| |]; try discriminate. destruct (nth_error (fields_of env s) x) as [f|] eqn:N; [|discriminate].
  destruct (nth_error ws x) as [u|] eqn:NW; [|discriminate]. apply andb_true_iff in P. destruct P as [NS P]. apply negb_true_iff in NS. destruct (single_fields _ _ _ _ _ _ S N NW) as [X|[A B]]; [congruence|].
  destruct rest as [|y rest]; [injection D as <-; injection H as _ <- _; auto|].
  destruct (fd_type f) as [| | | | | | |t'| |s'| |] eqn:FT; try discriminate.
  - destruct t' as [| | | | | | | | |s'| |]; try discriminate. destruct u as [| | | | |u| | | |]; try discriminate. apply andb_true_iff in P. destruct P as [_ P]. eapply (IH s' u); eauto.
  - apply andb_true_iff in P. destruct P as [_ P]. eapply (IH s' u); eauto.
Qed.
Lemma single_list : forall env t ws, single env (TSlice t) (VList ws) -> Forall (single env t) ws.
Proof. intros env t ws H. cbn [single] in H. induction ws as [|w ws IH]; constructor; [apply H|apply IH; apply H]. Qed.

(** *** Plans and nodes *)
Inductive lean : plan -> Prop :=
| Le_text m s : lean (PText m s)
| Le_elem n l a tx c : NoDup (map read_name a) -> Forall lean c -> lean (PElem n l a tx c).
Inductive fair : node -> Prop :=
| Fa_text s : fair (NText s)
| Fa_elem m b tx c : NoDup (map aname b) -> Forall fair c -> fair (NElem m b tx c).
Lemma drawn_fair : forall pfx p, lean p -> forall nd, forall d, drawn pfx d p nd -> fair nd.
Proof.
  intros pfx p. induction p as [m s|n l a tx c IH] using plan_rec; intros L nd d D.
  - inversion D; subst. constructor.
  - inversion L as [|? ? ? ? ? NA FC]; subst. inversion D as [|d' us n' l' a' tx' c0 m b c' DI LM SM CA OA XA DC]; subst. constructor; auto. clear - IH FC DC. induction DC as [|p nd c c' D DC IHc]; constructor; inversion IH; subst; inversion FC; subst; eauto.
Qed.
Lemma fair_spelt : forall i nds ts, spelt i nds ts -> Forall fair nds -> Forall unrepeated ts.
Proof.
  intros i nds ts H. induction H as [|s c ts H IH|w m b tx c w' cts rest ts L1 L2 L3 H1 IH1 H2 IH2]; intros F; [constructor| |].
  - inversion F; subst. constructor; [exact I|auto].
  - inversion F as [|? ? F1 F2]; subst. inversion F1; subst. constructor; [exact I|]. constructor; [assumption|]. apply Forall_app. split; [auto|]. constructor; [exact I|]. constructor; [exact I|auto].
Qed.
Lemma merge_unrepeated : forall ts acc, Forall unrepeated ts -> Forall unrepeated (merge acc ts).
Proof.
  induction ts as [|t ts IH]; intros acc F; [destruct acc; repeat constructor|]. inversion F; subst. destruct (is_char t) eqn:E.
  - destruct t; try discriminate. cbn [merge]. auto.
  - rewrite merge_head by exact E. apply Forall_app. split; [destruct acc; repeat constructor|]. constructor; auto.
Qed.
Lemma NoDup_flat : forall {A B} (g : A -> list B) l, NoDup l -> (forall x, In x l -> NoDup (g x)) -> (forall x y z, In x l -> In y l -> In z (g x) -> In z (g y) -> x = y) -> NoDup (flat_map g l).
Proof.
  intros A B g l N. induction N as [|x l NI N IH]; intros H D; cbn [flat_map]; [constructor|].
  assert (T : NoDup (flat_map g l)) by (apply IH; [intros y Y; apply H; right; exact Y|intros y z w Y Z; apply D; right; auto]). assert (HX : NoDup (g x)) by (apply H; left; reflexivity).
  assert (DX : forall z, In z (g x) -> ~ In z (flat_map g l)). { intros z Z J. apply in_flat_map in J. destruct J as (y & Y & J). apply NI. rewrite (D x y z); auto; [left; reflexivity|right; exact Y]. }
  clear - T HX DX. induction HX as [|z u NZ HU IH]; cbn [app]; [exact T|]. constructor; [|apply IH; intros w W; apply DX; right; exact W]. intro J. apply in_app_iff in J. destruct J as [J|J]; [auto|]. apply (DX z); [left; reflexivity|exact J].
Qed.

Lemma at_end : forall d, rel d [] -> d_inp d = [] -> d_close d = None -> next_token d = TokErr EEof (mkd [] None (d_stk d) (d_ns d) (Some EEof)).
Proof.
  intros d R D1 D2. destruct R as [E _ S _ _]. unfold next_token, raw_step. rewrite E, D2, D1. change (raw_token []) with (@RErr (token * option name) EEof). cbn match. cbn [d_stk]. inversion S. reflexivity.
Qed.
Section Once.
Variables (F : floats) (env : tenv) (ek : nat) (pfx : bytes -> bytes) (known : list bytes).
Hypothesis EO : env_ok ek env.
Hypothesis KNOWN : forall u, In u known -> usable (pfx u) /\ NsTags.ordinary u.
Hypothesis ONLY : forall u, usable (pfx u) -> In u known.
Variable i : bool.
Hypothesis CHECKED : forall s, checked env ek pfx known s = true.

Lemma one_attr : forall nm t w fd a, fd_type fd = t -> g_attr (flags_of fd) = true -> alone fd w -> attr_shape t = true -> marshal_attr F nm true t w = Ok a -> (length a <= 1)%nat.
Proof.
  intros nm t w fd a FT GA AL SH M. specialize (AL GA). rewrite FT in AL. destruct t as [| | | | | | |t|t|s| |]; try discriminate SH; cbn [marshal_attr has_method andb] in M.
  all: try (destruct (simple_text F _ w); [|discriminate]; injection M as <-; cbn; lia).
  all: try (destruct (method_text F _ w); try discriminate; cbn [bind] in M; injection M as <-; destruct (beq (local nm) []); cbn; lia).
  destruct w; try discriminate; [injection M as <-; cbn; lia|]. destruct (has_method t); [destruct (method_text F t w); try discriminate; cbn [bind] in M; injection M as <-; destruct (beq (local nm) []); cbn; lia|].
  destruct t as [| | | | | | |t|t|s| |]; try discriminate SH; try (destruct (simple_text F _ w); [|discriminate]; injection M as <-; cbn; lia).
  destruct t; try discriminate SH. destruct w as [| | | | | |l| | |]; try discriminate. cbn match in AL. destruct l as [|y [|z l]]; cbn [length] in AL; [injection M as <-; cbn; lia| |lia].
  cbn [each marshal_attr has_method andb] in M. destruct (simple_text F TString y); [|discriminate]. cbn [bind app] in M. injection M as <-. cbn. lia.
Qed.
Lemma NoDup_short : forall {A} (l : list A), (length l <= 1)%nat -> NoDup l.
Proof. intros A [|x [|y l]] L; [constructor|constructor; [intros []|constructor]|cbn in L; lia]. Qed.

(** The attributes that a struct asks for. *)
Lemma asked_once : forall s ti d l v, type_info ek env s = Ok ti -> round_ok env ek pfx known s ti = true -> clean F env i d l (TStruct s) v -> wt env (TStruct s) v = true -> single env (TStruct s) v ->
  NoDup (map read_name (all_attrs F env s ti v)).
Proof.
  intros s ti d l v TI OK CV WV SV. pose proof (eo_zero _ _ EO) as ZERO. unfold all_attrs. rewrite flat_map_concat_map, concat_map, map_map, <- flat_map_concat_map.
  assert (RN : forall f x, In f (ti_fields ti) -> In x (given_attrs F env s v f) -> read_name x = aname (rename pfx x)).
  { intros f x I X. assert (AS : Forall (asks_attr pfx known) (all_attrs F env s ti v)).
    { apply (given_asks F env ek pfx known EO KNOWN ONLY s ti OK i d l v CV WV). intros g G M N. destruct (field_facts env ek pfx known s ti OK g G) as (fd & _ & _ & _ & _ & _ & R). destruct (role_attr env ek pfx known s ti g fd R) as [[_ A]|[[M' _]|G']].
      - unfold attr_ok in A. rewrite !andb_true_iff in A. destruct A as [_ A]. rewrite (proj2 (beq_neq _ _) N) in A. apply andb_true_iff in A. destruct A as [A _]. apply inb_in. exact A.
      - rewrite (attr_not_any _ M) in M'. discriminate.
      - apply mode_fields in M. decompose [and] M. cbn in *. congruence. }
    rewrite Forall_forall in AS. destruct (AS x) as [_ [(S0 & _)|(u & lo & U & SL & E)]]; [unfold all_attrs; apply in_flat_map; eauto| |].
    - unfold rename, read_name, strip. cbn [aname]. rewrite S0. reflexivity.
    - destruct (KNOWN u U) as (US & NU & _). unfold rename, read_name. cbn [aname]. rewrite E. rewrite (strip_join env ek pfx known EO KNOWN ONLY u lo NU US). cbn [space local]. rewrite (parts_split _ _ _ (join_parts _ _ US SL)). reflexivity. }
  apply NoDup_flat.
  - eapply fields_nodup; eauto.
  - intros f I. destruct (field_facts env ek pfx known s ti OK f I) as (fd & D & P & _ & _ & FL & R). destruct (role_attr env ek pfx known s ti f fd R) as [[M A]|[[M A]|G]].
    + apply NoDup_short. rewrite map_length. unfold given_attrs. pose proof (proj1 (proj2 (mode_fields _ _ M))) as GA. change (g_attr m_attr) with true in GA. rewrite GA. destruct (clean_at F env ek ZERO (fi_idx f) i d l s v CV WV P) as (fd' & w & D' & FA & _). rewrite D in D'. injection D' as <-. rewrite FA.
      destruct (g_omit (fi_flags f) && is_empty w); [cbn; lia|]. destruct (marshal_attr F (field_name f) true (fd_type fd) w) as [a| | |] eqn:MA; try (cbn; lia). eapply one_attr; eauto; [congruence| |].
      * eapply single_at; eauto.
      * unfold attr_ok in A. rewrite !andb_true_iff in A. tauto.
    + destruct (any_given F env ek EO s ti i d l v CV WV f fd I D P M A) as (ws & PK & FT & _ & E & CP). rewrite E. replace (map read_name (attrs_in ws)) with (map aname (attrs_in ws)).
      * destruct (clean_at F env ek ZERO (fi_idx f) i d l s v CV WV P) as (fd' & w & D' & FA & PK' & _). rewrite D in D'. injection D' as <-. rewrite PK in PK'. injection PK' as _ <-. destruct (single_at env (fi_idx f) s v fd _ _ _ SV P D (FA eerr)) as [AL _].
        unfold alone in AL. rewrite FT in AL. apply AL. rewrite <- FL. apply mode_fields in M. decompose [and] M. auto.
      * apply map_ext_in. intros x X. destruct (CP x X) as (C1 & [_ C2] & _). destruct x as [[sp lo] v0]. cbn in *. subst sp. unfold read_name. cbn [aname space local]. rewrite simple_split by exact C2. reflexivity.
    + unfold given_attrs. rewrite G. constructor.
  - intros f g z I J X Y. apply in_map_iff in X, Y. destruct X as (x & EX & X). destruct Y as (y & EY & Y). rewrite (RN f x I X) in EX. rewrite (RN g y J Y) in EY.
    assert (R1 : route ti (rename pfx x) = Some f) by (eapply given_route; eauto; apply in_map; exact X). assert (R2 : route ti (rename pfx y) = Some g) by (eapply given_route; eauto; apply in_map; exact Y).
    unfold route in R1, R2. rewrite EX in R1. rewrite EY in R2. congruence.
Qed.

(** *** Whole values *)
Lemma drill_keeps : forall t v d l t' v' ad, clean F env i d l t v -> wt env t v = true -> single env t v -> drill t v true = Some (t', v', ad) ->
  clean F env i d l t' v' /\ wt env t' v' = true /\ single env t' v' /\ forall t0, t' <> TPtr t0.
Proof.
  induction t; intros v d l t' v' ad C W S D; cbn [drill] in D; try (injection D as <- <- _; split; auto; split; auto; split; auto; discriminate).
  destruct v as [| | | | |w| | | |]; try discriminate. cbn [clean] in C. cbn [wt] in W. cbn [single] in S. eapply IHt; eauto. apply C.
Qed.
Lemma gather_lean : forall (f : gval -> outcome eerr (list plan)) l ps, (forall v p, In v l -> f v = Ok p -> Forall lean p) -> gather f l = Ok ps -> Forall lean ps.
Proof.
  induction l as [|v l IH]; intros ps H E; cbn [gather] in E; [injection E as <-; constructor|]. destruct (f v) as [a| | |] eqn:A; try discriminate. cbn [bind] in E. destruct (gather f l) as [b| | |] eqn:B; try discriminate. cbn [bind] in E. injection E as <-.
  apply Forall_app. split; [eapply H; eauto; left; reflexivity|]. apply IH; auto. intros w p I. apply H. right. exact I.
Qed.
Lemma plan_lean : forall k t v fi ps d l, clean F env i d l t v -> wt env t v = true -> single env t v -> plan_value F env ek k t v fi = Ok ps -> Forall lean ps.
Proof.
  induction k as [|k IH]; intros t v fi ps d l C W S E; cbn [plan_value] in E; [discriminate|].
  destruct (match fi with Some f => g_omit (fi_flags f) && is_empty v | None => false end); [injection E as <-; constructor|].
  destruct (drill t v true) as [[[t' v'] ad]|] eqn:D; [|injection E as <-; constructor]. destruct (drill_keeps _ _ _ _ _ _ _ C W S D) as (C' & W' & S' & NP). clear C W S D t v ad. rename t' into t, v' into v, C' into C, W' into W, S' into S.
  assert (SIMPLE : forall ps, (do n <- start_name env empty_info t v true fi None ; match simple_text F t v with Some s => Ok [PElem n (snd (split_prefixed (local n))) [] true [PText EAttr s]] | None => unsupported end) = Ok ps -> Forall lean ps).
  { clear E ps. intros ps E. destruct (start_name env empty_info t v true fi None) as [n| | |]; try discriminate. cbn [bind] in E. destruct (simple_text F t v); [|discriminate]. injection E as <-. repeat constructor. }
  destruct t; try (apply SIMPLE; exact E); try discriminate.
  - destruct v as [| | | | | |ws| | |]; try discriminate. eapply gather_lean; [|exact E]. intros w p I PW. cbn [wt] in W. rewrite forallb_forall in W. apply single_list in S. rewrite Forall_forall in S. apply clean_list in C. rewrite Forall_forall in C. destruct (C w I) as [_ CW]. apply (IH t w fi p d l CW (W w I) (S w I) PW).
  - clear SIMPLE. destruct (type_info ek env s) as [ti| | |] eqn:TI; try discriminate. destruct (start_name env ti (TStruct s) v true fi None) as [n| | |]; try discriminate. cbn [bind] in E. destruct (bare ti n); [discriminate|].
    destruct (clean_struct F env i d l s v C W) as (RAW & _). pose proof (CHECKED s) as OK. unfold checked in OK. rewrite RAW, TI in OK. cbn [orb] in OK.
    rewrite (marshal_given F env ek pfx known EO KNOWN ONLY s ti OK i d l v C W) in E. cbn [bind] in E. fold (all_attrs F env s ti v) in E.
    destruct (plan_fields F env (fun t w f => plan_value F env ek k t w (Some f)) s (ti_fields ti) v) as [c| | |] eqn:PF; try discriminate. cbn [bind] in E. injection E as <-. constructor; [|constructor]. constructor; [eapply asked_once; eauto|].
    assert (SUB : forall fs c, incl fs (ti_fields ti) -> plan_fields F env (fun t w f => plan_value F env ek k t w (Some f)) s fs v = Ok c -> Forall lean c); [|eapply SUB; [apply incl_refl|exact PF]].
    clear PF c. induction fs as [|f fs IHf]; intros c IN PF; cbn [plan_fields] in PF; [injection PF as <-; constructor|]. assert (IN' : incl fs (ti_fields ti)) by (intros x X; apply IN; right; exact X).
    destruct (g_attr (fi_flags f)); [apply IHf; auto|]. assert (If : In f (ti_fields ti)) by (apply IN; left; reflexivity). destruct (field_facts env ek pfx known s ti OK f If) as (fd & DC & P & PAR & _).
    destruct (clean_at F env ek (eo_zero _ _ EO) (fi_idx f) i d l s v C W P) as (fd' & w & D' & FA & _ & WW & _ & CW & _). rewrite DC in D'. injection D' as <-. rewrite (FA eerr), PAR in PF. cbn [bind] in PF.
    destruct (single_at env (fi_idx f) s v fd _ _ _ S P DC (FA eerr)) as [_ SW].
    destruct (if mode_eqb (fi_flags f) m_chardata then _ else _) as [p| | |] eqn:PP; try discriminate. cbn [bind] in PF. destruct (plan_fields F env _ s fs v) as [q| | |] eqn:PQ; try discriminate. cbn [bind] in PF. injection PF as <-. apply Forall_app. split; [|apply IHf; auto].
    destruct (mode_eqb (fi_flags f) m_chardata); [injection PP as <-; repeat constructor|]. destruct (mode_eqb (fi_flags f) m_element); [|discriminate]. eapply IH; eauto.
Qed.

Variable rk : bytes -> nat.
Hypothesis RANK : ranked ek env rk.
Theorem document_once : forall s ti l v k indent header, layout i indent -> root_ok env ek pfx known s = true -> type_info ek env s = Ok ti -> clean F env i None l (TStruct s) v -> wt env (TStruct s) v = true -> (own_of env s v <> None -> simple l /\ l <> str "xmlns") ->
  (height v <= S k)%nat -> single env (TStruct s) v ->
  let doc := document (marshal_value F env ek (S k) true (TPtr (TStruct s)) (VPtr v) None None) indent header in
  exists ts d d', calls (new_decoder doc) ts d /\ next_token d = TokErr EEof d' /\ Forall unrepeated ts.
Proof.
  intros s ti l v k indent header LI RO TI CV WV SL HV SV. destruct (clean_struct F env i None l s v CV WV) as (RAW & _). destruct (root_named F env ek pfx known KNOWN i CHECKED s ti l v RO TI CV WV SL) as (n & lo & SN & NM).
  destruct (struct_back F env ek pfx known EO KNOWN ONLY rk i RANK CHECKED s ti None l v None n lo k TI RAW CV WV HV SN NM) as (p & P1 & P2 & _).
  assert (LP : Forall lean [p]) by (eapply plan_lean; [exact CV|exact WV|exact SV|exact P1]). inversion LP as [|? ? LN _]; subst.
  assert (PP : plan_value F env ek (S k) (TPtr (TStruct s)) (VPtr v) None = Ok [p]) by (rewrite <- P1; reflexivity).
  set (m := marshal_value F env ek (S k) true (TPtr (TStruct s)) (VPtr v) None None). set (s0 := mkp 0 indent [] 0 false false []). assert (RD : ready pfx i None s0 []).
  { split; [cbn; lia|]. split; [constructor|]. split; [split; [split; [discriminate|]; split; [intros x []|split; discriminate]|intros ? ? ? ? []]|]. split; [cbn; destruct i; [constructor|reflexivity]|exact LI]. }
  destruct (play_runs pfx i p None s0 [] P2 RD) as (cs & s' & nds & ps & ts & E & EL & _ & _ & CT & FP & FD & IT & DR & SP & _).
  assert (ME : m s0 = (cs, s', Ok tt)). { unfold m. rewrite (plan_plays F env ek _ _ _ _ _ PP). cbn [plays]. unfold mbind. rewrite E. cbn [mret]. unfold mret. rewrite app_nil_r. reflexivity. }
  unfold document. fold s0. rewrite ME. cbn [fst snd]. rewrite CT. destruct (header_ok header) as (H1 & H2 & H3 & H4 & H5). rewrite <- H4. rewrite <- concat_app, <- map_app. set (all := header_pieces header ++ ps). set (inp := concat (map fst all)).
  apply Forall2_one in DR. destruct DR as (nd & -> & DR). pose proof (drawn_fair pfx p LN nd _ DR) as FN. assert (FT : Forall unrepeated ts) by (eapply fair_spelt; [exact SP|constructor; auto]).
  assert (WR : written (d_inp (new_decoder inp)) (d_close (new_decoder inp)) (merge [] (map snd all)) [] None). { cbn [d_inp d_close new_decoder]. apply (pieces_read all [] []); [apply Forall_app; auto|apply chars_nil]. }
  set (ht := map snd (header_pieces header)) in *.
  assert (IA : interp [] (map snd all) (ht ++ ts) []) by (unfold all; rewrite map_app; eapply interp_app; [exact H5|exact IT]).
  assert (DA : Forall decls_ok (merge [] (map snd all))) by (apply merge_decls; unfold all; rewrite map_app; apply Forall_app; auto).
  destruct (read_all (merge [] (map snd all)) (new_decoder inp) [] [] None (merge [] (ht ++ ts)) [] (rel_new _) WR) as (d & C & D1 & D2 & RE); [apply interp_merge; exact IA|exact DA|].
  exists (merge [] (ht ++ ts)), d. eexists. split; [exact C|]. split; [apply at_end; auto|]. apply merge_unrepeated. apply Forall_app. split; [|exact FT]. unfold ht. destruct header; repeat constructor.
Qed.
End Once.
