(** The text of a plan, and its tokens when it is read again. *)
From Coq Require Import String.
From Coq Require Import ZArith List Bool Lia.
From Verif Require Import Base Utf8 NameTables Lexer Escape EscapeSpec EscapeProofs LexerProofs NameProofs Decoder DecoderSpec DecoderProofs Printer PrinterProofs EncoderSpec EncoderProofs TagText NsSpec NsProofs NsHistory NsTags Plan.
Import ListNotations.
Open Scope Z_scope.

(** An element or text as it is read: with expanded names and without white space from indentation. *)
Inductive node := NText (s : bytes) | NElem (m : name) (b : list attr) (tx : bool) (c : list node).
Definition is_ntext (n : node) : bool := match n with NText _ => true | _ => false end.
Definition is_ptext (p : plan) : bool := match p with PText _ _ => true | _ => false end.
(** The tokens of nodes, tags with white space before them ([i]: there may be some); none before an end tag if there are no child
    elements. *)
Inductive spelt (i : bool) : list node -> list token -> Prop :=
| Sp_nil : spelt i [] []
| Sp_text s c ts : spelt i c ts -> spelt i (NText s :: c) (TChar s :: ts)
| Sp_elem w m b tx c w' cts rest ts : layout i w -> layout i w' -> (forallb is_ntext c = true -> w' = []) -> spelt i c cts -> spelt i rest ts ->
    spelt i (NElem m b tx c :: rest) (TChar w :: TStart m b :: cts ++ TChar w' :: TEnd m :: ts).
Lemma spelt_app : forall i a ts, spelt i a ts -> forall b us, spelt i b us -> spelt i (a ++ b) (ts ++ us).
Proof.
  intros i a ts H. induction H as [|s c ts H IH|w m b tx c w' cts rest ts L1 L2 L3 H1 _ H2 IH]; intros b0 us Hb; cbn [app]; auto; [constructor; auto|].
  rewrite <- app_assoc. cbn [app]. constructor; auto.
Qed.

Section PlanInd.
Variable P : plan -> Prop.
Hypothesis HT : forall m s, P (PText m s).
Hypothesis HE : forall n l a tx c, Forall P c -> P (PElem n l a tx c).
Fixpoint plan_rec (p : plan) : P p :=
  match p with
  | PText m s => HT m s
  | PElem n l a tx c => HE n l a tx c ((fix go (c : list plan) : Forall P c := match c with [] => Forall_nil _ | p :: c => Forall_cons _ (plan_rec p) (go c) end) c)
  end.
End PlanInd.

Section Text.
(** The prefix asked for each namespace. *)
Variable pfx : bytes -> bytes.

(** Plans whose names are kept.  [d] is the namespace of the enclosing elements that have one but no prefix. *)
Inductive fits (d : option bytes) : plan -> Prop :=
| Fi_text m s : xml_text s -> fits d (PText m s)
| Fi_none us l a tx c : distinct pfx us -> simple l -> l <> xmlnsPrefix -> Forall (asks_attr pfx us) a -> d = None \/ (forall v, ~ In (dflt v) a) -> Forall (fits d) c ->
    fits d (PElem (mkname [] l) l a tx c)
| Fi_pre us u l a tx c : distinct pfx us -> In u us -> simple l -> Forall (asks_attr pfx us) a -> (forall v, ~ In (dflt v) a) -> Forall (fits d) c ->
    fits d (PElem (mkname u (join_prefixed (pfx u) l)) l a tx c)
| Fi_ns u l a tx c : ordinary u -> simple l -> l <> xmlnsPrefix -> Forall (asks_attr pfx []) a -> (forall v, In (dflt v) a -> v = u) -> d = None \/ d = Some u -> Forall (fits (Some u)) c ->
    fits d (PElem (mkname u l) l a tx c).
(** An element with a namespace that has no prefix in its name. *)
Definition by_itself (n : name) : bool := negb (beq (space n) []) && beq (fst (split_prefixed (local n))) [].
Definition inside (d : option bytes) (n : name) : option bytes := if by_itself n then Some (space n) else d.
(** The attributes read for such an element, if there is no prefix for its namespace: a declaration, unless one is given or enclosing
    elements have the namespace, and those given. *)
Definition exactly (d : option bytes) (n : name) (a b : list attr) : Prop :=
  exists pre, b = pre ++ map plain_attr a /\
    (pre = [] /\ (In (dflt (space n)) a \/ d <> None) \/ pre = [dflt (space n)] /\ (forall v, ~ In (dflt v) a) /\ d = None).
(** What is read for a plan. *)
Inductive drawn : option bytes -> plan -> node -> Prop :=
| Dr_text d m s : drawn d (PText m s) (NText s)
| Dr_elem d us n l a tx c m b c' : distinct pfx us -> local m = l -> (space n <> [] -> space m = space n) -> carried pfx us (space n) a b -> (NoDup (map read_name a) -> NoDup (map aname b)) ->
    (by_itself n = true -> ~ usable (pfx (space n)) -> exactly d n a b) -> Forall2 (drawn (inside d n)) c c' ->
    drawn d (PElem n l a tx c) (NElem m b tx c').

(** The elements that have a namespace but no prefix. *)
Definition around (d : option bytes) (es : list element) (open : list tag) : Prop :=
  (forall u, d = Some u -> u <> []) /\ (forall x, In x es -> el_prefix x = [] -> el_ns x = [] \/ d = Some (el_ns x)) /\
  (forall u, d = Some u -> existsb (fun x => beq (el_prefix x) [] && beq (el_ns x) u) es = true -> resolve open [] = Some u) /\
  (forall u, d = Some u -> ~ usable (pfx u) -> bare_in u es = true).
Lemma around_quiet : forall d es open u, around d es open -> u <> [] -> d = None \/ d = Some u -> quiet es open u.
Proof.
  intros d es open u (A0 & A1 & A2 & _) U D E. destruct D as [-> | ->]; [|apply A2; auto]. exfalso. apply existsb_exists in E. destruct E as (x & I & E). apply andb_true_iff in E. destruct E as [E1 E2]. apply beq_eq in E1, E2.
  destruct (A1 x I E1) as [X|X]; congruence.
Qed.
Lemma raw_default : forall ras v, Forall rawattr ras -> declared ras [] = Some v -> In (dflt v) ras.
Proof.
  intros ras v F. induction F as [|x ras R F IH]; cbn [declared]; [discriminate|]. destruct (declared ras []) as [w|]; intro E; [right; apply IH; exact E|].
  destruct x as [[sp lo] w]. unfold declares in E. cbn [aname avalue space local] in E. change (str "xmlns") with xmlnsPrefix in E. destruct (beq sp xmlnsPrefix) eqn:B.
  - cbn in E. destruct R as [[_ R] _]. cbn in R. destruct lo; [exfalso; eapply ncname_nonempty; eauto|discriminate].
  - destruct (beq sp []) eqn:B1; [|discriminate]. destruct (beq lo xmlnsPrefix) eqn:B2; [|discriminate]. cbn in E. apply beq_eq in B1, B2. injection E as ->. subst. left. reflexivity.
Qed.

(** Prefixes are declared for the namespaces that have one only. *)
Definition prefixed (open : list tag) : Prop := forall n ras p u, In (n, ras) open -> In (dcl p u) ras -> usable (pfx u).
Lemma resolve_dcl : forall es open, tied es open -> forall p u, p <> [] -> resolve open p = Some u -> exists n ras, In (n, ras) open /\ In (dcl p u) ras.
Proof.
  induction 1 as [|e es n ras open T IH N RN RA D TB]; intros p u P R; cbn [resolve] in R; [discriminate|]. destruct (declared ras p) as [v|] eqn:E.
  - injection R as ->. destruct (decl_usable _ _ _ D P E) as (_ & _ & I). exists n, ras. split; [left; reflexivity|exact I].
  - destruct (IH p u P R) as (n' & ras' & I & J). exists n', ras'. split; [right; exact I|exact J].
Qed.
Definition ready (i : bool) (d : option bytes) (s : pstate) (open : list tag) : Prop :=
  0 <= p_seq s /\ tied (p_elems s) open /\ (around d (p_elems s) open /\ prefixed open) /\ layout i (p_prefix s) /\ layout i (p_indent s).
(** The text of [c] is written, and what is read is [c]. *)
Definition runs (i : bool) (d : option bytes) (s : pstate) (open : list tag) (m : M unit) (c : list plan) : Prop :=
  exists cs s' nds ps ts, m s = (cs, s', Ok tt) /\ p_elems s' = p_elems s /\ 0 <= p_seq s' /\ same_layout s s' /\ concat cs = concat (map fst ps) /\ Forall piece ps /\ Forall decls_ok (map snd ps) /\
    interp open (map snd ps) ts open /\ Forall2 (drawn d) c nds /\ spelt i nds ts /\ (forallb is_ptext c = true -> s' = s).
Lemma runs_cons : forall i d s open p c, ready i d s open -> runs i d s open (play p) [p] -> (forall s', ready i d s' open -> runs i d s' open (plays c) c) -> runs i d s open (plays (p :: c)) (p :: c).
Proof.
  intros i d s open p c (Q & T & A & L1 & L2) (cs & s' & nds & ps & ts & E & EL & Q' & LY & C & FP & FD & I & DR & SP & SAME) H.
  assert (R' : ready i d s' open). { split; auto. rewrite EL. destruct LY as [-> ->]. auto. }
  destruct (H s' R') as (cs2 & s2 & nds2 & ps2 & ts2 & E2 & EL2 & Q2 & LY2 & C2 & FP2 & FD2 & I2 & DR2 & SP2 & SAME2).
  exists (cs ++ cs2), s2, (nds ++ nds2), (ps ++ ps2), (ts ++ ts2). split; [cbn [plays]; unfold mbind; rewrite E, E2; reflexivity|]. split; [congruence|]. split; auto. split; [destruct LY, LY2; split; congruence|].
  rewrite map_app, !concat_app, C, C2, map_app. split; [reflexivity|]. split; [apply Forall_app; auto|]. split; [apply Forall_app; auto|]. split; [eapply interp_app; eauto|].
  split; [change (p :: c) with ([p] ++ c); apply Forall2_app; auto|]. split; [apply spelt_app; auto|]. cbn [forallb]. intro X. apply andb_true_iff in X. destruct X as [X1 X2]. rewrite SAME2, SAME by (cbn; rewrite ?X1; auto). reflexivity.
Qed.
Lemma drawn_text : forall d c nds, Forall2 (drawn d) c nds -> forallb is_ntext nds = forallb is_ptext c.
Proof. induction 1 as [|p n c nds D _ IH]; [reflexivity|]. cbn [forallb]. rewrite IH. destruct D; reflexivity. Qed.

Lemma play_runs : forall i p d s open, fits d p -> ready i d s open -> runs i d s open (play p) [p].
Proof.
  intros i p. induction p as [m x|n l a tx c IH] using plan_rec; intros d s open F R; pose proof R as (Q & T & (A & PD) & L1 & L2).
  - inversion F; subst. exists (esc_writes m x), s, [NText x], [(escape m x, TChar x)], [TChar x]. split; [reflexivity|]. split; auto. split; auto. split; [split; reflexivity|].
    split; [cbn; rewrite app_nil_r; reflexivity|]. split; [constructor; [apply escape_chars; auto|constructor]|]. split; [repeat constructor|]. split; [apply I_other; [discriminate|discriminate|constructor]|].
    split; [repeat constructor|]. split; [repeat constructor|auto].
  - assert (PRE : exists us, let d' := inside d n in distinct pfx us /\ (by_itself n = true -> us = []) /\ (by_itself n = true -> d = None \/ d = Some (space n)) /\ asks_elem pfx us (p_elems s) open a n l /\ Forall (asks_attr pfx us) a /\ simple l /\ Forall (fits d') c /\
      (forall s' e ras, p_elems s' = e :: p_elems s -> tied (p_elems s') ((mkname (el_prefix e) l, ras) :: open) -> el_ns e = space n ->
        (space n = [] \/ el_prefix e <> [] -> forall v, In (dflt v) ras <-> In (dflt v) a) ->
        (space n <> [] -> el_prefix e = [] -> resolve ((mkname (el_prefix e) l, ras) :: open) [] = Some (space n)) ->
        (fst (split_prefixed (local n)) <> [] -> el_prefix e <> []) -> (by_itself n = true -> ~ usable (pfx (space n)) -> el_prefix e = []) -> around d' (p_elems s') ((mkname (el_prefix e) l, ras) :: open))).
    { destruct A as (A0 & A1 & A2 & A3). assert (RES : forall e ras s', p_elems s' = e :: p_elems s -> tied (p_elems s') ((mkname (el_prefix e) l, ras) :: open) -> (forall v, ~ In (dflt v) ras) -> resolve ((mkname (el_prefix e) l, ras) :: open) [] = resolve open []).
      { intros e ras s' ES' T' ND. rewrite ES' in T'. inversion T'; subst. cbn [resolve]. destruct (declared ras []) as [v|] eqn:D; auto. exfalso. apply (ND v). apply raw_default; auto. }
      inversion F as [|us l' a' tx' c' DS SL NX FA ND FC|us u l' a' tx' c' DS IU SL FA ND FC|u l' a' tx' c' O SL NX FA DV DN FC]; subst; cbn [space local].
      - exists us. cbv zeta. change (inside d (mkname [] l)) with d. split; auto. split; [discriminate|]. split; [discriminate|]. split; [constructor; auto|]. split; auto. split; auto. split; auto. intros s' e ras ES' T' NS DF _ _ _. split; auto. rewrite ES'. split; [|split].
        + intros x [<-|I] P; [left; auto|apply A1; auto].
        + intros u ->. destruct ND as [ND|ND]; [discriminate|]. rewrite (RES e ras s'); auto; [|intros v I; apply DF in I; auto; eapply ND; eauto]. cbn [existsb]. rewrite NS.
          replace (beq [] u) with false by (symmetry; apply beq_neq; intro X; apply (A0 u); auto). rewrite andb_false_r. cbn [orb]. apply A2; auto.
        + intros u D U. unfold bare_in. cbn [existsb]. apply orb_true_iff. right. apply A3; auto.
      - pose proof DS as [DS1 _]. destruct (DS1 u IU) as (U & NU & _). pose proof (join_parts _ _ U SL) as PT.
        assert (BY : by_itself (mkname u (join_prefixed (pfx u) l)) = false). { unfold by_itself. cbn [space local]. rewrite (parts_split _ _ _ PT). cbn [fst]. rewrite (proj2 (beq_neq _ _) (usable_nonempty _ U)). apply andb_false_r. }
        exists us. cbv zeta. unfold inside. rewrite BY. split; auto. split; [discriminate|]. split; [discriminate|]. split; [apply AE_pre; auto|]. split; auto. split; auto. split; auto. intros s' e ras ES' T' NS DF _ PN _. rewrite (parts_split _ _ _ PT) in PN. cbn [fst] in PN. specialize (PN (usable_nonempty _ U)).
        split; auto. rewrite ES'. split; [|split].
        + intros x [<-|I] P; [congruence|apply A1; auto].
        + intros v ->. rewrite (RES e ras s'); auto; [|intros w I; apply DF in I; auto; eapply ND; eauto]. cbn [existsb]. rewrite (proj2 (beq_neq _ _) PN). cbn [andb orb]. apply A2; auto.
        + intros v D V. unfold bare_in. cbn [existsb]. apply orb_true_iff. right. apply A3; auto.
      - pose proof O as (NU & _). assert (BY : by_itself (mkname u l) = true). { unfold by_itself. cbn [space local]. rewrite (parts_split _ _ _ (parts_simple l (proj2 SL))), (proj2 (beq_neq _ _) NU). reflexivity. }
        exists []. cbv zeta. unfold inside. rewrite BY. cbn [space]. split; [split; [intros ? []|intros ? ? []]|]. split; auto. split; auto. split. { apply AE_ns; auto; [|eapply around_quiet; eauto; split; auto]. eapply Forall_impl; [|exact FA]. intros x (_ & [[X _]|(? & ? & [] & _)]). exact X. }
        split; auto. split; auto. split; auto. intros s' e ras ES' T' NS DF RS _ UP. split; [intros v V; injection V as <-; auto|]. rewrite ES'. split; [|split].
        + intros x [<-|I] P; [right; congruence|]. destruct (A1 x I P) as [X|X]; [auto|]. destruct DN as [->|DN]; [discriminate|]. right. congruence.
        + intros v V. injection V as <-. cbn [existsb]. destruct (bytes_dec (el_prefix e) []) as [PE|PE]; [intros _; apply RS; auto|]. rewrite (proj2 (beq_neq _ _) PE). cbn [andb orb]. intro X.
          destruct DN as [->|DN]; [|subst d]. { exfalso. apply existsb_exists in X. destruct X as (x & I & E). apply andb_true_iff in E. destruct E as [E1 E2]. apply beq_eq in E1, E2. destruct (A1 x I E1) as [Y|Y]; [congruence|discriminate]. }
          rewrite ES' in T'. inversion T'; subst. cbn [resolve]. destruct (declared ras []) as [v|] eqn:D; [|apply A2; auto]. f_equal. apply DV. apply DF; auto. apply raw_default; auto.
        + intros v V N. injection V as <-. unfold bare_in. cbn [existsb]. rewrite (UP eq_refl N), NS, !beq_refl. reflexivity. }
    destruct PRE as (us & PRE). cbv zeta in PRE. set (d' := inside d n) in *. destruct PRE as (DS & BU & BD & AE & FA & SL & FC & AR).
    destruct (start_given pfx us DS n l a s open Q T AE FA) as (cs & s' & e & ras & W & WS & ES' & Q' & LY & TI & CT & WH & WN & T' & NS & NM & EM & EX & CA & DF & RS & PN & OA & GI & XA).
    subst l.
    assert (XB : by_itself n = true -> ~ usable (pfx (space n)) -> el_prefix e = [] /\ exactly d n a (map (expand_attr ((mkname (el_prefix e) (el_name e), ras) :: open)) ras)).
    { intros B N. pose proof B as B0. unfold by_itself in B0. apply andb_true_iff in B0. destruct B0 as [B1 B2]. apply negb_true_iff, beq_neq in B1. apply beq_eq in B2. destruct XA as (PE & pre & EQ & H); auto.
      - intros p P R'. destruct (resolve_dcl _ _ T p _ P R') as (n' & ras' & I & J). apply N. eapply PD; eauto.
      - split; auto. exists pre. split; auto. destruct A as (A0 & A1 & A2 & A3). destruct H as [[P [H|H]]|(P & H & BI)]; [left; auto| |].
        + left. split; auto. right. intros ->. unfold bare_in in H. apply existsb_exists in H. destruct H as (x & I & E). apply andb_true_iff in E. destruct E as [E1 E2]. apply beq_eq in E1, E2. destruct (A1 x I E1) as [Y|Y]; congruence.
        + right. split; auto. split; auto. destruct (BD B) as [D|D]; auto. rewrite (A3 _ D N) in BI. discriminate. }
    specialize (AR s' e ras ES' T' NS DF RS PN (fun B N => proj1 (XB B N))). set (open' := (mkname (el_prefix e) (el_name e), ras) :: open) in *.
    assert (PD' : prefixed open'). { intros n' ras' p u [I|I] J; [injection I as <- <-; destruct (GI p u J) as [_ IU]; apply DS; exact IU|eapply PD; eauto]. }
    assert (R' : ready i d' s' open') by (split; auto; split; auto; split; auto; destruct LY as [-> ->]; auto).
    assert (BODY : forall s1, ready i d' s1 open' -> runs i d' s1 open' (plays c) c).
    { clear - IH FC. induction c as [|p c IHc]; intros s1 R1.
      - exists [], s1, [], [], []. destruct R1 as (Q1 & _). repeat (split; [solve [auto | reflexivity | constructor | split; reflexivity]|]). auto.
      - inversion IH; subst. inversion FC; subst. eapply runs_cons; eauto. }
    destruct (BODY s' R') as (cs2 & s2 & nds & ps & ts & E2 & EL2 & Q2 & LY2 & C2 & FP & FD & I & DR & SP & SAME).
    pose proof T' as T2. rewrite <- EL2 in T2.
    assert (LN : local n <> []). { pose proof (simple_nonempty _ SL). destruct AE; cbn [local]; auto. unfold join_prefixed. destruct (pfx u); [auto|discriminate]. }
    unfold open' in *. destruct (end_given n s2 e (p_elems s) ras open) as (cs3 & s3 & W3 & E3 & ES3 & SQ3 & LY3 & C3 & WH3 & WN3 & TI3); auto; [congruence|].
    rewrite ES' in T'. inversion T' as [|? ? ? ? ? T0 EN RN RA DU TB]; subst.
    exists (cs ++ cs2 ++ cs3), s3, [NElem (mkname (space_read open ras (space n)) (el_name e)) (map (expand_attr ((mkname (el_prefix e) (el_name e), ras) :: open)) ras) tx nds],
      ((W, TChar W) :: (start_text (mkname (el_prefix e) (el_name e)) ras, TStart (mkname (el_prefix e) (el_name e)) ras) :: ps ++ [(W3, TChar W3); (end_text (mkname (el_prefix e) (el_name e)), TEnd (mkname (el_prefix e) (el_name e)))]),
      (TChar W :: TStart (mkname (space_read open ras (space n)) (el_name e)) (map (expand_attr ((mkname (el_prefix e) (el_name e), ras) :: open)) ras) :: ts ++ TChar W3 :: TEnd (mkname (space_read open ras (space n)) (el_name e)) :: []).
    assert (LW : layout i W) by (exact (layout_W i _ _ W L1 L2 WH WN)). assert (LW3 : layout i W3). { destruct LY as [Y1 Y2], LY2 as [Y3 Y4]. eapply layout_W; [| |exact WH3|exact WN3]; congruence. }
    split; [rewrite play_elem; unfold mbind; rewrite WS, E2, E3; reflexivity|]. split; [exact ES3|]. split; [congruence|]. split; [destruct LY, LY2, LY3; split; congruence|].
    split. { rewrite !concat_app, CT, C2, C3. cbn [map concat fst]. rewrite map_app, concat_app. cbn [map concat fst]. rewrite app_nil_r, <- !app_assoc. reflexivity. }
    split. { constructor; [apply white_piece; eapply layout_white; eauto|]. constructor; [intro rest; apply start_reads; auto|]. apply Forall_app. split; auto. constructor; [apply white_piece; eapply layout_white; eauto|]. constructor; [intro rest; apply end_reads; auto|constructor]. }
    split. { cbn [map snd]. rewrite map_app. cbn [map snd]. constructor; [exact Logic.I|]. constructor; [|apply Forall_app; split; auto; repeat constructor].
      intros x IX XE. destruct x as [[sp lo] v]. cbn in *. subst sp. destruct (DU lo v IX) as [U V]. split; [exact V|apply usable_nonempty; auto]. }
    split. { cbn [map snd]. rewrite map_app. cbn [map snd]. apply I_other; [discriminate|discriminate|]. rewrite <- EX. constructor. eapply interp_app; [exact I|]. apply I_other; [discriminate|discriminate|]. constructor. constructor. }
    split. { constructor; [|constructor]. apply (Dr_elem d us); auto; [|intros B N; apply XB; auto]. cbn. unfold space_read. destruct (space n); congruence. }
    split. { apply (Sp_elem i W _ _ tx nds W3 ts [] []); auto; [|constructor]. intro X. rewrite (drawn_text _ _ _ DR) in X. apply TI3. rewrite SAME by exact X. exact TI. }
    cbn. discriminate.
Qed.
End Text.
