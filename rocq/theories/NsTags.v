(** Start and end tags with the prefixes their names ask for: what the marshaller writes is read with the namespaces it
    meant, whichever prefixes are declared around. *)
From Coq Require Import String.
From Coq Require Import ZArith List Bool Lia ZifyBool ZifyNat.
From Verif Require Import Base Utf8 NameTables Lexer Escape EscapeSpec EscapeProofs LexerProofs NameProofs Decoder DecoderSpec DecoderProofs Printer PrinterProofs EncoderSpec EncoderProofs TagText NsSpec NsProofs NsHistory.
Import ListNotations.
Open Scope Z_scope.

Lemma sget_sset : forall m k v x, sget (sset m k v) x = if beq k x then v else sget m x.
Proof. reflexivity. Qed.
Lemma declared_app : forall a b p, declared (a ++ b) p = match declared b p with Some v => Some v | None => declared a p end.
Proof.
  induction a as [|x a IH]; intros b p; cbn [app declared]; [destruct (declared b p); reflexivity|]. rewrite IH. destruct (declared b p); reflexivity.
Qed.
Lemma declared_dcl : forall p u q, declared [dcl p u] q = if beq p q then Some u else None.
Proof. intros. cbn [declared]. rewrite declares_dcl. reflexivity. Qed.
Lemma declares_qual : forall p l v, usable p -> declares (mkattr (mkname p l) v) = None.
Proof.
  intros p l v U. destruct (usable_not_xml p U) as [_ N]. pose proof (usable_nonempty p U) as NE. unfold declares. cbn [aname space local]. change (str "xmlns") with xmlnsPrefix.
  rewrite (proj2 (beq_neq _ _) N), (proj2 (beq_neq _ _) NE). reflexivity.
Qed.

(** *** Open elements and the tags they stand for *)
Definition table (e : element) (ras : list attr) : Prop :=
  (forall p, p <> [] -> sget (el_p2n e) p = match declared ras p with Some v => v | None => [] end) /\
  (forall u, sget (el_n2p e) u <> [] -> u <> [] /\ sget (el_p2n e) (sget (el_n2p e) u) = u).
Definition decls_usable (ras : list attr) : Prop := forall p u, In (dcl p u) ras -> usable p /\ u <> [].
Inductive tied : list element -> list tag -> Prop :=
| T_nil : tied [] []
| T_cons e es n ras open : tied es open -> n = mkname (el_prefix e) (el_name e) -> rawname n -> Forall rawattr ras -> decls_usable ras -> table e ras ->
    tied (e :: es) ((n, ras) :: open).
Lemma table_declared : forall e ras u, table e ras -> sget (el_n2p e) u <> [] -> declared ras (sget (el_n2p e) u) = Some u.
Proof.
  intros e ras u [A B] N. destruct (B u N) as [U B']. specialize (A _ N). rewrite A in B'. destruct (declared ras _); congruence.
Qed.
Lemma decl_usable : forall ras p v, decls_usable ras -> p <> [] -> declared ras p = Some v -> usable p /\ v <> [] /\ In (dcl p v) ras.
Proof.
  intros ras p v D N H. destruct (declared_some _ _ _ H) as (x & I & E & <-). destruct (declares_cases _ _ E) as [X|[X _]]; [|congruence]. rewrite X in I. destruct (D _ _ I). auto.
Qed.
(** The prefix found for a namespace stands for it. *)
Lemma find_tied : forall es open, tied es open -> forall u inn, u <> [] -> find_prefix u inn es <> [] ->
  usable (find_prefix u inn es) /\ resolve open (find_prefix u inn es) = Some u /\ Forall (fun x => sget (el_p2n x) (find_prefix u inn es) = []) inn.
Proof.
  induction 1 as [|e es n ras open T IH N RN RA D TB]; intros u inn U H; cbn [find_prefix] in *; [congruence|].
  destruct (beq (sget (el_n2p e) u) []) eqn:E.
  - destruct (IH u (e :: inn) U H) as (A & B & C). inversion C; subst. split; auto. split; auto. cbn [resolve]. destruct TB as [TB _].
    rewrite TB in H2 by (apply usable_nonempty; auto). destruct (declared ras _) as [v|] eqn:DD; [|exact B]. destruct (decl_usable _ _ _ D H DD) as (_ & X & _). congruence.
  - apply beq_neq in E. destruct (existsb _ inn) eqn:EX; [congruence|]. pose proof (table_declared _ _ _ TB E) as DD. destruct (decl_usable _ _ _ D E DD) as (A & _). split; auto. split; [cbn [resolve]; rewrite DD; reflexivity|].
    apply Forall_forall. intros x I. destruct (beq (sget (el_p2n x) (sget (el_n2p e) u)) []) eqn:Q; [apply beq_eq; exact Q|]. exfalso. assert (Y : existsb (fun x => negb (beq (sget (el_p2n x) (sget (el_n2p e) u)) [])) inn = true). { apply existsb_exists. exists x. rewrite Q. auto. } congruence.
Qed.

Section Prefixes.
(** The prefix asked for each namespace. *)
Variable pfx : bytes -> bytes.
(** The namespaces named in one tag. *)
Variable us : list bytes.
Definition ordinary (u : bytes) : Prop := u <> [] /\ u <> xmlURL /\ u <> xmlnsURL /\ xml_text u.
Definition distinct : Prop := (forall u, In u us -> usable (pfx u) /\ ordinary u) /\ (forall u v, In u us -> In v us -> pfx u = pfx v -> u = v).
Hypothesis US : distinct.

(** The element being started: [ras] is written so far. *)
Definition given (ras : list attr) : Prop := forall p u, In (dcl p u) ras -> p = pfx u /\ In u us.
Definition reach (ras : list attr) (open : list tag) (u : bytes) : Prop := In (dcl (pfx u) u) ras \/ resolve open (pfx u) = Some u.
(** No prefix is declared twice. *)
Definition is_dcl (x : attr) : bool := beq (space (aname x)) xmlnsPrefix.
Definition growing (e : element) (ras : list attr) : Prop :=
  given ras /\ table e ras /\ (forall p, p <> [] -> sget (el_p2n e) p <> [] -> sget (el_n2p e) (sget (el_p2n e) p) = p) /\ NoDup (filter is_dcl ras).
Lemma given_usable : forall ras, given ras -> decls_usable ras.
Proof. intros ras G p u I. destruct (G p u I) as [-> J]. destruct US as [A _]. destruct (A u J) as (B & C & _). auto. Qed.
Lemma reach_resolve : forall n ras open u, given ras -> In u us -> reach ras open u -> resolve ((n, ras) :: open) (pfx u) = Some u.
Proof.
  intros n ras open u G I R. cbn [resolve]. destruct US as [A B]. destruct (A u I) as (U & _). pose proof (usable_nonempty _ U) as NE.
  destruct (declared ras (pfx u)) as [v|] eqn:D.
  - apply decl_usable in D; auto using given_usable. destruct D as (_ & _ & D). destruct (G _ _ D) as [X J]. f_equal. symmetry. apply B; auto.
  - destruct R as [R|R]; auto. exfalso. eapply (declared_none _ _ D _ R). apply declares_dcl.
Qed.
Lemma reach_mono : forall ras ras' open u, incl ras ras' -> reach ras open u -> reach ras' open u.
Proof. intros ras ras' open u I [R|R]; [left; auto|right; auto]. Qed.

Lemma NoDup_snoc : forall {A} (l : list A) x, NoDup l -> ~ In x l -> NoDup (l ++ [x]).
Proof.
  intros A l x N I. induction N as [|y l J N IH]; cbn [app]; [constructor; [auto|constructor]|]. constructor; [|apply IH; intro K; apply I; right; exact K].
  intro K. apply in_app_iff in K. destruct K as [K|[->|[]]]; [auto|]. apply I. left. reflexivity.
Qed.
Lemma NoDup_app_r : forall {A} (a b : list A), NoDup (a ++ b) -> NoDup b.
Proof. intros A a b. induction a as [|x a IH]; cbn [app]; [auto|]. intro N. inversion N; auto. Qed.
Lemma create_given : forall u s e es open ras, p_elems s = e :: es -> In u us -> tied es open -> growing e ras ->
  exists b s', create_prefix u (pfx u) s = ([], s', Ok (pfx u, b)) /\ inner s s' /\
    (b = false -> s' = s /\ reach ras open u) /\
    (b = true -> exists e', p_elems s' = e' :: es /\ growing e' (ras ++ [dcl (pfx u) u])).
Proof.
  intros u s e es open ras ES I T (G & (T1 & T2) & T4 & ON). destruct US as [UA UI]. destruct (UA u I) as (U & NE & NX & NM & _). pose proof (usable_nonempty _ U) as QN.
  unfold create_prefix, mbind, mget, mret. cbn [app].
  assert (GP : get_prefix (p_elems s) u = find_prefix u [] (e :: es)). { unfold get_prefix. rewrite (proj2 (beq_neq _ _) NX), (proj2 (beq_neq _ _) NM), ES. reflexivity. }
  rewrite GP. cbn [find_prefix existsb]. set (g := if beq (sget (el_n2p e) u) [] then find_prefix u [e] es else sget (el_n2p e) u).
  destruct (negb (beq g []) && (beq g (pfx u) || beq (pfx u) [])) eqn:C.
  - apply andb_true_iff in C. destruct C as [C1 C2]. rewrite (proj2 (beq_neq _ _) QN), orb_false_r in C2. apply beq_eq in C2. rewrite C2. exists false, s. split; [reflexivity|]. split; [apply inner_refl|]. split; [|discriminate]. intros _. split; auto.
    unfold g in C2. destruct (beq (sget (el_n2p e) u) []) eqn:E.
    + right. rewrite <- C2. apply (find_tied es open T u [e] NE). congruence.
    + left. apply beq_neq in E. destruct (T2 u E) as [_ X]. rewrite C2, T1 in X by auto. destruct (declared ras (pfx u)) as [v|] eqn:D; [|congruence]. subst v. apply decl_usable in D; auto using given_usable. tauto.
  - rewrite ES. assert (F : sget (el_p2n e) (pfx u) = []).
    { destruct (bytes_dec (sget (el_p2n e) (pfx u)) []) as [X|X]; auto. exfalso. pose proof (T4 _ QN X) as Y. pose proof X as Z. rewrite T1 in Z by auto. destruct (declared ras (pfx u)) as [v|] eqn:D; [|congruence].
      pose proof D as D0. apply decl_usable in D; auto using given_usable. destruct D as (_ & _ & D). destruct (G _ _ D) as [P J]. assert (v = u) by (symmetry; apply UI; auto). subst v.
      rewrite T1, D0 in Y by auto. assert (g = pfx u) by (unfold g; rewrite Y, (proj2 (beq_neq _ _) QN); reflexivity). rewrite H, beq_refl, (proj2 (beq_neq _ _) QN) in C. discriminate. }
    rewrite pick_usable by auto. rewrite F, beq_refl. eexists true, _. cbn [mput]. split; [reflexivity|].
    split; [unfold inner, same_tag; rewrite ES; cbn; tauto|]. split; [discriminate|]. intros _. eexists. split; [reflexivity|].
    assert (N0 : sget (el_n2p e) u = []).
    { destruct (bytes_dec (sget (el_n2p e) u) []) as [X|X]; auto. exfalso. destruct (T2 _ X) as [_ Y]. rewrite T1 in Y by auto. destruct (declared ras (sget (el_n2p e) u)) as [v|] eqn:D; [|congruence]. subst v.
      pose proof D as D0. apply decl_usable in D; auto using given_usable. destruct D as (_ & _ & D). destruct (G _ _ D) as [P J]. rewrite P in D0. rewrite T1, D0 in F by auto. congruence. }
    rewrite N0, beq_refl. split; [|split; [split|split]]; cbn [el_p2n el_n2p].
    + intros p w J. apply in_app_iff in J. destruct J as [J|[J|[]]]; [auto|]. unfold dcl in J. injection J as <- <-. auto.
    + intros p PN. rewrite declared_app, declared_dcl, sget_sset. destruct (beq (pfx u) p); auto.
    + intros w. rewrite !sget_sset. destruct (beq u w) eqn:E.
      * apply beq_eq in E. subst w. intros _. rewrite beq_refl. auto.
      * intro W. destruct (T2 w W) as [WN X]. split; auto. destruct (beq (pfx u) (sget (el_n2p e) w)) eqn:E2; auto. apply beq_eq in E2. rewrite <- E2 in X. congruence.
    + intros p PN. rewrite !sget_sset. destruct (beq (pfx u) p) eqn:E.
      * apply beq_eq in E. subst p. intros _. rewrite beq_refl. reflexivity.
      * intro W. pose proof (T4 p PN W) as X. destruct (beq u (sget (el_p2n e) p)) eqn:E2; auto. apply beq_eq in E2. rewrite <- E2 in X. congruence.
    + rewrite filter_app. cbn [filter]. change (is_dcl (dcl (pfx u) u)) with true. cbn match. apply NoDup_snoc; auto. intro J. apply filter_In in J. destruct J as [J _]. rewrite T1 in F by auto.
      destruct (declared ras (pfx u)) as [v|] eqn:D; [|exact (declared_none _ _ D _ J (declares_dcl _ _))]. subst v. apply decl_usable in D; auto using given_usable. tauto.
Qed.

(** *** Attributes *)
Definition asks_attr (x : attr) : Prop :=
  xml_text (avalue x) /\
  ((space (aname x) = [] /\ simple (snd (split_prefixed (local (aname x)))) /\ (snd (split_prefixed (local (aname x))) = xmlnsPrefix -> local (aname x) = xmlnsPrefix)) \/
   exists u l, In u us /\ simple l /\ aname x = mkname u (join_prefixed (pfx u) l)).
(** What is written for the attributes: themselves with a prefix that stands for their namespace, and declarations. *)
Inductive laid (R : bytes -> Prop) : list attr -> list attr -> Prop :=
| La_nil : laid R [] []
| La_decl u a b : In u us -> laid R a b -> laid R a (dcl (pfx u) u :: b)
| La_plain x l v a b : snd (split_prefixed x) = l -> simple l -> (l = xmlnsPrefix -> x = l) -> laid R a b -> laid R (mkattr (mkname [] x) v :: a) (mkattr (mkname [] l) v :: b)
| La_qual u l v a b : In u us -> R u -> simple l -> laid R a b -> laid R (mkattr (mkname u (join_prefixed (pfx u) l)) v :: a) (mkattr (mkname (pfx u) l) v :: b).
Lemma laid_mono : forall (R S : bytes -> Prop) a b, (forall u, R u -> S u) -> laid R a b -> laid S a b.
Proof. intros R S a b H L. induction L; constructor; auto. Qed.
Lemma join_parts : forall q l, usable q -> simple l -> parts (join_prefixed q l) q l.
Proof.
  intros q l U S. pose proof (usable_nonempty q U) as N. left. unfold join_prefixed. destruct q as [|c q]; [congruence|]. split; [reflexivity|]. split; auto. split; [apply simple_nonempty; auto|]. apply U.
Qed.
Lemma growing_other : forall e ras x, growing e ras -> declares x = None \/ (exists v, x = dflt v) -> growing e (ras ++ [x]).
Proof.
  intros e ras x (G & (T1 & T2) & T4 & ON) D. split; [|split; [split|split]]; auto.
  - intros p u I. apply in_app_iff in I. destruct I as [I|[->|[]]]; [auto|]. rewrite declares_dcl in D. destruct D as [D|[v D]]; discriminate.
  - intros p P. rewrite declared_app. replace (declared [x] p) with (@None bytes); [apply T1; auto|]. cbn [declared]. destruct D as [->|[v ->]]; [reflexivity|]. change (declares (dflt v)) with (Some (@nil Z)). destruct p; [congruence|reflexivity].
  - rewrite filter_app. cbn [filter]. replace (is_dcl x) with false; [rewrite app_nil_r; exact ON|]. symmetry. unfold is_dcl. destruct D as [D|[v ->]]; [|reflexivity]. unfold declares in D. change (str "xmlns") with xmlnsPrefix in D. destruct (beq (space (aname x)) xmlnsPrefix); [discriminate|reflexivity].
Qed.
Lemma attr_text_dcl_then : forall p u, ncname p -> concat ([[32]] ++ prefix_attr p u) = attr_text (dcl p u).
Proof. intros. rewrite concat_app. apply dcl_text. auto. Qed.
Lemma attr_given : forall x s e es open ras, p_elems s = e :: es -> 0 <= p_seq s -> tied es open -> growing e ras -> asks_attr x ->
  exists cs s' e' add, write_attr x s = (cs, s', Ok tt) /\ inner s s' /\ p_elems s' = e' :: es /\ growing e' (ras ++ add) /\
    concat cs = flat_map attr_text add /\ Forall rawattr add /\ (space (aname x) = [] -> Forall (fun y => space (aname y) = []) add) /\ forall a b (R : bytes -> Prop), (forall u, reach (ras ++ add) open u -> R u) -> laid R a b -> laid R (x :: a) (add ++ b).
Proof.
  intros [[sp lo] v] s e es open ras ES Q T G [XV [(S0 & SL & SX)|(u & l & I & SL & EN)]]; cbn [aname avalue space local] in *.
  - subst sp. assert (NE : lo <> []) by (intros ->; exact (simple_nonempty _ SL eq_refl)). unfold write_attr. cbn [aname avalue space local]. rewrite (proj2 (beq_neq _ _) NE).
    destruct (split_prefixed lo) as [pr l] eqn:SPL. cbn [snd] in *. cbn [beq negb].
    change (beq [] xmlnsURL) with false. cbn match. unfold mbind, emit, mret. eexists _, s, e, [mkattr (mkname [] l) v]. split; [reflexivity|]. split; [apply inner_refl|]. split; auto. split.
    { apply growing_other; auto. destruct (bytes_dec l xmlnsPrefix) as [->|N]; [right; exists v; reflexivity|left]. unfold declares. cbn [aname space local]. change (beq [] (str "xmlns")) with false. cbn match. change (str "xmlns") with xmlnsPrefix. rewrite (proj2 (beq_neq _ _) N). reflexivity. }
    split; [unfold attr_text, name_text, escape; cbn [aname avalue space local flat_map]; flat; reflexivity|]. split; [constructor; [|constructor]; split; [split; [left; reflexivity|exact SL]|exact XV]|]. split; [auto|].
    intros a b R _ L. cbn [app]. constructor; auto; [rewrite SPL; reflexivity|]. intros ->. auto.
  - injection EN as -> ->. pose proof US as [UA _]. destruct (UA u I) as (U & NU & NX & NM & XU). pose proof (join_parts _ _ U SL) as PT. pose proof (simple_nonempty _ SL) as NE.
    unfold write_attr. cbn [aname avalue space local]. rewrite (proj2 (beq_neq _ _) (parts_nonempty _ _ _ PT NE)), (parts_split _ _ _ PT), (proj2 (beq_neq _ _) NM), (proj2 (beq_neq _ _) NU). cbn [negb].
    destruct (create_given u s e es open ras ES I T G) as (b & s' & C & IN & CF & CT). unfold mbind, emit. rewrite C.
    set (y := mkattr (mkname (pfx u) l) v). assert (RY : rawattr y) by (split; [split; [right; apply usable_nc; auto|exact SL]|exact XV]).
    assert (TY : attr_text y = [32] ++ pfx u ++ [58] ++ l ++ [61; 34] ++ escape EAttr v ++ [34]).
    { unfold attr_text, y, name_text. cbn [aname avalue space local]. pose proof (usable_nonempty _ U). destruct (pfx u); [congruence|]. flat. reflexivity. }
    destruct b.
    + destruct (CT eq_refl) as (e' & EE & G'). eexists _, s', e', [dcl (pfx u) u; y]. split; [reflexivity|]. split; auto. split; auto.
      split; [change [dcl (pfx u) u; y] with ([dcl (pfx u) u] ++ [y]); rewrite app_assoc; apply growing_other; auto; left; apply declares_qual; auto|].
      split; [cbn [flat_map]; rewrite TY, <- dcl_text by (apply usable_nc; auto); unfold escape; flat; reflexivity|].
      split; [constructor; [apply raw_dcl; auto; apply usable_nc; auto|constructor; auto]|]. split; [intro Z0; congruence|].
      intros a b R HR L. cbn [app]. apply La_decl; auto. apply La_qual; auto. apply HR. left. apply in_app_iff. right. left. reflexivity.
    + destruct (CF eq_refl) as [-> RE]. eexists _, s, e, [y]. split; [reflexivity|]. split; auto. split; auto. split; [apply growing_other; auto; left; apply declares_qual; auto|].
      split; [cbn [flat_map]; rewrite TY; unfold escape; flat; reflexivity|]. split; [constructor; auto|]. split; [intro Z0; congruence|].
      intros a b R HR L. cbn [app]. apply La_qual; auto. apply HR. eapply reach_mono; [|exact RE]. apply incl_appl, incl_refl.
Qed.
Lemma attrs_given : forall a s e es open ras, p_elems s = e :: es -> 0 <= p_seq s -> tied es open -> growing e ras -> Forall asks_attr a ->
  exists cs s' e' add, write_attrs a s = (cs, s', Ok tt) /\ inner s s' /\ p_elems s' = e' :: es /\ growing e' (ras ++ add) /\
    concat cs = flat_map attr_text add /\ Forall rawattr add /\ (Forall (fun x => space (aname x) = []) a -> Forall (fun x => space (aname x) = []) add) /\ laid (reach (ras ++ add) open) a add.
Proof.
  induction a as [|x a IH]; intros s e es open ras ES Q T G F; cbn [write_attrs].
  - eexists _, s, e, []. split; [reflexivity|]. split; [apply inner_refl|]. rewrite app_nil_r. split; auto. split; auto. split; auto. split; [constructor|]. split; [auto|constructor].
  - inversion F as [|? ? FX FA]; subst. destruct (attr_given x s e es open ras ES Q T G FX) as (cs1 & s1 & e1 & add1 & W1 & I1 & ES1 & G1 & C1 & R1 & P1 & L1).
    assert (Q1 : 0 <= p_seq s1) by (apply I1; auto). destruct (IH s1 e1 es open (ras ++ add1) ES1 Q1 T G1 FA) as (cs2 & s2 & e2 & add2 & W2 & I2 & ES2 & G2 & C2 & R2 & P2 & L2).
    unfold mbind. rewrite W1, W2. eexists _, s2, e2, (add1 ++ add2). split; [reflexivity|]. split; [eapply inner_trans; eauto|]. split; auto. rewrite app_assoc. split; auto.
    split; [rewrite concat_app, flat_map_app; congruence|]. split; [apply Forall_app; auto|]. split; [intro Z0; inversion Z0; subst; apply Forall_app; auto|]. apply L1; auto. intros u. apply reach_mono. apply incl_appl, incl_refl.
Qed.

(** *** Elements *)
Definition quiet (es : list element) (open : list tag) (u : bytes) : Prop :=
  existsb (fun x => beq (el_prefix x) [] && beq (el_ns x) u) es = true -> resolve open [] = Some u.
(** The names of elements: without namespace, with the prefix asked for, or with a namespace only. *)
Inductive asks_elem (es : list element) (open : list tag) (a : list attr) : name -> bytes -> Prop :=
| AE_none l : simple l -> l <> xmlnsPrefix -> asks_elem es open a (mkname [] l) l
| AE_pre u l : In u us -> simple l -> (forall v, ~ In (dflt v) a) -> asks_elem es open a (mkname u (join_prefixed (pfx u) l)) l
| AE_ns u l : ordinary u -> simple l -> l <> xmlnsPrefix -> Forall (fun x => space (aname x) = []) a -> (forall v, In (dflt v) a -> v = u) -> quiet es open u ->
    asks_elem es open a (mkname u l) l.
(** What is read for the attributes: themselves, among declarations. *)
Inductive carried (u0 : bytes) : list attr -> list attr -> Prop :=
| Ca_nil : carried u0 [] []
| Ca_decl u a b : In u us -> carried u0 a b -> carried u0 a (hand (pfx u) u :: b)
| Ca_dflt a b : u0 <> [] -> carried u0 a b -> carried u0 a (dflt u0 :: b)
| Ca_plain x l v a b : snd (split_prefixed x) = l -> carried u0 a b -> carried u0 (mkattr (mkname [] x) v :: a) (mkattr (mkname [] l) v :: b)
| Ca_qual u l v a b : In u us -> carried u0 a b -> carried u0 (mkattr (mkname u (join_prefixed (pfx u) l)) v :: a) (mkattr (mkname u l) v :: b).
Lemma expand_plain_attr : forall o l v, expand_attr o (mkattr (mkname [] l) v) = mkattr (mkname [] l) v.
Proof. intros. unfold expand_attr, expand. cbn [aname avalue space local]. reflexivity. Qed.
Lemma expand_dcl : forall o p u, expand_attr o (dcl p u) = hand p u.
Proof. intros. unfold expand_attr, expand, dcl. cbn [aname avalue space local]. change (str "xmlns") with xmlnsPrefix. rewrite beq_refl. reflexivity. Qed.
Lemma expand_pre : forall o el p l u, usable p -> resolve o p = Some u -> expand o el (mkname p l) = mkname u l.
Proof.
  intros o el p l u U R. destruct (usable_not_xml p U) as [N1 N2]. unfold expand. cbn [space local]. change (str "xmlns") with xmlnsPrefix. change (str "xml") with xmlPrefix.
  rewrite (proj2 (beq_neq _ _) N1), (proj2 (beq_neq _ _) N2), (proj2 (beq_neq _ _) (usable_nonempty _ U)), R. reflexivity.
Qed.
Lemma laid_carried : forall u0 n ras open a b, given ras -> laid (reach ras open) a b -> carried u0 a (map (expand_attr ((n, ras) :: open)) b).
Proof.
  intros u0 n ras open a b G L. induction L as [|u a b I L IH|x l v a b SX S NX L IH|u l v a b I R S L IH]; cbn [map].
  - constructor.
  - rewrite expand_dcl. apply Ca_decl; auto.
  - rewrite expand_plain_attr. constructor; auto.
  - unfold expand_attr at 1. cbn [aname avalue]. rewrite (expand_pre _ false (pfx u) l u); [constructor; auto| |apply reach_resolve; auto]. apply US; auto.
Qed.
Lemma laid_dflt : forall R a b, laid R a b -> forall v, In (dflt v) b <-> In (dflt v) a.
Proof.
  intros R a b L w. induction L as [|u a b I L IH|x l v a b SX S NX L IH|u l v a b I HR S L IH]; cbn [In]; [tauto| | |].
  - split; [intros [X|X]; [discriminate X|tauto]|tauto].
  - rewrite IH. split; (intros [X|X]; [left|auto]); unfold dflt in *; injection X as X1 X2.
    + rewrite X2, (NX X1), X1. reflexivity.
    + subst x w. change (snd (split_prefixed (str "xmlns"))) with xmlnsPrefix in SX. subst l. reflexivity.
  - rewrite IH. destruct US as [UA _]. destruct (UA u I) as (U & NU & _). split; (intros [X|X]; [|auto]); exfalso; unfold dflt in X; injection X as X _ _; [eapply usable_nonempty; eauto|congruence].
Qed.
(** The names of attributes, as they are read: none comes twice, if none is asked for twice. *)
Definition read_name (x : attr) : name := mkname (space (aname x)) (snd (split_prefixed (local (aname x)))).
Lemma laid_once : forall n ras open a b, given ras -> laid (reach ras open) a b -> NoDup (filter is_dcl b) -> NoDup (map read_name a) ->
  NoDup (map aname (map (expand_attr ((n, ras) :: open)) b)) /\
  forall m, In m (map aname (map (expand_attr ((n, ras) :: open)) b)) -> In m (map read_name a) /\ space m <> xmlnsURL \/ exists u, In (dcl (pfx u) u) b /\ In u us /\ m = mkname xmlnsURL (pfx u).
Proof.
  intros n ras open a b G L. induction L as [|u a b I L IH|x l v a b SX S NX L IH|u l v a b I R S L IH]; intros ND NA; cbn [map].
  - split; [constructor|intros m []].
  - cbn [filter] in ND. change (is_dcl (dcl (pfx u) u)) with true in ND. cbn match in ND. inversion ND as [|? ? NI ND']; subst. destruct (IH ND' NA) as [N M]. rewrite expand_dcl. cbn [aname hand]. split.
    + constructor; auto. intro J. destruct (M _ J) as [[_ X]|(w & J' & IW & E)]; [cbn in X; congruence|]. injection E as E. assert (w = u) by (apply US; auto). subst w. apply NI. apply filter_In. auto.
    + intros m [<-|J]; [right; exists u; split; [left; reflexivity|auto]|]. destruct (M _ J) as [X|(w & J' & X)]; [auto|]. right. exists w. split; [right; exact J'|exact X].
  - assert (ND' : NoDup (filter is_dcl b)) by exact ND. cbn [map] in NA. inversion NA as [|? ? NI NA']; subst. destruct (IH ND' NA') as [N M]. rewrite expand_plain_attr. cbn [aname]. unfold read_name in NI at 1. cbn [aname space local] in NI. split.
    + constructor; auto. intro J. destruct (M _ J) as [[X _]|(w & _ & _ & E)]; [contradiction|discriminate E].
    + intros m [<-|J]; [left; split; [left; reflexivity|discriminate]|]. destruct (M _ J) as [[X Y]|(w & J' & X)]; [left; split; [right|]; auto|]. right. exists w. split; [right; exact J'|exact X].
  - destruct US as [UA _]. destruct (UA u I) as (U & NU & _ & NM & _). destruct (usable_not_xml _ U) as [_ PN].
    assert (ND' : NoDup (filter is_dcl b)). { cbn [filter] in ND. unfold is_dcl in ND at 1. cbn [aname space] in ND. rewrite (proj2 (beq_neq _ _) PN) in ND. exact ND. }
    cbn [map] in NA. inversion NA as [|? ? NI NA']; subst. destruct (IH ND' NA') as [N M]. assert (RD : read_name (mkattr (mkname u (join_prefixed (pfx u) l)) v) = mkname u l) by (unfold read_name; cbn [aname space local]; rewrite (parts_split _ _ _ (join_parts _ _ U S)); reflexivity).
    rewrite RD in *. unfold expand_attr at 1 3. cbn [aname avalue]. rewrite (expand_pre _ false (pfx u) l u); auto; [|apply reach_resolve; auto]. split.
    + constructor; auto. intro J. destruct (M _ J) as [[X _]|(w & _ & _ & E)]; [contradiction|]. injection E as E _. congruence.
    + intros m [<-|J]; [left; split; [left; reflexivity|exact NM]|]. destruct (M _ J) as [[X Y]|(w & J' & X)]; [left; split; [right|]; auto|]. right. exists w. split; [right; exact J'|exact X].
Qed.
(** The namespace an element is read with. *)
Definition space_read (open : list tag) (ras : list attr) (u : bytes) : bytes :=
  match u with [] => match declared ras [] with Some v => v | None => match resolve open [] with Some v => v | None => [] end end | _ => u end.
Definition tight (s : pstate) : Prop := p_indented s = true \/ (p_prefix s = [] /\ p_indent s = []).
Lemma indent_in : forall s cs s', write_indent 1 s = (cs, s', Ok tt) -> tight s'.
Proof.
  intros s cs s' H. unfold write_indent, mbind, mget, mret, mput, emit in H. destruct (beq (p_prefix s) [] && beq (p_indent s) []) eqn:E.
  - injection H as <- <-. right. apply andb_true_iff in E. destruct E as [A B]. apply beq_eq in A, B. auto.
  - change (1 <? 0) with false in H. cbn [andb] in H. change (0 <? 1) with true in H. cbn match in H. injection H as _ <-. left. reflexivity.
Qed.
Lemma indent_out : forall s, tight s -> fst (fst (write_indent (-1) s)) = [].
Proof.
  intros s [T|[A B]]; unfold write_indent, mbind, mget, mret, mput, emit.
  - destruct (beq (p_prefix s) [] && beq (p_indent s) []); [reflexivity|]. change (-1 <? 0) with true. cbn [andb]. rewrite T. reflexivity.
  - rewrite A, B. reflexivity.
Qed.
Lemma inner_tight : forall s s', inner s s' -> tight s -> tight s'.
Proof. intros s s' (A & B & _ & D & _) [T|[T1 T2]]; [left; congruence|right; split; congruence]. Qed.
Lemma empty_growing : forall e, el_n2p e = [] -> el_p2n e = [] -> growing e [].
Proof.
  intros e A B. split; [intros p u []|]. split; [split|split; [|constructor]]; rewrite ?A, ?B; cbn; intros; congruence.
Qed.
Lemma declared_plain : forall a p, p <> [] -> Forall (fun x => space (aname x) = []) a -> declared a p = None.
Proof.
  intros a p N F. induction F as [|x a X F IH]; [reflexivity|]. cbn [declared]. rewrite IH. destruct (declares x) as [q|] eqn:D; [|reflexivity]. destruct (declares_cases _ _ D) as [E|[-> _]]; [rewrite E in X; discriminate X|]. destruct p; [congruence|reflexivity].
Qed.
Lemma declared_dflt : forall a v, given a -> declared a [] = Some v -> In (dflt v) a.
Proof.
  intros a v G H. destruct (declared_some _ _ _ H) as (x & I & E & <-). destruct (declares_cases _ _ E) as [X|[_ X]]; rewrite X in I; [|exact I].
  exfalso. destruct (given_usable _ G _ _ I) as [U _]. eapply usable_nonempty; eauto.
Qed.
Lemma dflt_declared : forall a v, In (dflt v) a -> declared a [] <> None.
Proof. intros a v I D. eapply (declared_none _ _ D _ I). reflexivity. Qed.
Lemma carried_more : forall u0 r a b, Forall (fun x => (exists u, In u us /\ x = hand (pfx u) u) \/ (u0 <> [] /\ x = dflt u0)) r -> carried u0 a b -> carried u0 a (r ++ b).
Proof. intros u0 r a b F C. induction F as [|x r [(u & I & ->)|[N ->]] F IH]; cbn [app]; auto; constructor; auto. Qed.

Ltac ok := split; [solve [auto]|].
(** Some open element has the namespace and no prefix. *)
Definition bare_in (u : bytes) (es : list element) : bool := existsb (fun x => beq (el_prefix x) [] && beq (el_ns x) u) es.
Definition plain_attr (x : attr) : attr := mkattr (read_name x) (avalue x).
Lemma laid_plain : forall R a b o, us = [] -> laid R a b -> map (expand_attr o) b = map plain_attr a.
Proof.
  intros R a b o E L. induction L as [|u a b I L IH|x l v a b SX S NX L IH|u l v a b I HR S L IH]; cbn [map]; auto; try (rewrite E in I; contradiction).
  rewrite IH, expand_plain_attr. unfold plain_attr, read_name. cbn [aname avalue space local]. rewrite SX. reflexivity.
Qed.
Lemma start_given : forall n l a s open, 0 <= p_seq s -> tied (p_elems s) open -> asks_elem (p_elems s) open a n l -> Forall asks_attr a ->
  exists cs s' e ras W, write_start n a s = (cs, s', Ok tt) /\ p_elems s' = e :: p_elems s /\ 0 <= p_seq s' /\ same_layout s s' /\ tight s' /\
    concat cs = W ++ start_text (mkname (el_prefix e) l) ras /\
    (white (p_prefix s) -> white (p_indent s) -> white W) /\ (p_prefix s = [] -> p_indent s = [] -> W = []) /\
    tied (p_elems s') ((mkname (el_prefix e) l, ras) :: open) /\ el_ns e = space n /\ el_name e = l /\ end_matches n e /\
    expand ((mkname (el_prefix e) l, ras) :: open) true (mkname (el_prefix e) l) = mkname (space_read open ras (space n)) l /\
    carried (space n) a (map (expand_attr ((mkname (el_prefix e) l, ras) :: open)) ras) /\
    (space n = [] \/ el_prefix e <> [] -> forall v, In (dflt v) ras <-> In (dflt v) a) /\
    (space n <> [] -> el_prefix e = [] -> resolve ((mkname (el_prefix e) l, ras) :: open) [] = Some (space n)) /\
    (fst (split_prefixed (local n)) <> [] -> el_prefix e <> []) /\
    (NoDup (map read_name a) -> NoDup (map aname (map (expand_attr ((mkname (el_prefix e) l, ras) :: open)) ras))) /\
    given ras /\
    (us = [] -> space n <> [] -> fst (split_prefixed (local n)) = [] -> (forall p, p <> [] -> resolve open p <> Some (space n)) ->
      el_prefix e = [] /\ exists pre, map (expand_attr ((mkname (el_prefix e) l, ras) :: open)) ras = pre ++ map plain_attr a /\
        (pre = [] /\ (In (dflt (space n)) a \/ bare_in (space n) (p_elems s) = true) \/ pre = [dflt (space n)] /\ (forall v, ~ In (dflt v) a) /\ bare_in (space n) (p_elems s) = false)).
Proof.
  intros n l a s open Q T AE AA.
  (* the parts of the name *)
  assert (PP : exists q, parts (local n) q l /\ simple l /\ (q = [] -> l <> xmlnsPrefix) /\ (space n = [] -> q = []) /\ (q <> [] -> usable q)).
  { destruct AE as [l S N|u l I S D|u l O S N F D K]; cbn [local space].
    - exists []. split; [apply parts_simple; apply S|]. ok. ok. ok. congruence.
    - pose proof US as [UA _]. destruct (UA u I) as (U & NU & _). exists (pfx u). split; [apply join_parts; auto|]. ok. split; [intro X; exfalso; eapply usable_nonempty; eauto|]. split; [congruence|auto].
    - exists []. split; [apply parts_simple; apply S|]. ok. ok. ok. congruence. }
  destruct PP as (q & PT & LS & NX & NSQ & QU). pose proof (parts_nonempty _ _ _ PT (simple_nonempty _ LS)) as LN.
  unfold write_start. rewrite (proj2 (beq_neq _ _) LN).
  assert (NE : new_element n = mkel (space n) q l [] []) by (unfold new_element; rewrite (parts_split _ _ _ PT); reflexivity). rewrite NE. set (e0 := mkel (space n) q l [] []).
  unfold mbind at 1. unfold mget at 1. unfold mbind at 1. unfold mput at 1. set (s0 := with_elems (e0 :: p_elems s) s).
  (* the namespace *)
  assert (SD : exists b s1 e1, space_defined (p_elems s) e0 a s0 = ([], s1, Ok b) /\ p_elems s1 = e1 :: p_elems s /\ p_seq s1 = p_seq s /\ same_layout s s1 /\ el_ns e1 = space n /\ el_name e1 = l /\ el_n2p e1 = [] /\ el_p2n e1 = [] /\
    ((space n = [] /\ b = false /\ el_prefix e1 = []) \/
     (In (space n) us /\ b = false /\ el_prefix e1 = q /\ q = pfx (space n) /\ (forall v, ~ In (dflt v) a)) \/
     (ordinary (space n) /\ q = [] /\ Forall (fun x => space (aname x) = []) a /\ (forall v, In (dflt v) a -> v = space n) /\
       ((b = true /\ el_prefix e1 = [] /\ (In (dflt (space n)) a \/ (forall v, ~ In (dflt v) a) /\ resolve open [] = Some (space n) /\ bare_in (space n) (p_elems s) = true)) \/
        ((forall v, ~ In (dflt v) a) /\ b = true /\ usable (el_prefix e1) /\ resolve open (el_prefix e1) = Some (space n)) \/
        ((forall v, ~ In (dflt v) a) /\ b = false /\ el_prefix e1 = [] /\ bare_in (space n) (p_elems s) = false))))).
  { unfold space_defined. change (el_ns e0) with (space n). change (el_prefix e0) with q.
    destruct AE as [l S N|u l I S D|u l O S N F D K]; cbn [local space] in *.
    - exists false, s0, e0. split; [reflexivity|]. split; [reflexivity|]. split; [reflexivity|]. split; [split; reflexivity|]. repeat (split; [reflexivity|]). left. cbn. auto.
    - pose proof US as [UA _]. destruct (UA u I) as (U & NU & NX1 & NX2 & XU). destruct (parts_fun _ _ _ _ _ PT (join_parts _ _ U S)) as [-> _]. rewrite (proj2 (beq_neq _ _) NU).
      replace (existsb _ a) with false. 2: { symmetry. destruct (existsb _ a) eqn:E; auto. exfalso. apply (hand_default_b (mkname u l) a) in E. apply (D u). exact E. }
      rewrite (proj2 (beq_neq _ _) (usable_nonempty _ U)). cbn [negb].
      exists false, s0, e0. split; [reflexivity|]. split; [reflexivity|]. split; [reflexivity|]. split; [split; reflexivity|]. repeat (split; [reflexivity|]). right. left. cbn. auto 6.
    - destruct (parts_fun _ _ _ _ _ PT (parts_simple l (proj2 S))) as [-> _]. pose proof O as (NU & NX1 & NX2 & XU). rewrite (proj2 (beq_neq _ _) NU).
      destruct (existsb _ a) eqn:E.
      { apply (hand_default_b (mkname u l) a) in E. exists true, s0, e0. split; [reflexivity|]. split; [reflexivity|]. split; [reflexivity|]. split; [split; reflexivity|]. repeat (split; [reflexivity|]).
        right. right. ok. ok. ok. ok. left. ok. split; [reflexivity|]. left. exact E. }
      assert (ND : forall v, ~ In (dflt v) a). { intros v I. assert (X : existsb (fun x => beq (space (aname x)) [] && beq (local (aname x)) xmlnsPrefix && beq (avalue x) (space (mkname u l))) a = true) by (apply hand_default_b; rewrite (D v I) in I; exact I). cbn [space] in X. congruence. }
      cbn [beq negb]. destruct (existsb (fun x => beq (el_prefix x) [] && beq (el_ns x) u) (p_elems s)) eqn:E2.
      { exists true, s0, e0. split; [reflexivity|]. split; [reflexivity|]. split; [reflexivity|]. split; [split; reflexivity|]. repeat (split; [reflexivity|]).
        right. right. ok. ok. ok. ok. left. ok. split; [reflexivity|]. right. split; auto. }
      replace (find _ a) with (@None attr).
      2: { symmetry. clear - F. induction F as [|x a X F IH]; [reflexivity|]. cbn [find]. rewrite X. exact IH. }
      unfold mbind, mget. cbn [app]. unfold set_prefix. change (p_elems s0) with (e0 :: p_elems s).
      assert (GP : get_prefix (e0 :: p_elems s) u = find_prefix u [e0] (p_elems s)). { unfold get_prefix. rewrite (proj2 (beq_neq _ _) NX1), (proj2 (beq_neq _ _) NX2). reflexivity. }
      rewrite GP. eexists _, _, _. split; [reflexivity|]. split; [reflexivity|]. split; [reflexivity|]. split; [split; reflexivity|]. repeat (split; [reflexivity|]). cbn [el_prefix].
      right. right. ok. ok. ok. ok. right. destruct (bytes_dec (find_prefix u [e0] (p_elems s)) []) as [X|X].
      + rewrite X. right. auto.
      + left. ok. rewrite (proj2 (beq_neq _ _) X). ok. destruct (find_tied _ _ T u [e0] NU X) as (A & B & _). auto. }
  destruct SD as (b & s1 & e1 & SD & EL1 & Q1 & LY1 & NS1 & NM1 & N2P & P2N & CASES). unfold mbind at 1. rewrite SD. clear SD.
  assert (G1 : growing e1 []) by (apply empty_growing; auto).
  destruct (indent_white 1 s1) as (ci & s2 & WI & EL2 & SQ2 & LY2 & WH & WN). pose proof (indent_in _ _ _ WI) as TI. unfold mbind at 1. rewrite WI. clear WI.
  unfold mbind at 1. unfold emit at 1. unfold mbind at 1. unfold mget at 1. change (el_ns e0) with (space n). change (el_name e0) with l.
  assert (TP : top_prefix s2 = el_prefix e1) by (unfold top_prefix; rewrite EL2, EL1; reflexivity). rewrite TP.
  assert (EL2' : p_elems s2 = e1 :: p_elems s) by (rewrite EL2; auto). assert (Q2 : 0 <= p_seq s2) by (rewrite SQ2, Q1; auto).
  assert (LY : same_layout s s2) by (destruct LY1, LY2; split; congruence).
  assert (NAME : exists cs3 s3 e3 ras0,
    (if negb (beq (el_prefix e1) []) then
            mdo (p, created) <- (if negb (beq (space n) []) && negb b
                                 then create_prefix (space n) (el_prefix e1)
                                 else mret (el_prefix e1, false)) ;
            mdo_ set_prefix p ;
            emit ([p; [58]; l] ++ (if created : bool then [[32]] ++ prefix_attr p (space n) else []))
          else if negb (beq (space n) []) then
            emit ([l] ++ (if b then [] else [str " xmlns="""] ++ esc_writes EAttr (space n) ++ [[34]]))
          else emit [l]) s2 = (cs3, s3, Ok tt) /\ p_elems s3 = e3 :: p_elems s /\ 0 <= p_seq s3 /\ same_layout s s3 /\ tight s3 /\ el_ns e3 = space n /\ el_name e3 = l /\
    concat cs3 = name_text (mkname (el_prefix e3) l) ++ flat_map attr_text ras0 /\ growing e3 ras0 /\ Forall rawattr ras0 /\
    ((space n = [] /\ el_prefix e3 = [] /\ q = [] /\ ras0 = []) \/
     (In (space n) us /\ el_prefix e3 = q /\ q = pfx (space n) /\ reach ras0 open (space n) /\ (ras0 = [] \/ ras0 = [dcl q (space n)]) /\ (forall v, ~ In (dflt v) a)) \/
     (ordinary (space n) /\ q = [] /\ Forall (fun x => space (aname x) = []) a /\ (forall v, In (dflt v) a -> v = space n) /\
       ((el_prefix e3 = [] /\ ras0 = [] /\ (In (dflt (space n)) a \/ (forall v, ~ In (dflt v) a) /\ resolve open [] = Some (space n) /\ bare_in (space n) (p_elems s) = true)) \/
        (usable (el_prefix e3) /\ resolve open (el_prefix e3) = Some (space n) /\ ras0 = [] /\ (forall v, ~ In (dflt v) a)) \/
        (el_prefix e3 = [] /\ ras0 = [dflt (space n)] /\ (forall v, ~ In (dflt v) a) /\ bare_in (space n) (p_elems s) = false))))).
  { destruct CASES as [(S0 & -> & PE)|[(I & -> & PE & -> & ND)|(O & -> & F & DV & [(-> & PE & H)|[(ND & -> & PU & PR)|(ND & -> & PE & BI)]])]].
    - rewrite S0, PE. cbn [beq negb andb]. eexists _, s2, e1, []. split; [reflexivity|]. ok. ok. ok. ok. split; [congruence|]. split; auto.
      split; [rewrite PE; cbn; rewrite !app_nil_r; reflexivity|]. ok. split; [constructor|]. left. auto.
    - pose proof US as [UA _]. destruct (UA _ I) as (U & NU & NX1 & NX2 & XU). rewrite PE, (proj2 (beq_neq _ _) (usable_nonempty _ U)), (proj2 (beq_neq _ _) NU). cbn [negb andb].
      destruct (create_given (space n) s2 e1 (p_elems s) open [] EL2' I T G1) as (c & s3 & C & IN & CF & CT). unfold mbind. rewrite C. unfold set_prefix, emit.
      destruct (inner_elems _ _ _ _ IN EL2' Q2) as (e3 & EE & (ST1 & ST2 & ST3) & Q3). rewrite EE.
      assert (G3 : growing e3 (if c then [dcl (pfx (space n)) (space n)] else [])).
      { destruct c; [destruct (CT eq_refl) as (e' & EE' & G'); rewrite EE in EE'; injection EE' as <-; exact G'|destruct (CF eq_refl) as [-> _]; rewrite EL2' in EE; injection EE as <-; exact G1]. }
      eexists _, _, _, (if c then [dcl (pfx (space n)) (space n)] else []). split; [reflexivity|]. split; [reflexivity|]. split; [exact Q3|]. split; [destruct LY, (inner_layout _ _ IN); split; cbn; congruence|].
      split; [pose proof (inner_tight _ _ IN TI) as [X|[X Y]]; [left; exact X|right; split; [exact X|exact Y]]|]. split; [cbn; congruence|]. split; [cbn; congruence|]. cbn [el_prefix].
      split. { unfold name_text. cbn [space local]. pose proof (usable_nonempty _ U). destruct (pfx (space n)) as [|c0 p] eqn:EP; [congruence|]. destruct c; [cbn [flat_map]; rewrite <- (dcl_text (c0 :: p) (space n)) by (apply usable_nc; auto)|]; flat; reflexivity. }
      split. { destruct G3 as (A & (B & C') & D'). split; [exact A|]. split; [split; [exact B|exact C']|exact D']. }
      split. { destruct c; [constructor; [apply raw_dcl; auto; apply usable_nc; auto|constructor]|constructor]. }
      right. left. ok. ok. ok. split; [destruct c; [left; left; reflexivity|apply CF; auto]|]. split; [destruct c; auto|auto].
    - pose proof O as (NU & _). rewrite PE, (proj2 (beq_neq _ _) NU). cbn [beq negb andb]. eexists _, s2, e1, []. split; [reflexivity|]. ok. ok. ok. ok. split; [congruence|]. split; auto.
      split; [rewrite PE; cbn; rewrite !app_nil_r; reflexivity|]. ok. split; [constructor|]. right. right. ok. ok. ok. ok. left. auto.
    - rewrite (proj2 (beq_neq _ _) (usable_nonempty _ PU)), andb_false_r. cbn [negb]. unfold mbind, mret, set_prefix, emit. rewrite EL2'. eexists _, _, _, []. split; [reflexivity|]. split; [reflexivity|]. split; [exact Q2|].
      split; [destruct LY; split; cbn; auto|]. split; [destruct TI as [X|[X Y]]; [left; exact X|right; split; [exact X|exact Y]]|]. split; [cbn; congruence|]. split; [cbn; congruence|]. cbn [el_prefix].
      split. { unfold name_text. cbn [space local]. pose proof (usable_nonempty _ PU). destruct (el_prefix e1) as [|c0 p] eqn:EP; [congruence|]. flat; reflexivity. }
      split. { destruct G1 as (A & (B & C') & D'). split; [exact A|]. split; [split; [exact B|exact C']|exact D']. }
      split; [constructor|]. right. right. ok. ok. ok. ok. right. left. auto.
    - pose proof O as (NU & _ & _ & XU). rewrite PE, (proj2 (beq_neq _ _) NU). cbn [beq negb andb]. eexists _, s2, e1, [dflt (space n)]. split; [reflexivity|]. ok. ok. ok. ok. split; [congruence|]. split; auto.
      split; [rewrite PE; unfold name_text; cbn [space local flat_map]; rewrite <- dflt_text; flat; reflexivity|]. split; [apply (growing_other e1 []); auto; right; eauto|]. split; [constructor; [apply raw_dflt; auto|constructor]|].
      right. right. ok. ok. ok. ok. right. right. auto. }
  clear CASES G1. destruct NAME as (cs3 & s3 & e3 & ras0 & E3 & EL3 & Q3 & LY3 & TI3 & NS3 & NM3 & C3 & G3 & RW3 & CASES). unfold mbind at 1. rewrite E3. clear E3.
  destruct (attrs_given a s3 e3 (p_elems s) open ras0 EL3 Q3 T G3 AA) as (cs4 & s4 & e4 & add & E4 & I4 & EL4 & G4 & C4 & RW4 & PL & LD). unfold mbind. rewrite E4. unfold emit.
  destruct (inner_elems _ _ _ _ I4 EL3 Q3) as (e4' & EE & (ST1 & ST2 & ST3) & Q4). rewrite EL4 in EE. injection EE as <-. set (ras := ras0 ++ add) in *.
  assert (PX : el_prefix e4 = [] \/ usable (el_prefix e4)). { rewrite <- ST3. destruct CASES as [(_ & X & _)|[(I & X & Y & _)|(_ & _ & _ & _ & [(X & _)|[(X & _)|(X & _)]])]]; auto. rewrite X. destruct (bytes_dec q []); auto. }
  assert (RN : rawname (mkname (el_prefix e4) l)). { split; [|exact LS]. cbn. destruct PX as [X|X]; [left; auto|right; apply usable_nc; auto]. }
  pose proof G4 as (GI & TB & _ & ON). pose proof (laid_dflt _ _ _ LD) as LF.
  exists (ci ++ [60] :: cs3 ++ cs4 ++ [[62]]), s4, e4, ras, (concat ci).
  split; [f_equal; f_equal; cbn [app]; rewrite ?app_nil_r; auto|]. split; [exact EL4|]. split; [exact Q4|]. split; [destruct LY3, (inner_layout _ _ I4); split; congruence|]. split; [eapply inner_tight; eauto|].
  split. { unfold start_text. rewrite <- ST3. unfold ras. rewrite flat_map_app, <- C4. rewrite !concat_app. cbn [concat]. rewrite !concat_app, C3. flat. reflexivity. }
  split; [destruct LY1 as [A1 A2]; rewrite <- A1, <- A2; exact WH|]. split; [destruct LY1 as [A1 A2]; rewrite <- A1, <- A2; exact WN|].
  split. { rewrite EL4. constructor; auto; [congruence|unfold ras; apply Forall_app; auto|apply given_usable; auto]. }
  split; [congruence|]. split; [congruence|].
  split. { unfold end_matches. rewrite (parts_split _ _ _ PT). cbn [fst snd]. split; [congruence|]. split; [congruence|]. rewrite <- ST3. destruct CASES as [(_ & _ & X & _)|[(_ & X & _)|(_ & X & _)]]; auto. }
  rewrite <- ST3.
  assert (DV0 : forall v, In (dflt v) ras <-> In (dflt v) ras0 \/ In (dflt v) a). { intro v. unfold ras. rewrite in_app_iff, LF. tauto. }
  assert (NOD : (forall v, ~ In (dflt v) ras) -> declared ras [] = None). { intro H. destruct (declared ras []) as [v|] eqn:D; auto. exfalso. apply (H v). apply declared_dflt; auto. }
  assert (CAR : Forall (fun x => (exists u, In u us /\ x = hand (pfx u) u) \/ (space n <> [] /\ x = dflt (space n))) (map (expand_attr ((mkname (el_prefix e3) l, ras) :: open)) ras0)).
  { destruct CASES as [(_ & _ & _ & ->)|[(I & _ & -> & _ & [-> | ->] & _)|(O & _ & _ & _ & [(_ & -> & _)|[(_ & _ & -> & _)|(_ & -> & _)]])]]; cbn [map]; [constructor|constructor|constructor; [|constructor]|constructor|constructor|constructor; [|constructor]].
    - rewrite expand_dcl. left. eauto.
    - unfold dflt at 1. rewrite expand_plain_attr. right. split; [apply O|reflexivity]. }
  split; [|split; [|split; [|split; [|split; [|split; [|split; [exact GI|]]]]]]].
  - destruct CASES as [(S0 & PE & -> & ->)|[(I & PE & -> & R & _ & ND)|(O & -> & F & DV & H)]].
    + rewrite PE, S0. cbn [space_read]. rewrite exp_unprefixed by auto. cbn [resolve]. destruct (declared ras []); [reflexivity|]. destruct (resolve open []); reflexivity.
    + rewrite PE. pose proof US as [UA _]. destruct (UA _ I) as (U & NU & _). rewrite (expand_pre _ true (pfx (space n)) l (space n)); auto.
      * unfold space_read. destruct (space n); [congruence|reflexivity].
      * apply reach_resolve; auto. eapply reach_mono; [|exact R]. apply incl_appl, incl_refl.
    + pose proof O as (NU & _). assert (SR : space_read open ras (space n) = space n) by (unfold space_read; destruct (space n); [congruence|reflexivity]). rewrite SR.
      destruct H as [(PE & -> & H)|[(PU & PR & -> & ND)|(PE & -> & ND & _)]].
      * rewrite PE, exp_unprefixed by auto. cbn [resolve]. destruct (declared ras []) as [v|] eqn:D.
        -- apply declared_dflt in D; auto. apply LF in D. rewrite (DV v D). reflexivity.
        -- destruct H as [H|(_ & H & _)]; [exfalso; eapply dflt_declared; [|exact D]; apply LF; exact H|]. rewrite H. reflexivity.
      * apply expand_pre; auto. cbn [resolve]. unfold ras. cbn [app]. rewrite declared_plain; auto. apply usable_nonempty; auto.
      * rewrite PE, exp_unprefixed by auto. cbn [resolve]. destruct (declared ras []) as [v|] eqn:D.
        -- apply declared_dflt in D; auto. apply DV0 in D. destruct D as [[D|[]]|D]; [unfold dflt in D; injection D as <-; reflexivity|exfalso; eapply ND; eauto].
        -- exfalso. eapply dflt_declared; [|exact D]. apply DV0. left. left. reflexivity.
  - unfold ras at 2. rewrite map_app. apply carried_more; auto. apply laid_carried; auto.
  - intros H v. rewrite DV0. destruct CASES as [(S0 & PE & -> & ->)|[(I & PE & -> & R & [-> | ->] & ND)|(O & -> & F & DV & H')]]; cbn; try tauto.
    + split; [intros [[X|[]]|X]; [discriminate X|auto]|auto].
    + destruct H' as [(PE & -> & H')|[(PU & PR & -> & ND)|(PE & -> & ND & _)]]; cbn; try tauto. exfalso. destruct H as [H|H]; [destruct O as [O _]; congruence|congruence].
  - intros SN PE. destruct CASES as [(S0 & _)|[(I & PE' & QE & _)|(O & -> & F & DV & H')]]; [congruence| |].
    + exfalso. rewrite PE' in PE. subst q. pose proof US as [UA _]. destruct (UA _ I) as (U & _). apply (usable_nonempty _ U). congruence.
    + rewrite PE. cbn [resolve]. destruct (declared ras []) as [v|] eqn:D.
      * apply declared_dflt in D; auto. apply DV0 in D. destruct D as [D|D]; [|rewrite (DV v D); reflexivity].
        destruct H' as [(_ & -> & _)|[(_ & _ & -> & _)|(_ & -> & _)]]; [destruct D|destruct D|destruct D as [D|[]]; unfold dflt in D; injection D as <-; reflexivity].
      * assert (NI : forall v, ~ In (dflt v) ras) by (intros v I; eapply dflt_declared; eauto). destruct H' as [(_ & -> & [H'|(_ & H' & _)])|[(PU & _)|(_ & -> & _)]].
        -- exfalso. apply (NI (space n)). apply DV0. auto.
        -- exact H'.
        -- exfalso. eapply usable_nonempty; eauto.
        -- exfalso. apply (NI (space n)). apply DV0. left. left. reflexivity.
  - rewrite (parts_split _ _ _ PT). cbn [fst]. intro QN. destruct CASES as [(_ & _ & X & _)|[(_ & X & _)|(_ & X & _)]]; congruence.
  - intro NA. assert (ON' : NoDup (filter is_dcl ras0 ++ filter is_dcl add)) by (rewrite <- filter_app; exact ON). destruct (laid_once (mkname (el_prefix e3) l) ras open a add GI LD (NoDup_app_r _ _ ON') NA) as [N M]. unfold ras at 2. rewrite !map_app.
    assert (NIL : ras0 = [] -> NoDup (map aname (map (expand_attr ((mkname (el_prefix e3) l, ras) :: open)) ras0) ++ map aname (map (expand_attr ((mkname (el_prefix e3) l, ras) :: open)) add))) by (intro E0; rewrite E0; exact N).
    destruct CASES as [(_ & _ & _ & R0)|[(I & _ & QE & _ & [R0|R0] & _)|(O & _ & _ & _ & [(_ & R0 & _)|[(_ & _ & R0 & _)|(_ & R0 & ND & _)]])]]; try (apply NIL; exact R0); clear NIL; rewrite R0; cbn [map app].
    + subst q. rewrite expand_dcl. cbn [aname hand]. constructor; auto. intro J. destruct (M _ J) as [[_ X]|(w & J' & IW & E)]; [cbn in X; congruence|]. injection E as E. assert (w = space n) by (apply US; auto). subst w.
      rewrite R0 in ON'. cbn [filter] in ON'. change (is_dcl (dcl (pfx (space n)) (space n))) with true in ON'. cbn [app] in ON'. inversion ON' as [|? ? NI _]; subst. apply NI. apply filter_In. auto.
    + unfold dflt at 1. rewrite expand_plain_attr. cbn [aname]. constructor; auto. intro J. destruct (M _ J) as [[X _]|(w & _ & _ & E)]; [|discriminate E]. apply in_map_iff in X. destruct X as ([[sp lo] v] & E & IX). unfold read_name in E. cbn [aname space local] in E. injection E as E1 E2. subst sp.
      rewrite Forall_forall in AA. destruct (AA _ IX) as [_ [(_ & _ & X)|(u & l' & IU & _ & X)]]; cbn [aname space local] in X; [|injection X as X _; pose proof US as [UA _]; destruct (UA u IU) as (_ & NU & _); congruence]. rewrite (X E2) in IX. exact (ND v IX).
  - intros UN SN FS NR. rewrite (parts_split _ _ _ PT) in FS. cbn [fst] in FS. destruct CASES as [(S0 & _)|[(I & _)|(O & _ & F & DV & H)]]; [congruence|rewrite UN in I; contradiction|].
    assert (LP : forall o, map (expand_attr o) add = map plain_attr a) by (intro o; eapply laid_plain; eauto).
    destruct H as [(PE & -> & H)|[(PU & PR & _)|(PE & -> & ND & BI)]].
    + split; auto. exists []. split; [apply LP|]. left. split; auto. tauto.
    + exfalso. apply (NR (el_prefix e3)); auto. apply usable_nonempty; auto.
    + split; auto. exists [dflt (space n)]. unfold ras. cbn [app map]. rewrite LP. split; [f_equal; apply expand_plain_attr|]. right. auto.
Qed.
End Prefixes.

(** The end tag. *)
Lemma end_given : forall n s e es ras open, p_elems s = e :: es -> tied (p_elems s) ((mkname (el_prefix e) (el_name e), ras) :: open) -> local n <> [] -> end_matches n e ->
  exists cs s' W, write_end n s = (cs, s', Ok tt) /\ p_elems s' = es /\ p_seq s' = p_seq s /\ same_layout s s' /\ concat cs = W ++ end_text (mkname (el_prefix e) (el_name e)) /\
    (white (p_prefix s) -> white (p_indent s) -> white W) /\ (p_prefix s = [] -> p_indent s = [] -> W = []) /\ (tight s -> W = []).
Proof.
  intros n s e es ras open ES T LN EM. rewrite ES in T. inversion T as [|? ? ? ? ? T' EN RN RA D TB]; subst. assert (NE : el_name e <> []) by (apply ncname_nonempty; apply RN).
  destruct (write_end_ok n s e es ES NE LN EM) as (cs0 & s0 & ind & E0 & _). unfold write_end in *. rewrite (proj2 (beq_neq _ _) LN) in *. unfold mbind at 1. unfold mget at 1. unfold mbind at 1 in E0. unfold mget at 1 in E0.
  rewrite ES in *. rewrite (proj2 (beq_neq _ _) NE) in *. destruct (split_prefixed (local n)) as [p l]. destruct (_ && _ && _); [discriminate|].
  destruct (beq l (el_name e)) eqn:B1; [|discriminate]. destruct (beq (space n) (el_ns e)) eqn:B2; [|discriminate]. cbn [negb] in *. clear E0.
  destruct (indent_white (-1) s) as (ci & s1 & E1 & EL & SQ & LY & WH & WN). unfold mbind at 1. rewrite E1. unfold mbind, emit, mget, mput.
  eexists _, _, (concat ci). split; [reflexivity|]. cbn [p_elems with_elems p_seq]. rewrite EL, ES. split; [reflexivity|]. split; [auto|]. split; [destruct LY; split; auto|].
  split; [unfold end_text; rewrite name_text_join; unfold join_prefixed; destruct (el_prefix e) as [|c pr] eqn:PE; cbn [beq]; flat; reflexivity|].
  split; auto. split; auto. intro TI. pose proof (indent_out s TI) as X. rewrite E1 in X. cbn in X. rewrite X. reflexivity.
Qed.
