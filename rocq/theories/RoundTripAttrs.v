(** The attributes of a struct are read as they were written. *)
From Coq Require Import String.
From Coq Require Import ZArith List Bool Lia ZifyBool ZifyNat SpecFloat.
From Verif Require Import Base Utf8 NameTables Lexer EscapeSpec Printer EncoderSpec Decoder GoType TypeInfo DecoderProofs Simple ValueSpec Marshal Unmarshal Io MarshalProofs UnmarshalProofs PropertiesMarshal NsSpec NsProofs NsTags Lens LeafProofs RoundTripSpec RoundTripCheck RoundTripParts RoundTripExact.
Import ListNotations.
Open Scope Z_scope.

(** *** Names *)
Lemma letters_first : forall c, letter c = true -> in_table first_table c = true /\ 33 <= c < 127 /\ c <> 58.
Proof.
  intros c H. unfold letter, Utf8.within in H. assert (R : 33 <= c < 127 /\ c <> 58) by lia.
  assert (K : forallb (fun n => let c := Z.of_nat n in negb (letter c) || in_table first_table c) (seq 0 128) = true) by (vm_compute; reflexivity).
  rewrite forallb_forall in K. specialize (K (Z.to_nat c) ltac:(apply in_seq; lia)). cbn zeta in K. rewrite Z2Nat.id in K by lia. unfold letter, Utf8.within in K. rewrite H in K. cbn [negb orb] in K. split; [exact K|lia].
Qed.
Lemma rest_second : forall c, letter c || Utf8.within 48 57 c || (c =? 45) || (c =? 46) = true -> in_table first_table c || in_table second_table c = true /\ 33 <= c < 127 /\ c <> 58.
Proof.
  intros c H. assert (R : 33 <= c < 127 /\ c <> 58) by (unfold letter, Utf8.within in H; lia).
  assert (K : forallb (fun n => let c := Z.of_nat n in negb (letter c || Utf8.within 48 57 c || (c =? 45) || (c =? 46)) || (in_table first_table c || in_table second_table c)) (seq 0 128) = true) by (vm_compute; reflexivity).
  rewrite forallb_forall in K. specialize (K (Z.to_nat c) ltac:(apply in_seq; lia)). cbn zeta in K. rewrite Z2Nat.id in K by lia. rewrite H in K. cbn [negb orb] in K. split; [exact K|lia].
Qed.
Lemma simpleb_simple : forall l, simpleb l = true -> simple l.
Proof.
  intros [|c t] H; [discriminate|]. cbn [simpleb] in H. apply andb_true_iff in H. destruct H as [H1 H2]. rewrite forallb_forall in H2. destruct (letters_first c H1) as (A & B & C).
  split.
  - unfold is_name, pieces. rewrite (ascii_pieces (c :: t)).
    2: { constructor; [lia|]. apply Forall_forall. intros x I. pose proof (rest_second x (H2 x I)). lia. }
    2: { apply le_n. }
    cbn [map]. cbn [fst]. replace (bad_piece (c, [c])) with false. 2: { unfold bad_piece. cbn. symmetry. apply andb_false_iff. left. unfold rune_error. lia. }
    rewrite A. cbn [negb andb]. apply forallb_forall. intros p I. apply in_map_iff in I. destruct I as (x & <- & I). destruct (rest_second x (H2 x I)) as (D & E & G). cbn [fst]. rewrite D. rewrite andb_true_r. apply negb_true_iff. unfold bad_piece. cbn. apply andb_false_iff. left. unfold rune_error. lia.
  - intros [E|I]; [congruence|]. pose proof (rest_second _ (H2 _ I)). tauto.
Qed.

Lemma pairs_nodup : forall {A} (p : A -> A -> bool) l, (forall x, p x x = false) -> pairs p l = true -> NoDup l.
Proof.
  induction l as [|x l IH]; intros R H; [constructor|]. cbn [pairs] in H. apply andb_true_iff in H. destruct H as [H1 H2]. constructor; auto. intro I. rewrite forallb_forall in H1. specialize (H1 x I). rewrite R in H1. discriminate.
Qed.
Lemma filter_all : forall {A} (q : A -> bool) l, (forall x, In x l -> q x = true) -> filter q l = l.
Proof. induction l as [|x l IH]; intros H; [reflexivity|]. cbn [filter]. rewrite H by (left; auto). f_equal. apply IH. intros y Y. apply H. right. exact Y. Qed.
Lemma filter_no : forall {A} (q : A -> bool) l, (forall x, In x l -> q x = false) -> filter q l = [].
Proof. induction l as [|x l IH]; intros H; [reflexivity|]. cbn [filter]. rewrite H by (left; auto). apply IH. intros y Y. apply H. right. exact Y. Qed.
Lemma filter_one : forall {A B} (h : A -> list B) (q : B -> bool) l f, NoDup l -> In f l -> (forall g x, In g l -> In x (h g) -> q x = true <-> g = f) -> filter q (flat_map h l) = h f.
Proof.
  induction l as [|g l IH]; intros f ND I H; [destruct I|]. inversion ND as [|? ? NI ND']; subst. cbn [flat_map]. rewrite filter_app. destruct I as [->|I].
  - rewrite filter_all by (intros x X; apply (H f x); [left; auto|exact X|reflexivity]). rewrite filter_no; [apply app_nil_r|]. intros x X. apply in_flat_map in X. destruct X as (g & G & X). destruct (q x) eqn:E; auto. apply (H g x) in E; [|right; auto|auto]. subst g. contradiction.
  - rewrite filter_no; [cbn [app]; apply IH; auto; intros g' x G X; apply H; [right; auto|auto]|]. intros x X. destruct (q x) eqn:E; auto. apply (H g x) in E; [|left; auto|auto]. subst g. contradiction.
Qed.
Lemma map_flat_map : forall {A B C} (k : B -> C) (h : A -> list B) l, map k (flat_map h l) = flat_map (fun x => map k (h x)) l.
Proof. induction l as [|x l IH]; [reflexivity|]. cbn [flat_map]. rewrite map_app, IH. reflexivity. Qed.
Lemma filter_filter : forall {A} (p q : A -> bool) l, filter p (filter q l) = filter (fun x => p x && q x) l.
Proof. induction l as [|x l IH]; [reflexivity|]. cbn [filter]. destruct (q x); cbn [filter]; rewrite ?andb_true_r, ?andb_false_r, IH; reflexivity. Qed.

Section Attrs.
Variables (F : floats) (env : tenv) (ek : nat) (pfx : bytes -> bytes) (known : list bytes).
Hypothesis EO : env_ok ek env.
Let ZERO : forall s, wt env (TStruct s) (zero ek env (TStruct s)) = true := eo_zero _ _ EO.
Hypothesis KNOWN : forall u, In u known -> usable (pfx u) /\ ordinary u.
Hypothesis ONLY : forall u, usable (pfx u) -> In u known.

(** *** One attribute *)
Definition zero_float (w : gval) : Prop := w = VFloat (S754_zero true).
Lemma empty_blank : forall t w w0, (forall s, t <> TStruct s) -> is_empty w = true -> ~ zero_float w -> wt env t w = true -> blank env t w0 -> w0 = w /\ same env t w w.
Proof.
  intros t w w0 NS E NZ W (k & -> & _). unfold zero_float in NZ.
  assert (FL : forall x : spec_float, is_empty (VFloat x) = true -> VFloat x <> VFloat (S754_zero true) -> x = S754_zero false) by (intros [[|]| | |] E1 N1; try discriminate E1; congruence).
  assert (IN : forall z, is_empty (VInt z) = true -> z = 0) by (intros [| |] E1; try discriminate E1; reflexivity).
  destruct t; try (exfalso; eapply NS; reflexivity); destruct w as [x|x|x|x| |x|x|x|x|x]; try discriminate W; try discriminate E; try (rewrite (FL _ E NZ)); try (rewrite (IN _ E));
    try (destruct x; try discriminate E); destruct k; cbn [zero same]; auto; split; try reflexivity; destruct t; auto; reflexivity.
Qed.
Definition attr_feed := feed attr (unmarshal_attr F env ek).
Lemma attr_leaf : forall i d l t w nm, attr_shape t = true -> wt env t w = true -> clean F env i d l t w -> local nm <> [] ->
  exists xs, marshal_attr F nm true t w = Ok (map (mkattr nm) xs) /\ Forall xml_text xs /\ (simple_type t = true -> xs <> []) /\
    forall w0 n, blank env t w0 -> exists w', attr_feed t w0 (map (mkattr n) xs) = Ok w' /\ same env t w w'.
Proof.
  intros i d l t w nm SH W C NM.
  assert (NB : beq (local nm) [] = false) by (apply beq_neq; exact NM).
  assert (LEAF : forall t w, simple_type t = true -> bits_ok t = true -> wt env t w = true -> clean F env i d l t w ->
    exists x, leaf_text F t w = Some x /\ xml_text x /\ leaf_value F t x = Ok w /\ same env t w w).
  { clear t w SH W C. intros t w S B W C. destruct (kept_leaf F env i d l t w S B W C) as (x & A1 & A2 & A3). exists x. split; auto. split; auto. split; auto. destruct t; try discriminate S; destruct w; try discriminate W; reflexivity. }
  assert (ONE : simple_type t = true -> bits_ok t = true -> exists xs, marshal_attr F nm true t w = Ok (map (mkattr nm) xs) /\ Forall xml_text xs /\ (simple_type t = true -> xs <> []) /\
    forall w0 n, blank env t w0 -> exists w', attr_feed t w0 (map (mkattr n) xs) = Ok w' /\ same env t w w').
  { intros S B. destruct (LEAF t w S B W C) as (x & X1 & X2 & X3 & X4). exists [x]. unfold leaf_text in X1. unfold leaf_value in X3. split.
    - destruct (has_method t) eqn:HM.
      + destruct (method_text F t w) eqn:MT; [injection X1 as ->|discriminate X1|discriminate X1|discriminate X1]. destruct t; try discriminate HM; cbn [marshal_attr has_method andb]; rewrite MT; cbn [bind]; rewrite NB; reflexivity.
      + destruct t; try discriminate S; try discriminate HM; cbn [marshal_attr has_method andb map]; rewrite X1; destruct w; reflexivity.
    - split; [constructor; auto|]. split; [discriminate|]. intros w0 n _. exists w. split; [|exact X4]. unfold attr_feed. cbn [feed map]. destruct t; try discriminate S; cbn [unmarshal_attr has_method avalue] in *; rewrite X3; reflexivity. }
  destruct t as [| |b|b|b| | |t'|t'|s| |]; try discriminate SH; try (apply ONE; [reflexivity|exact SH]). clear ONE.
  destruct w as [| | | | |w| | | |]; try discriminate W.
  - exists []. split; [reflexivity|]. split; [constructor|]. split; [discriminate|]. intros w0 n (k & -> & _). exists VNil. split; [destruct k; reflexivity|reflexivity].
  - cbn [clean] in C. destruct C as [NE C]. cbn [wt] in W.
    assert (Z0 : forall w0, blank env (TPtr t') w0 -> w0 = VNil) by (intros w0 (k & -> & _); destruct k; reflexivity).
    assert (SIMPLE : simple_type t' = true -> bits_ok t' = true -> (forall t'', t' <> TSlice t'') -> exists xs, marshal_attr F nm true (TPtr t') (VPtr w) = Ok (map (mkattr nm) xs) /\ Forall xml_text xs /\ (simple_type (TPtr t') = true -> xs <> []) /\
       forall w0 n, blank env (TPtr t') w0 -> exists w', attr_feed (TPtr t') w0 (map (mkattr n) xs) = Ok w' /\ same env (TPtr t') (VPtr w) w').
    { intros S B NS. destruct (LEAF t' w S B W C) as (x & X1 & X2 & X3 & X4). exists [x]. unfold leaf_text in X1. unfold leaf_value in X3. split.
      - cbn [marshal_attr map]. destruct (has_method t').
        + destruct (method_text F t' w); [injection X1 as ->|discriminate X1|discriminate X1|discriminate X1]. cbn [bind]. rewrite NB. reflexivity.
        + destruct t'; try discriminate S; rewrite X1; destruct w; reflexivity.
      - split; [constructor; auto|]. split; [discriminate|]. intros w0 n B0. exists (VPtr w). split; [|exact X4]. unfold attr_feed. cbn [feed map unmarshal_attr]. destruct (has_method t'); [cbn [avalue]; rewrite X3; reflexivity|].
        destruct t'; try discriminate S; cbn [avalue]; rewrite X3; reflexivity. }
    destruct t' as [| |b|b|b| | |t''|t''|s| |]; try discriminate SH; try (apply SIMPLE; [reflexivity|exact SH|discriminate]).
    destruct t''; try discriminate SH. clear SIMPLE LEAF. destruct w as [| | | | | |ws| | |]; try discriminate W. cbn [wt] in W. cbn [clean] in C.
    exists (map (fun w => match w with VStr x => x | _ => [] end) ws).
    assert (M : each (marshal_attr F nm true TString) ws = Ok (map (mkattr nm) (map (fun w => match w with VStr x => x | _ => [] end) ws)) /\ Forall xml_text (map (fun w => match w with VStr x => x | _ => [] end) ws)).
    { clear NE. induction ws as [|w ws IH]; [split; [reflexivity|constructor]|]. cbn [forallb] in W. apply andb_true_iff in W. destruct W as [W1 W2]. destruct C as [[_ C1] C2]. destruct w; try discriminate W1. destruct (IH W2 C2) as [I1 I2].
      cbn [each map]. rewrite I1. split; [reflexivity|]. constructor; auto. }
    destruct M as [M1 M2]. split; [cbn [marshal_attr has_method]; exact M1|]. split; auto. split; [discriminate|]. intros w0 n B0. rewrite (Z0 w0 B0). exists (VPtr (VList ws)). split.
    + destruct ws as [|w ws]; [congruence|]. clear - W.
      assert (ALL : forall ws acc, forallb (wt env TString) ws = true -> attr_feed (TPtr (TSlice TString)) (VPtr (VList acc)) (map (mkattr n) (map (fun w => match w with VStr x => x | _ => [] end) ws)) = Ok (VPtr (VList (acc ++ ws)))).
      { clear. induction ws as [|w ws IH]; intros acc W; [cbn; rewrite app_nil_r; reflexivity|]. cbn [forallb] in W. apply andb_true_iff in W. destruct W as [W1 W2]. destruct w; try discriminate W1. unfold attr_feed in *. cbn [map feed unmarshal_attr has_method copy_value copy_simple avalue bind].
        rewrite IH by auto. rewrite <- app_assoc. reflexivity. }
      cbn [forallb] in W. apply andb_true_iff in W. destruct W as [W1 W2]. destruct w; try discriminate W1. cbn [map]. unfold attr_feed in *. cbn [feed unmarshal_attr has_method copy_value copy_simple avalue]. replace (zero_of env ek (TSlice TString)) with (VList []) by (unfold zero_of; destruct ek; reflexivity).
      cbn [bind app]. rewrite ALL by auto. reflexivity.
    + cbn [same]. clear - W. induction ws as [|w ws IH]; [exact I|]. split; [|apply IH; cbn [forallb] in W; apply andb_true_iff in W; apply W]. cbn [forallb] in W. apply andb_true_iff in W. destruct W as [W1 _]. destruct w; try discriminate W1. reflexivity.
Qed.

(** *** Attributes as they are read *)
Definition strip (n : name) : bytes := if beq (space n) [] then snd (split_prefixed (local n)) else skipn (S (length (pfx (space n)))) (local n).
Definition rename (a : attr) : attr := mkattr (mkname (space (aname a)) (strip (aname a))) (avalue a).
Lemma strip_join : forall u l, u <> [] -> usable (pfx u) -> strip (mkname u (join_prefixed (pfx u) l)) = l.
Proof.
  intros u l N U. unfold strip. cbn [space local]. rewrite (proj2 (beq_neq _ _) N). destruct (pfx u) as [|c p] eqn:P; [exfalso; eapply usable_nonempty; eauto|]. cbn [join_prefixed]. rewrite <- P.
  replace (S (length (pfx u))) with (length (pfx u ++ [58])) by (rewrite app_length; cbn; lia). rewrite app_assoc. rewrite skipn_app, skipn_all, Nat.sub_diag. reflexivity.
Qed.
Lemma carried_filter : forall us u0 a b q, distinct pfx us -> carried pfx us u0 a b -> (forall u, In u us -> q (hand (pfx u) u) = false) -> (u0 <> [] -> q (dflt u0) = false) -> filter q b = filter q (map rename a).
Proof.
  intros us u0 a b q (D & _) C QH QD. induction C as [|u a b I C IH|a b N C IH|x l v a b E C IH|u l v a b I C IH]; cbn [filter map].
  - reflexivity.
  - rewrite QH; auto.
  - rewrite QD; auto.
  - unfold rename at 1 2. cbn [aname avalue]. change (strip (mkname [] x)) with (snd (split_prefixed x)). cbn [space]. rewrite E, IH. reflexivity.
  - destruct (D u I) as [U (N & _)]. unfold rename at 1 2. cbn [aname avalue]. rewrite (strip_join u l N U). cbn [space]. rewrite IH. reflexivity.
Qed.
Lemma carried_from : forall us u0 a b, distinct pfx us -> carried pfx us u0 a b -> forall x, In x b -> In x (map rename a) \/ (exists u, In u us /\ x = hand (pfx u) u) \/ (u0 <> [] /\ x = dflt u0).
Proof.
  intros us u0 a b (D & _) C. induction C as [|u a b I C IH|a b N C IH|x l v a b E C IH|u l v a b I C IH]; cbn [In map]; intros y Y.
  - destruct Y.
  - destruct Y as [<-|Y]; eauto.
  - destruct Y as [<-|Y]; eauto.
  - destruct Y as [<-|Y]; [left; left|destruct (IH y Y) as [X|X]; auto]. unfold rename. cbn [aname avalue]. change (strip (mkname [] x)) with (snd (split_prefixed x)). rewrite E. reflexivity.
  - destruct Y as [<-|Y]; [left; left|destruct (IH y Y) as [X|X]; auto]. destruct (D u I) as [U (N & _)]. unfold rename. cbn [aname avalue]. rewrite (strip_join u l N U). reflexivity.
Qed.

(** *** Flags *)
Lemma mode_fields : forall a b, mode_eqb a b = true -> g_element a = g_element b /\ g_attr a = g_attr b /\ g_cdata a = g_cdata b /\ g_chardata a = g_chardata b /\ g_innerxml a = g_innerxml b /\ g_comment a = g_comment b /\ g_any a = g_any b.
Proof. intros a b H. unfold mode_eqb in H. rewrite !andb_true_iff in H. decompose [and] H. repeat match goal with X : eqb _ _ = true |- _ => apply eqb_prop in X end. auto 10. Qed.
Lemma eqf_eq : forall a b, eqf a b = true -> a = b.
Proof. intros a b H. unfold eqf in H. apply andb_true_iff in H. destruct H as [H O]. apply mode_fields in H. apply eqb_prop in O. destruct a, b. cbn in *. decompose [and] H. congruence. Qed.

(** *** The fields of a struct *)
Section Struct.
Variables (s : bytes) (ti : tinfo).
Hypothesis TI : type_info ek env s = Ok ti.
Hypothesis OK : round_ok env ek pfx known s ti = true.
Lemma ok_parts : pairs (fun f g => apart (fi_idx f) (fi_idx g) && apart (fi_idx g) (fi_idx f)) (family ti) = true /\ forallb (field_ok env ek pfx known s ti) (ti_fields ti) = true /\ pairs separate (ti_fields ti) = true /\
  forallb (fun u => ignores ti (mkname xmlns_uri (pfx u))) known = true /\ name_field_ok env s ti = true /\ covered env ek s (compared ti) (musts env s ti) = true.
Proof. pose proof OK as H. unfold round_ok in H. rewrite !andb_true_iff in H. tauto. Qed.
Lemma family_apart : forall f g, In f (family ti) -> In g (family ti) -> f = g \/ apart (fi_idx f) (fi_idx g) = true.
Proof.
  intros f g If Ig. destruct ok_parts as (P & _). destruct (forall_pairs (fun f g => apart (fi_idx f) (fi_idx g) && apart (fi_idx g) (fi_idx f)) (family ti)) with (x := f) (y := g) as [X|X]; auto.
  - intros x y H. rewrite andb_comm. exact H.
  - apply andb_true_iff in X. tauto.
Qed.
Lemma in_family : forall f, In f (ti_fields ti) -> In f (family ti).
Proof. intros f I. unfold family. destruct (ti_xmlname ti); [right|]; exact I. Qed.
Lemma same_idx : forall f g, In f (family ti) -> In g (family ti) -> fi_idx f = fi_idx g -> f = g.
Proof. intros f g If Ig E. destruct (family_apart f g If Ig) as [X|X]; auto. rewrite E, apart_irrefl in X. discriminate. Qed.
Lemma fields_apart : forall f g, In f (ti_fields ti) -> In g (ti_fields ti) -> fi_idx f = fi_idx g \/ apart (fi_idx f) (fi_idx g) = true.
Proof. intros f g If Ig. destruct (family_apart f g (in_family f If) (in_family g Ig)) as [->|X]; auto. Qed.
Inductive role (f : finfo) (fd : fdecl) : Prop :=
| R_attr : mode_eqb (fi_flags f) m_attr = true -> attr_ok pfx known ti f fd = true -> role f fd
| R_any : mode_eqb (fi_flags f) m_any_attr = true -> any_ok ti f fd = true -> role f fd
| R_data : mode_eqb (fi_flags f) m_chardata = true -> data_ok ti f fd = true -> role f fd
| R_elem : mode_eqb (fi_flags f) m_element = true -> elem_ok env ek pfx known s ti f fd = true -> role f fd.
Lemma field_facts : forall f, In f (ti_fields ti) -> exists fd, decl_at env s (fi_idx f) = Some fd /\ path_ok env s (fi_idx f) = true /\ fi_parents f = [] /\ fi_name f = label env fd /\ fi_flags f = flags_of fd /\ role f fd.
Proof.
  intros f I. destruct ok_parts as (_ & H & _). rewrite forallb_forall in H. specialize (H f I). unfold field_ok in H. apply andb_true_iff in H. destruct H as [P H]. destruct (decl_at env s (fi_idx f)) as [fd|]; [|discriminate]. exists fd.
  rewrite !andb_true_iff in H. destruct H as [[[H1 H2] H3] H4]. split; auto. split; auto. split; [destruct (fi_parents f); [reflexivity|discriminate]|]. split; [apply beq_eq; exact H2|]. split; [apply eqf_eq; exact H3|].
  destruct (mode_eqb (fi_flags f) m_attr) eqn:E1; [apply R_attr; auto|]. destruct (mode_eqb (fi_flags f) m_any_attr) eqn:E2; [apply R_any; auto|]. destruct (mode_eqb (fi_flags f) m_chardata) eqn:E3; [apply R_data; auto|]. apply andb_true_iff in H4. destruct H4. apply R_elem; auto.
Qed.
Lemma finished : exists x fs, ti = finish x fs.
Proof. destruct ek as [|k]; [discriminate|]. cbn [type_info] in TI. destruct (field_loop _ _ _ _ _ _) as [[x fs]| | |]; try discriminate. cbn [bind] in TI. injection TI as <-. eauto. Qed.
Lemma find_attr_in : forall m n g, find_attr m n = Some g -> exists k, In (k, g) m /\ name_eqb k n = true.
Proof. intros m n g H. unfold find_attr in H. destruct (find (fun e => name_eqb (fst e) n) m) as [[k g']|] eqn:FD; [|discriminate]. cbn in H. injection H as <-. apply find_some in FD. eauto. Qed.
Lemma attrs_in_fields : forall k g, In (k, g) (ti_attrs ti) -> In g (ti_fields ti) /\ mode_eqb (fi_flags g) m_attr = true /\ k = mkname (fi_xmlns g) (fi_name g).
Proof.
  intros k g I. destruct finished as (x & fs & ->). cbn [finish ti_attrs ti_fields] in *. apply in_rev in I. apply in_map_iff in I. destruct I as (f & E & I). injection E as <- <-. apply filter_In in I. destruct I. auto.
Qed.
Lemma anyattr_in : forall g, ti_anyattr ti = Some g -> In g (ti_fields ti) /\ mode_eqb (fi_flags g) m_any_attr = true.
Proof. intros g H. destruct finished as (x & fs & ->). cbn [finish ti_anyattr ti_fields] in *. apply find_some in H. exact H. Qed.
Lemma attr_field_in : forall n g, attr_field ti n = Some g -> In g (ti_fields ti).
Proof.
  intros n g H. unfold attr_field in H. destruct (find_attr (ti_attrs ti) n) as [h|] eqn:E.
  - injection H as <-. apply find_attr_in in E. destruct E as (k & I & _). apply attrs_in_fields in I. tauto.
  - destruct (find_attr (ti_attrs ti) (mkname [] (local n))) as [h|] eqn:E2; [|apply anyattr_in in H; tauto]. injection H as <-. apply find_attr_in in E2. destruct E2 as (k & I & _). apply attrs_in_fields in I. tauto.
Qed.

(** *** What is written *)
Definition given_attrs (v : gval) (f : finfo) : list attr :=
  if g_attr (fi_flags f) then
    match @field_at eerr env s (fi_idx f) v true with
    | Ok (Some (t, w, _)) => if g_omit (fi_flags f) && is_empty w then [] else match marshal_attr F (field_name f) true t w with Ok a => a | _ => [] end
    | _ => []
    end
  else [].
Section Value.
Variables (i : bool) (d : option bytes) (l : bytes) (v : gval).
Hypothesis CV : clean F env i d l (TStruct s) v.
Hypothesis WV : wt env (TStruct s) v = true.
Definition own_space : option bytes := option_map space (own_of env s v).
Lemma attr_name : forall f fd, mode_eqb (fi_flags f) m_attr = true -> attr_ok pfx known ti f fd = true ->
  local (field_name f) <> [] /\ rename (mkattr (field_name f) []) = mkattr (mkname (fi_xmlns f) (fi_name f)) [] /\ attr_shape (fd_type fd) = true /\ goes_to ti (mkname (fi_xmlns f) (fi_name f)) f = true /\
  (forall us x, (fi_xmlns f <> [] -> In (fi_xmlns f) us) -> xml_text x -> asks_attr pfx us (mkattr (field_name f) x)) /\ (forall x w, mkattr (field_name f) x = dflt w -> fi_xmlns f = [] /\ fi_name f = str "xmlns").
Proof.
  intros f fd M A. unfold attr_ok in A. rewrite !andb_true_iff in A. destruct A as [[[A1 A2] A3] A4]. apply simpleb_simple in A2.
  assert (NE : fi_name f <> []). { destruct A2 as [A2 _]. intros E. rewrite E in A2. discriminate A2. }
  assert (LN : local (field_name f) <> []). { unfold field_name. cbn [local]. unfold join_prefixed. destruct (fi_prefix f); [exact NE|discriminate]. }
  split; auto. unfold rename. cbn [aname avalue]. unfold field_name in *. cbn [local] in LN. cbn [space]. destruct (beq (fi_xmlns f) []) eqn:B.
  - apply andb_true_iff in A4. destruct A4 as [A4 A5]. apply beq_eq in B, A4. rewrite B in *. change (strip (mkname [] (join_prefixed (fi_prefix f) (fi_name f)))) with (snd (split_prefixed (join_prefixed (fi_prefix f) (fi_name f)))). rewrite A4.
    split; [reflexivity|]. split; auto. split; auto. split.
    + intros us x _ X. split; [exact X|]. left. cbn [aname space local]. rewrite A4. split; auto. split; auto. intro E. rewrite E in *. cbn [negb orb] in A5. change (str "xmlns") with xmlnsPrefix in A5. rewrite beq_refl in A5. cbn [negb orb] in A5. apply beq_eq in A5. rewrite A5. reflexivity.
    + intros x w E. split; auto. unfold dflt in E. injection E as E _. rewrite E in A4. symmetry. exact A4.
  - apply beq_neq in B. apply andb_true_iff in A4. destruct A4 as [A4 A5]. apply inb_in in A4. apply beq_eq in A5. destruct (KNOWN _ A4) as [U _]. rewrite A5. rewrite (strip_join _ _ B U). split; [reflexivity|]. split; auto. split; auto. split.
    + intros us x IU X. split; [exact X|]. right. exists (fi_xmlns f), (fi_name f). auto.
    + intros x w E. unfold dflt in E. injection E as E _ _. congruence.
Qed.
Lemma rename_value : forall n x, rename (mkattr n x) = mkattr (aname (rename (mkattr n []))) x.
Proof. reflexivity. Qed.

Definition attr_step (f : finfo) : outcome eerr (list attr) :=
  if negb (g_attr (fi_flags f)) then Ok []
  else do x <- field_at env s (fi_idx f) v true ;
       match x with
       | None => if g_omit (fi_flags f) then Ok [] else Panic
       | Some (t, w, ad) => if g_omit (fi_flags f) && is_empty w then Ok [] else marshal_attr F (field_name f) ad t w
       end.
Lemma at_field : forall f fd, In f (ti_fields ti) -> decl_at env s (fi_idx f) = Some fd -> path_ok env s (fi_idx f) = true ->
  exists w, (forall E, @field_at E env s (fi_idx f) v true = Ok (Some (fd_type fd, w, true))) /\ peek env ek s (fi_idx f) v = Some (fd_type fd, w) /\ wt env (fd_type fd) w = true /\ (height w < height v)%nat /\
    clean F env i (next_space d (own_of env s v)) (label env fd) (fd_type fd) w /\ skipped fd = false /\
    exists s' own, field_kept env i s' own fd w /\ ((exists x, fi_idx f = [x]) -> s' = s /\ own = own_space /\ In fd (fields_of env s)).
Proof.
  intros f fd I D P. destruct (clean_at F env ek ZERO (fi_idx f) i d l s v CV WV P) as (fd' & w & D' & H). rewrite D in D'. injection D' as <-. exists w. exact H.
Qed.
Lemma attr_given : forall f fd, In f (ti_fields ti) -> decl_at env s (fi_idx f) = Some fd -> path_ok env s (fi_idx f) = true -> fi_flags f = flags_of fd -> mode_eqb (fi_flags f) m_attr = true -> attr_ok pfx known ti f fd = true ->
  exists w xs, peek env ek s (fi_idx f) v = Some (fd_type fd, w) /\ attr_step f = Ok (given_attrs v f) /\ given_attrs v f = map (mkattr (field_name f)) xs /\ Forall xml_text xs /\
    (g_omit (fi_flags f) = false -> simple_type (fd_type fd) = true -> xs <> []) /\
    forall w0 n, blank env (fd_type fd) w0 -> exists w', attr_feed (fd_type fd) w0 (map (mkattr n) xs) = Ok w' /\ same env (fd_type fd) w w'.
Proof.
  intros f fd I D P FL M A. destruct (at_field f fd I D P) as (w & FA & PK & W & _ & C & _ & s' & own & FK & _). exists w.
  destruct (attr_name f fd M A) as (LN & _ & SH & _). pose proof (proj1 (proj2 (mode_fields _ _ M))) as GA. change (g_attr m_attr) with true in GA.
  unfold attr_step, given_attrs. rewrite GA. cbn [negb]. rewrite !FA. cbn [bind]. destruct (g_omit (fi_flags f) && is_empty w) eqn:OE.
  - exists []. split; auto. split; auto. split; auto. split; auto. apply andb_true_iff in OE. destruct OE as [O E]. split; [congruence|]. intros w0 n B. exists w0. split; [reflexivity|].
    destruct FK as (_ & _ & _ & FK & _). destruct (empty_blank (fd_type fd) w w0) as [-> S']; auto; [intros s0 E0; rewrite E0 in SH; discriminate|]. intro Z. specialize (FK Z). congruence.
  - destruct (attr_leaf _ _ _ _ _ _ SH W C LN) as (xs & X1 & X2 & X3 & X4). exists xs. rewrite X1. auto 10.
Qed.
Lemma attr_feed_any : forall bs acc, attr_feed (TSlice TAttr) (VList acc) bs = Ok (VList (acc ++ map VAttr bs)).
Proof. induction bs as [|b bs IH]; intros acc; [cbn; rewrite app_nil_r; reflexivity|]. unfold attr_feed in *. cbn [feed unmarshal_attr has_method bind map]. rewrite IH, <- app_assoc. reflexivity. Qed.
Lemma each_attrs : forall nm ws, forallb (wt env TAttr) ws = true -> each (marshal_attr F nm true TAttr) ws = Ok (attrs_in ws) /\ ws = map VAttr (attrs_in ws).
Proof.
  induction ws as [|w ws IH]; intros W; [split; reflexivity|]. cbn [forallb] in W. apply andb_true_iff in W. destruct W as [W1 W2]. destruct w; try discriminate W1. destruct (IH W2) as [I1 I2]. cbn [each attrs_in map]. rewrite I1. cbn [marshal_attr has_method andb bind app]. split; [reflexivity|]. f_equal. exact I2.
Qed.
Lemma attrs_in_in : forall ws a, In a (attrs_in ws) -> In (VAttr a) ws.
Proof. induction ws as [|w ws IH]; intros a I; [destruct I|]. destruct w; cbn [attrs_in] in I; try (right; apply IH; exact I). destruct I as [->|I]; [left; reflexivity|right; auto]. Qed.
Lemma any_given : forall f fd, In f (ti_fields ti) -> decl_at env s (fi_idx f) = Some fd -> path_ok env s (fi_idx f) = true -> mode_eqb (fi_flags f) m_any_attr = true -> any_ok ti f fd = true ->
  exists ws, peek env ek s (fi_idx f) v = Some (TSlice TAttr, VList ws) /\ fd_type fd = TSlice TAttr /\ attr_step f = Ok (given_attrs v f) /\ given_attrs v f = attrs_in ws /\
    (forall a, In a (attrs_in ws) -> captured env s own_space a).
Proof.
  intros f fd I D P M A. destruct (at_field f fd I D P) as (w & FA & PK & W & _ & C & _ & s' & own & FK & DIR).
  unfold any_ok in A. rewrite !andb_true_iff in A. destruct A as [[[[A1 A2] A3] A4] A5]. destruct (fd_type fd) as [| | | | | | | |t| | |] eqn:T; try discriminate. destruct t; try discriminate. clear A1. destruct w as [| | | | | |ws| | |]; try discriminate W. exists ws. cbn [wt] in W.
  apply negb_true_iff in A2. pose proof (proj1 (proj2 (mode_fields _ _ M))) as GA. change (g_attr m_any_attr) with true in GA. unfold attr_step, given_attrs. rewrite GA, !FA, A2. cbn [negb bind andb]. destruct (each_attrs (field_name f) ws W) as [E1 E2]. change (marshal_attr F (field_name f) true (TSlice TAttr) (VList ws)) with (each (marshal_attr F (field_name f) true TAttr) ws). rewrite E1. split; auto. split; auto. split; auto. split; auto.
  intros a Ia. unfold direct in A3. destruct (fi_idx f) as [|x [|]] eqn:IX; try discriminate A3. destruct DIR as (-> & -> & _); [eauto|]. destruct FK as (_ & _ & _ & _ & FK). eapply FK; [reflexivity|]. apply attrs_in_in. exact Ia.
Qed.
Lemma no_attrs : forall f, g_attr (fi_flags f) = false -> attr_step f = Ok (given_attrs v f) /\ given_attrs v f = [].
Proof. intros f G. unfold attr_step, given_attrs. rewrite G. auto. Qed.
Lemma role_attr : forall f fd, role f fd -> (mode_eqb (fi_flags f) m_attr = true /\ attr_ok pfx known ti f fd = true) \/ (mode_eqb (fi_flags f) m_any_attr = true /\ any_ok ti f fd = true) \/ g_attr (fi_flags f) = false.
Proof. intros f fd [M A|M A|M A|M A]; auto; right; right; apply mode_fields in M; decompose [and] M; auto. Qed.
Lemma step_given : forall f, In f (ti_fields ti) -> attr_step f = Ok (given_attrs v f).
Proof.
  intros f I. destruct (field_facts f I) as (fd & D & P & _ & _ & FL & R). destruct (role_attr f fd R) as [[M A]|[[M A]|G]].
  - destruct (attr_given f fd I D P FL M A) as (w & xs & _ & X & _). exact X.
  - destruct (any_given f fd I D P M A) as (ws & _ & _ & X & _). exact X.
  - apply no_attrs. exact G.
Qed.
Lemma marshal_given : marshal_attrs F env s (ti_fields ti) v true = Ok (flat_map (given_attrs v) (ti_fields ti)).
Proof.
  assert (H : forall fs, incl fs (ti_fields ti) -> marshal_attrs F env s fs v true = Ok (flat_map (given_attrs v) fs)); [|apply H; apply incl_refl].
  induction fs as [|f fs IH]; intros IN; [reflexivity|]. change (marshal_attrs F env s (f :: fs) v true) with (do a <- attr_step f ; do b <- marshal_attrs F env s fs v true ; Ok (a ++ b)). rewrite step_given by (apply IN; left; auto). cbn [bind]. rewrite IH; [reflexivity|]. intros x X. apply IN. right. exact X.
Qed.

(** *** Where attributes go *)
Definition route (a : attr) : option finfo := attr_field ti (aname a).
Lemma captured_stays : forall a, captured env s own_space a -> rename a = a.
Proof. intros [[sp lo] x] (A & [_ B] & _). cbn in A, B. subst sp. unfold rename. cbn [aname avalue space]. change (strip (mkname [] lo)) with (snd (split_prefixed lo)). rewrite simple_split; auto. Qed.
Lemma captured_route : forall f fd a, In f (ti_fields ti) -> any_ok ti f fd = true -> captured env s own_space a -> exists g, route a = Some g /\ fi_idx g = fi_idx f.
Proof.
  intros f fd [[sp lo] x] I A (C1 & _ & _ & _ & C5). cbn in C1, C5. subst sp. unfold any_ok in A. rewrite !andb_true_iff in A. destruct A as [[[[A1 A2] A3] A4] A5]. rewrite forallb_forall in A5.
  assert (N : find_attr (ti_attrs ti) (mkname [] lo) = None).
  { destruct (find_attr (ti_attrs ti) (mkname [] lo)) as [g|] eqn:E; auto. exfalso. apply find_attr_in in E. destruct E as (k & J & E). apply name_eqb_true in E. apply attrs_in_fields in J. destruct J as (J & M & ->). injection E as E1 E2.
    specialize (A5 g J). rewrite M in A5. cbn [negb orb] in A5. destruct (field_facts g J) as (fd' & D & P & _ & NM & FL & _). unfold direct in A5. destruct (fi_idx g) as [|y [|]] eqn:IX; try discriminate A5. cbn [decl_at] in D. destruct (nth_error (fields_of env s) y) as [fd''|] eqn:NT; [|discriminate]. injection D as ->.
    apply (C5 fd'); [eapply nth_error_In; eauto| |congruence]. rewrite <- FL. apply mode_fields in M. decompose [and] M. auto. }
  unfold route, attr_field. cbn [aname local]. rewrite N. destruct (ti_anyattr ti) as [g|]; [|discriminate]. exists g. split; auto. apply nat_eqb_list_eq. exact A4.
Qed.
Lemma given_route : forall f x, In f (ti_fields ti) -> In x (map rename (given_attrs v f)) -> route x = Some f.
Proof.
  intros f x I X. assert (K : exists g, route x = Some g /\ fi_idx g = fi_idx f).
  { destruct (field_facts f I) as (fd & D & P & _ & _ & FL & R). destruct (role_attr f fd R) as [[M A]|[[M A]|G]].
    - destruct (attr_given f fd I D P FL M A) as (w & xs & _ & _ & E & _). rewrite E in X. rewrite map_map in X. apply in_map_iff in X. destruct X as (y & <- & _). destruct (attr_name f fd M A) as (_ & RN & _ & GT & _). rewrite rename_value, RN. unfold route. cbn [aname]. unfold goes_to in GT.
      destruct (attr_field ti (mkname (fi_xmlns f) (fi_name f))) as [g|]; [|discriminate]. exists g. split; auto. apply nat_eqb_list_eq. exact GT.
    - destruct (any_given f fd I D P M A) as (ws & _ & _ & _ & E & CP). rewrite E in X. apply in_map_iff in X. destruct X as (y & <- & Y). rewrite captured_stays by auto. eapply captured_route; eauto.
    - rewrite (proj2 (no_attrs f G)) in X. destruct X. }
  destruct K as (g & RT & E). rewrite RT. f_equal. apply same_idx; auto; apply in_family; auto. eapply attr_field_in; eauto.
Qed.

Definition a_for := for_field attr route.
Definition all_attrs : list attr := flat_map (given_attrs v) (ti_fields ti).
Lemma fields_nodup : NoDup (ti_fields ti).
Proof.
  destruct ok_parts as (P & _). apply pairs_nodup in P; [|intro x; rewrite apart_irrefl; reflexivity]. unfold family in P. destruct (ti_xmlname ti); [inversion P; auto|auto].
Qed.
Lemma for_same : forall f g x, In f (ti_fields ti) -> route x = Some g -> (a_for f x = true <-> g = f).
Proof.
  intros f g x I R. unfold a_for, for_field. rewrite R. split; [|intros ->; apply nat_eqb_list_refl]. intro E. apply nat_eqb_list_eq in E. apply same_idx; auto; apply in_family; auto. eapply attr_field_in; eauto.
Qed.
Lemma filter_given : forall f, In f (ti_fields ti) -> filter (a_for f) (map rename all_attrs) = map rename (given_attrs v f).
Proof.
  intros f I. unfold all_attrs. rewrite map_flat_map. apply (filter_one (fun g => map rename (given_attrs v g)) (a_for f)); [apply fields_nodup|exact I|]. intros g x G X. apply for_same; auto. apply given_route; auto.
Qed.
Lemma ignored : forall f n x, In f (ti_fields ti) -> ignores ti n = true -> aname x = n -> mode_eqb (fi_flags f) m_any_attr = false -> a_for f x = false.
Proof.
  intros f n x I IG E M. destruct (a_for f x) eqn:A; auto. unfold ignores in IG. destruct (attr_field ti n) as [g|] eqn:R.
  - assert (RT : route x = Some g) by (unfold route; rewrite E; exact R). apply (for_same f g x I RT) in A. subst g. congruence.
  - unfold a_for, for_field, route in A. rewrite E, R in A. discriminate.
Qed.
Lemma hand_ignored : forall us u, distinct pfx us -> In u us -> ignores ti (mkname xmlnsURL (pfx u)) = true.
Proof.
  intros us u (D & _) I. destruct (D u I) as [U _]. destruct ok_parts as (_ & _ & _ & K & _). rewrite forallb_forall in K. apply (K u). apply ONLY. exact U.
Qed.
Lemma attr_not_any : forall f, mode_eqb (fi_flags f) m_attr = true -> mode_eqb (fi_flags f) m_any_attr = false.
Proof. intros f M. destruct (mode_eqb (fi_flags f) m_any_attr) eqn:E; auto. apply mode_fields in M, E. decompose [and] M. decompose [and] E. cbn in *. congruence. Qed.
Lemma route_attr : forall x g, route x = Some g -> g_attr (fi_flags g) = true.
Proof.
  intros x g R. unfold route, attr_field in R. assert (K : forall n, find_attr (ti_attrs ti) n = Some g -> g_attr (fi_flags g) = true).
  { intros n E. apply find_attr_in in E. destruct E as (k & I & _). apply attrs_in_fields in I. destruct I as (_ & M & _). apply mode_fields in M. decompose [and] M. auto. }
  destruct (find_attr (ti_attrs ti) (aname x)) eqn:E; [injection R as ->; eauto|]. destruct (find_attr (ti_attrs ti) (mkname [] (local (aname x)))) eqn:E2; [injection R as ->; eauto|]. apply anyattr_in in R. destruct R as [_ M]. apply mode_fields in M. decompose [and] M. auto.
Qed.

(** *** What is asked of the encoder *)
Lemma given_asks : forall us, (forall f, In f (ti_fields ti) -> mode_eqb (fi_flags f) m_attr = true -> fi_xmlns f <> [] -> In (fi_xmlns f) us) -> Forall (asks_attr pfx us) all_attrs.
Proof.
  intros us U. apply Forall_forall. intros x X. apply in_flat_map in X. destruct X as (f & I & X). destruct (field_facts f I) as (fd & D & P & _ & _ & FL & R). destruct (role_attr f fd R) as [[M A]|[[M A]|G]].
  - destruct (attr_given f fd I D P FL M A) as (w & xs & _ & _ & E & XT & _). rewrite E in X. apply in_map_iff in X. destruct X as (y & <- & Y). destruct (attr_name f fd M A) as (_ & _ & _ & _ & AS & _). apply AS; auto. rewrite Forall_forall in XT. auto.
  - destruct (any_given f fd I D P M A) as (ws & _ & _ & _ & E & CP). rewrite E in X. destruct (CP x X) as (C1 & C2 & C3 & C4 & _). split; auto. left. split; auto. rewrite simple_split by (apply C2). cbn [snd]. split; auto.
  - rewrite (proj2 (no_attrs f G)) in X. destruct X.
Qed.
Lemma given_default : no_default ti = true -> forall u, In (dflt u) all_attrs -> own_space = Some u.
Proof.
  intros ND u X. apply in_flat_map in X. destruct X as (f & I & X). destruct (field_facts f I) as (fd & D & P & _ & _ & FL & R). destruct (role_attr f fd R) as [[M A]|[[M A]|G]].
  - exfalso. destruct (attr_given f fd I D P FL M A) as (w & xs & _ & _ & E & XT & _). rewrite E in X. apply in_map_iff in X. destruct X as (y & Y & _). destruct (attr_name f fd M A) as (_ & _ & _ & GT & _ & DF). destruct (DF _ _ Y) as [D1 D2]. rewrite D1, D2 in GT.
    unfold no_default, ignores in ND. unfold goes_to in GT. destruct (attr_field ti (mkname [] (str "xmlns"))) as [g|] eqn:AF; [|discriminate]. apply nat_eqb_list_eq in GT. assert (g = f) by (apply same_idx; auto; apply in_family; auto; eapply attr_field_in; eauto). subst g. rewrite (attr_not_any f M) in ND. discriminate.
  - destruct (any_given f fd I D P M A) as (ws & _ & _ & _ & E & CP). rewrite E in X. destruct (CP _ X) as (C1 & C2 & C3 & C4 & _). apply C4. reflexivity.
  - rewrite (proj2 (no_attrs f G)) in X. destruct X.
Qed.

(** *** Reading the attributes *)
Lemma attr_wt : forall t w a w', wt env t w = true -> unmarshal_attr F env ek t w a = Ok w' -> wt env t w' = true.
Proof.
  assert (Q : forall t w a w', attr_readable t = true -> wt env t w = true -> unmarshal_attr F env ek t w a = Ok w' -> wt env t w' = true).
  { intros t w a w' R W H. pose proof (unmarshal_attr_ok F env ek EO t w a R W) as X. rewrite H in X. exact X. }
  fix IH 1. intros t w a w' W H. destruct (attr_readable t) eqn:R; [eapply Q; eauto|]. destruct t as [| | | | | | |t|t| | |]; try discriminate R.
  - destruct t as [| | | | | | |t|t| | |]; try discriminate R.
    + destruct t; try discriminate R; [| |cbn in H; discriminate]; cbn [unmarshal_attr has_method] in H;
        (match type of H with context [method_value F ?t ?x] => pose proof (method_value_ok F env t x eq_refl) as MV; destruct (method_value F t x) as [y| | |] end; try discriminate; cbn [bind] in H;
         match type of H with bind (match ?c with _ => _ end) _ = _ => destruct c end; try discriminate; injection H as <-; exact MV).
    + cbn [unmarshal_attr has_method] in H. destruct (match w with VPtr w => w | _ => zero_of env ek (TSlice t) end) as [| | | | | |l'| | |] eqn:E; try discriminate. destruct (unmarshal_attr F env ek t (zero_of env ek t) a) as [x| | |] eqn:U; try discriminate. cbn [bind] in H. injection H as <-.
      apply IH in U; [|apply wt_zero; exact ZERO]. cbn [wt]. apply forallb_snoc; auto. destruct w; try discriminate W; [|cbn [wt] in W; subst; exact W]. clear IH. pose proof (wt_zero ek env (TSlice t) ZERO) as WZ. unfold zero_of in E. rewrite E in WZ. exact WZ.
  - cbn [unmarshal_attr] in H. destruct w as [| | | | | |l'| | |]; try discriminate. destruct (unmarshal_attr F env ek t (zero_of env ek t) a) as [x| | |] eqn:U; try discriminate. cbn [bind] in H. injection H as <-.
    apply IH in U; [|apply wt_zero; exact ZERO]. cbn [wt]. apply forallb_snoc; auto.
Qed.
Lemma set_attrs_run : forall b v1, set_attrs F env ek ti s v1 b = run env ek attr s route (unmarshal_attr F env ek) v1 b.
Proof. induction b as [|a b IH]; intros v1; [reflexivity|]. cbn [set_attrs run]. unfold route at 1. destruct (attr_field ti (aname a)); [|apply IH]. destruct (update_at _ _ _ _ _ _) as [[v' []]| | |]; cbn [bind]; auto. Qed.
Definition is_attr_field (f : finfo) : bool := g_attr (fi_flags f).
(** The attributes as they are to be written: the declaration in front where there is none. *)
Definition laid_as (c : fate) (b : list attr) : Prop :=
  match c with
  | Open => True
  | Declared u => no_default ti = true /\ b = (if existsb is_default all_attrs then [] else [dflt u]) ++ map rename all_attrs
  | Stay => b = map rename all_attrs
  end.
Lemma default_route : forall f fd u, In f (ti_fields ti) -> any_ok ti f fd = true -> no_default ti = true -> a_for f (dflt u) = true.
Proof.
  intros f fd u I A ND. unfold any_ok in A. rewrite !andb_true_iff in A. destruct A as [[[[A1 A2] A3] A4] A5]. unfold no_default, ignores in ND. unfold a_for, for_field, route. change (aname (dflt u)) with (mkname [] (str "xmlns")).
  destruct (attr_field ti (mkname [] (str "xmlns"))) as [g|] eqn:R; unfold attr_field in R; cbn [local] in R.
  - destruct (find_attr (ti_attrs ti) (mkname [] (str "xmlns"))) as [g'|] eqn:E.
    + injection R as ->. exfalso. apply find_attr_in in E. destruct E as (k & J & _). apply attrs_in_fields in J. destruct J as (_ & M & _). rewrite (attr_not_any g M) in ND. discriminate.
    + rewrite R in A4. exact A4.
  - destruct (find_attr (ti_attrs ti) (mkname [] (str "xmlns"))); [discriminate|]. rewrite R in A4. discriminate A4.
Qed.
Lemma default_in : forall f fd ws, In f (ti_fields ti) -> decl_at env s (fi_idx f) = Some fd -> path_ok env s (fi_idx f) = true -> mode_eqb (fi_flags f) m_any_attr = true -> any_ok ti f fd = true -> no_default ti = true -> given_attrs v f = attrs_in ws ->
  existsb is_default all_attrs = existsb is_default (attrs_in ws).
Proof.
  intros f fd ws I D P M A ND E. apply eq_true_iff_eq. rewrite !existsb_exists. split.
  - intros (x & X & DX). exists x. split; auto. assert (x = dflt (avalue x)) as EX. { destruct x as [[sp lo] y]. unfold is_default in DX. cbn [aname space local] in DX. apply andb_true_iff in DX. destruct DX as [D1 D2]. apply beq_eq in D1, D2. subst. reflexivity. }
    apply in_flat_map in X. destruct X as (g & J & X). destruct (field_facts g J) as (gd & D' & P' & _ & _ & FL & R). destruct (role_attr g gd R) as [[M' A']|[[M' A']|G]].
    + exfalso. destruct (attr_given g gd J D' P' FL M' A') as (w & xs & _ & _ & E' & XT & _). rewrite E' in X. apply in_map_iff in X. destruct X as (y & Y & _). destruct (attr_name g gd M' A') as (_ & _ & _ & GT & _ & DF). rewrite EX in Y. destruct (DF _ _ Y) as [D1 D2]. rewrite D1, D2 in GT.
      unfold no_default, ignores in ND. unfold goes_to in GT. destruct (attr_field ti (mkname [] (str "xmlns"))) as [h|] eqn:AF; [|discriminate]. apply nat_eqb_list_eq in GT. assert (h = g) by (apply same_idx; auto; apply in_family; auto; eapply attr_field_in; eauto). subst h. rewrite (attr_not_any g M') in ND. discriminate.
    + assert (g = f) as ->; [|rewrite E in X; exact X]. apply same_idx; try (apply in_family; auto). unfold any_ok in A, A'. rewrite !andb_true_iff in A, A'. destruct A as [[_ A] _]. destruct A' as [[_ A'] _]. destruct (ti_anyattr ti) as [h|]; [|discriminate]. apply nat_eqb_list_eq in A, A'. congruence.
    + rewrite (proj2 (no_attrs g G)) in X. destruct X.
  - intros (x & X & DX). exists x. split; auto. apply in_flat_map. exists f. split; auto. rewrite E. exact X.
Qed.
Lemma any_fate : forall c b f fd ws, In f (ti_fields ti) -> decl_at env s (fi_idx f) = Some fd -> path_ok env s (fi_idx f) = true -> mode_eqb (fi_flags f) m_any_attr = true -> any_ok ti f fd = true -> given_attrs v f = attrs_in ws -> forallb (wt env TAttr) ws = true ->
  (forall a, In a (attrs_in ws) -> captured env s own_space a) -> c <> Open -> laid_as c b -> fated c ws (map VAttr (filter (a_for f) b)).
Proof.
  intros c b f fd ws I D P M A E W CP NO L.
  assert (Q : filter (a_for f) (map rename all_attrs) = attrs_in ws). { rewrite filter_given by exact I. rewrite E. transitivity (map (fun a => a) (attrs_in ws)); [|apply map_id]. apply map_ext_in. intros a Ia. apply captured_stays. auto. }
  pose proof (proj2 (each_attrs (mkname [] []) ws W)) as EW. destruct c as [|u|]; [congruence| |]; cbn [laid_as fated] in *.
  - destruct L as [ND ->]. rewrite filter_app, Q. unfold with_default. rewrite (default_in f fd ws I D P M A ND E). destruct (existsb is_default (attrs_in ws)); cbn [app filter]; [symmetry; exact EW|]. rewrite (default_route f fd u I A ND). cbn [app map]. f_equal. symmetry. exact EW.
  - subst b. rewrite Q. symmetry. exact EW.
Qed.
Lemma attrs_back : forall c d' us u0 b v1, laid_as c b -> distinct pfx us -> carried pfx us u0 all_attrs b -> (u0 <> [] -> no_default ti = true) -> wt env (TStruct s) v1 = true ->
  (forall f fd, In f (ti_fields ti) -> decl_at env s (fi_idx f) = Some fd -> exists w, peek env ek s (fi_idx f) v1 = Some (fd_type fd, w) /\ blank env (fd_type fd) w) ->
  exists v2, set_attrs F env ek ti s v1 b = Ok v2 /\ wt env (TStruct s) v2 = true /\
    (forall f, In f (ti_fields ti) -> g_attr (fi_flags f) = true -> exists t w w', peek env ek s (fi_idx f) v = Some (t, w) /\ peek env ek s (fi_idx f) v2 = Some (t, w') /\ arrives env known c d' t w w' /\ ((exists x, fi_idx f = [x]) \/ forall c, arrives env known c d' t w w')) /\
    (forall f, In f (ti_fields ti) -> g_attr (fi_flags f) = false -> peek env ek s (fi_idx f) v2 = peek env ek s (fi_idx f) v1) /\
    (forall idx, In idx (musts env s ti) -> alive env s idx v2) /\
    (forall f, (forall g, In g (ti_fields ti) -> apart (fi_idx g) (fi_idx f) = true) -> peek env ek s (fi_idx f) v2 = peek env ek s (fi_idx f) v1).
Proof.
  intros c d' us u0 b v1 LA DI CA U0 W1 BL.
  assert (HAND : forall f u, In f (ti_fields ti) -> mode_eqb (fi_flags f) m_any_attr = false -> In u us -> a_for f (hand (pfx u) u) = false).
  { intros f u I M J. apply (ignored f (mkname xmlnsURL (pfx u))); auto. eapply hand_ignored; eauto. }
  assert (DFLT : forall f, In f (ti_fields ti) -> mode_eqb (fi_flags f) m_any_attr = false -> u0 <> [] -> a_for f (dflt u0) = false).
  { intros f I M J. apply (ignored f (mkname [] (str "xmlns"))); auto. }
  assert (FOR : forall f, In f (ti_fields ti) -> mode_eqb (fi_flags f) m_any_attr = false -> filter (a_for f) b = map rename (given_attrs v f)).
  { intros f I M. rewrite (carried_filter us u0 all_attrs b (a_for f) DI CA); auto. apply filter_given. exact I. }
  assert (FEED : forall f, In f (ti_fields ti) -> exists t w1 w2, peek env ek s (fi_idx f) v1 = Some (t, w1) /\ attr_feed t w1 (filter (a_for f) b) = Ok w2 /\
     (g_attr (fi_flags f) = true -> exists w, peek env ek s (fi_idx f) v = Some (t, w) /\ arrives env known c d' t w w2 /\ ((exists x, fi_idx f = [x]) \/ forall c, arrives env known c d' t w w2)) /\ (g_attr (fi_flags f) = false -> filter (a_for f) b = [])).
  { intros f I. destruct (field_facts f I) as (fd & D & P & _ & _ & FL & R). destruct (BL f fd I D) as (w1 & PK & B). exists (fd_type fd), w1. destruct (role_attr f fd R) as [[M A]|[[M A]|G]].
    - destruct (attr_given f fd I D P FL M A) as (w & xs & PV & _ & E & XT & _ & FD). rewrite (FOR f I (attr_not_any f M)), E, map_map. destruct (attr_name f fd M A) as (_ & RN & _).
      assert (MM : map (fun x => rename (mkattr (field_name f) x)) xs = map (mkattr (aname (rename (mkattr (field_name f) [])))) xs) by reflexivity. rewrite MM.
      destruct (FD w1 (aname (rename (mkattr (field_name f) []))) B) as (w2 & F2 & SM). exists w2. split; auto. split; auto. assert (AA : forall c, arrives env known c d' (fd_type fd) w w2). { intro c0. destruct (attr_name f fd M A) as (_ & _ & SH & _). destruct (at_field f fd I D P) as (w0 & _ & PK0 & W & _). rewrite PV in PK0. injection PK0 as <-. apply attr_arrives; auto. } split; [eauto 6|]. intro G. apply mode_fields in M. decompose [and] M. cbn in *. congruence.
    - destruct (any_given f fd I D P M A) as (ws & PV & TY & _ & E & CP). rewrite TY in *. assert (w1 = VList []) as -> by (destruct B as (k & -> & _); destruct k; reflexivity).
      exists (VList (map VAttr (filter (a_for f) b))). split; auto. split; [apply attr_feed_any|]. split; [|intro G; apply mode_fields in M; decompose [and] M; cbn in *; congruence]. intros _. exists (VList ws). split; auto. split; [|left; unfold any_ok in A; rewrite !andb_true_iff in A; destruct A as [[[_ A] _] _]; unfold direct in A; destruct (fi_idx f) as [|x0 [|]]; try discriminate A; eauto].
      destruct (at_field f fd I D P) as (w0 & _ & PK0 & W & _). rewrite TY, PV in PK0. rewrite TY in W. injection PK0 as <-. cbn [wt] in W. assert (LO : c = Open \/ c <> Open) by (destruct c; auto; right; discriminate). destruct LO as [->|NO]; [|exact (any_fate c b f fd ws I D P M A E W CP NO LA)]. cbn [arrives fated]. unfold genuine.
      assert (AI : forall l, attrs_in (map VAttr l) = l) by (induction l0 as [|? ? X]; [reflexivity|cbn; rewrite X; reflexivity]). rewrite AI, filter_filter.
      rewrite (carried_filter us u0 all_attrs b _ DI CA). 2: { intros u _. reflexivity. } 2: { intros _. reflexivity. }
      rewrite <- filter_filter, filter_given by exact I. rewrite E. f_equal. transitivity (map (fun a => a) (attrs_in ws)); [|apply map_id]. apply map_ext_in. intros a Ia. apply captured_stays. auto.
    - assert (NO : filter (a_for f) b = []). { apply filter_no. intros x X. destruct (a_for f x) eqn:E; auto. exfalso. destruct (route x) as [g|] eqn:RT; [|unfold a_for, for_field in E; rewrite RT in E; discriminate]. apply (for_same f g x I RT) in E. subst g. apply route_attr in RT. congruence. }
      rewrite NO. exists w1. split; auto. split; [reflexivity|]. split; [congruence|auto]. }
  destruct (run_feeds env ek ZERO attr s (ti_fields ti) route (unmarshal_attr F env ek) fields_apart b v1 W1) as (v2 & RUN & W2 & PEEK & ALIVE & OTHER).
  - intros x g _ R. eapply attr_field_in; eauto.
  - intros f I. destruct (FEED f I) as (t & w1 & w2 & P1 & F1 & _). exists t, w1, w2. split; auto.
  - intros t w x w' _. apply attr_wt.
  - exists v2. rewrite set_attrs_run. split; auto. split; auto. split; [|split; [|split]].
    + intros f I G. destruct (FEED f I) as (t & w1 & w2 & P1 & F1 & G1 & _). destruct (G1 G) as (w & PV & SM). destruct (PEEK f t w1 I P1) as (w' & P2 & F2). change (attr_feed t w1 (filter (a_for f) b) = Ok w') in F2. rewrite F1 in F2. injection F2 as <-. exists t, w, w2. destruct SM as [SM1 SM2]. auto.
    + intros f I G. destruct (FEED f I) as (t & w1 & w2 & P1 & F1 & _ & G1). destruct (PEEK f t w1 I P1) as (w' & P2 & F2). change (attr_feed t w1 (filter (a_for f) b) = Ok w') in F2. rewrite (G1 G) in F2. cbn in F2. injection F2 as <-. congruence.
    + intros idx J. unfold musts in J. apply in_map_iff in J. destruct J as (f & <- & J). apply filter_In in J. destruct J as [J1 J2]. apply filter_In in J1. destruct J1 as [I M]. apply ALIVE; auto. right. destruct (field_facts f I) as (fd & D & P & _ & _ & FL & R).
      apply andb_true_iff in J2. destruct J2 as [J2 J3]. apply negb_true_iff in J2. rewrite D in J3. change (filter (a_for f) b <> []). rewrite (FOR f I (attr_not_any f M)). destruct (role_attr f fd R) as [[_ A]|[[M' A]|G]].
      * destruct (attr_given f fd I D P FL M A) as (w & xs & PV & _ & E & XT & NE & FD). rewrite E. specialize (NE J2 J3). destruct xs; [congruence|discriminate].
      * rewrite (attr_not_any f M) in M'. discriminate.
      * apply mode_fields in M. decompose [and] M. cbn in *. congruence.
    + exact OTHER.
Qed.
End Value.
End Struct.
End Attrs.
