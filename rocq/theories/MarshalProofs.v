(** Writing values of a type: it succeeds, or crashes because of a nil embedded pointer. *)
From Coq Require Import String.
From Coq Require Import ZArith List Bool Lia ZifyBool ZifyNat.
From Verif Require Import Base Utf8 Lexer Escape Decoder Duration PropertiesDuration Printer PrinterProofs GoType TypeInfo TypeInfoSpec TypeInfoProofs Simple Marshal Io ValueSpec UnmarshalProofs.
Import ListNotations.
Open Scope Z_scope.

(** *** Types that can be written *)
Definition simple_type (t : gtype) : bool := match t with TString | TBool | TInt _ | TUint _ | TDuration | TFloat _ | TFloatInf => true | _ => false end.
Fixpoint attr_writable (t : gtype) : bool :=
  match t with
  | TPtr (TSlice t) => attr_writable t
  | TPtr t | t => match t with TSlice t => attr_writable t | TAttr => true | _ => simple_type t end
  end.
Definition element_writable (t : gtype) : bool := match item t with TStruct _ => true | u => simple_type u end.
(** Names for which the printer takes the prefix that is asked for. *)
Definition name_ok (n : name) : bool :=
  let q := fst (split_prefixed (local n)) in negb (beq (local n) []) && (beq q [] || beq (pick_prefix [] (space n) q) q).
Definition writable (f : finfo) (t : gtype) : bool :=
  let g := fi_flags f in
  if g_attr g then attr_writable t
  else if mode_eqb g m_chardata || mode_eqb g m_cdata then true
  else if mode_eqb g m_comment then false
  else if mode_eqb g m_innerxml then match t with TString => true | _ => false end
  else element_writable t && name_ok (field_name f).
(** Names in a value that ask for no prefix. *)
Fixpoint plain_names (v : gval) : bool :=
  match v with
  | VName n => beq (fst (split_prefixed (local n))) []
  | VPtr w => plain_names w
  | VList l | VRec l => forallb plain_names l
  | _ => true
  end.
Record writes_ok (ek : nat) (env : tenv) : Prop := mkwo {
  wo_info : forall s, exists ti, type_info ek env s = Ok ti;
  wo_name : forall s ti x, type_info ek env s = Ok ti -> ti_xmlname ti = Some x ->
    (exists i fd, fi_idx x = [i] /\ nth_error (fields_of env s) i = Some fd /\ fd_type fd = TName) /\ (fi_name x = [] \/ name_ok (field_name x) = true);
  wo_field : forall s ti f fd, type_info ek env s = Ok ti -> In f (ti_fields ti) -> decl_at env s (fi_idx f) = Some fd -> fi_parents f = [] /\ writable f (fd_type fd) = true
}.

(** *** Parts of values *)
Lemma forallb_nth : forall {A} (p : A -> bool) l i x, forallb p l = true -> nth_error l i = Some x -> p x = true.
Proof. intros A p l i x H N. rewrite forallb_forall in H. apply H. eapply nth_error_In; eauto. Qed.
Lemma height_in : forall l w, In w l -> (height w <= fold_right Nat.max O (map height l))%nat.
Proof. induction l as [|x l IH]; intros w I; [destruct I|]. destruct I as [->|I]; cbn; [lia|]. specialize (IH w I). lia. Qed.
Lemma height_field : forall l w, In w l -> (height w < height (VRec l))%nat.
Proof. intros l w I. cbn [height]. pose proof (height_in l w I). lia. Qed.
Lemma field_at_ok : forall {E} env idx s v addr fd, wt env (TStruct s) v = true -> decl_at env s idx = Some fd ->
  @field_at E env s idx v addr = Ok None \/
  exists w ad, @field_at E env s idx v addr = Ok (Some (fd_type fd, w, ad)) /\ wt env (fd_type fd) w = true /\ (plain_names v = true -> plain_names w = true) /\ (height w < height v)%nat.
Proof.
  intros E env. induction idx as [|x rest IH]; intros s v addr fd Hv D; [discriminate|]. cbn [decl_at] in D.
  apply wt_rec in Hv as (l & -> & Fl). destruct (nth_error (fields_of env s) x) as [g|] eqn:N; [|discriminate].
  destruct (nth_error_Forall2 _ _ _ _ _ Fl N) as (w & Nw & Hw). cbn [field_at]. rewrite N, Nw.
  pose proof (height_field l w (nth_error_In _ _ Nw)) as HT. assert (PN : plain_names (VRec l) = true -> plain_names w = true) by (intros P; exact (forallb_nth _ _ _ _ P Nw)).
  destruct rest as [|y rest]; [injection D as <-; right; exists w, addr; auto|]. set (rest' := y :: rest) in *.
  destruct (fd_type g) as [| | | | | | |t| |s'| |] eqn:T; try discriminate.
  - destruct t as [| | | | | | | | |s'| |]; try discriminate. destruct w as [| | | | |u| | | |]; try discriminate; [left; reflexivity|]. cbn [height plain_names] in *.
    destruct (IH s' u true fd Hw D) as [A|(w & ad & A & B & C & F)]; [left; exact A|]. right. exists w, ad. split; [exact A|]. split; [exact B|]. split; [auto|lia].
  - destruct (IH s' w addr fd Hw D) as [A|(u & ad & A & B & C & F)]; [left; exact A|]. right. exists u, ad. split; [exact A|]. split; [exact B|]. split; [auto|lia].
Qed.
Lemma field_at_addr : forall {E} env idx s v a b, match @field_at E env s idx v a, @field_at E env s idx v b with
  | Ok (Some (t, w, _)), Ok (Some (t', w', _)) => t = t' /\ w = w'
  | Ok None, Ok None => True | Panic, Panic => True | _, _ => False end.
Proof.
  intros E env. induction idx as [|x rest IH]; intros s v a b; [cbn; exact I|]. destruct v; cbn [field_at]; try exact I.
  destruct (nth_error (fields_of env s) x) as [g|]; [|exact I]. destruct (nth_error l x) as [w|]; [|exact I]. destruct rest as [|y rest]; [auto|].
  destruct (fd_type g) as [| | | | | | |t| |s'| |]; try exact I; [|apply IH]. destruct t; try exact I. destruct w; try exact I. apply IH.
Qed.
Lemma drill_ok : forall env t v addr, wt env t v = true ->
  drill t v addr = None \/ exists t' v' ad, drill t v addr = Some (t', v', ad) /\ wt env t' v' = true /\ item t' = item t /\ (forall u, t' <> TPtr u) /\ (plain_names v = true -> plain_names v' = true) /\ height v' = height v.
Proof.
  intros env. induction t; intros v addr H; cbn [drill]; try (right; eexists _, v, addr; split; [reflexivity|]; split; [exact H|]; split; [reflexivity|]; split; [discriminate|split; auto]).
  destruct v; try (left; reflexivity). cbn [wt] in H. destruct (IHt v true H) as [A|(t' & v' & ad & A & B & C & D & E & G)]; [left; exact A|]. right. exists t', v', ad. auto 8.
Qed.
Lemma drill_addr : forall t v a b, match drill t v a, drill t v b with Some (t', v', _), Some (t'', v'', _) => t' = t'' /\ v' = v'' | None, None => True | _, _ => False end.
Proof. induction t; intros v a b; cbn [drill]; auto. destruct v; auto. apply IHt. Qed.

(** *** Attributes *)
Lemma simple_text_ok : forall F env t v, simple_type t = true -> wt env t v = true -> exists s, simple_text F t v = Some s.
Proof. intros F env t v S H. destruct t; try discriminate; destruct v; try discriminate; eexists; reflexivity. Qed.
Lemma method_text_ok : forall F env t v, has_method t = true -> wt env t v = true -> exists s, method_text F t v = Ok s.
Proof.
  intros F env t v S H. destruct t; try discriminate; destruct v; try discriminate; [|eexists; reflexivity].
  cbn [wt] in H. destruct (C01_string_well_formed (f_oor F) z ltac:(lia)) as (p & E & _). eexists. cbn [method_text]. rewrite E. reflexivity.
Qed.
Lemma each_ok : forall f l, (forall v, In v l -> exists a, f v = Ok a) -> exists a, each f l = Ok a.
Proof.
  intros f. induction l as [|v l IH]; intros H; [eexists; reflexivity|]. destruct (H v (or_introl eq_refl)) as (a & A). destruct (IH (fun w I => H w (or_intror I))) as (b & B).
  cbn [each]. rewrite A, B. eexists; reflexivity.
Qed.
Lemma marshal_attr_ok : forall F env t nm addr v, attr_writable t = true -> wt env t v = true -> exists l, marshal_attr F nm addr t v = Ok l.
Proof.
  intros F env t. induction t; intros nm addr v W H; cbn [marshal_attr]; try discriminate.
  all: try (cbn [has_method andb]; match goal with H : wt ?env ?t ?v = true |- context [simple_text ?F _ _] => destruct (simple_text_ok F env t v eq_refl H) as (s & S); rewrite S; destruct v; try discriminate; eexists; reflexivity end).
  - destruct addr; cbn [has_method andb]; [destruct (method_text_ok F env TDuration v eq_refl H) as (s & ->); eexists; reflexivity|].
    destruct (simple_text_ok F env TDuration v eq_refl H) as (s & ->). eexists; reflexivity.
  - destruct addr; cbn [has_method andb]; [destruct (method_text_ok F env TFloatInf v eq_refl H) as (s & ->); eexists; reflexivity|].
    destruct (simple_text_ok F env TFloatInf v eq_refl H) as (s & ->). eexists; reflexivity.
  - destruct v; try discriminate; [eexists; reflexivity|]. cbn [wt] in H. destruct (has_method t) eqn:M.
    + destruct (method_text_ok F env t v M H) as (s & ->). eexists; reflexivity.
    + destruct t; try discriminate; try (match goal with H : wt env ?t _ = true |- _ => destruct (simple_text_ok F env t v eq_refl H) as (s & S); rewrite S; destruct v; try discriminate; eexists; reflexivity end).
      * destruct v; try discriminate. exact (IHt nm true (VList _) W H).
      * destruct v; try discriminate. eexists; reflexivity.
  - destruct v; try discriminate. apply each_ok. intros w I. apply IHt; [exact W|]. cbn [wt] in H. rewrite forallb_forall in H. auto.
  - destruct v; try discriminate. eexists; reflexivity.
Qed.

(** *** Elements *)
Section Writing.
Variables (F : floats) (env : tenv) (ek : nat).
Hypothesis WO : writes_ok ek env.
(** An attribute that is always written lies behind a nil pointer. *)
Definition hollow (s : bytes) (ti : tinfo) (v : gval) : bool :=
  existsb (fun f => g_attr (fi_flags f) && negb (g_omit (fi_flags f)) && match @field_at eerr env s (fi_idx f) v true with Ok None => true | _ => false end) (ti_fields ti).
Definition childlike (f : finfo) : bool :=
  let g := fi_flags f in negb (g_attr g || mode_eqb g m_chardata || mode_eqb g m_cdata || mode_eqb g m_comment || mode_eqb g m_innerxml).
(** Whether writing crashes. *)
Fixpoint crash (k : nat) (t : gtype) (v : gval) (fi : option finfo) : bool :=
  match k with
  | O => false
  | S k =>
      if match fi with Some f => g_omit (fi_flags f) && is_empty v | None => false end then false
      else match drill t v true with
           | None => false
           | Some (t', v', _) =>
               match t', v' with
               | TSlice u, VList l => existsb (fun w => crash k u w fi) l
               | TStruct s, _ =>
                   match type_info ek env s with
                   | Ok ti => hollow s ti v' ||
                              existsb (fun f => childlike f && match @field_at eerr env s (fi_idx f) v' true with Ok (Some (t, w, _)) => crash k t w (Some f) | _ => false end) (ti_fields ti)
                   | _ => false
                   end
               | _, _ => false
               end
           end
  end.
Definition ends {A} (p : bool) (m : M A) (s : pstate) : Prop :=
  exists cs s', p = true /\ m s = (cs, s', Panic) \/ p = false /\ (exists a, m s = (cs, s', Ok a)) /\ p_elems s' = p_elems s /\ 0 <= p_seq s'.
Lemma ends_ok : forall {A} p (m : M A) s, ends p m s -> (p = true -> exists cs s', m s = (cs, s', Panic)) /\ (p = false -> exists cs s' a, m s = (cs, s', Ok a) /\ p_elems s' = p_elems s /\ 0 <= p_seq s').
Proof. intros A p m s (cs & s' & [(-> & H)|(-> & (a & H) & X)]); split; intros E; try discriminate; eauto 6. Qed.
Lemma ends_bind : forall {A B} p q (m : M A) (f : A -> M B) s, ends p m s -> (forall cs s' a, m s = (cs, s', Ok a) -> p_elems s' = p_elems s -> 0 <= p_seq s' -> ends q (f a) s') -> ends (p || q) (mbind m f) s.
Proof.
  intros A B p q m f s H K. destruct (ends_ok _ _ _ H) as (H1 & H2). destruct p; cbn [orb].
  - destruct (H1 eq_refl) as (cs & s' & E). unfold ends, mbind. rewrite E. eauto 7.
  - destruct (H2 eq_refl) as (cs & s' & a & E & E1 & E2). specialize (K cs s' a E E1 E2). unfold mbind. destruct K as (cs' & s'' & K). exists (cs ++ cs'), s''.
    destruct K as [(-> & K)|(-> & (b & K) & K1 & K2)]; [left|right]; rewrite E, K; eauto. split; [reflexivity|]. split; [eauto|]. split; [congruence|exact K2].
Qed.
Lemma ends_ret : forall {A} (a : A) s, 0 <= p_seq s -> ends false (mret a) s.
Proof. intros A a s H. exists [], s. right. split; [reflexivity|]. split; [exists a; reflexivity|auto]. Qed.
Lemma ends_emit : forall cs s, 0 <= p_seq s -> ends false (emit cs) s.
Proof. intros cs s H. exists cs, s. right. split; [reflexivity|]. split; [exists tt; reflexivity|auto]. Qed.
Lemma ends_each : forall (f : gval -> M unit) (p : gval -> bool) l s, 0 <= p_seq s -> (forall v s, In v l -> 0 <= p_seq s -> ends (p v) (f v) s) -> ends (existsb p l) (each_value f l) s.
Proof.
  intros f p. induction l as [|v l IH]; intros s Q H; [apply ends_ret; exact Q|]. cbn [existsb each_value]. apply ends_bind; [apply H; [left; reflexivity|exact Q]|].
  intros cs s' a _ _ Q'. apply IH; [exact Q'|]. intros w s0 I. apply H. right. exact I.
Qed.
(** The start tag, what is inside, the end tag. *)
Lemma ends_element : forall n a (m : M unit) p s, name_ok n = true -> 0 <= p_seq s -> (forall s, 0 <= p_seq s -> ends p m s) -> ends p (mdo_ write_start n a ; mdo_ m ; write_end n) s.
Proof.
  intros n a m p s NO Q H. unfold name_ok in NO. apply andb_true_iff in NO as (NE & PR). apply negb_true_iff, beq_neq in NE.
  destruct (write_start_ok n a s Q NE) as (cs & s1 & e & ind & rest & E & ES & Q1 & NS & NM & _ & _ & PF). unfold ends, mbind. rewrite E.
  specialize (H s1 Q1). destruct H as (cs2 & s2 & H). destruct H as [(-> & ->)|(-> & (x & ->) & E2 & Q2)]; [exists (cs ++ cs2), s2; left; auto|].
  rewrite ES in E2.
  assert (LE : el_name e <> []).
  { rewrite NM. unfold split_prefixed. destruct (index_byte 58 (local n)) as [i|] eqn:IB; [|exact NE]. destruct ((i <? 1)%nat || _) eqn:B; [exact NE|]. cbn [snd]. intros X. apply (f_equal (@List.length Z)) in X. rewrite skipn_length in X. cbn in X. lia. }
  assert (EM : end_matches n e).
  { split; [symmetry; exact NM|]. split; [symmetry; exact NS|]. apply orb_true_iff in PR as [PR|PR]; apply beq_eq in PR; [left; exact PR|].
    destruct (beq (fst (split_prefixed (local n))) []) eqn:Z0; [apply beq_eq in Z0; left; exact Z0|]. apply beq_neq in Z0. right. right. symmetry. apply PF; auto. }
  destruct (write_end_ok n s2 e (p_elems s) E2 LE NE EM) as (cs3 & s3 & ind3 & E3 & E4 & E5 & _). rewrite E3. eexists _, s3. right. split; [reflexivity|]. split; [eexists; reflexivity|]. split; [exact E4|lia].
Qed.

Lemma attrs_ends : forall s ti v addr, type_info ek env s = Ok ti -> wt env (TStruct s) v = true -> forall fs, incl fs (ti_fields ti) ->
  if existsb (fun f => g_attr (fi_flags f) && negb (g_omit (fi_flags f)) && match @field_at eerr env s (fi_idx f) v true with Ok None => true | _ => false end) fs
  then marshal_attrs F env s fs v addr = Panic else exists a, marshal_attrs F env s fs v addr = Ok a.
Proof.
  intros s ti v addr TI Hv. induction fs as [|f fs IH]; intros I; [eexists; reflexivity|]. cbn [existsb marshal_attrs]. specialize (IH (fun x X => I x (or_intror X))).
  destruct (field_decl _ _ _ _ _ TI (I f (or_introl eq_refl))) as (fd & D). pose proof (wo_field _ _ WO _ _ _ _ TI (I f (or_introl eq_refl)) D) as (_ & W). unfold writable in W.
  assert (K : forall x, (exists a, x = Ok a) -> if existsb (fun f => g_attr (fi_flags f) && negb (g_omit (fi_flags f)) && match @field_at eerr env s (fi_idx f) v true with Ok None => true | _ => false end) fs
    then (do a <- x ; do b <- marshal_attrs F env s fs v addr ; Ok (a ++ b)) = Panic else exists a, (do a <- x ; do b <- marshal_attrs F env s fs v addr ; Ok (a ++ b)) = Ok a).
  { intros x (a & ->). cbn [bind]. destruct (existsb _ fs); [rewrite IH; reflexivity|]. destruct IH as (b & ->). eexists; reflexivity. }
  destruct (g_attr (fi_flags f)); cbn [negb andb orb]; [|apply K; eexists; reflexivity].
  pose proof (@field_at_addr eerr env (fi_idx f) s v addr true) as FA. destruct (@field_at_ok eerr env (fi_idx f) s v addr fd Hv D) as [N|(w & ad & N & Hw & _)]; rewrite N in *; cbn [bind].
  - destruct (field_at env s (fi_idx f) v true) as [[[[]]|]| | |]; try contradiction. destruct (g_omit (fi_flags f)); cbn [negb orb]; [apply K; eexists; reflexivity|reflexivity].
  - destruct (field_at env s (fi_idx f) v true) as [[[[]]|]| | |]; try contradiction. rewrite andb_false_r. cbn [orb]. apply K. destruct (_ && _); [eexists; reflexivity|]. exact (marshal_attr_ok F env _ _ _ _ W Hw).
Qed.
Lemma trim_none : forall {A} (f : list bytes -> M A) s, mbind (trim [] []) f s = f [] s.
Proof. intros A f s. unfold mbind at 1. cbn. destruct (f [] s) as ((? & ?) & ?). reflexivity. Qed.
Lemma ret_bind : forall {A B} (x : A) (f : A -> M B) s, mbind (mret x) f s = f x s.
Proof. intros A B x f s. unfold mbind, mret. destruct (f x s) as ((? & ?) & ?). reflexivity. Qed.
Lemma bind_same : forall {A B} (m m' : M A) (f : A -> M B) s, m s = m' s -> mbind m f s = mbind m' f s.
Proof. intros A B m m' f s H. unfold mbind. rewrite H. reflexivity. Qed.
Lemma ends_lift : forall {A} (a : A) s, 0 <= p_seq s -> ends false (mlift (Ok a)) s.
Proof. intros. apply ends_ret. assumption. Qed.
Lemma fields_ends : forall k s ti v addr, type_info ek env s = Ok ti -> wt env (TStruct s) v = true -> plain_names v = true -> (height v <= k)%nat ->
  (forall t w f addr st, element_writable t = true -> name_ok (field_name f) = true -> wt env t w = true -> plain_names w = true -> (height w < k)%nat -> 0 <= p_seq st ->
    ends (crash k t w (Some f)) (marshal_value F env ek k addr t w (Some f) None) st) ->
  forall fs st, incl fs (ti_fields ti) -> 0 <= p_seq st ->
  ends (existsb (fun f => childlike f && match @field_at eerr env s (fi_idx f) v true with Ok (Some (t, w, _)) => crash k t w (Some f) | _ => false end) fs)
       (struct_fields F env (fun ad t w f => marshal_value F env ek k ad t w (Some f) None) s fs v addr []) st /\
  forall cs st' x, struct_fields F env (fun ad t w f => marshal_value F env ek k ad t w (Some f) None) s fs v addr [] st = (cs, st', Ok x) -> x = [].
Proof.
  intros k s ti v addr TI Hv Hp L REC. induction fs as [|f fs IH]; intros st I Q; [split; [apply ends_ret; exact Q|intros ? ? ? E; injection E as _ _ <-; reflexivity]|]. cbn [existsb struct_fields].
  assert (I' : incl fs (ti_fields ti)) by (intros x X; apply I; right; exact X).
  destruct (field_decl _ _ _ _ _ TI (I f (or_introl eq_refl))) as (fd & D). pose proof (wo_field _ _ WO _ _ _ _ TI (I f (or_introl eq_refl)) D) as (PA & W). unfold writable in W. rewrite PA.
  unfold childlike at 1. destruct (g_attr (fi_flags f)); cbn [negb andb orb]; [apply IH; auto|].
  pose proof (@field_at_addr eerr env (fi_idx f) s v addr true) as FA. destruct (@field_at_ok eerr env (fi_idx f) s v addr fd Hv D) as [N|(w & ad & N & Hw & HP & HH)]; rewrite N in *.
  { destruct (@field_at eerr env s (fi_idx f) v true) as [[[[]]|]| | |]; try contradiction. rewrite andb_false_r. cbn [orb mlift]. specialize (IH st I' Q). destruct IH as (IH1 & IH2). split.
    - apply (ends_bind false); [apply ends_ret; exact Q|]. intros cs s' a E _ Q'. injection E as _ <- <-. exact IH1.
    - intros cs st' x E. unfold mbind, mret in E. destruct (struct_fields _ _ _ _ _ _ _ _ st) as ((cs', s'), r') eqn:R. injection E as _ _ ->. exact (IH2 _ _ _ eq_refl). }
  destruct (@field_at eerr env s (fi_idx f) v true) as [[[[t' w'] ad']|]| | |]; try contradiction. destruct FA as (<- & <-).
  set (c := negb _ && _).
  match goal with |- ends _ (mbind _ ?cont) _ /\ _ => assert (G : forall q m, (forall st, 0 <= p_seq st -> ends q m st /\ forall cs st' x, m st = (cs, st', Ok x) -> x = []) -> (forall st, cont (Some (fd_type fd, w, ad)) st = mbind m (fun stack => struct_fields F env (fun ad t w f => marshal_value F env ek k ad t w (Some f) None) s fs v addr stack) st) -> q = c ->
    ends (c || existsb (fun f => childlike f && match @field_at eerr env s (fi_idx f) v true with Ok (Some (t, w, _)) => crash k t w (Some f) | _ => false end) fs) (mbind (mlift (Ok (Some (fd_type fd, w, ad)))) cont) st /\
    forall cs st' x, mbind (mlift (Ok (Some (fd_type fd, w, ad)))) cont st = (cs, st', Ok x) -> x = []) end.
  { intros q m Hm Ef ->. split.
    - apply (ends_bind false); [apply ends_ret; exact Q|]. intros cs s' a E _ Q'. injection E as _ <- <-. unfold ends. rewrite Ef. fold (ends (c || existsb (fun f => childlike f && match @field_at eerr env s (fi_idx f) v true with Ok (Some (t, w, _)) => crash k t w (Some f) | _ => false end) fs) (mbind m (fun stack => struct_fields F env (fun ad t w f => marshal_value F env ek k ad t w (Some f) None) s fs v addr stack)) st). apply ends_bind; [apply Hm; exact Q|].
      intros cs' s'' x E _ Q''. destruct (Hm st Q) as (_ & X). rewrite (X _ _ _ E). apply IH; auto.
    - intros cs st' x E. unfold mbind at 1 in E. cbn [mlift mret] in E. rewrite Ef in E. unfold mbind in E. destruct (m st) as ((cs1, st1), r1) eqn:E1. destruct r1 as [x1| | |]; try discriminate.
      destruct (Hm st Q) as (EN & X). rewrite (X _ _ _ E1) in E. destruct (struct_fields _ _ _ _ _ _ _ _ st1) as ((cs2, st2), r2) eqn:E2. injection E as _ _ ->. refine (proj2 (IH st1 I' _) _ _ _ E2).
      destruct (ends_ok _ _ _ EN) as (P1 & P2). destruct c; [destruct (P1 eq_refl) as (? & ? & X1); congruence|]. destruct (P2 eq_refl) as (? & ? & ? & X1 & _ & X2). rewrite E1 in X1. injection X1 as _ <- _. exact X2. }
  assert (V : forall (m : M unit) q, (forall st, 0 <= p_seq st -> ends q m st) -> forall st, 0 <= p_seq st -> ends q (mdo_ m ; mret (@nil bytes)) st /\ forall cs st' x, (mdo_ m ; mret (@nil bytes)) st = (cs, st', Ok x) -> x = []).
  { intros m q Hm st0 Q0. split.
    - replace q with (q || false) by apply orb_false_r. apply ends_bind; [apply Hm; exact Q0|]. intros. apply ends_ret. assumption.
    - intros cs st' x E. unfold mbind in E. destruct (m st0) as ((cs1, st1), [| | |]); try discriminate. injection E as _ _ <-. reflexivity. }
  assert (VAL : forall st, element_writable (fd_type fd) && name_ok (field_name f) = true -> 0 <= p_seq st -> ends (crash k (fd_type fd) w (Some f)) (marshal_value F env ek k ad (fd_type fd) w (Some f) None) st).
  { intros st0 B Q0. apply andb_true_iff in B as (B1 & B2). apply REC; auto. lia. }
  destruct (mode_eqb (fi_flags f) m_chardata || mode_eqb (fi_flags f) m_cdata) eqn:M1; cbn [orb] in *.
  { eapply (G false); [|intros st0; apply bind_same; apply trim_none|reflexivity]. apply (V _ false). intros. apply ends_emit. assumption. }
  destruct (mode_eqb (fi_flags f) m_comment) eqn:M2; [discriminate|]. cbn [orb] in *.
  destruct (mode_eqb (fi_flags f) m_innerxml) eqn:M3.
  { destruct (fd_type fd); try discriminate. destruct w; try discriminate. cbn [raw_xml drill] in *. eapply (G false); [|intros st0; reflexivity|reflexivity]. apply (V _ false). intros. apply ends_emit. assumption. }
  cbn [negb andb] in c.
  destruct (mode_eqb (fi_flags f) m_element || mode_eqb (fi_flags f) m_any_element) eqn:M4.
  - eapply (G (crash k (fd_type fd) w (Some f))); [|intros st0; apply bind_same; rewrite trim_none; cbn [length Nat.ltb Nat.leb andb]; apply ret_bind|reflexivity]. exact (V _ _ (fun st => VAL st W)).
  - eapply (G (crash k (fd_type fd) w (Some f))); [|intros st0; reflexivity|reflexivity]. exact (V _ _ (fun st => VAL st W)).
Qed.
Lemma start_name_ok : forall ti t v addr fi, info_of env ek t = Ok ti -> element_writable t = true -> (forall u, t <> TPtr u) -> (forall u, t <> TSlice u) -> wt env t v = true -> plain_names v = true ->
  match fi with Some f => name_ok (field_name f) = true | None => exists s, t = TStruct s /\ name_ok (mkname [] s) = true end ->
  exists n, start_name env ti t v addr fi None = Ok n /\ name_ok n = true.
Proof.
  intros ti t v addr fi TI EW NP NS Hv Hp FI. unfold start_name.
  assert (FIN : forall n0, (name_ok n0 = true \/ n0 = mkname [] []) ->
    exists n, (let n1 := if beq (local n0) [] then match fi with Some f => field_name f | None => n0 end else n0 in
      if beq (local n1) [] then match t with TStruct s => if beq s [] then unsupported else Ok (mkname (space n1) s) | TName => Ok (mkname (space n1) (str "Name")) | _ => OutOfFuel end else Ok n1) = Ok n /\ name_ok n = true).
  { assert (NE : forall n, name_ok n = true -> beq (local n) [] = false) by (intros n H; unfold name_ok in H; apply andb_true_iff in H as (H & _); apply negb_true_iff in H; exact H).
    intros n0 [H| ->].
    - cbn zeta. rewrite (NE n0 H), (NE n0 H). eauto.
    - cbn zeta. cbn [local]. rewrite beq_refl. destruct fi as [f|].
      + rewrite (NE _ FI). eauto.
      + destruct FI as (s & -> & FI). cbn [local space]. pose proof (NE _ FI) as X. cbn [local] in X. rewrite beq_refl, X. eauto. }
  destruct (ti_xmlname ti) as [x|] eqn:X; [|cbn [bind]; apply FIN; right; reflexivity].
  destruct t as [| | | | | | | | |s| |]; try discriminate; try (injection TI as <-; discriminate X).
  cbn [info_of] in TI. destruct (wo_name _ _ WO _ _ _ TI X) as ((i & fd & EI & ND & ET) & NM). destruct (beq (fi_name x) []) eqn:B; cbn [negb].
  - rewrite EI. cbn [field_at]. apply wt_rec in Hv as (l & -> & Fl). rewrite ND. destruct (nth_error_Forall2 _ _ _ _ _ Fl ND) as (w & Nw & Hw). rewrite Nw, ET. rewrite ET in Hw.
    destruct w; try discriminate. cbn [bind]. apply FIN. destruct (beq (local n) []) eqn:LN; [right; reflexivity|]. left. cbn [plain_names] in Hp.
    pose proof (forallb_nth _ _ _ _ Hp Nw) as P. cbn [plain_names] in P. unfold name_ok. rewrite LN, P. reflexivity.
  - cbn [bind]. apply FIN. left. destruct NM as [NM|NM]; [rewrite NM in B; discriminate B|exact NM].
Qed.
Lemma value_ends : forall k addr t v fi st, element_writable t = true -> match fi with Some f => name_ok (field_name f) = true | None => exists s, item t = TStruct s /\ name_ok (mkname [] s) = true end ->
  wt env t v = true -> plain_names v = true -> (height v < k)%nat -> 0 <= p_seq st ->
  ends (crash k t v fi) (marshal_value F env ek k addr t v fi None) st.
Proof.
  induction k as [|k IH]; intros addr t v fi st EW FI Hv Hp L Q; [lia|]. cbn [crash marshal_value].
  destruct (match fi with Some f => g_omit (fi_flags f) && is_empty v | None => false end); [apply ends_ret; exact Q|].
  pose proof (drill_addr t v addr true) as DA. destruct (drill_ok env t v addr Hv) as [D|(t' & v' & ad & D & Hv' & IT & NP & HP & HH)]; rewrite D in *; [destruct (drill t v true) as [((?, ?), ?)|]; [contradiction|apply ends_ret; exact Q]|].
  destruct (drill t v true) as [((t2, v2), ?)|]; [|contradiction]. destruct DA as (<- & <-).
  assert (EW' : element_writable t' = true) by (unfold element_writable in *; rewrite IT; exact EW).
  assert (FI' : match fi with Some f => name_ok (field_name f) = true | None => exists s, item t' = TStruct s /\ name_ok (mkname [] s) = true end) by (rewrite IT; exact FI).
  clear EW FI IT D. specialize (HP Hp).
  destruct (match t' with TSlice _ => true | _ => false end) eqn:SL.
  { destruct t'; try discriminate. destruct v'; try discriminate. cbn [wt plain_names] in Hv', HP. apply ends_each; [exact Q|]. intros w s I Q'. apply IH; auto.
    - rewrite forallb_forall in Hv'. auto.
    - rewrite forallb_forall in HP. auto.
    - rewrite <- HH in L. cbn [height] in L. pose proof (height_in l w I). lia. }
  assert (NS : forall u, t' <> TSlice u) by (intros u ->; discriminate).
  assert (NA : t' <> TAttr) by (intros ->; discriminate).
  assert (TI : exists ti, info_of env ek t' = Ok ti) by (destruct t'; try (eexists; reflexivity); apply (wo_info _ _ WO)). destruct TI as (ti & TI).
  destruct (start_name_ok ti t' v' ad fi TI EW' NP NS Hv' HP) as (n & SN & NO).
  { destruct fi; [exact FI'|]. destruct FI' as (s & IT & ?). exists s. split; [|assumption]. destruct t'; try discriminate; [destruct (NP _ eq_refl)|exact IT]. }
  match goal with |- ends ?c ?m st => enough (G : ends c (mdo ti <- mret ti ; mdo n <- mlift (Ok n) ; mdo own <- mlift match t' with TStruct s => marshal_attrs F env s (ti_fields ti) v' ad | _ => Ok [] end ;
      mdo st <- mget ; mdo_ write_start n ([] ++ own ++ reset_default ti n (p_elems st)) ;
      mdo_ match t' with TStruct s => marshal_struct F env (fun ad t w f => marshal_value F env ek k ad t w (Some f) None) s ti v' ad | TName => mret tt
           | _ => match simple_text F t' v' with Some s => emit (esc_writes EAttr s) | None => mlift unsupported end end ; write_end n) st) end.
  { destruct t'; try (destruct (NS _ eq_refl)); try (destruct (NA eq_refl)); try (destruct (NP _ eq_refl)); rewrite TI; (match goal with |- ends _ ?m st => match type of G with ends _ ?m' st => enough (Z0 : m st = m' st) by (unfold ends in *; rewrite Z0; exact G) end end);
      rewrite !ret_bind, SN; reflexivity. }
  match goal with |- ends ?c _ _ => change c with (false || (false || c)) end. apply ends_bind; [apply ends_ret; exact Q|]. intros cs0 s0 a0 E0 _ Q0. injection E0 as <- <- <-. apply ends_bind; [apply ends_ret; exact Q0|]. intros cs1 s1 a1 E1 _ Q1. injection E1 as <- <- <-.
  assert (SIMPLE : (forall s, t' <> TStruct s) -> t' <> TName -> simple_type t' = true).
  { intros N1 N2. unfold element_writable in EW'. destruct t'; try reflexivity; try discriminate; [destruct (NP _ eq_refl)|destruct (N1 _ eq_refl)]. }
  assert (ELEM : forall a p (m : M unit), (forall s, 0 <= p_seq s -> ends p m s) -> ends p (mdo st <- mget ; mdo_ write_start n ([] ++ a ++ reset_default ti n (p_elems st)) ; mdo_ m ; write_end n) st).
  { intros a p m Hm. apply (ends_bind false p); [exists [], st; right; split; [reflexivity|]; split; [eexists; reflexivity|auto]|]. intros cs s' x E _ _. injection E as <- <- <-. apply ends_element; auto. }
  destruct (match t' with TStruct _ => true | _ => false end) eqn:TS.
  - destruct t'; try discriminate. cbn [info_of] in TI. rewrite TI. assert (FE := attrs_ends s ti v' ad TI Hv' (ti_fields ti) (fun x X => X)). fold (hollow s ti v') in FE. destruct (hollow s ti v').
    + rewrite FE. exists [], st. left. split; reflexivity.
    + destruct FE as (own & ->). apply ends_bind; [apply ends_ret; exact Q|]. intros cs s' a E _ _. injection E as <- <- <-. apply ELEM. intros s0 Qs. unfold marshal_struct.
      destruct (fields_ends k s ti v' ad TI Hv' HP ltac:(lia)) with (fs := ti_fields ti) (st := s0) as (FE1 & FE2); [|intros x X; exact X|exact Qs|].
      * intros t1 w f addr1 st1 H1 H2 H3 H4 H5 H6. apply IH; auto.
      * rewrite <- (orb_false_r (existsb _ _)). apply ends_bind; [exact FE1|]. intros cs s' x E _ Q'. rewrite (FE2 _ _ _ E). exists [], s'. right. split; [reflexivity|]. split; [eexists; reflexivity|auto].
  - assert (ST : simple_type t' = true) by (apply SIMPLE; [intros s ->; discriminate|intros ->; discriminate]). destruct (simple_text_ok F env t' v' ST Hv') as (txt & TX).
    assert (C0 : match t', v' with TSlice u, VList l => existsb (fun w => crash k u w fi) l | TStruct s, _ => match type_info ek env s with Ok ti => hollow s ti v' || existsb (fun f => childlike f && match @field_at eerr env s (fi_idx f) v' true with Ok (Some (t, w, _)) => crash k t w (Some f) | _ => false end) (ti_fields ti) | _ => false end | _, _ => false end = false)
      by (destruct t'; try discriminate; destruct v'; reflexivity). rewrite C0.
    match goal with |- ends _ (mbind (mlift ?x) _) _ => replace x with (@Ok eerr (list attr) []) by (destruct t'; try discriminate; reflexivity) end.
    apply (ends_bind false false); [apply ends_ret; exact Q|]. intros cs s' a E _ _. injection E as <- <- <-. apply ELEM. intros s0 Qs. replace (match t' with TStruct s => _ | TName => mret tt | _ => _ end) with (emit (esc_writes EAttr txt)) by (rewrite TX; destruct t'; try discriminate; reflexivity).
    apply ends_emit. exact Qs.
Qed.
End Writing.
