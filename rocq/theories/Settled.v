(** Captured attributes over several cycles of writing and reading. *)
From Coq Require Import String.
From Coq Require Import ZArith List Bool Lia SpecFloat.
From Verif Require Import Base Utf8 Lexer EscapeSpec EncoderSpec Printer GoType TypeInfo Simple ValueSpec Marshal Unmarshal MarshalProofs NsSpec RoundTripSpec RoundTripCheck RoundTripParts RoundTripExact Stable PropertiesSignal.
Import ListNotations.
Open Scope Z_scope.

Section Settled.
Variables (env : tenv) (known : list bytes).
(** The lists of captured attributes in a value, as [captures] has them, with what becomes of them when the value is written and read. *)
Fixpoint places (c : fate) (d : option bytes) (t : gtype) (v : gval) {struct v} : list (fate * list gval) :=
  match v with
  | VPtr w => match t with TPtr t => places c d t w | _ => [] end
  | VList l => match t with TSlice TAttr => [(c, l)] | TSlice t => (fix go (l : list gval) : list (fate * list gval) := match l with [] => [] | w :: l => places c d t w ++ go l end) l | _ => [] end
  | VRec l =>
      match t with
      | TStruct s =>
          let own := own_name (fields_of env s) l in
          (fix go (fs : list fdecl) (l : list gval) {struct l} : list (fate * list gval) :=
             match fs, l with f :: fs, w :: l => (if skipped f then [] else places (fate_of known d own) (next_space d own) (fd_type f) w) ++ go fs l | _, _ => [] end) (fields_of env s) l
      | _ => []
      end
  | _ => []
  end.
Lemma places_captures : forall v c d t, map snd (places c d t v) = captures env t v.
Proof.
  fix IH 1. intros v c d t. destruct v as [x|b|z|f| |w|l|l|n|a]; try reflexivity.
  - cbn [places captures]. destruct t; try reflexivity. apply IH.
  - cbn [places captures]. destruct t as [| | | | | | | |t| | |]; try reflexivity.
    assert (G : map snd ((fix go (l : list gval) : list (fate * list gval) := match l with [] => [] | w :: l => places c d t w ++ go l end) l) = (fix go (l : list gval) : list (list gval) := match l with [] => [] | w :: l => captures env t w ++ go l end) l).
    { induction l as [|w l IHl]; [reflexivity|]. rewrite map_app, IHl, IH. reflexivity. }
    destruct t; try exact G. reflexivity.
  - cbn [places captures]. destruct t as [| | | | | | | | |s| |]; try reflexivity. cbv zeta. generalize (fate_of known d (own_name (fields_of env s) l)), (next_space d (own_name (fields_of env s) l)). intros c1 d1. generalize (fields_of env s).
    induction l as [|w l IHl]; intros [|f fs]; try reflexivity. rewrite map_app, IHl. f_equal. destruct (skipped f); [reflexivity|apply IH].
Qed.
Definition moves (p p' : fate * list gval) : Prop := fst p' = fst p /\ fated (fst p) (snd p) (snd p').
Lemma arrives_places : forall v c d t v', arrives env known c d t v v' -> Forall2 moves (places c d t v) (places c d t v').
Proof.
  fix IH 1. intros v c d t v' A. destruct v as [x|b|z|f| |w|l|l|n|a]; try (cbn [arrives] in A; subst v'; constructor).
  - cbn [arrives] in A. destruct t; try contradiction. destruct v'; try contradiction. cbn [places]. apply IH. exact A.
  - cbn [arrives] in A. destruct t as [| | | | | | | |t| | |]; try contradiction. destruct v' as [| | | | | |l'| | |]; try (destruct t; contradiction). cbn [places].
    assert (D : t = TAttr \/ t <> TAttr) by (destruct t; auto; right; discriminate). destruct D as [-> |D]; [constructor; [split; [reflexivity|exact A]|constructor]|].
    assert (S' : (fix go (l l' : list gval) {struct l} : Prop := match l, l' with [], [] => True | w :: l, w' :: l' => arrives env known c d t w w' /\ go l l' | _, _ => False end) l l') by (destruct t; try exact A; congruence). clear A.
    assert (G : Forall2 moves ((fix go (l : list gval) : list (fate * list gval) := match l with [] => [] | w :: l => places c d t w ++ go l end) l) ((fix go (l : list gval) : list (fate * list gval) := match l with [] => [] | w :: l => places c d t w ++ go l end) l')).
    { revert l' S'. induction l as [|w l IHl]; intros [|w' l'] S'; try contradiction; [constructor|]. destruct S' as [S1 S2]. apply Forall2_app; [exact (IH _ _ _ _ _ S1)|exact (IHl _ S2)]. }
    destruct t; try exact G. congruence.
  - destruct t as [| | | | | | | | |s| |]; try (cbn [arrives] in A; contradiction). destruct v' as [| | | | | | |l'| |]; try (cbn [arrives] in A; contradiction). pose proof (arrives_same env known _ _ _ _ _ A) as S. cbn [same] in S. apply own_same in S. cbn [arrives] in A. cbn [places]. rewrite S. cbv zeta in *. clear S.
    revert A. generalize (fate_of known d (own_name (fields_of env s) l)), (next_space d (own_name (fields_of env s) l)). intros c1 d1. revert l'. generalize (fields_of env s).
    induction l as [|w l IHl]; intros [|f fs] [|w' l'] S'; try contradiction; [constructor|]. destruct S' as [S1 S2]. apply Forall2_app; [|exact (IHl _ _ S2)]. destruct (skipped f); [constructor|]. destruct S1 as [S1|S1]; [discriminate|]. exact (IH _ _ _ _ _ S1).
Qed.

(** Every place is in an element that holds its name, in a namespace without a prefix of its own. *)
Definition hosted (c : fate) (d : option bytes) (t : gtype) (v : gval) : Prop := Forall (fun p => fst p <> Open) (places c d t v).
(** And the outermost such elements have their namespaces among the captured attributes. *)
Definition stays (p : fate * list gval) : Prop := match fst p with Open => False | Declared _ => existsb is_default (attrs_in (snd p)) = true | Stay => True end.
Definition settled (c : fate) (d : option bytes) (t : gtype) (v : gval) : Prop := Forall stays (places c d t v).
Lemma with_default_has : forall u l, existsb is_default (attrs_in (with_default u l)) = true.
Proof. intros u l. unfold with_default. destruct (existsb is_default (attrs_in l)) eqn:E; [exact E|reflexivity]. Qed.
Lemma hosted_settled : forall c d t v v', hosted c d t v -> arrives env known c d t v v' -> settled c d t v'.
Proof.
  intros c d t v v' H A. apply arrives_places in A. unfold hosted, settled in *. induction A as [|p p' ps ps' [M1 M2] A IH]; [constructor|]. inversion H; subst. constructor; [|auto]. unfold stays. rewrite M1. destruct (fst p); [congruence| |exact I]. cbn [fated] in M2. rewrite M2. apply with_default_has.
Qed.
Lemma settled_hosted : forall c d t v, settled c d t v -> hosted c d t v.
Proof. intros c d t v S. unfold hosted, settled in *. eapply Forall_impl; [|exact S]. intros p P. unfold stays in P. destruct (fst p); [contradiction|discriminate|discriminate]. Qed.
Lemma settled_captures : forall c d t v v', settled c d t v -> arrives env known c d t v v' -> captures env t v = captures env t v'.
Proof.
  intros c d t v v' H A. apply arrives_places in A. rewrite <- (places_captures v c d t), <- (places_captures v' c d t). unfold settled in H. induction A as [|p p' ps ps' [M1 M2] A IH]; [reflexivity|]. inversion H as [|? ? P H']; subst. cbn [map]. f_equal; [|auto]. unfold stays in P. destruct (fst p); [contradiction| |symmetry; exact M2]. cbn [fated] in M2. unfold with_default in M2. rewrite P in M2. symmetry. exact M2.
Qed.

(** *** Clean values are read as clean values *)
Variables (F : floats) (i : bool).
Hypothesis CHILD : forall s f, In f (fields_of env s) -> fd_type f = TSlice TAttr -> is_child f = false.
Hypothesis XMLNS : forall s g, existsb names_itself (fields_of env s) = true -> In g (fields_of env s) -> g_attr (flags_of g) = true -> label env g <> str "xmlns".
Lemma attr_dec : forall t, t = TAttr \/ t <> TAttr.
Proof. intros []; auto; right; discriminate. Qed.
Lemma arrives_lists : forall c d t l l', t <> TAttr -> arrives env known c d (TSlice t) (VList l) (VList l') -> Forall2 (arrives env known c d t) l l'.
Proof.
  intros c d t l l' N A. assert (S' : (fix go (l l' : list gval) {struct l} : Prop := match l, l' with [], [] => True | w :: l, w' :: l' => arrives env known c d t w w' /\ go l l' | _, _ => False end) l l') by (destruct t; try exact A; congruence). clear A.
  revert l' S'. induction l as [|w l IH]; intros [|w' l'] S'; try contradiction; constructor; [apply S'|apply IH; apply S'].
Qed.
Lemma fated_nonempty : forall c l, c <> Open -> fated c l [] -> l = [].
Proof. intros [|u|] l N H; [congruence| |symmetry; exact H]. cbn [fated] in H. unfold with_default in H. destruct (existsb is_default (attrs_in l)); [symmetry; exact H|discriminate]. Qed.
Lemma arrives_empty : forall c d t w, arrives env known c d t w (VList []) -> hosted c d t w -> w = VList [].
Proof.
  intros c d t w A H. destruct w as [x|b|z|f| |w|l|l|n|a]; try (cbn [arrives] in A; discriminate A); try (cbn [arrives] in A; destruct t; contradiction).
  destruct t as [| | | | | | | |t| | |]; try (cbn [arrives] in A; contradiction). destruct (attr_dec t) as [-> |N].
  - cbn [arrives] in A. unfold hosted in H. cbn [places] in H. inversion H; subst. f_equal. eapply fated_nonempty; eauto.
  - apply arrives_lists in A; auto. inversion A. reflexivity.
Qed.
Lemma arrives_nil : forall c d t w, arrives env known c d t w VNil -> w = VNil.
Proof.
  intros c d t w A. destruct w as [x|b|z|f| |w|l|l|n|a]; try (cbn [arrives] in A; discriminate A); try reflexivity; cbn [arrives] in A; destruct t as [| | | | | | | |t| | |]; try contradiction. destruct t; contradiction.
Qed.
Lemma arrives_absent : forall c d t w w', t <> TSlice TAttr -> arrives env known c d t w w' -> absent w -> absent w'.
Proof.
  intros c d t w w' N A [-> | ->]; [left; exact A|]. destruct t as [| | | | | | | |t| | |]; try (cbn [arrives] in A; contradiction). destruct w' as [| | | | | |l'| | |]; try (cbn [arrives] in A; destruct t; contradiction). apply arrives_lists in A; [|congruence]. inversion A. right. reflexivity.
Qed.
Lemma own_some : forall fs l n, own_name fs l = Some n -> existsb names_itself fs = true.
Proof. induction fs as [|f fs IH]; intros [|w l] n H; try discriminate. cbn [own_name] in H. cbn [existsb]. destruct (names_itself f); [reflexivity|]. cbn [orb]. eapply IH; eauto. Qed.
Lemma kept_arrives : forall s f d o w w', In f (fields_of env s) -> (forall n, o = Some n -> existsb names_itself (fields_of env s) = true /\ ordinary_ns (space n)) -> field_kept env i s (option_map space o) f w ->
  arrives env known (fate_of known d o) (next_space d o) (fd_type f) w w' -> hosted (fate_of known d o) (next_space d o) (fd_type f) w -> field_kept env i s (option_map space o) f w'.
Proof.
  intros s f d o w w' IN O (K1 & K2 & K3 & K4 & K5) A H. split; [|split; [|split; [|split]]].
  - intros Z E. subst w'. apply arrives_nil in A. apply K1; auto.
  - intro M. apply (arrives_absent _ _ _ _ _) with (2 := A); auto. intro T. unfold misnamed in M. rewrite T in M. discriminate M.
  - intros I1 I2 I3. apply (arrives_absent _ _ _ _ _) with (2 := A); auto. intro T. rewrite (CHILD s f IN T) in I3. discriminate I3.
  - intro E. subst w'. apply K4. destruct w; cbn [arrives] in A; try congruence; destruct (fd_type f) as [| | | | | | | |t| | |]; try contradiction. destruct t; contradiction.
  - intros l' a -> J. destruct w as [x|b|z|g| |w|l|l|n|a0]; try (cbn [arrives] in A; discriminate A); destruct (fd_type f) as [| | | | | | | |t| | |] eqn:T; try (cbn [arrives] in A; contradiction). destruct (attr_dec t) as [-> |N].
    + cbn [arrives] in A. unfold hosted in H. cbn [places] in H. inversion H as [|? ? NO _]; subst. cbn [fst] in NO. unfold fate_of in *. destruct o as [n|]; [|congruence]. destruct (inb (space n) known); [congruence|].
      assert (J' : In (VAttr a) l \/ a = default_of (space n)).
      { destruct d; cbn [fated] in A; [subst l'; auto|]. unfold with_default in A. subst l'. destruct (existsb is_default (attrs_in l)); [auto|]. destruct J as [J|J]; [injection J as <-; auto|auto]. }
      destruct J' as [J'| ->]; [eapply K5; eauto|]. destruct (O n eq_refl) as (O1 & (_ & _ & _ & O2)). split; [reflexivity|]. split; [split; [vm_compute; reflexivity|intro X; repeat (destruct X as [X|X]; [discriminate|]); destruct X]|]. split; [exact O2|]. split; [reflexivity|]. intros g G1 G2. eapply XMLNS; eauto.
    + apply arrives_lists in A; auto. eapply K5; [reflexivity|]. clear - A J N. induction A as [|x x' l l' X A IH]; [destruct J|]. destruct J as [-> |J]; [left|right; auto]. destruct x; cbn [arrives] in X; try congruence; destruct t as [| | | | | | | |t| | |]; try contradiction. destruct t; contradiction.
Qed.
Lemma arrives_clean : forall v c d d' l t v', clean F env i d' l t v -> arrives env known c d t v v' -> hosted c d t v -> clean F env i d' l t v'.
Proof.
  fix IH 1. intros v c d d' l t v' C A H. destruct v as [x|b|z|f| |w|ws|ws|n|a]; try (cbn [arrives] in A; subst v'; exact C).
  - cbn [arrives] in A. destruct t as [| | | | | | |t| | | |]; try contradiction. destruct v' as [| | | | |w'| | | |]; try contradiction. cbn [clean] in *. destruct C as [C1 C2]. split; [|exact (IH _ _ _ _ _ _ _ C2 A H)]. intros ->. apply C1. exact (arrives_empty _ _ _ _ A H).
  - destruct t as [| | | | | | | |t| | |]; try (cbn [arrives] in A; contradiction). destruct v' as [| | | | | |ws'| | |]; try (cbn [arrives] in A; destruct t; contradiction). destruct (attr_dec t) as [-> |N].
    + cbn [arrives] in A. assert (X : forall w, In w ws' -> In w ws \/ exists u, w = VAttr (default_of u)).
      { intros w W. unfold hosted in H. cbn [places] in H. inversion H as [|? ? NO _]; subst. cbn [fst] in NO. destruct c; [congruence| |cbn [fated] in A; subst ws'; auto]. cbn [fated] in A. unfold with_default in A. subst ws'. destruct (existsb is_default (attrs_in ws)); [auto|]. destruct W as [<-|W]; eauto. }
      assert (Y : forall w, In w ws -> w <> VNil /\ clean F env i d' l TAttr w). { clear - C. intros w W. cbn [clean] in C. induction ws as [|x ws IH]; [destruct W|]. destruct C as [C1 C2]. destruct W as [-> |W]; auto. }
      cbn [clean]. clear A. induction ws' as [|w ws' IHw]; [exact I|]. split; [|apply IHw; intros; apply X; right; auto]. destruct (X w (or_introl eq_refl)) as [Z|(u & ->)]; [auto|]. split; [discriminate|exact I].
    + apply arrives_lists in A; auto. unfold hosted in H. assert (H' : Forall (fun p => fst p <> Open) ((fix go (l : list gval) : list (fate * list gval) := match l with [] => [] | w :: l => places c d t w ++ go l end) ws)) by (destruct t; try exact H; congruence). clear H N.
      cbn [clean] in *. revert ws' A. induction ws as [|w ws IHw]; intros ws' A; inversion A as [|? w' ? ws'' A1 A2]; subst; [exact I|]. destruct C as [[C1 C2] C3]. apply Forall_app in H'. destruct H' as [H1 H2]. split; [|exact (IHw C3 H2 _ A2)]. split; [|exact (IH _ _ _ _ _ _ _ C2 A1 H1)]. intros ->. apply C1. exact (arrives_nil _ _ _ _ A1).
  - destruct t as [| | | | | | | | |s| |]; try (cbn [arrives] in A; contradiction). destruct v' as [| | | | | | |ws'| |]; try (cbn [arrives] in A; contradiction). pose proof (arrives_same env known _ _ _ _ _ A) as S. cbn [same] in S. apply own_same in S. cbn [arrives] in A. cbn [clean] in *. cbv zeta in *. destruct C as (C1 & C2 & C3). rewrite S. clear S. split; auto. split; auto.
    unfold hosted in H. cbn [places] in H. cbv zeta in H. assert (O : forall n, own_name (fields_of env s) ws = Some n -> existsb names_itself (fields_of env s) = true /\ ordinary_ns (space n)). { intros n E. destruct (C2 n E) as (_ & O & _). split; auto. eapply own_some; eauto. } clear C2.
    assert (FK : forall f w w', In f (fields_of env s) -> field_kept env i s (option_map space (own_name (fields_of env s) ws)) f w -> arrives env known (fate_of known d (own_name (fields_of env s) ws)) (next_space d (own_name (fields_of env s) ws)) (fd_type f) w w' -> hosted (fate_of known d (own_name (fields_of env s) ws)) (next_space d (own_name (fields_of env s) ws)) (fd_type f) w -> field_kept env i s (option_map space (own_name (fields_of env s) ws)) f w').
    { intros f w w' IN K A' H'. exact (kept_arrives s f d _ w w' IN O K A' H'). }
    clear O. revert C3 A H FK. generalize (own_name (fields_of env s) ws). intro o. generalize (fate_of known d o), (next_space d o). intros c1 d1. revert ws'. generalize (fields_of env s).
    induction ws as [|w ws IHw]; intros [|f fs] [|w' ws'] C3 A H FK; try contradiction; auto. destruct C3 as [C3 C4]. destruct A as [A1 A2]. apply Forall_app in H. destruct H as [H1 H2]. split; [|exact (IHw _ _ C4 A2 H2 (fun f0 w0 w0' I0 => FK f0 w0 w0' (or_intror I0)))].
    destruct (skipped f) eqn:SK; [left; reflexivity|]. right. destruct C3 as [C3|[C3 C5]]; [discriminate|]. destruct A1 as [A1|A1]; [discriminate|]. split; [exact (FK f w w' (or_introl eq_refl) C3 A1 H1)|exact (IH _ _ _ _ _ _ _ C5 A1 H1)].
Qed.
End Settled.
