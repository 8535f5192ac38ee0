(** What a value is read as after writing it: the captured attributes too, where they can be told. *)
From Coq Require Import String.
From Coq Require Import ZArith List Bool Lia ZifyBool ZifyNat SpecFloat.
From Verif Require Import Base Utf8 Lexer EscapeSpec Printer EncoderSpec GoType TypeInfo Simple ValueSpec Marshal Unmarshal Io MarshalProofs PropertiesMarshal NsSpec Lens Load LeafProofs RoundTripSpec RoundTripCheck RoundTripParts.
Import ListNotations.
Open Scope Z_scope.

(** *** Captured attributes *)
(** A default namespace among attributes, and the attributes with a declaration of [u] in front unless they have one. *)
Definition is_default (a : attr) : bool := beq (space (aname a)) [] && beq (local (aname a)) (str "xmlns").
Definition default_of (u : bytes) : attr := mkattr (mkname [] (str "xmlns")) u.
Definition with_default (u : bytes) (l : list gval) : list gval := if existsb is_default (attrs_in l) then l else VAttr (default_of u) :: l.
(** What becomes of the captured attributes of an element: nothing is said; or they get the declaration; or they stay. *)
Inductive fate := Open | Declared (u : bytes) | Stay.
Definition fated (c : fate) (l l' : list gval) : Prop :=
  match c with Open => genuine l' = genuine l | Declared u => l' = with_default u l | Stay => l' = l end.

Section Exact.
Variables (env : tenv) (known : list bytes).
(** [d]: the namespace of the enclosing elements that hold their names.  An element that holds its name declares its namespace unless
    those around it have it; this is not said of the namespaces with prefixes of their own. *)
Definition fate_of (d : option bytes) (own : option name) : fate :=
  match own with
  | Some n => if inb (space n) known then Open else match d with None => Declared (space n) | Some _ => Stay end
  | None => Open
  end.
(** [v] is read as [v']: [same], and the captured attributes have the fate of their elements ([c]: that of the enclosing element). *)
Fixpoint arrives (c : fate) (d : option bytes) (t : gtype) (v v' : gval) {struct v} : Prop :=
  match v with
  | VPtr w => match t, v' with TPtr t, VPtr w' => arrives c d t w w' | _, _ => False end
  | VList l =>
      match t, v' with
      | TSlice TAttr, VList l' => fated c l l'
      | TSlice t, VList l' => (fix go (l l' : list gval) {struct l} : Prop := match l, l' with [], [] => True | w :: l, w' :: l' => arrives c d t w w' /\ go l l' | _, _ => False end) l l'
      | _, _ => False
      end
  | VRec l =>
      match t, v' with
      | TStruct s, VRec l' =>
          let own := own_name (fields_of env s) l in
          (fix go (fs : list fdecl) (l l' : list gval) {struct l} : Prop :=
             match fs, l, l' with
             | [], [], [] => True
             | f :: fs, w :: l, w' :: l' => (skipped f = true \/ arrives (fate_of d own) (next_space d own) (fd_type f) w w') /\ go fs l l'
             | _, _, _ => False
             end) (fields_of env s) l l'
      | _, _ => False
      end
  | _ => v' = v
  end.

Lemma arrive_fields : forall c d l fs l',
  (fix go (fs : list fdecl) (l l' : list gval) {struct l} : Prop :=
     match fs, l, l' with [], [], [] => True | f :: fs, w :: l, w' :: l' => (skipped f = true \/ arrives c d (fd_type f) w w') /\ go fs l l' | _, _, _ => False end) fs l l' <->
  length l = length fs /\ length l' = length fs /\ forall x f w w', nth_error fs x = Some f -> nth_error l x = Some w -> nth_error l' x = Some w' -> skipped f = true \/ arrives c d (fd_type f) w w'.
Proof.
  induction l as [|w l IH]; intros [|f fs] [|w' l']; cbn [length]; try (split; [intros []|intros (A & B & _); discriminate]).
  - split; auto. intros _. split; auto. split; auto. intros [|x]; discriminate.
  - rewrite IH. split.
    + intros (A & B & C & D). split; [lia|]. split; [lia|]. intros [|x] f0 w0 w0' E1 E2 E3; cbn in *; [injection E1 as <-; injection E2 as <-; injection E3 as <-; exact A|eapply D; eauto].
    + intros (B & C & D). split; [apply (D 0%nat f w w'); reflexivity|]. split; [lia|]. split; [lia|]. intros x f0 w0 w0' E1 E2 E3. apply (D (S x) f0 w0 w0'); auto.
Qed.
(** The fields of a struct, the fate and the namespace being those inside its element. *)
Definition fields_arrive (c : fate) (d : option bytes) (s : bytes) (v v' : gval) : Prop :=
  exists l l', v = VRec l /\ v' = VRec l' /\ length l = length (fields_of env s) /\ length l' = length (fields_of env s) /\
    forall x f w w', nth_error (fields_of env s) x = Some f -> nth_error l x = Some w -> nth_error l' x = Some w' -> skipped f = true \/ arrives c d (fd_type f) w w'.
Lemma arrives_struct : forall c d s l v', arrives c d (TStruct s) (VRec l) v' <-> fields_arrive (fate_of d (own_of env s (VRec l))) (next_space d (own_of env s (VRec l))) s (VRec l) v'.
Proof.
  intros c d s l v'. split.
  - intro H. destruct v' as [| | | | | | |l'| |]; try (cbn in H; contradiction). cbn [arrives] in H. exists l, l'. split; auto. split; auto. apply arrive_fields. exact H.
  - intros (l0 & l' & E & -> & H). injection E as <-. cbn [arrives]. apply arrive_fields. exact H.
Qed.
(** It implies the same content. *)
Lemma genuine_default : forall u l, genuine (with_default u l) = genuine l.
Proof. intros u l. unfold with_default. destruct (existsb is_default (attrs_in l)); reflexivity. Qed.
Lemma fated_genuine : forall c l l', fated c l l' -> genuine l' = genuine l.
Proof. intros [|u|] l l' H; cbn [fated] in H; [exact H|subst; apply genuine_default|subst; reflexivity]. Qed.
Lemma arrives_same : forall v c d t v', arrives c d t v v' -> same env t v v'.
Proof.
  fix IH 1. intros v c d t v' H. destruct v as [x|b|z|f| |w|l|l|n|a]; try exact H.
  - cbn [arrives same] in *. destruct t; try contradiction. destruct v'; try contradiction. exact (IH _ _ _ _ _ H).
  - cbn [arrives same] in *. destruct t as [| | | | | | | |t| | |]; try contradiction.
    assert (G : forall l', (fix go (l l' : list gval) {struct l} : Prop := match l, l' with [], [] => True | w :: l, w' :: l' => arrives c d t w w' /\ go l l' | _, _ => False end) l l' ->
      (fix go (l l' : list gval) {struct l} : Prop := match l, l' with [], [] => True | w :: l, w' :: l' => same env t w w' /\ go l l' | _, _ => False end) l l').
    { clear H v'. induction l as [|w l IHl]; intros [|w' l'] H; try contradiction; [exact I|]. destruct H as [H1 H2]. split; [exact (IH _ _ _ _ _ H1)|exact (IHl _ H2)]. }
    destruct t, v'; try contradiction; try (apply G; exact H). eapply fated_genuine; eauto.
  - cbn [arrives same] in *. destruct t as [| | | | | | | | |s| |]; try contradiction. destruct v' as [| | | | | | |l'| |]; try contradiction. revert H. cbv zeta. generalize (fate_of d (own_name (fields_of env s) l)), (next_space d (own_name (fields_of env s) l)). intros c1 d1. revert l'. generalize (fields_of env s).
    induction l as [|w l IHl]; intros [|f fs] [|w' l'] H; try contradiction; [exact I|]. destruct H as [H1 H2]. split; [destruct H1 as [H1|H1]; [left; exact H1|right; exact (IH _ _ _ _ _ H1)]|exact (IHl _ _ H2)].
Qed.
(** For the types of attributes it is the same. *)
Lemma attr_arrives : forall t w w' c d, attr_shape t = true -> wt env t w = true -> same env t w w' -> arrives c d t w w'.
Proof.
  intros t w w' c d A W H. destruct t as [| | | | | | |t|t| | |]; try discriminate A; destruct w as [| | | | |w|l| | |]; try discriminate W; try exact H.
  cbn [same arrives] in *. destruct w' as [| | | | |w'| | | |]; try contradiction. destruct t as [| | | | | | |t|t| | |]; try discriminate A; destruct w as [| | | | |w|l| | |]; try discriminate W; try exact H.
  destruct t; try discriminate A. cbn [same arrives] in *. destruct w' as [| | | | | |l'| | |]; try contradiction. cbn [wt] in W. revert l' H. induction l as [|x l IH]; intros [|x' l'] H; try contradiction; auto. destruct H as [H1 H2]. cbn [forallb] in W. apply andb_true_iff in W. destruct W as [W1 W2]. split; [destruct x; try discriminate W1; exact H1|exact (IH W2 _ H2)].
Qed.
Lemma arrives_list : forall c d t ws ws', t <> TAttr -> Forall2 (arrives c d t) ws ws' -> arrives c d (TSlice t) (VList ws) (VList ws').
Proof. intros c d t ws ws' N H. assert (G : (fix go (l l' : list gval) {struct l} : Prop := match l, l' with [], [] => True | w :: l, w' :: l' => arrives c d t w w' /\ go l l' | _, _ => False end) ws ws') by (induction H; auto). cbn [arrives]. destruct t; auto. congruence. Qed.

(** *** Field by field *)
Variable ek : nat.
Hypothesis ZERO : forall s, wt env (TStruct s) (zero ek env (TStruct s)) = true.
Lemma covered_arrives : forall n s idxs must v v' c d, covered env n s idxs must = true -> wt env (TStruct s) v = true -> wt env (TStruct s) v' = true ->
  (forall idx, In idx idxs -> (exists x, idx = [x]) \/ path_ok env s idx = true) ->
  (forall idx, In idx idxs -> exists t w w', peek env ek s idx v = Some (t, w) /\ peek env ek s idx v' = Some (t, w') /\ arrives c d t w w' /\ ((exists x, idx = [x]) \/ forall c, arrives c d t w w')) ->
  (forall idx, In idx must -> idx <> [] /\ alive env s idx v /\ alive env s idx v') ->
  fields_arrive c d s v v'.
Proof.
  induction n as [|n IH]; intros s idxs must v v' c d C W W' PO PS MS; [discriminate|]. cbn [covered] in C. apply wt_struct in W, W'. destruct W as (l & -> & FA). destruct W' as (l' & -> & FA'). exists l, l'. split; auto. split; auto.
  split; [symmetry; eapply Forall2_length'; eauto|]. split; [symmetry; eapply Forall2_length'; eauto|]. intros x f w w' N NL NL'. pose proof (forall_i_nth _ _ _ _ _ C N) as CX. cbn [plus] in CX. apply orb_true_iff in CX. destruct CX as [CX|CX]; [auto|right].
  destruct (Forall2_nth _ _ _ _ _ FA N) as (w0 & NW & WW). rewrite NL in NW. injection NW as <-. destruct (Forall2_nth _ _ _ _ _ FA' N) as (w0' & NW' & WW'). rewrite NL' in NW'. injection NW' as <-.
  assert (LEAF : mem [x] idxs = true -> arrives c d (fd_type f) w w').
  { intro M. apply mem_in in M. destruct (PS _ M) as (t & u & u' & P & P' & SM & _). cbn [peek] in P, P'. rewrite N, NL in P. rewrite N, NL' in P'. injection P as <- <-. injection P' as <-. exact SM. }
  destruct (fd_anon f); [|auto].
  assert (MNE : forall y idx, In (y :: idx) (tails x must) -> exists u u', nth_error l x = Some u /\ nth_error l' x = Some u' /\
    match fd_type f with TStruct s' => alive env s' (y :: idx) u /\ alive env s' (y :: idx) u' | TPtr (TStruct s') => exists a a', u = VPtr a /\ u' = VPtr a' /\ alive env s' (y :: idx) a /\ alive env s' (y :: idx) a' | _ => False end).
  { intros y idx I. apply in_tails in I. destruct I as [I _]. destruct (MS _ I) as (_ & A & A'). destruct (alive_sub env s x (y :: idx) l f ltac:(discriminate) N A) as (u & NU & B). destruct (alive_sub env s x (y :: idx) l' f ltac:(discriminate) N A') as (u' & NU' & B').
    exists u, u'. split; auto. split; auto. destruct (fd_type f) as [| | | | | | |t'| |s'| |]; auto. destruct t'; auto. destruct B as (z & -> & B). destruct B' as (z' & -> & B'). eauto 8. }
  rewrite NL, NL' in MNE.
  (* the struct that is embedded does not hold its name *)
  assert (OWN : forall s' u, (fd_type f = TStruct s' \/ fd_type f = TPtr (TStruct s')) -> covered env n s' (tails x idxs) (tails x must) = true -> wt env (TStruct s') u = true -> own_of env s' u = None).
  { intros s' u T CU WU. destruct (tails x idxs) as [|i is] eqn:TL.
    - destruct n as [|n']; [discriminate|]. cbn [covered] in CU. apply wt_struct in WU. destruct WU as (lu & -> & FU). cbn [own_of]. revert FU CU. clear. generalize (fields_of env s') as fs. generalize O as k. intros k fs FU. revert k. induction FU as [|g u fs lu U FU IH]; intros k CU; [reflexivity|].
      cbn [forall_i] in CU. apply andb_true_iff in CU. destruct CU as [CG CU]. cbn [own_name]. destruct (names_itself g) eqn:SG; [|eapply IH; eauto].
      unfold names_itself in SG. apply andb_true_iff in SG. destruct SG as [S1 S2]. apply beq_eq in S1, S2. assert (SK : skipped g = false). { unfold skipped. rewrite S1, S2. cbn [beq negb andb]. rewrite andb_false_r, orb_false_r. reflexivity. }
      rewrite SK in CG. cbn [orb] in CG. destruct u; auto. destruct (fd_type g) eqn:TG; try discriminate U. destruct (fd_anon g); discriminate CG.
    - assert (I : In i (tails x idxs)) by (rewrite TL; left; auto). apply in_tails in I. destruct I as [I NE]. destruct i as [|y i]; [congruence|]. destruct (PO _ I) as [(z & E)|P]; [discriminate E|]. cbn [path_ok] in P. rewrite N in P. apply andb_true_iff in P. destruct P as [_ P].
      assert (FN : none (first_self 0 (fields_of env s')) = true). { destruct T as [T|T]; rewrite T in P; apply andb_true_iff in P; destruct P as [P _]; apply andb_true_iff in P; tauto. }
      apply wt_struct in WU. destruct WU as (lu & -> & FU). unfold own_of. apply first_self_none with (i := 0%nat). destruct (first_self 0 (fields_of env s')); [discriminate|auto]. }
  assert (PO' : forall s', (fd_type f = TStruct s' \/ fd_type f = TPtr (TStruct s')) -> forall idx, In idx (tails x idxs) -> path_ok env s' idx = true).
  { intros s' T idx I. apply in_tails in I. destruct I as [I NE]. destruct idx as [|y i]; [congruence|]. destruct (PO _ I) as [(z & E)|P]; [discriminate E|]. cbn [path_ok] in P. rewrite N in P. apply andb_true_iff in P. destruct P as [_ P]. destruct T as [T|T]; rewrite T in P; apply andb_true_iff in P; tauto. }
  assert (INNER : forall s' u u', (fd_type f = TStruct s' \/ fd_type f = TPtr (TStruct s')) -> covered env n s' (tails x idxs) (tails x must) = true -> wt env (TStruct s') u = true -> fields_arrive Open d s' u u' -> arrives c d (TStruct s') u u').
  { intros s' u u' T CU WU FA0. pose proof (OWN s' u T CU WU) as O. apply wt_struct in WU. destruct WU as (lu & -> & _). apply arrives_struct. rewrite O. exact FA0. }
  destruct (fd_type f) as [| | | | | | |t'| |s'| |] eqn:FT; auto.
  - destruct t' as [| | | | | | | | |s'| |]; auto. apply andb_true_iff in CX. destruct CX as [C1 C2].
    assert (VP : exists u u', w = VPtr u /\ w' = VPtr u').
    { destruct (tails x must) as [|idx r] eqn:TM; [discriminate|]. assert (I : In idx (tails x must)) by (rewrite TM; left; reflexivity). destruct idx as [|y idx]; [apply in_tails in I; destruct I as [_ I]; congruence|].
      rewrite <- TM in MNE. destruct (MNE y idx I) as (u & u' & E1 & E2 & a & a' & -> & -> & _). injection E1 as ->. injection E2 as ->. eauto. }
    destruct VP as (u & u' & -> & ->). cbn [arrives]. cbn [wt] in WW, WW'. apply INNER; auto. eapply (IH s' (tails x idxs) (tails x must)); auto.
    + intros idx I. apply in_tails in I. destruct I as [I NE]. destruct (PS _ I) as (t & z & z' & P & P' & _ & [(y & E)|SM]); [destruct idx; [congruence|discriminate E]|]. exists t, z, z'. cbn [peek] in P, P'. rewrite N, NL, FT in P. rewrite N, NL', FT in P'. destruct idx; [congruence|]. auto.
    + intros idx I. pose proof (proj2 (proj1 (in_tails _ _ _) I)) as NE. split; auto. destruct idx as [|y idx]; [congruence|]. destruct (MNE y idx I) as (? & ? & E1 & E2 & a & a' & -> & -> & A). injection E1 as ->. injection E2 as ->. exact A.
  - apply INNER; auto. eapply (IH s' (tails x idxs) (tails x must)); auto.
    + intros idx I. apply in_tails in I. destruct I as [I NE]. destruct (PS _ I) as (t & z & z' & P & P' & _ & [(y & E)|SM]); [destruct idx; [congruence|discriminate E]|]. exists t, z, z'. cbn [peek] in P, P'. rewrite N, NL, FT in P. rewrite N, NL', FT in P'. destruct idx; [congruence|]. auto.
    + intros idx I. pose proof (proj2 (proj1 (in_tails _ _ _) I)) as NE. split; auto. destruct idx as [|y idx]; [congruence|]. destruct (MNE y idx I) as (? & ? & E1 & E2 & A). injection E1 as ->. injection E2 as ->. exact A.
Qed.
End Exact.
