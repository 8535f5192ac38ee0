(** A program that tells whether a value is one of those that are claimed to be kept: for examples and tests. *)
From Coq Require Import String.
From Coq Require Import ZArith List Bool Lia ZifyBool ZifyNat SpecFloat.
From Verif Require Import Base Utf8 Lexer Escape EscapeSpec EscapeProofs NameProofs Printer GoType TypeInfo Simple NsSpec RoundTripSpec.
Import ListNotations.
Open Scope Z_scope.

Definition textb (s : bytes) : bool := forallb (fun c => (0 <=? c) && (c <? 256)) s && beq (EscapeProofs.clean s) s.
Lemma textb_ok : forall s, textb s = true -> xml_text s.
Proof.
  intros s H. unfold textb in H. apply andb_true_iff in H. destruct H as [H1 H2]. apply beq_eq in H2. rewrite <- H2. apply clean_text. apply Forall_forall. intros c I. rewrite forallb_forall in H1. specialize (H1 c I). lia.
Qed.
Definition simple_name (l : bytes) : bool := is_name l && forallb (fun c => negb (c =? 58)) l.
Lemma simple_name_ok : forall l, simple_name l = true -> simple l.
Proof. intros l H. apply andb_true_iff in H. destruct H as [H1 H2]. split; auto. intro I. rewrite forallb_forall in H2. specialize (H2 58 I). discriminate. Qed.
Definition same_float (x y : spec_float) : bool :=
  match x, y with
  | S754_zero a, S754_zero b | S754_infinity a, S754_infinity b => eqb a b
  | S754_nan, S754_nan => true
  | S754_finite a m e, S754_finite b m' e' => eqb a b && Pos.eqb m m' && (e =? e')
  | _, _ => false
  end.
Lemma same_float_ok : forall x y, same_float x y = true -> x = y.
Proof.
  intros [a|a| |a m e] [b|b| |b m' e'] H; try discriminate; cbn in H; try (apply eqb_prop in H; congruence); auto. rewrite !andb_true_iff in H. destruct H as [[H1 H2] H3]. apply eqb_prop in H1. apply Pos.eqb_eq in H2. apply Z.eqb_eq in H3. congruence.
Qed.
Definition same_number (v w : gval) : bool := match v, w with VInt x, VInt y => x =? y | VFloat x, VFloat y => same_float x y | _, _ => false end.
Lemma same_number_ok : forall v w, same_number v w = true -> v = w.
Proof. intros [] [] H; try discriminate; cbn in H; [f_equal; lia|f_equal; apply same_float_ok; auto]. Qed.

Section Test.
Variables (F : floats) (env : tenv).
Definition keptb (t : gtype) (v : gval) : bool := match leaf_text F t v with Some s => textb s && match leaf_value F t s with Ok w => same_number w v | _ => false end | None => false end.
Lemma keptb_ok : forall t v, keptb t v = true -> kept F t v.
Proof.
  intros t v H. unfold keptb in H. destruct (leaf_text F t v) as [s|] eqn:E; [|discriminate]. apply andb_true_iff in H. destruct H as [H1 H2]. exists s. split; auto. split; [apply textb_ok; auto|]. destruct (leaf_value F t s); try discriminate. f_equal. apply same_number_ok. auto.
Qed.
Definition absentb (w : gval) : bool := match w with VNil | VList [] => true | _ => false end.
Lemma absentb_ok : forall w, absentb w = true -> absent w.
Proof. intros [| | | | | |[|]| | |] H; try discriminate; [left|right]; auto. Qed.
Definition capturedb (s : bytes) (own : option bytes) (a : attr) : bool :=
  beq (space (aname a)) [] && simple_name (local (aname a)) && textb (avalue a) && (negb (beq (local (aname a)) (str "xmlns")) || match own with Some u => beq u (avalue a) | None => false end) &&
  forallb (fun g => negb (g_attr (flags_of g)) || negb (beq (label env g) (local (aname a)))) (fields_of env s).
Lemma capturedb_ok : forall s own a, capturedb s own a = true -> captured env s own a.
Proof.
  intros s own a H. unfold capturedb in H. rewrite !andb_true_iff in H. destruct H as [[[[H1 H2] H3] H4] H5]. apply beq_eq in H1. split; auto. split; [apply simple_name_ok; auto|]. split; [apply textb_ok; auto|]. split.
  - intros E. rewrite E, beq_refl in H4. cbn [negb orb] in H4. destruct own; [|discriminate]. apply beq_eq in H4. congruence.
  - intros g I G. rewrite forallb_forall in H5. specialize (H5 g I). rewrite G in H5. cbn [negb orb] in H5. apply negb_true_iff in H5. apply beq_neq in H5. auto.
Qed.
Definition fieldb (i : bool) (s : bytes) (own : option bytes) (f : fdecl) (w : gval) : bool :=
  (negb (fd_anon f) || match w with VNil => false | _ => true end) && (negb (misnamed env f) || absentb w) && (negb (i && has_text env s && is_child f) || absentb w) &&
  (match w with VFloat (S754_zero true) => negb (g_omit (flags_of f)) | _ => true end) &&
  match w with VList l => forallb (fun x => match x with VAttr a => capturedb s own a | _ => true end) l | _ => true end.
Lemma fieldb_ok : forall i s own f w, fieldb i s own f w = true -> field_kept env i s own f w.
Proof.
  intros i s own f w H. unfold fieldb in H. rewrite !andb_true_iff in H. destruct H as [[[[H1 H2] H3] H4] H5]. split. { intros A ->. rewrite A in H1. discriminate. }
  split. { intros A. rewrite A in H2. apply absentb_ok. exact H2. } split. { intros -> A B. rewrite A, B in H3. apply absentb_ok. exact H3. } split. { intros ->. apply negb_true_iff in H4. exact H4. }
  intros l a -> I. rewrite forallb_forall in H5. specialize (H5 _ I). apply capturedb_ok. exact H5.
Qed.
Definition ordinaryb (u : bytes) : bool := negb (beq u []) && negb (beq u (str "http://www.w3.org/XML/1998/namespace")) && negb (beq u (str "http://www.w3.org/2000/xmlns/")) && textb u.
Lemma ordinaryb_ok : forall u, ordinaryb u = true -> ordinary_ns u.
Proof. intros u H. unfold ordinaryb in H. rewrite !andb_true_iff, !negb_true_iff in H. destruct H as [[[H1 H2] H3] H4]. apply beq_neq in H1, H2, H3. repeat split; auto. apply textb_ok. auto. Qed.
Fixpoint cleanb (i : bool) (d : option bytes) (l : bytes) (t : gtype) (v : gval) {struct v} : bool :=
  match v with
  | VStr x => textb x
  | VInt _ | VFloat _ => match t with TDuration | TFloat _ | TFloatInf => keptb t v | _ => true end
  | VPtr w => match w with VList [] => false | _ => true end && match t with TPtr t => cleanb i d l t w | _ => false end
  | VList ws => match t with TSlice t => forallb (fun w => match w with VNil => false | _ => true end && cleanb i d l t w) ws | _ => false end
  | VRec ws =>
      match t with
      | TStruct s =>
          let own := option_map space (own_name (fields_of env s) ws) in
          negb (has_raw env s) &&
          match own_name (fields_of env s) ws with Some n => beq (local n) l && ordinaryb (space n) && match d with None => true | Some u => beq u (space n) end | None => true end &&
          (fix go (fs : list fdecl) (ws : list gval) {struct ws} : bool :=
             match fs, ws with
             | f :: fs, w :: ws => (skipped f || fieldb i s own f w && cleanb i (match own with Some u => Some u | None => d end) (label env f) (fd_type f) w) && go fs ws
             | _, _ => true
             end) (fields_of env s) ws
      | _ => false
      end
  | _ => true
  end.
Lemma cleanb_ok : forall v i d l t, cleanb i d l t v = true -> clean F env i d l t v.
Proof.
  fix IH 1. intros v i d l t H. destruct v as [x|x|x|x| |w|ws|ws|x|x]; cbn [cleanb] in H; cbn [clean]; auto.
  - apply textb_ok. exact H.
  - destruct t; auto; apply keptb_ok; exact H.
  - destruct t; auto; apply keptb_ok; exact H.
  - apply andb_true_iff in H. destruct H as [H1 H2]. split; [intros ->; discriminate|]. destruct t; try discriminate. apply IH. exact H2.
  - destruct t as [| | | | | | | |t| | |]; try discriminate. revert ws H. fix GO 1. intros [|w ws] H; auto. cbn [forallb] in H. apply andb_true_iff in H. destruct H as [H H3]. apply andb_true_iff in H. destruct H as [H1 H2]. split; [|apply GO; exact H3]. split; [intros ->; discriminate|apply IH; exact H2].
  - destruct t as [| | | | | | | | |s| |]; try discriminate. cbv zeta in H. apply andb_true_iff in H. destruct H as [H H3]. apply andb_true_iff in H. destruct H as [H1 H2]. apply negb_true_iff in H1. split; auto. split.
    + intros n N. rewrite N in H2. rewrite !andb_true_iff in H2. destruct H2 as [[A B] C]. apply beq_eq in A. split; auto. split; [apply ordinaryb_ok; auto|]. destruct d; auto. apply beq_eq in C. right. congruence.
    + clear H2. revert H3. generalize (option_map space (own_name (fields_of env s) ws)) as own. intros own. generalize (fields_of env s) as fs. revert ws. fix GO 1. intros [|w ws] [|f fs] H; auto. apply andb_true_iff in H. destruct H as [A B]. split; [|apply GO; exact B]. apply orb_true_iff in A. destruct A as [A|A]; auto. right. apply andb_true_iff in A. destruct A as [A1 A2]. split; [apply fieldb_ok; auto|apply IH; auto].
Qed.
End Test.
