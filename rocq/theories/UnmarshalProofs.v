(** Reading values: no crash, values of the right type, exactly one element consumed, and what the depth limit means. *)
From Coq Require Import String.
From Coq Require Import ZArith List Bool Lia ZifyBool ZifyNat.
From Verif Require Import Base Utf8 Lexer Printer Decoder DecoderSpec DecoderProofs Duration DurationParse GoType TypeInfo TypeInfoSpec TypeInfoProofs Simple Unmarshal ValueSpec.
Import ListNotations.
Open Scope Z_scope.

(** *** Values *)
Lemma wt_rec : forall env s v, wt env (TStruct s) v = true <-> exists l, v = VRec l /\ Forall2 (fun f w => wt env (fd_type f) w = true) (fields_of env s) l.
Proof.
  intros env s v. split.
  - intros H. destruct v; try discriminate. exists l. split; [reflexivity|]. cbn [wt] in H. revert l H. generalize (fields_of env s) as fs.
    induction fs as [|f fs IH]; intros [|w l] H; try discriminate; [constructor|]. apply andb_true_iff in H as (A & B). constructor; [exact A|exact (IH l B)].
  - intros (l & -> & H). cbn [wt]. induction H as [|f w fs l A B IH]; [reflexivity|]. rewrite A. exact IH.
Qed.
Lemma wt_zero : forall ek env t, (forall s, wt env (TStruct s) (zero ek env (TStruct s)) = true) -> wt env t (zero ek env t) = true.
Proof. intros ek env t H. destruct t; try exact (H s); destruct ek; reflexivity. Qed.
Lemma nth_error_Forall2 : forall {A B} (R : A -> B -> Prop) l l' i a, Forall2 R l l' -> nth_error l i = Some a -> exists b, nth_error l' i = Some b /\ R a b.
Proof.
  intros A B R l l' i a H. revert i. induction H as [|x y l l' Hxy H IH]; intros [|i] E; try discriminate; cbn in *; [injection E as <-; eauto|eauto].
Qed.
Lemma Forall2_update : forall {A B} (R : A -> B -> Prop) l l' i a b, Forall2 R l l' -> nth_error l i = Some a -> R a b -> Forall2 R l (firstn i l' ++ b :: skipn (S i) l').
Proof.
  intros A B R l l' i a b H. revert i. induction H as [|x y l l' Hxy H IH]; intros [|i] E Hb; try discriminate; cbn [firstn skipn app] in *.
  - injection E as ->. constructor; auto.
  - constructor; [auto|]. exact (IH i E Hb).
Qed.
(** Changing a field of a value: it is there, and the result is a value again. *)
Lemma update_spec : forall ek env, (forall s, wt env (TStruct s) (zero ek env (TStruct s)) = true) ->
  forall {E A} (f : gtype -> gval -> outcome E (gval * A)) idx s v fd, wt env (TStruct s) v = true -> decl_at env s idx = Some fd ->
  exists w, wt env (fd_type fd) w = true /\
    match f (fd_type fd) w with
    | Ok (w', a) => exists v', update_at ek env s idx v f = Ok (v', a) /\ (wt env (fd_type fd) w' = true -> wt env (TStruct s) v' = true)
    | Err e => update_at ek env s idx v f = Err e
    | Panic => update_at ek env s idx v f = Panic
    | OutOfFuel => update_at ek env s idx v f = OutOfFuel
    end.
Proof.
  intros ek env Z E A f. induction idx as [|x rest IH]; intros s v fd Hv D; [discriminate|]. cbn [decl_at] in D.
  apply wt_rec in Hv as (l & -> & Fl). destruct (nth_error (fields_of env s) x) as [g|] eqn:N; [|discriminate].
  destruct (nth_error_Forall2 _ _ _ _ _ Fl N) as (w & Nw & Hw). cbn [update_at]. rewrite N, Nw.
  assert (K : forall w', wt env (fd_type g) w' = true -> wt env (TStruct s) (VRec (firstn x l ++ w' :: skipn (S x) l)) = true).
  { intros w' H. apply wt_rec. eexists. split; [reflexivity|]. exact (Forall2_update _ _ _ _ _ _ Fl N H). }
  destruct rest as [|y rest].
  - injection D as <-. exists w. split; [exact Hw|]. destruct (f (fd_type g) w) as [(w', a)| | |]; cbn [bind]; try reflexivity. eexists. split; [reflexivity|]. apply K.
  - set (rest' := y :: rest) in *. destruct (fd_type g) as [| | | | | | |t| |s'| |] eqn:T; try discriminate.
    + destruct t as [| | | | | | | | |s'| |]; try discriminate. destruct w as [| | | | |u| | | |]; try discriminate.
      * destruct (IH s' (zero ek env (TStruct s')) fd (Z s') D) as (w & W1 & W2). exists w. split; [exact W1|].
        destruct (f (fd_type fd) w) as [(w', a)| | |]; try (rewrite W2; reflexivity). destruct W2 as (v' & -> & Hw'). cbn [bind]. eexists. split; [reflexivity|]. intros Q. apply K. exact (Hw' Q).
      * destruct (IH s' u fd Hw D) as (w & W1 & W2). exists w. split; [exact W1|].
        destruct (f (fd_type fd) w) as [(w', a)| | |]; try (rewrite W2; reflexivity). destruct W2 as (v' & -> & Hw'). cbn [bind]. eexists. split; [reflexivity|]. intros Q. apply K. exact (Hw' Q).
    + destruct (IH s' w fd Hw D) as (w0 & W1 & W2). exists w0. split; [exact W1|].
      destruct (f (fd_type fd) w0) as [(w', a)| | |]; try (rewrite W2; reflexivity). destruct W2 as (v' & -> & Hw'). cbn [bind]. eexists. split; [reflexivity|]. intros Q. apply K. exact (Hw' Q).
Qed.
(** Fields found by type analysis are there. *)
Lemma own_idx : forall env i f fi, struct_field_info env i f = Ok fi -> fi_idx fi = [i].
Proof.
  intros env i f fi H. unfold struct_field_info, xmlname_info in H.
  destruct (beq (fd_name f) xml_name).
  - destruct (parse_tag f) as [((a, b), c)| | |]; try discriminate. cbn [bind] in H. destruct (split_prefixed b). injection H as <-. reflexivity.
  - destruct (parse_tag f) as [((a, b), c)| | |]; try discriminate. cbn [bind] in H. destruct (beq b []).
    + destruct (lookup_xmlname env (fd_type f)); injection H as <-; reflexivity.
    + match type of H with (if ?c then _ else _) = _ => destruct c; [discriminate|] end.
      match type of H with (let '(_, _) := ?c in _) = _ => destruct c end.
      match type of H with (if ?c then _ else _) = _ => destruct c; [discriminate|] end.
      match type of H with match ?c with _ => _ end = _ => destruct c end; [|injection H as <-; reflexivity].
      match type of H with (if ?c then _ else _) = _ => destruct c; [|discriminate] end. injection H as <-. reflexivity.
Qed.
Lemma promoted_decl : forall env s f, promoted env s f -> fi_idx f <> [] /\ exists fd, decl_at env s (fi_idx f) = Some fd.
Proof.
  intros env s f H. induction H as [s i f fi N V E X I|s i f s' fi N V E P (IH1 & fd & IH2)].
  - rewrite (own_idx _ _ _ _ I). split; [discriminate|]. exists f. cbn. rewrite N. reflexivity.
  - split; [discriminate|]. exists fd. unfold deeper. cbn [fi_idx decl_at]. rewrite N. destruct (fi_idx fi) as [|y r]; [contradiction|].
    destruct E as (_ & [-> | ->]); exact IH2.
Qed.
Lemma field_decl : forall k env s ti f, type_info k env s = Ok ti -> In f (ti_fields ti) -> exists fd, decl_at env s (fi_idx f) = Some fd.
Proof. intros k env s ti f H I. destruct (type_info_good _ _ _ _ H) as ((P & _) & _). exact (proj2 (promoted_decl _ _ _ (P f I))). Qed.

(** *** Text *)
(** No crash and no depth error. *)
Definition quiet {A} (P : A -> Prop) (x : outcome uerr A) : Prop := match x with Ok a => P a | Err e => e <> UDepth | _ => False end.
Lemma quiet_bind : forall {A B} (P : A -> Prop) (Q : B -> Prop) x (f : A -> outcome uerr B), quiet P x -> (forall a, P a -> quiet Q (f a)) -> quiet Q (bind x f).
Proof. intros A B P Q x f H K. destruct x; cbn in *; auto. Qed.
Lemma digits_val_pos : forall s acc, 0 <= acc -> forallb is_digit s = true -> 0 <= fold_left (fun acc b => acc * 10 + (b - 48)) s acc.
Proof.
  induction s as [|c s IH]; intros acc A D; [exact A|]. cbn [fold_left forallb] in *. apply andb_true_iff in D as (D1 & D2). apply IH; [|exact D2]. unfold is_digit in D1. lia.
Qed.
Lemma parse_uint_range : forall b s z, parse_uint_bits b s = Some z -> 0 <= z < 2 ^ b.
Proof.
  intros b s z H. unfold parse_uint_bits in H. destruct s as [|c s]; [discriminate|]. destruct (forallb is_digit (c :: s)) eqn:D; [|discriminate].
  destruct (digits_val (c :: s) <? 2 ^ b) eqn:L; [|discriminate]. injection H as <-. split; [apply digits_val_pos; [lia|exact D]|lia].
Qed.
Lemma parse_int_range : forall b s z, parse_int_bits b s = Some z -> z = 0 \/ - 2 ^ (b - 1) <= z < 2 ^ (b - 1).
Proof.
  intros b s z H. unfold parse_int_bits in H. destruct (match s with 43 :: t => (false, t) | 45 :: t => (true, t) | _ => (false, s) end) as (neg, t).
  destruct (parse_uint_bits 64 t) as [v|] eqn:U; [|discriminate]. apply parse_uint_range in U.
  destruct neg; [destruct (v <=? 2 ^ (b - 1)) eqn:L|destruct (v <? 2 ^ (b - 1)) eqn:L]; try discriminate; injection H as <-; lia.
Qed.
Lemma parse_duration_range : forall oor s d, parse_duration oor s = Ok d -> - 2 ^ 63 <= d < 2 ^ 63.
Proof.
  intros oor s d H. unfold parse_duration in H. destruct (Z.of_nat (length s) <? 3); [discriminate|]. destruct s as [|c r]; [discriminate|].
  destruct (c =? 45); [discriminate|]. destruct (negb (c =? 80)); [discriminate|].
  assert (G : forall k s tot a b u, is_i64 tot = true -> parse_loop oor k s tot a b u = Ok d -> is_i64 d = true).
  { clear. induction k as [|k IH]; intros s tot a b u T H.
    - destruct s; [|discriminate]. cbn in H. destruct b; [injection H as <-; exact T|discriminate].
    - destruct s as [|c s]; cbn [parse_loop] in H; [destruct b; [injection H as <-; exact T|discriminate]|].
      destruct (c =? 84). { destruct a; [discriminate|]. exact (IH _ _ _ _ _ T H). }
      destruct (c =? 45); [discriminate|]. destruct (scan_num false (c :: s)) as ((num, dot), rest). destruct num as [|x num]; [discriminate|]. destruct rest as [|un rest]; [discriminate|].
      destruct (rank un =? 0); [discriminate|]. destruct (rank un <=? rank u); [discriminate|]. destruct (negb (un =? 68) && negb a); [discriminate|]. destruct (dot && negb (un =? 83)); [discriminate|].
      destruct (unit_value oor un (x :: num)) as [v| | |]; try discriminate. cbn [bind] in H. exact (IH _ _ _ _ _ (wrap_i64_range _) H). }
  apply G in H; [|reflexivity]. unfold is_i64, two63 in H. lia.
Qed.
Lemma copy_simple_ok : forall F env t s, match t with TSlice _ => False | _ => True end -> quiet (fun v => wt env t v = true) (copy_simple F t s).
Proof.
  intros F env t s H. destruct t; try contradiction; unfold copy_simple, need, quiet; try reflexivity; try discriminate.
  all: destruct s as [|c s]; [reflexivity|].
  - destruct (parse_bool _); [reflexivity|discriminate].
  - destruct (parse_int_bits bits _) eqn:E; [|discriminate]. apply parse_int_range in E. cbn [wt]. lia.
  - destruct (parse_uint_bits bits _) eqn:E; [|discriminate]. apply parse_uint_range in E. cbn [wt]. lia.
  - destruct (parse_f F bits _); [reflexivity|discriminate].
  - destruct (parse_int_bits 64 _) eqn:E; [|discriminate]. apply parse_int_range in E. cbn [wt]. lia.
  - destruct (parse_f F 64 _); [reflexivity|discriminate].
Qed.
Lemma copy_value_ok : forall F env t s, text_readable t = true -> quiet (fun v => wt env t v = true) (copy_value F t s).
Proof.
  intros F env t s H. destruct t; try discriminate; unfold copy_value; try (apply copy_simple_ok; exact I).
  eapply quiet_bind; [apply (copy_simple_ok F env); destruct t; try discriminate; exact I|]. intros v Hv. exact Hv.
Qed.
Lemma method_value_ok : forall F env t s, has_method t = true -> quiet (fun v => wt env t v = true) (method_value F t s).
Proof.
  intros F env t s H. destruct t; try discriminate; unfold method_value.
  - destruct (parse_total (f_oor F) s) as [(v & E)|(e & E)]; rewrite E; cbn [quiet]; [|discriminate]. apply parse_duration_range in E. cbn [wt]. lia.
  - destruct (beq s (str "INF")); [reflexivity|]. unfold need. destruct (parse_f F 64 s); [reflexivity|discriminate].
Qed.
Lemma forallb_snoc : forall {A} (p : A -> bool) l x, forallb p l = true -> p x = true -> forallb p (l ++ [x]) = true.
Proof. intros A p l x H1 H2. rewrite forallb_app, H1. cbn. rewrite H2. reflexivity. Qed.

(** *** Tokens *)
(** The rest of an element: complete elements and other tokens, then its end. *)
Definition rest_of (d d' : dstate) : Prop := exists ts d1 n, calls d ts d1 /\ depth_after 0 ts = Some O /\ next_token d1 = TokOk (TEnd n) d'.
Definition stuck (d : dstate) : Prop := exists ts d1, calls d ts d1 /\ stray d1.
(** The text directly in an element. *)
Fixpoint own_text (dp : nat) (ts : list token) : bytes :=
  match ts with
  | [] => []
  | TStart _ _ :: ts => own_text (S dp) ts
  | TEnd _ :: ts => own_text (pred dp) ts
  | TChar s :: ts => match dp with O => s ++ own_text dp ts | _ => own_text dp ts end
  | _ :: ts => own_text dp ts
  end.
Lemma depth_after_app : forall a b x y, depth_after x a = Some y -> depth_after x (a ++ b) = depth_after y b.
Proof.
  induction a as [|t a IH]; intros b x y H; [injection H as <-; reflexivity|]. destruct t; cbn [depth_after app] in *; auto. destruct x; [discriminate|auto].
Qed.
Lemma depth_after_up : forall a x y, depth_after x a = Some y -> depth_after (S x) a = Some (S y).
Proof.
  induction a as [|t a IH]; intros x y H; [injection H as <-; reflexivity|]. destruct t; cbn [depth_after] in *; auto. destruct x; [discriminate|auto].
Qed.
Lemma own_text_app : forall a b x y, depth_after x a = Some y -> own_text x (a ++ b) = own_text x a ++ own_text y b.
Proof.
  induction a as [|t a IH]; intros b x y H; [injection H as <-; reflexivity|]. destruct t; cbn [depth_after own_text app] in *; auto.
  - destruct x; [discriminate|]. cbn. auto.
  - destruct x; [rewrite <- app_assoc|]; f_equal; auto.
Qed.
Lemma own_text_inside : forall a x y, depth_after x a = Some y -> own_text (S x) a = [].
Proof.
  induction a as [|t a IH]; intros x y H; [reflexivity|]. destruct t; cbn [depth_after own_text] in *; eauto. destruct x; [discriminate|]. cbn. eauto.
Qed.
Lemma left_next : forall d t d', next_token d = TokOk t d' -> (left_to_read d' <= left_to_read d)%nat.
Proof. intros d t d' H. destruct (next_progress _ _ _ H) as [P|(_ & _ & ->)]; lia. Qed.
Lemma left_calls : forall d ts d', calls d ts d' -> (left_to_read d' <= left_to_read d)%nat.
Proof. induction 1; [lia|]. apply left_next in H. lia. Qed.
Lemma left_rest : forall d d', rest_of d d' -> (left_to_read d' < left_to_read d)%nat.
Proof.
  intros d d' (ts & d1 & n & C & _ & N). apply left_calls in C. destruct (next_progress _ _ _ N) as [P|(_ & X & _)]; [lia|discriminate].
Qed.
(** A start tag, its rest, and more. *)
Lemma element_calls : forall d n a d1 d2, next_token d = TokOk (TStart n a) d1 -> rest_of d1 d2 ->
  exists ts, calls d ts d2 /\ depth_after 0 ts = Some O /\ own_text 0 ts = [].
Proof.
  intros d n a d1 d2 N (ts & d3 & m & C & D & E). exists (TStart n a :: ts ++ [TEnd m]). split; [|split].
  - econstructor; [exact N|]. eapply calls_app; [exact C|]. econstructor; [exact E|constructor].
  - cbn [depth_after]. rewrite (depth_after_app ts _ 1%nat 1%nat); [reflexivity|]. apply depth_after_up. exact D.
  - cbn [own_text]. rewrite (own_text_app ts _ 1%nat 1%nat); [|apply depth_after_up; exact D]. rewrite (own_text_inside _ _ _ D). reflexivity.
Qed.
Lemma stuck_calls : forall d ts d', calls d ts d' -> stuck d' -> stuck d.
Proof. intros d ts d' C (ts' & d1 & C' & S1). exists (ts ++ ts'), d1. split; [eapply calls_app; eauto|exact S1]. Qed.
(** A depth error comes with elements nested this deep. *)
Definition errs (B : nat -> Prop) (d : dstate) (e : uerr) : Prop := e = UDepth -> exists m ts d1, calls d ts d1 /\ depth_after 0 ts = Some m /\ B m.
Lemma errs_calls : forall (B B' : nat -> Prop) d ts x d' e, calls d ts d' -> depth_after 0 ts = Some x -> (forall m, B' m -> B (x + m)%nat) -> errs B' d' e -> errs B d e.
Proof.
  intros B B' d ts x d' e C D K H E. destruct (H E) as (m & ts' & d1 & C' & D' & Hm). exists (x + m)%nat, (ts ++ ts'), d1.
  split; [eapply calls_app; eauto|]. split; [|auto]. rewrite (depth_after_app ts ts' 0%nat x D). clear - D'. induction x as [|x IH]; [exact D'|]. apply depth_after_up in IH. exact IH.
Qed.
Definition post (P : gval -> Prop) (B : nat -> Prop) (d : dstate) (x : outcome uerr (gval * dstate)) : Prop :=
  match x with
  | Ok (v, d') => P v /\ rest_of d d'
  | Err e => errs B d e
  | Panic => False
  | OutOfFuel => stuck d
  end.
Lemma post_impl : forall (P P' : gval -> Prop) (B B' : nat -> Prop) d x, post P B d x -> (forall v, P v -> P' v) -> (forall m, B m -> B' m) -> post P' B' d x.
Proof.
  intros P P' B B' d x H H1 H2. destruct x as [(v, d')|e| |]; cbn in *; auto.
  - destruct H; auto.
  - intros E. destruct (H E) as (m & ts & d1 & A1 & A2 & A3). exists m, ts, d1. auto.
Qed.
Definition child_ok (k : nat) (P : gval -> Prop) (B : nat -> Prop) (child : child_fun) : Prop :=
  forall v n a d, P v -> (left_to_read d < k)%nat -> post P B d (child v n a d).
Lemma content_post : forall k (P : gval -> Prop) (B B' : nat -> Prop) child, child_ok k P B' child -> (forall m, B' m -> B (S m)) ->
  forall j v data comment d, P v -> (left_to_read d < j)%nat -> (left_to_read d < k)%nat ->
  match content_loop j child v data comment d with
  | Ok (v', data', comment', d1, d2) =>
      P v' /\ exists ts n, calls d ts d1 /\ depth_after 0 ts = Some O /\ next_token d1 = TokOk (TEnd n) d2 /\ data' = data ++ own_text 0 ts
  | Err e => errs B d e
  | Panic => False
  | OutOfFuel => stuck d
  end.
Proof.
  intros k P B B' child CH HB. induction j as [|j IH]; intros v data comment d Hv Lj Lk; [lia|]. cbn [content_loop].
  destruct (next_token d) as [t d'|e d'|] eqn:N; [|intros X; discriminate|destruct (next_nofuel _ N)].
  assert (G : forall v' data' comment' d'' ts0, P v' -> calls d ts0 d'' -> depth_after 0 ts0 = Some O -> data' = data ++ own_text 0 ts0 -> (left_to_read d'' < left_to_read d)%nat ->
    match content_loop j child v' data' comment' d'' with
    | Ok (v', data', comment', d1, d2) => P v' /\ exists ts n, calls d ts d1 /\ depth_after 0 ts = Some O /\ next_token d1 = TokOk (TEnd n) d2 /\ data' = data ++ own_text 0 ts
    | Err e => errs B d e
    | Panic => False
    | OutOfFuel => stuck d
    end).
  { intros v' data' comment' d'' ts0 Hv' C D Dt L. specialize (IH v' data' comment' d'' Hv' ltac:(lia) ltac:(lia)).
    destruct (content_loop j child v' data' comment' d'') as [((((v1, dt), cm), d1), d2)|e| |].
    - destruct IH as (A1 & ts & n & A2 & A3 & A4 & A5). split; [exact A1|]. exists (ts0 ++ ts), n. split; [eapply calls_app; eauto|].
      split; [rewrite (depth_after_app _ _ _ _ D); exact A3|]. split; [exact A4|]. rewrite (own_text_app _ _ _ _ D), app_assoc, <- Dt. exact A5.
    - exact (errs_calls B B d ts0 0 d'' e C D (fun m X => X) IH).
    - exact IH.
    - exact (stuck_calls _ _ _ C IH). }
  destruct (next_progress _ _ _ N) as [PR|(ST & -> & ->)].
  2: { assert (O : forall j v data comment, content_loop j child v data comment d = OutOfFuel).
       { clear - N. induction j as [|j IH]; intros v data comment; [reflexivity|]. cbn [content_loop]. rewrite N. apply IH. }
       rewrite O. exists [], d. split; [constructor|exact ST]. }
  assert (C1 : calls d [t] d') by (econstructor; [exact N|constructor]).
  destruct t as [n a|n|s|s|tg ins|s].
  - specialize (CH v n a d' Hv ltac:(lia)). destruct (child v n a d') as [(v', d'')|e| |]; cbn [bind post] in *.
    + destruct CH as (Hv' & R). destruct (element_calls _ _ _ _ _ N R) as (ts & C & D & O). apply (G v' data comment d'' ts); auto.
      * rewrite O, app_nil_r. reflexivity.
      * apply left_rest in R. lia.
    + exact (errs_calls B B' d _ 1%nat d' e C1 eq_refl HB CH).
    + exact CH.
    + exact (stuck_calls _ _ _ C1 CH).
  - split; [exact Hv|]. exists [], n. split; [constructor|]. split; [reflexivity|]. split; [exact N|]. cbn. rewrite app_nil_r. reflexivity.
  - apply (G v (data ++ s) comment d' [TChar s]); auto. cbn. rewrite app_nil_r. reflexivity.
  - apply (G v data (comment ++ s) d' [TComment s]); auto. cbn. rewrite app_nil_r. reflexivity.
  - apply (G v data comment d' [TProc tg ins]); auto. cbn. rewrite app_nil_r. reflexivity.
  - apply (G v data comment d' [TDirective s]); auto. cbn. rewrite app_nil_r. reflexivity.
Qed.
Lemma skip_post : forall k P B, child_ok k P B (skip_child k).
Proof.
  intros k P B v n a d Hv L. unfold skip_child, skip. destruct (skip_loop k 0 d) as [d'|e| |] eqn:E; cbn [bind post].
  - split; [exact Hv|]. destruct (skip_sound _ _ _ _ E) as (ts & m & d1 & A1 & A2 & A3). exists ts, d1, m. auto.
  - intros X; discriminate.
  - exact (skip_panic _ _ _ E).
  - exact (skip_fuel _ _ _ L E).
Qed.

Section Reading.
Variables (F : floats) (env : tenv) (ek : nat).
Hypothesis EO : env_ok ek env.
Let Z0 := eo_zero ek env EO.

Lemma unmarshal_attr_ok : forall t v a, attr_readable t = true -> wt env t v = true -> quiet (fun v => wt env t v = true) (unmarshal_attr F env ek t v a).
Proof.
  assert (P : forall t s v, has_method t = false -> match t with TSlice _ | TPtr _ => False | _ => True end -> quiet (fun v => wt env t v = true) match t with TAttr => Ok (VAttr v) | _ => copy_value F t s end).
  { intros t s v M H. destruct t; try contradiction; try reflexivity; apply copy_value_ok; reflexivity. }
  fix IH 1. intros t v a R H. destruct t as [| | | | | | |t|t| | |]; cbn [unmarshal_attr has_method];
    try (apply copy_value_ok; reflexivity); try (apply method_value_ok; reflexivity); try reflexivity.
  - assert (W : wt env t match v with VPtr w => w | _ => zero_of env ek t end = true) by (destruct v; try (apply wt_zero; exact Z0); exact H).
    eapply (quiet_bind (fun w => wt env t w = true)); [|intros w Hw; exact Hw]. generalize dependent (match v with VPtr w => w | _ => zero_of env ek t end). intros w Hw.
    destruct (has_method t) eqn:M; [apply method_value_ok; exact M|].
    destruct t as [| | | | | | |t|t| | |]; try discriminate; try (apply copy_value_ok; reflexivity); try reflexivity.
    + destruct (has_method t) eqn:M2; [destruct t; discriminate|]. apply copy_value_ok. destruct t; try reflexivity. discriminate.
    + destruct w; try discriminate. eapply quiet_bind; [apply IH; [exact R|apply wt_zero; exact Z0]|]. intros x Hx. cbn [quiet wt]. apply forallb_snoc; [exact Hw|exact Hx].
  - destruct v; try discriminate. eapply quiet_bind; [apply IH; [exact R|apply wt_zero; exact Z0]|]. intros x Hx. cbn [quiet wt]. apply forallb_snoc; [exact H|exact Hx].
Qed.

(** Changing a field without a crash. *)
Lemma update_quiet : forall {A} (P : A -> Prop) (f : gtype -> gval -> outcome uerr (gval * A)) idx s v fd, wt env (TStruct s) v = true -> decl_at env s idx = Some fd ->
  (forall w, wt env (fd_type fd) w = true -> quiet (fun r => wt env (fd_type fd) (fst r) = true /\ P (snd r)) (f (fd_type fd) w)) ->
  quiet (fun r => wt env (TStruct s) (fst r) = true /\ P (snd r)) (update_at ek env s idx v f).
Proof.
  intros A P f idx s v fd Hv D K. destruct (update_spec ek env Z0 f idx s v fd Hv D) as (w & Hw & U). specialize (K w Hw).
  destruct (f (fd_type fd) w) as [(w', a)| | |]; cbn [quiet] in K; try contradiction; [|rewrite U; exact K]. destruct U as (v' & -> & Q). cbn in *. destruct K as (K1 & K2). auto.
Qed.
Lemma update_value : forall (f : gtype -> gval -> outcome uerr (gval * unit)) idx s v fd, wt env (TStruct s) v = true -> decl_at env s idx = Some fd ->
  (forall w, wt env (fd_type fd) w = true -> quiet (fun r => wt env (fd_type fd) (fst r) = true) (f (fd_type fd) w)) ->
  quiet (fun v => wt env (TStruct s) v = true) (do (v', _) <- update_at ek env s idx v f ; Ok v').
Proof.
  intros f idx s v fd Hv D K. eapply quiet_bind; [apply (update_quiet (fun _ => True) f idx s v fd Hv D)|].
  - intros w Hw. specialize (K w Hw). destruct (f (fd_type fd) w) as [r| | |]; cbn in *; auto.
  - intros (v', u) (H & _). exact H.
Qed.
Lemma set_attrs_ok : forall s ti, type_info ek env s = Ok ti -> forall al v, wt env (TStruct s) v = true -> quiet (fun v => wt env (TStruct s) v = true) (set_attrs F env ek ti s v al).
Proof.
  intros s ti TI. induction al as [|a al IH]; intros v Hv; cbn [set_attrs]; [exact Hv|].
  destruct (attr_field ti (aname a)) as [f|] eqn:A; [|exact (IH v Hv)].
  assert (Q : In f (ti_fields ti) /\ g_attr (fi_flags f) = true).
  { assert (FI : exists x, ti = finish x (ti_fields ti)). { destruct ek as [|k]; [discriminate|]. cbn [type_info] in TI. destruct (field_loop env (type_info k env) 0 (fields_of env s) None []) as [(x, fs)| | |]; try discriminate. injection TI as <-. exists x. reflexivity. }
    destruct FI as (x & FI). remember (ti_fields ti) as fs eqn:Efs. clear Efs. unfold attr_field, find_attr in A. subst ti. cbn [finish ti_attrs ti_anyattr] in A.
    assert (K : forall n, option_map snd (find (fun e => name_eqb (fst e) n) (rev (map (fun f => (mkname (fi_xmlns f) (fi_name f), f)) (filter (fun f => mode_eqb (fi_flags f) m_attr) fs)))) = Some f -> In f fs /\ g_attr (fi_flags f) = true).
    { intros n Hn. match type of Hn with option_map _ ?x = _ => destruct x as [(m, g)|] eqn:X; [|discriminate Hn] end. cbn in Hn. injection Hn as <-. apply find_some in X as (X & _). apply in_rev in X. apply in_map_iff in X as (g' & [= <- <-] & X).
      apply filter_In in X as (X1 & X2). split; [exact X1|]. unfold mode_eqb in X2. rewrite !andb_true_iff, !eqb_true_iff in X2. destruct X2 as ((((((_ & X2) & _) & _) & _) & _) & _). exact X2. }
    match type of A with match ?x with _ => _ end = _ => destruct x as [g|] eqn:X1; [injection A as <-; exact (K _ X1)|] end.
    match type of A with match ?x with _ => _ end = _ => destruct x as [g|] eqn:X2; [injection A as <-; exact (K _ X2)|] end.
    apply find_some in A as (X & Y). split; [exact X|]. unfold mode_eqb in Y. rewrite !andb_true_iff, !eqb_true_iff in Y. destruct Y as ((((((_ & Y) & _) & _) & _) & _) & _). exact Y. }
  destruct Q as (I & G). destruct (field_decl _ _ _ _ _ TI I) as (fd & D). pose proof (eo_field _ _ EO _ _ _ _ TI I D) as R. unfold readable in R. rewrite G in R.
  eapply quiet_bind; [apply (update_quiet (fun _ => True) (fun t w => with_unit (unmarshal_attr F env ek t w a)) (fi_idx f) s v fd Hv D)|].
  - intros w Hw. unfold with_unit. eapply quiet_bind; [apply unmarshal_attr_ok; [exact R|exact Hw]|]. intros x Hx. cbn. auto.
  - intros (v', u) (H & _). exact (IH v' H).
Qed.
Lemma touch_ok : forall s f v, wt env (TStruct s) v = true -> match f with Some f => exists fd, decl_at env s (fi_idx f) = Some fd | None => True end ->
  quiet (fun v => wt env (TStruct s) v = true) (touch env ek s f v).
Proof.
  intros s [f|] v Hv D; [|exact Hv]. destruct D as (fd & D). unfold touch. apply (update_value _ _ _ _ fd Hv D). intros w Hw. exact Hw.
Qed.

(** Bounds for the depth error of a call with [r] levels left. *)
Variables (W : nat) (rk : bytes -> nat).
Definition beyond (r : nat) (t : gtype) (m : nat) : Prop := (layered ek env W -> (r < layers t + W * m)%nat) /\ (ranked ek env rk -> (r < needs rk t)%nat).
(** The same for a child of a struct [s]. *)
Definition beyond_child (r : nat) (s : bytes) (m : nat) : Prop := (layered ek env W -> (r < W * S m)%nat) /\ (ranked ek env rk -> (r < rk s)%nat).
Definition reads (r k : nat) (read : reader) : Prop := forall t v n a d, element_readable t = true -> wt env t v = true -> (left_to_read d < k)%nat ->
  post (fun v => wt env t v = true) (beyond r t) d (read t v n a d).

Lemma update_read : forall r k read s ti f v n a d, reads r k read -> type_info ek env s = Ok ti -> In f (ti_fields ti) -> element_like f = true ->
  g_attr (fi_flags f) = false -> wt env (TStruct s) v = true -> (left_to_read d < k)%nat ->
  post (fun v => wt env (TStruct s) v = true) (beyond_child r s) d (update_at ek env s (fi_idx f) v (fun t w => read t w n a d)).
Proof.
  intros r k read s ti f v n a d RD TI I EL NA Hv L. destruct (field_decl _ _ _ _ _ TI I) as (fd & D).
  pose proof (eo_field _ _ EO _ _ _ _ TI I D) as R. unfold readable in R. rewrite NA in R. unfold element_like in EL. rewrite EL in R. cbn [negb orb] in R. apply andb_true_iff in R as (_ & R).
  destruct (update_spec ek env Z0 (fun t w => read t w n a d) (fi_idx f) s v fd Hv D) as (w & Hw & U). specialize (RD (fd_type fd) w n a d R Hw L).
  destruct (read (fd_type fd) w n a d) as [(w', d')|e| |]; cbn [post] in RD; [|rewrite U|rewrite U|rewrite U]; try exact RD.
  - destruct U as (v' & -> & Q). destruct RD as (A & B). cbn [post]. auto.
  - refine (errs_calls (beyond_child r s) (beyond r (fd_type fd)) d [] 0%nat d e (Calls_nil d) eq_refl _ RD). intros m (B1 & B2). cbn. split.
    + intros LY. specialize (B1 LY). pose proof (LY s ti f fd TI I D). nia.
    + intros RK. specialize (B2 RK). pose proof (RK s ti f fd TI I EL D). lia.
Qed.
Lemma find_path_field : forall fs parents n f, find_path fs parents n = Field f -> In f fs /\ g_element (fi_flags f) = true.
Proof.
  induction fs as [|g fs IH]; intros parents n f H; [discriminate|]. cbn [find_path] in H.
  destruct (g_element (fi_flags g)) eqn:G; cbn [negb orb] in H; [|destruct (IH _ _ _ H); split; [right|]; auto].
  repeat match type of H with (if ?c then _ else _) = _ => destruct c end; try discriminate; try (destruct (IH _ _ _ H); split; [right|]; auto; fail).
  injection H as <-. split; [left; reflexivity|exact G].
Qed.
Lemma is_pre_length : forall a b, is_pre a b = true -> (length a <= length b)%nat.
Proof. induction a as [|x a IH]; intros [|y b] H; cbn in *; try lia; try discriminate. apply andb_true_iff in H as (_ & H). apply IH in H. lia. Qed.
Lemma find_path_inside : forall fs parents n ps, find_path fs parents n = Inside ps -> length ps = S (length parents) /\ (length ps < path_bound fs)%nat.
Proof.
  induction fs as [|g fs IH]; intros parents n ps H; [discriminate|]. cbn [find_path] in H. unfold path_bound in *. cbn [fold_right].
  assert (R : find_path fs parents n = Inside ps -> length ps = S (length parents) /\ (length ps < S (Nat.max (length (fi_parents g)) (fold_right (fun f m => Nat.max (length (fi_parents f)) m) 0 fs)))%nat).
  { intros X. destruct (IH _ _ _ X). split; [auto|lia]. }
  destruct (is_pre parents (fi_parents g)) eqn:P; [|cbn [negb] in H; rewrite orb_true_r in H; exact (R H)].
  match type of H with (if ?c then _ else _) = _ => destruct c; [exact (R H)|] end.
  destruct (length (fi_parents g) =? length parents)%nat eqn:L; [match type of H with (if ?c then _ else _) = _ => destruct c; [discriminate|exact (R H)] end|].
  match type of H with (if ?c then _ else _) = _ => destruct c; [|exact (R H)] end.
  assert (Q : length ps = Nat.min (S (length parents)) (length (fi_parents g))) by (rewrite <- firstn_length; congruence).
  apply is_pre_length in P. lia.
Qed.
Lemma beyond_child_S : forall r s m, beyond_child r s m -> beyond_child r s (S m).
Proof. intros r s m (A & B). split; [|exact B]. intros L. specialize (A L). nia. Qed.
(** Fields for elements are not attributes. *)
Hypothesis NA : forall s ti f, type_info ek env s = Ok ti -> In f (ti_fields ti) -> g_element (fi_flags f) = true -> g_attr (fi_flags f) = false.
Lemma path_post : forall r k read s ti, reads r k read -> type_info ek env s = Ok ti ->
  forall q parents v n a d, (path_bound (ti_fields ti) <= length parents + q)%nat -> wt env (TStruct s) v = true -> (left_to_read d < k)%nat ->
  (length parents < path_bound (ti_fields ti))%nat ->
  match path_child env ek q k read s (ti_fields ti) parents v n a d with
  | Ok None => True
  | Ok (Some y) => post (fun v => wt env (TStruct s) v = true) (beyond_child r s) d (Ok y)
  | Err e => errs (beyond_child r s) d e
  | Panic => False
  | OutOfFuel => stuck d
  end.
Proof.
  intros r k read s ti RD TI. induction q as [|q IH]; intros parents v n a d Hq Hv L Hp; [lia|]. cbn [path_child].
  destruct (find_path (ti_fields ti) parents n) as [f|ps|] eqn:FP; [| |exact I].
  - destruct (find_path_field _ _ _ _ FP) as (If & G). pose proof (update_read r k read s ti f v n a d RD TI If) as U. unfold element_like in U. rewrite G in U.
    specialize (U eq_refl (NA _ _ _ TI If G) Hv L). destruct (update_at ek env s (fi_idx f) v (fun t w => read t w n a d)) as [(v', d')| | |]; exact U.
  - destruct (find_path_inside _ _ _ _ FP) as (P1 & P2).
    assert (CH : child_ok k (fun v => wt env (TStruct s) v = true) (beyond_child r s) (fun v n a d => do x <- path_child env ek q k read s (ti_fields ti) ps v n a d ; match x with Some y => Ok y | None => skip_child k v n a d end)).
    { intros v0 n0 a0 d0 Hv0 L0. specialize (IH ps v0 n0 a0 d0 ltac:(lia) Hv0 L0 P2). destruct (path_child env ek q k read s (ti_fields ti) ps v0 n0 a0 d0) as [[y|]|e| |]; cbn [bind]; auto.
      apply skip_post; auto. }
    pose proof (content_post k _ (beyond_child r s) _ _ CH (beyond_child_S r s) k v [] [] d Hv L L) as C.
    match type of C with context [content_loop ?a ?b ?c ?e ?f ?g] => destruct (content_loop a b c e f g) as [((((v', dt), cm), d1), d2)|e0| |] end; cbn [bind post]; auto.
    destruct C as (C1 & ts & m & C2 & C3 & C4 & _). split; [exact C1|]. exists ts, d1, m. auto.
Qed.
Lemma first_mode_in : forall p fs f, first_mode p fs = Some f -> In f fs /\ p (fi_flags f) = true.
Proof. intros p fs f H. exact (find_some _ _ H). Qed.
Lemma bind_post : forall {A} (P : A -> Prop) (Q : gval -> Prop) B d (x : outcome uerr A) (g : A -> outcome uerr (gval * dstate)),
  quiet P x -> (forall a, P a -> post Q B d (g a)) -> post Q B d (bind x g).
Proof. intros A P Q B d x g H K. destruct x; cbn [bind] in *; auto; [|contradiction H]. intros E. destruct (H E). Qed.

Lemma body_post : forall r k t v n a d, reads r k (unmarshal F env ek r k) -> element_readable t = true -> wt env t v = true -> (left_to_read d < k)%nat ->
  post (fun v => wt env t v = true) (beyond (S r) t) d (unmarshal_body F env ek (unmarshal F env ek r k) k t v n a d).
Proof.
  intros r k t v n a d RD ER Hv L.
  assert (SK : forall v, match content_loop k (skip_child k) v [] [] d with
    | Ok (v', data', comment', d1, d2) => True /\ exists ts n, calls d ts d1 /\ depth_after 0 ts = Some O /\ next_token d1 = TokOk (TEnd n) d2 /\ data' = [] ++ own_text 0 ts
    | Err e => errs (beyond (S r) t) d e | Panic => False | OutOfFuel => stuck d end).
  { intros v0. apply (content_post k (fun _ => True) (beyond (S r) t) (fun m => beyond (S r) t (S m)) (skip_child k) (skip_post k _ _) (fun m X => X) k v0 [] [] d I L L). }
  assert (SIMPLE : text_readable t = true -> post (fun v => wt env t v = true) (beyond (S r) t) d
    (do r <- content_loop k (skip_child k) v [] [] d ; let '(_, data, _, _, d') := r in do x <- copy_value F t data ; Ok (x, d'))).
  { intros TR. specialize (SK v). destruct (content_loop k (skip_child k) v [] [] d) as [((((v', dt), cm), d1), d2)|e| |]; cbn [bind]; auto.
    destruct SK as (_ & ts & m & C1 & C2 & C3 & _). eapply bind_post; [apply (copy_value_ok F env); exact TR|]. intros x Hx. split; [exact Hx|]. exists ts, d1, m. auto. }
  destruct t as [| | | | | | |t|t|s| |]; cbn [unmarshal_body]; try (apply SIMPLE; reflexivity).
  - intros X; discriminate.
  - destruct v; try discriminate. specialize (RD t (zero_of env ek t) n a d ER ltac:(apply wt_zero; exact Z0) L).
    destruct (unmarshal F env ek r k t (zero_of env ek t) n a d) as [(x, d')|e| |]; cbn [bind post] in *; auto.
    + destruct RD as (A & B). split; [|exact B]. cbn [wt] in *. apply forallb_snoc; [exact Hv|exact A].
    + refine (errs_calls _ (beyond r t) d [] 0%nat d e (Calls_nil d) eq_refl _ RD). intros m (B1 & B2). cbn. split; intros X; [specialize (B1 X)|specialize (B2 X)]; cbn [layers needs]; lia.
  - clear SIMPLE SK. destruct (eo_info _ _ EO s) as [(ti & TI)|(e & TI)]; rewrite TI; [|intros X; discriminate].
    apply (bind_post (fun v => wt env (TStruct s) v = true)).
    { destruct (ti_xmlname ti) as [x|] eqn:X; [|exact Hv]. match goal with |- context [if ?c then _ else _] => destruct c; [discriminate|] end.
      destruct (decl_at env s (fi_idx x)) as [fd|] eqn:D; [|destruct (eo_name _ _ EO _ _ _ TI X D)].
      apply (update_value _ _ _ _ fd Hv D). intros w Hw. cbn [quiet fst]. destruct (fd_type fd); auto. }
    clear v Hv. intros v Hv. apply (bind_post (fun v => wt env (TStruct s) v = true)); [apply set_attrs_ok; assumption|]. clear v Hv. intros v Hv.
    cbv zeta.
    assert (TO : forall p v, wt env (TStruct s) v = true -> quiet (fun v => wt env (TStruct s) v = true) (touch env ek s (first_mode p (ti_fields ti)) v)).
    { intros p v0 Hv0. apply touch_ok; [exact Hv0|]. destruct (first_mode p (ti_fields ti)) as [f|] eqn:E; [|exact I]. apply first_mode_in in E as (E & _). exact (field_decl _ _ _ _ _ TI E). }
    do 4 (apply (bind_post (fun v => wt env (TStruct s) v = true)); [apply TO; exact Hv|]; clear v Hv; intros v Hv).
    match goal with |- post _ _ _ (bind (content_loop _ ?c _ _ _ _) _) => set (child := c) end.
    assert (CH : child_ok k (fun v => wt env (TStruct s) v = true) (beyond_child r s) child).
    { intros v0 n0 a0 d0 Hv0 L0. unfold child.
      assert (PB : (0 < path_bound (ti_fields ti))%nat) by (unfold path_bound; lia).
      pose proof (path_post r k (unmarshal F env ek r k) s ti RD TI (path_bound (ti_fields ti)) [] v0 n0 a0 d0 ltac:(cbn; lia) Hv0 L0 PB) as PP.
      destruct (path_child env ek (path_bound (ti_fields ti)) k (unmarshal F env ek r k) s (ti_fields ti) [] v0 n0 a0 d0) as [[y|]|e| |]; cbn [bind]; auto.
      destruct (first_mode is_any (ti_fields ti)) as [f|] eqn:SA; [|apply skip_post; auto].
      apply first_mode_in in SA as (If & G). unfold is_any in G.
      assert (EL : element_like f = true /\ g_attr (fi_flags f) = false).
      { unfold element_like. unfold mode_eqb in G. cbn in G. destruct (fi_flags f) as [[] [] [] [] [] [] [] []]; cbn in *; try discriminate; auto. }
      destruct EL as (E1 & E2). exact (update_read r k _ s ti f v0 n0 a0 d0 RD TI If E1 E2 Hv0 L0). }
    assert (BB : forall m, beyond_child r s m -> beyond (S r) (TStruct s) (S m)).
    { intros m (B1 & B2). split; intros X; [specialize (B1 X)|specialize (B2 X)]; cbn [layers needs]; nia. }
    pose proof (content_post k _ (beyond (S r) (TStruct s)) _ child CH BB k v [] [] d Hv L L) as C.
    destruct (content_loop k child v [] [] d) as [((((v', dt), cm), d1), d2)|e0| |]; cbn [bind]; auto.
    destruct C as (Hv' & ts & m & C1 & C2 & C3 & _). clear v Hv child CH. rename v' into v. rename Hv' into Hv.
    assert (RO : rest_of d d2) by (exists ts, d1, m; auto).
    apply (bind_post (fun v => wt env (TStruct s) v = true)).
    { destruct (first_mode is_data (ti_fields ti)) as [f|] eqn:E; [|exact Hv]. apply first_mode_in in E as (If & G). destruct (field_decl _ _ _ _ _ TI If) as (fd & D).
      apply (update_value _ _ _ _ fd Hv D). intros w Hw. unfold with_unit. pose proof (eo_field _ _ EO _ _ _ _ TI If D) as R. unfold readable in R. unfold is_data in G.
      assert (NB : g_attr (fi_flags f) = false).
      { unfold mode_eqb in G. cbn in G. destruct (fi_flags f) as [[] [] [] [] [] [] [] []]; cbn in *; try discriminate; auto. }
      rewrite NB, G in R. cbn [negb orb] in R. apply andb_true_iff in R as (R & _). apply andb_true_iff in R as (R & _). eapply quiet_bind; [apply (copy_value_ok F env); exact R|]. intros x Hx. exact Hx. }
    clear v Hv. intros v Hv. apply (bind_post (fun v => wt env (TStruct s) v = true)).
    { destruct (first_mode is_comment (ti_fields ti)) as [f|] eqn:E; [|exact Hv]. apply first_mode_in in E as (If & G). destruct (field_decl _ _ _ _ _ TI If) as (fd & D).
      apply (update_value _ _ _ _ fd Hv D). intros w Hw. pose proof (eo_field _ _ EO _ _ _ _ TI If D) as R. unfold readable in R. unfold is_comment in G.
      assert (NB : g_attr (fi_flags f) = false).
      { unfold mode_eqb in G. cbn in G. destruct (fi_flags f) as [[] [] [] [] [] [] [] []]; cbn in *; try discriminate; auto. }
      rewrite NB, G in R. cbn [negb orb] in R. apply andb_true_iff in R as (R & _). apply andb_true_iff in R as (_ & R). destruct (fd_type fd); try discriminate R; cbn [quiet fst]; auto. }
    clear v Hv. intros v Hv. apply (bind_post (fun v => wt env (TStruct s) v = true)).
    { destruct (first_mode is_inner (ti_fields ti)) as [f|] eqn:E; [|exact Hv]. apply first_mode_in in E as (If & G). destruct (field_decl _ _ _ _ _ TI If) as (fd & D).
      apply (update_value _ _ _ _ fd Hv D). intros w Hw. cbn [quiet fst]. destruct (fd_type fd); auto. }
    clear v Hv. intros v Hv. split; [exact Hv|exact RO].
  - specialize (SK (VName n)). destruct (content_loop k (skip_child k) (VName n) [] [] d) as [((((v', dt), cm), d1), d2)|e| |]; cbn [bind]; auto.
    destruct SK as (_ & ts & m & C1 & C2 & C3 & _). split; [reflexivity|]. exists ts, d1, m. auto.
  - discriminate ER.
Qed.
(** Reading an element: a value of the type and exactly the element, or an error; a depth error only for elements nested
    deep enough; and it takes for ever only at a stray greater-than sign. *)
Theorem unmarshal_post : forall r k, reads r k (unmarshal F env ek r k).
Proof.
  induction r as [|r IH]; intros k t v n a d ER Hv L.
  - intros _. exists 0%nat, [], d. split; [constructor|]. split; [reflexivity|]. split; intros _; destruct t as [| | | | | | |t| | | |]; cbn; try lia; destruct t; cbn; lia.
  - cbn [unmarshal]. specialize (IH k). destruct t as [| | | | | | |t| | | |]; try (apply body_post; assumption).
    assert (Hw : wt env t match v with VPtr w => w | _ => zero_of env ek t end = true) by (destruct v; try (apply wt_zero; exact Z0); exact Hv).
    generalize dependent (match v with VPtr w => w | _ => zero_of env ek t end). intros w Hw. destruct t as [| | | | | | |t'| | | |]; try (
      match goal with |- context [unmarshal_body F env ek _ k ?t w] => pose proof (body_post r k t w n a d IH ER Hw L) as P end; match type of P with post _ _ _ ?x => destruct x as [(w', d')|e| |] end; cbn [bind]; exact P).
    intros X; discriminate.
Qed.
End Reading.
