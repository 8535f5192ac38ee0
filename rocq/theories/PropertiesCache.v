(** Property C51: the caches do not show. *)
From Coq Require Import String.
From Coq Require Import ZArith List Bool Lia.
From Verif Require Import Base Lexer Printer GoType Schema TypeInfo Cache.
Import ListNotations.

(** *** Programs that keep a cache legal *)
Section Legal.
Context {K V : Type} (keq : K -> K -> bool) (keq_ok : forall a b, keq a b = true <-> a = b) (legal : K -> V -> Prop).
Definition all_legal (c : @cache K V) : Prop := forall key v, c key = Some v -> legal key v.
Fixpoint safe {A} (P : A -> Prop) (p : @prog K V A) : Prop :=
  match p with
  | Ret a => P a
  | Load key next => safe P (next None) /\ forall v, legal key v -> safe P (next (Some v))
  | Store key v next => legal key v /\ safe P next
  | LoadOrStore key v next => legal key v /\ forall w, legal key w -> safe P (next w)
  end.
Lemma put_legal : forall c key v, all_legal c -> legal key v -> all_legal (put keq c key v).
Proof. intros c key v C L key' v'. unfold put. destruct (keq key key') eqn:E; [apply keq_ok in E as ->; intros [= <-]; exact L|apply C]. Qed.
Lemma step1_safe : forall A (P : A -> Prop) c p c' p', all_legal c -> safe P p -> step1 keq c p = (c', p') -> all_legal c' /\ safe P p'.
Proof.
  intros A P c [a|key next|key v next|key v next] c' p' C S H; cbn in H, S.
  - injection H as <- <-. auto.
  - injection H as <- <-. split; [exact C|]. destruct (c key) as [v|] eqn:E; [apply S, (C _ _ E)|apply S].
  - injection H as <- <-. destruct S as (L & S). split; [apply put_legal; auto|exact S].
  - destruct S as (L & S). destruct (c key) as [v'|] eqn:E; injection H as <- <-.
    + split; [exact C|]. apply S, (C _ _ E).
    + split; [apply put_legal; auto|]. apply S, L.
Qed.
Lemma reach_safe : forall A (P : K -> A -> Prop) (call : K -> prog A), (forall key, safe (P key) (call key)) ->
  forall w, reach keq call w -> all_legal (fst w) /\ Forall (fun t => safe (P (fst t)) (snd t)) (snd w).
Proof.
  intros A P call HC w R. induction R as [|w w' R (IHc & IHt) S].
  - cbn. split; [intros key v E; discriminate|constructor].
  - destruct S as [c l key|c a key p b c' p' E]; cbn in *.
    + split; [exact IHc|]. apply Forall_app. split; [exact IHt|]. repeat constructor. apply HC.
    + apply Forall_app in IHt as (Ta & Tb). inversion Tb as [|? ? T Tb']; subst. destruct (step1_safe _ _ _ _ _ _ IHc T E) as (C' & T').
      split; [exact C'|]. apply Forall_app. split; [exact Ta|]. constructor; [exact T'|exact Tb'].
Qed.
Lemma reach_result : forall A (P : K -> A -> Prop) (call : K -> prog A) c l key a, (forall key, safe (P key) (call key)) ->
  reach keq call (c, l) -> In (key, Ret a) l -> P key a.
Proof.
  intros A P call c l key a HC R I. destruct (reach_safe A P call HC _ R) as (_ & T). cbn in T. rewrite Forall_forall in T. exact (T _ I).
Qed.
Lemma safe_bind : forall A B (P : A -> Prop) (Q : B -> Prop) p f, safe P p -> (forall a, P a -> safe Q (f a)) -> safe Q (pbind p f).
Proof.
  intros A B P Q p f. induction p as [a|key next IH|key v next IH|key v next IH]; cbn; intros S H.
  - auto.
  - destruct S as (S1 & S2). split; [auto|]. intros v L. apply IH; auto.
  - destruct S as (S1 & S2). split; auto.
  - destruct S as (S1 & S2). split; [exact S1|]. intros w L. apply IH; auto.
Qed.
Lemma safe_impl : forall A (P Q : A -> Prop) p, (forall a, P a -> Q a) -> safe P p -> safe Q p.
Proof. intros A P Q p H. induction p; cbn; [auto| | |]; intros (S1 & S2); split; auto. Qed.
End Legal.

(** C51. Whatever the schedule, getTypeImpl returns what it would compute. *)
Theorem C51_type_impl : forall (T I : Type) (teq : T -> T -> bool), (forall a b, teq a b = true <-> a = b) -> forall compute : T -> I,
  forall c l t r, reach teq (get_type_impl compute) (c, l) -> In (t, Ret r) l -> r = compute t.
Proof.
  intros T I teq Hq compute c l t r R H.
  refine (reach_result teq Hq (fun t v => v = compute t) I (fun t v => v = compute t) _ c l t r _ R H).
  intros key. cbn. auto.
Qed.
Print Assumptions C51_type_impl.

(** *** getTypeInfo *)
Lemma field_loop_mono : forall env i1 i2 (H : forall s, i1 s <> OutOfFuel -> i2 s = i1 s) fs i x fields,
  field_loop env i1 i fs x fields <> OutOfFuel -> field_loop env i2 i fs x fields = field_loop env i1 i fs x fields.
Proof.
  intros env i1 i2 H. induction fs as [|f fs IH]; intros i x fields N; cbn [field_loop] in *; [reflexivity|].
  destruct (negb (exported (fd_name f)) && negb (fd_anon f) || beq (fd_tag f) (str "-")); [auto|].
  destruct (if fd_anon f then embedded (fd_type f) else None) as [s|].
  - assert (N1 : i1 s <> OutOfFuel) by (intros E; rewrite E in N; apply N; reflexivity). rewrite (H s N1).
    destruct (i1 s) as [ti| | |]; try reflexivity. cbn [bind] in *. destruct (add_fields fields (map (prefix_idx i) (ti_fields ti))); cbn [bind] in *; auto.
  - destruct (struct_field_info env i f) as [fi| | |]; cbn [bind] in *; try reflexivity. destruct (beq (fd_name f) xml_name); [auto|].
    destruct (add_field fields fi); cbn [bind] in *; auto.
Qed.
Lemma type_info_mono1 : forall k env s, type_info k env s <> OutOfFuel -> type_info (S k) env s = type_info k env s.
Proof.
  induction k as [|k IH]; intros env s N; [exfalso; apply N; reflexivity|]. cbn [type_info] in N |- *.
  rewrite (field_loop_mono env (type_info k env)); [reflexivity|intros s' Hs; exact (IH env s' Hs)|]. intros E. rewrite E in N. apply N. reflexivity.
Qed.
Lemma type_info_mono : forall k k' env s, (k <= k')%nat -> type_info k env s <> OutOfFuel -> type_info k' env s = type_info k env s.
Proof.
  intros k k' env s L. induction L as [|k' L IH]; intros N; [reflexivity|]. rewrite type_info_mono1; [exact (IH N)|]. rewrite (IH N). exact N.
Qed.

(** The result of a computation that does not run out of fuel. *)
Definition fresh (env : tenv) (s : bytes) (r : outcome terr tinfo) : Prop := r <> OutOfFuel /\ exists k0, forall k, (k0 <= k)%nat -> type_info k env s = r.
Definition fresh_info (env : tenv) (s : bytes) (ti : tinfo) : Prop := fresh env s (Ok ti).
Definition answer (k : nat) (env : tenv) (s : bytes) (r : outcome terr tinfo) : Prop := r = OutOfFuel /\ type_info k env s = OutOfFuel \/ fresh env s r.
Lemma beq_ok : forall a b : bytes, beq a b = true <-> a = b.
Proof. intros a b; split; [apply beq_eq|intros ->; apply beq_refl]. Qed.

Lemma safe_pdo : forall env A B (Q : outcome terr B -> Prop) (x : outcome terr A) f,
  (forall e, x = Err e -> Q (Err e)) -> (x = Panic -> Q Panic) -> (x = OutOfFuel -> Q OutOfFuel) -> (forall a, x = Ok a -> safe (fresh_info env) Q (f a)) ->
  safe (fresh_info env) Q (pdo x f).
Proof. intros env A B Q [a|e| |] f H1 H2 H3 H4; cbn; auto. Qed.

Definition loop_answer (k : nat) (env : tenv) i fs x fields (r : outcome terr (option finfo * list finfo)) : Prop :=
  r = OutOfFuel /\ field_loop env (type_info k env) i fs x fields = OutOfFuel \/
  r <> OutOfFuel /\ exists k0, forall k, (k0 <= k)%nat -> field_loop env (type_info k env) i fs x fields = r.
Lemma loop_safe : forall k env (H : forall s, safe (fresh_info env) (answer k env s) (get_type_info k env s)) fs i x fields,
  safe (fresh_info env) (loop_answer k env i fs x fields) (field_loop_p env (get_type_info k env) i fs x fields).
Proof.
  intros k env H. induction fs as [|f fs IH]; intros i x fields; cbn [field_loop_p].
  - cbn. right. split; [discriminate|]. exists O. reflexivity.
  - destruct (negb (exported (fd_name f)) && negb (fd_anon f) || beq (fd_tag f) (str "-")) eqn:V.
    { eapply safe_impl; [|apply IH]. unfold loop_answer. cbn [field_loop]. rewrite V. auto. }
    destruct (if fd_anon f then embedded (fd_type f) else None) as [s|] eqn:Em.
    + apply (safe_bind (fresh_info env) _ _ (answer k env s)); [apply H|]. intros r A.
      destruct A as [(-> & E)|(Nr & k0 & Hk)].
      { cbn. left. split; [reflexivity|]. cbn [field_loop]. rewrite V, Em, E. reflexivity. }
      apply safe_pdo.
      * intros e ->. right. split; [discriminate|]. exists k0. intros k1 L. cbn [field_loop]. rewrite V, Em, (Hk k1 L). reflexivity.
      * intros ->. right. split; [discriminate|]. exists k0. intros k1 L. cbn [field_loop]. rewrite V, Em, (Hk k1 L). reflexivity.
      * intros ->. contradiction.
      * intros ti ->. set (x' := match x, ti_xmlname ti with None, Some y => if beq (fi_name y) [] then None else Some y | _, _ => x end).
        apply safe_pdo.
        -- intros e E. right. split; [discriminate|]. exists k0. intros k1 L. cbn [field_loop]. rewrite V, Em, (Hk k1 L). cbn [bind]. rewrite E. reflexivity.
        -- intros E. right. split; [discriminate|]. exists k0. intros k1 L. cbn [field_loop]. rewrite V, Em, (Hk k1 L). cbn [bind]. rewrite E. reflexivity.
        -- intros E. left. split; [reflexivity|]. cbn [field_loop]. rewrite V, Em. destruct (type_info k env s) as [ti'| | |] eqn:Q; cbn [bind]; try reflexivity.
           ++ pose proof (Hk (Nat.max k0 k) ltac:(lia)) as X. rewrite (type_info_mono k (Nat.max k0 k)) in X by (try lia; congruence). rewrite Q in X. injection X as ->. rewrite E. reflexivity.
           ++ pose proof (Hk (Nat.max k0 k) ltac:(lia)) as X. rewrite (type_info_mono k (Nat.max k0 k)) in X by (try lia; congruence). congruence.
           ++ pose proof (Hk (Nat.max k0 k) ltac:(lia)) as X. rewrite (type_info_mono k (Nat.max k0 k)) in X by (try lia; congruence). congruence.
        -- intros fields' E. eapply safe_impl; [|apply IH]. intros r [(-> & R)|(R1 & k1 & R2)].
           ++ left. split; [reflexivity|]. cbn [field_loop]. rewrite V, Em. destruct (type_info k env s) as [ti'| | |] eqn:Q; cbn [bind]; try reflexivity.
              ** pose proof (Hk (Nat.max k0 k) ltac:(lia)) as X. rewrite (type_info_mono k (Nat.max k0 k)) in X by (try lia; congruence). rewrite Q in X. injection X as ->. rewrite E. exact R.
              ** pose proof (Hk (Nat.max k0 k) ltac:(lia)) as X. rewrite (type_info_mono k (Nat.max k0 k)) in X by (try lia; congruence). congruence.
              ** pose proof (Hk (Nat.max k0 k) ltac:(lia)) as X. rewrite (type_info_mono k (Nat.max k0 k)) in X by (try lia; congruence). congruence.
           ++ right. split; [exact R1|]. exists (Nat.max k0 k1). intros k2 L. cbn [field_loop]. rewrite V, Em, (Hk k2) by lia. cbn [bind]. rewrite E. cbn [bind]. apply R2. lia.
    + apply safe_pdo.
      * intros e E. right. split; [discriminate|]. exists O. intros k1 L. cbn [field_loop]. rewrite V, Em, E. reflexivity.
      * intros E. right. split; [discriminate|]. exists O. intros k1 L. cbn [field_loop]. rewrite V, Em, E. reflexivity.
      * intros E. left. split; [reflexivity|]. cbn [field_loop]. rewrite V, Em, E. reflexivity.
      * intros fi E. destruct (beq (fd_name f) xml_name) eqn:X.
        -- eapply safe_impl; [|apply IH]. unfold loop_answer. cbn [field_loop]. rewrite V, Em, E. cbn [bind]. rewrite X. auto.
        -- apply safe_pdo.
           ++ intros e E2. right. split; [discriminate|]. exists O. intros k1 L. cbn [field_loop]. rewrite V, Em, E. cbn [bind]. rewrite X, E2. reflexivity.
           ++ intros E2. right. split; [discriminate|]. exists O. intros k1 L. cbn [field_loop]. rewrite V, Em, E. cbn [bind]. rewrite X, E2. reflexivity.
           ++ intros E2. left. split; [reflexivity|]. cbn [field_loop]. rewrite V, Em, E. cbn [bind]. rewrite X, E2. reflexivity.
           ++ intros fields' E2. eapply safe_impl; [|apply IH]. unfold loop_answer. cbn [field_loop]. rewrite V, Em, E. cbn [bind]. rewrite X, E2. auto.
Qed.
Lemma info_safe : forall k env s, safe (fresh_info env) (answer k env s) (get_type_info k env s).
Proof.
  induction k as [|k IH]; intros env s; [left; split; reflexivity|]. cbn [get_type_info safe]. split.
  - apply (safe_bind (fresh_info env) _ _ (loop_answer k env 0 (fields_of env s) None [])); [apply loop_safe; apply IH|].
    intros r A. assert (T : forall k0, (forall k, (k0 <= k)%nat -> field_loop env (type_info k env) 0 (fields_of env s) None [] = r) ->
                       forall k1, (S k0 <= k1)%nat -> type_info k1 env s = (do (x, fields) <- r ; Ok (finish x fields))).
    { intros k0 Hk [|k1] L; [lia|]. cbn [type_info]. rewrite Hk by lia. reflexivity. }
    destruct A as [(-> & E)|(N & k0 & Hk)].
    { left. split; [reflexivity|]. cbn [type_info]. rewrite E. reflexivity. }
    specialize (T k0 Hk). apply safe_pdo.
    + intros e ->. right. split; [discriminate|]. exists (S k0). exact T.
    + intros ->. right. split; [discriminate|]. exists (S k0). exact T.
    + intros ->. contradiction.
    + intros [x fields] ->. cbn. split.
      * split; [discriminate|]. exists (S k0). exact T.
      * intros w L. right. exact L.
  - intros v L. right. exact L.
Qed.

(** C51. Whatever the schedule of any number of goroutines, getTypeInfo returns the information, or the error, that a
    computation without cache gives. *)
Theorem C51_type_info : forall k env c l s r, reach beq (get_type_info k env) (c, l) -> In (s, Ret r) l ->
  type_info k env s <> OutOfFuel -> r = type_info k env s.
Proof.
  intros k env c l s r R I N.
  destruct (reach_result beq beq_ok (fresh_info env) _ (answer k env) (get_type_info k env) c l s r (info_safe k env) R I) as [(-> & E)|(Nr & k0 & Hk)]; [contradiction|].
  rewrite <- (Hk (Nat.max k0 k)) by lia. apply type_info_mono; [lia|exact N].
Qed.
Print Assumptions C51_type_info.
(** C51. What is in the cache at any time is what a computation without cache gives. *)
Theorem C51_entries : forall k env c l s ti, reach beq (get_type_info k env) (c, l) -> c s = Some ti -> exists k', type_info k' env s = Ok ti.
Proof.
  intros k env c l s ti R E. destruct (reach_safe beq beq_ok (fresh_info env) _ (answer k env) (get_type_info k env) (info_safe k env) _ R) as (L & _).
  destruct (L s ti E) as (_ & k0 & H). exists k0. apply H. lia.
Qed.
Print Assumptions C51_entries.

(** A schedule: new calls and the goroutines that do their next operation. *)
Definition sched1 {A} (call : bytes -> tprog A) (w : world A) (x : bytes + nat) : world A :=
  match x with
  | inl s => (fst w, snd w ++ [(s, call s)])
  | inr i => match nth_error (snd w) i with
             | Some (s, p) => let '(c, p') := step1 beq (fst w) p in (c, firstn i (snd w) ++ (s, p') :: skipn (S i) (snd w))
             | None => w
             end
  end.
Lemma sched1_step : forall A (call : bytes -> tprog A) w x, reach beq call w -> reach beq call (sched1 call w x).
Proof.
  intros A call [c l] [s|i] R; cbn [sched1 fst snd].
  - eapply R_step; [exact R|]. constructor.
  - destruct (nth_error l i) as [[s p]|] eqn:E; [|exact R]. destruct (step1 beq c p) as [c' p'] eqn:S. eapply R_step; [exact R|].
    apply nth_error_split in E as (a & b & -> & La).
    replace (firstn i (a ++ (s, p) :: b)) with a by (rewrite firstn_app, <- La, Nat.sub_diag, firstn_all; cbn; rewrite app_nil_r; reflexivity).
    replace (skipn (Datatypes.S i) (a ++ (s, p) :: b)) with b.
    + apply S_run. exact S.
    + rewrite skipn_app, skipn_all2 by lia. replace (Datatypes.S i - length a)%nat with 1%nat by lia. reflexivity.
Qed.
(** Two goroutines that both analyse an embedded struct, and a third that finds it in the cache. *)
Definition busy : world (outcome terr tinfo) :=
  fold_left (sched1 (get_type_info 5 mpd_types))
    [inl (str "AdaptationSetType"); inl (str "RepresentationType"); inr 0; inr 1; inr 0; inr 1; inr 1; inr 0; inl (str "RepresentationBaseType"); inr 2; inr 0; inr 1]%nat (empty, []).
Example C51_example : reach beq (get_type_info 5 mpd_types) busy /\
  map (fun t => match snd t with Ret r => Some r | _ => None end) (snd busy) =
  [Some (type_info 5 mpd_types (str "AdaptationSetType")); Some (type_info 5 mpd_types (str "RepresentationType")); Some (type_info 5 mpd_types (str "RepresentationBaseType"))].
Proof. split; [unfold busy; cbn [fold_left]; repeat apply sched1_step; constructor|vm_compute; reflexivity]. Qed.

(** *** What was looked up stays in the cache *)
Section Kept.
Context {K V : Type} (keq : K -> K -> bool) (keq_ok : forall a b, keq a b = true <-> a = b).
(** [Q] holds of the result and the entries that were seen; nothing is overwritten. *)
Fixpoint ends {A} (Q : (K -> V -> Prop) -> A -> Prop) (W : K -> V -> Prop) (p : @prog K V A) : Prop :=
  match p with
  | Ret a => Q W a
  | Load key next => ends Q W (next None) /\ forall v, ends Q (fun x y => W x y \/ x = key /\ y = v) (next (Some v))
  | Store _ _ _ => False
  | LoadOrStore key _ next => forall v, ends Q (fun x y => W x y \/ x = key /\ y = v) (next v)
  end.
Lemma ends_bind : forall A B (f : A -> @prog K V B) Q (Q' : (K -> V -> Prop) -> A -> Prop) (p : @prog K V A) W,
  (forall W a, Q' W a -> ends Q W (f a)) -> ends Q' W p -> ends Q W (pbind p f).
Proof.
  intros A B f Q Q'. induction p as [a|key next IH|key v next IH|key v next IH]; intros W H E; cbn in *; auto.
  destruct E as [E1 E2]. split; auto.
Qed.
Definition seen {A} (Q : K -> (K -> V -> Prop) -> A -> Prop) (c : @cache K V) (x : K * @prog K V A) : Prop :=
  exists W : K -> V -> Prop, (forall key v, W key v -> c key = Some v) /\ ends (Q (fst x)) W (snd x).
Lemma step1_seen : forall A (p : @prog K V A) c c' p' Q (W : K -> V -> Prop), step1 keq c p = (c', p') -> (forall key v, W key v -> c key = Some v) -> ends Q W p ->
  (forall key v, c key = Some v -> c' key = Some v) /\ exists W' : K -> V -> Prop, (forall key v, W' key v -> c' key = Some v) /\ ends Q W' p'.
Proof.
  intros A [a|key next|key v next|key v next] c c' p' Q W S H E; cbn in *.
  - inversion S; subst. split; [auto|]. exists W. auto.
  - inversion S; subst. split; [auto|]. destruct E as [E1 E2]. destruct (c' key) as [v|] eqn:C.
    + eexists. split; [|apply E2]. intros x y [I|[-> ->]]; auto.
    + exists W. auto.
  - contradiction.
  - destruct (c key) as [w|] eqn:C; inversion S; subst.
    + split; [auto|]. eexists. split; [|apply E]. intros x y [I|[-> ->]]; auto.
    + assert (M : forall x y, c x = Some y -> put keq c key v x = Some y).
      { intros x y X. unfold put. destruct (keq key x) eqn:Y; [apply keq_ok in Y; congruence | exact X]. }
      split; [exact M|]. eexists. split; [|apply E]. intros x y [I|[-> ->]]; [auto|]. unfold put. rewrite (proj2 (keq_ok key key) eq_refl). reflexivity.
Qed.
Lemma reach_seen : forall A (call : K -> @prog K V A) (Q : K -> (K -> V -> Prop) -> A -> Prop), (forall key, ends (Q key) (fun _ _ => False) (call key)) ->
  forall w, reach keq call w -> Forall (seen Q (fst w)) (snd w).
Proof.
  intros A call Q H w R. induction R as [|w w' R IH S]; [constructor|]. destruct S as [c l key|c a key p b c' p' S]; cbn [fst snd] in *.
  - apply Forall_app. split; [exact IH|]. constructor; [|constructor]. exists (fun _ _ => False). split; [tauto | apply H].
  - apply Forall_app in IH. destruct IH as [IA IB]. inversion IB as [|? ? (W & W1 & W2) IC]; subst. cbn [fst snd] in *.
    destruct (step1_seen _ _ _ _ _ _ _ S W1 W2) as [M (W' & W3 & W4)].
    assert (MO : forall x, seen Q c x -> seen Q c' x) by (intros x (U & U1 & U2); exists U; auto).
    apply Forall_app. split; [eapply Forall_impl; [exact MO | exact IA]|]. constructor; [exists W'; auto | eapply Forall_impl; [exact MO | exact IC]].
Qed.
End Kept.
Definition noted (s : bytes) (W : bytes -> tinfo -> Prop) (r : outcome terr tinfo) : Prop := forall ti, r = Ok ti -> W s ti.
Lemma pdo_ends : forall A B (x : outcome terr A) (f : A -> tprog (outcome terr B)) Q W,
  (forall a, x = Ok a -> ends Q W (f a)) -> (forall r, (forall b, r <> Ok b) -> Q W r) -> ends Q W (pdo x f).
Proof. intros A B [a|e| |] f Q W H N; cbn; auto; apply N; discriminate. Qed.
Lemma field_loop_ends : forall env inner, (forall s W, ends (fun _ _ => True) W (inner s)) ->
  forall fs i x fields W, ends (fun _ _ => True) W (field_loop_p env inner i fs x fields).
Proof.
  intros env inner H. induction fs as [|f fs IH]; intros i x fields W; cbn [field_loop_p]; [exact I|].
  destruct (negb (exported (fd_name f)) && negb (fd_anon f) || beq (fd_tag f) (str "-")); [apply IH|].
  destruct (if fd_anon f then embedded (fd_type f) else None) as [s|].
  - eapply ends_bind; [|apply H]. intros W' r _. apply pdo_ends; auto. intros ti _. apply pdo_ends; auto.
  - apply pdo_ends; auto. intros fi _. destruct (beq (fd_name f) xml_name); [apply IH|]. apply pdo_ends; auto.
Qed.
Lemma info_ends : forall k env s W, ends (noted s) W (get_type_info k env s) /\ ends (fun _ _ => True) W (get_type_info k env s).
Proof.
  induction k as [|k IH]; intros env s W; cbn [get_type_info ends]; [split; [intros ti E; discriminate | exact I]|].
  assert (L : forall W, ends (fun _ _ => True) W (field_loop_p env (get_type_info k env) 0 (fields_of env s) None [])).
  { apply field_loop_ends. intros s' W'. apply IH. }
  split; (split; [eapply ends_bind; [|apply L]; intros W' r _; apply pdo_ends; [intros [x fields] _|] | intros v]); cbn; auto.
  - intros v ti E. inversion E; subst. auto.
  - intros r' N ti E. destruct (N ti E).
  - intros ti E. inversion E; subst. auto.
Qed.
(** C51. What a call returned is in the cache from then on: it is not computed again, and all calls for a type return the
    same object. *)
Theorem C51_kept : forall k env c l s ti, reach beq (get_type_info k env) (c, l) -> In (s, Ret (Ok ti)) l -> c s = Some ti.
Proof.
  intros k env c l s ti R IN.
  pose proof (reach_seen beq beq_ok _ (get_type_info k env) noted (fun key => proj1 (info_ends k env key _)) _ R) as F.
  cbn [fst snd] in F. rewrite Forall_forall in F. destruct (F _ IN) as (W & W1 & W2). cbn in W2. apply W1, W2. reflexivity.
Qed.
Print Assumptions C51_kept.
Theorem C51_impl_kept : forall (T I : Type) (teq : T -> T -> bool), (forall a b, teq a b = true <-> a = b) -> forall compute : T -> I,
  forall c l t r, reach teq (get_type_impl compute) (c, l) -> In (t, Ret r) l -> c t = Some r.
Proof.
  intros T I teq Hq compute.
  set (ok := fun (c : @cache T I) (x : T * @prog T I I) => snd x = get_type_impl compute (fst x) \/
    snd x = Store (fst x) (compute (fst x)) (Ret (compute (fst x))) \/ snd x = Ret (compute (fst x)) /\ c (fst x) = Some (compute (fst x))).
  assert (H : forall w, reach teq (get_type_impl compute) w -> (forall t v, fst w t = Some v -> v = compute t) /\ Forall (ok (fst w)) (snd w)).
  { intros w R. induction R as [|w w' R [L IH] S]; [split; [discriminate | constructor]|]. destruct S as [c l key|c a key p b c' p' S]; cbn [fst snd] in *.
    - split; [exact L|]. apply Forall_app. split; [exact IH|]. constructor; [left; reflexivity | constructor].
    - apply Forall_app in IH. destruct IH as [IA IB]. inversion IB as [|? ? OK IC]; subst. unfold ok in OK. cbn [fst snd] in OK.
      assert (MO : (forall t v, c t = Some v -> c' t = Some v) -> forall x, ok c x -> ok c' x) by (intros M x [X|[X|[X Y]]]; unfold ok; auto).
      assert (N : (forall t v, c t = Some v -> c' t = Some v) /\ (forall t v, c' t = Some v -> v = compute t) /\ ok c' (key, p')).
      { destruct OK as [->|[->|[-> OK]]]; cbn in S; inversion S; subst.
        - split; [auto|]. split; [exact L|]. destruct (c' key) as [v|] eqn:C; [|right; left; reflexivity]. pose proof (L _ _ C) as X. cbn in X. right; right. cbn. split; [f_equal; exact X | rewrite <- X; exact C].
        - split; [|split].
          + intros t v X. unfold put. destruct (teq key t) eqn:Y; [|exact X]. apply Hq in Y. subst t. rewrite (L _ _ X). reflexivity.
          + intros t v X. unfold put in X. destruct (teq key t) eqn:Y; [|auto]. apply Hq in Y. subst t. congruence.
          + right; right. split; [reflexivity|]. cbn. unfold put. rewrite (proj2 (Hq key key) eq_refl). reflexivity.
        - split; [auto|]. split; [exact L|]. right; right. auto. }
      destruct N as (M & L' & OK'). split; [exact L'|]. apply Forall_app. split; [eapply Forall_impl; [apply MO, M | exact IA]|].
      constructor; [exact OK' | eapply Forall_impl; [apply MO, M | exact IC]]. }
  intros c l t r R IN. destruct (H _ R) as [_ F]. rewrite Forall_forall in F. destruct (F _ IN) as [X|[X|[X Y]]]; cbn in *; try discriminate. congruence.
Qed.
Print Assumptions C51_impl_kept.
