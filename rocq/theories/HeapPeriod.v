(** Proofs about period timing, inherited properties and address templates. *)
From Coq Require Import String.
From Coq Require Import ZArith List Bool Lia.
From Coq Require Import ZifyBool ZifyNat.
From Verif Require Import Base Heap HeapSpec HeapProofs.
Import ListNotations.
Local Open Scope nat_scope.

Lemma wrap_add : forall a b, wrap_i64 (wrap_i64 a + b) = wrap_i64 (a + b).
Proof.
  intros a b. unfold wrap_i64, two63, two64.
  replace ((a + 9223372036854775808) mod 18446744073709551616 - 9223372036854775808 + b + 9223372036854775808)%Z
    with ((a + 9223372036854775808) mod 18446744073709551616 + b)%Z by lia.
  rewrite Z.add_mod_idemp_l by lia. f_equal. f_equal. lia.
Qed.

(** ** Start of a period *)
Definition step_start (static : bool) (t : list (option Z * option Z)) (i : nat) (v : Z) : Prop :=
  (exists d, nth_error t i = Some (Some v, d)) \/
  ((exists d, nth_error t i = Some (None, d)) /\
   match i with
   | 0 => static = true /\ v = 0%Z
   | S j => exists s d, nth_error t j = Some (s, Some d) /\ period_start static t j (v - d)
   end).
Lemma total_app : forall a b, total (a ++ b) = (total a + total b)%Z.
Proof. induction a as [|x a IH]; intro b; cbn [app total]; [lia|]. rewrite IH. lia. Qed.
Lemma period_start_step : forall st t i v, period_start st t i v <-> step_start st t i v.
Proof.
  intros st t i v. split.
  - intros (j & base & ds & Hj & B & S0 & Ld & D & ->).
    destruct (Nat.eq_dec j i) as [->|N].
    + replace (i - i) with 0 in Ld by lia. destruct ds; [|discriminate]. cbn [total]. rewrite Z.add_0_r.
      destruct B as [B|(-> & ? & -> & B)]; [left; auto|right; auto].
    + right. split; [apply S0; lia|]. destruct i as [|i]; [lia|].
      destruct (exists_last (l := ds)) as (ds' & d & ->); [intros ->; cbn [length] in Ld; lia|].
      rewrite app_length in Ld. cbn [length] in Ld.
      destruct (D (i - j)) as (s & E); [lia|]. replace (j + (i - j)) with i in E by lia.
      replace (i - j) with (length ds') in E by lia. rewrite app_nth2, Nat.sub_diag in E by lia. cbn [nth] in E.
      exists s, d. split; auto. exists j, base, ds'. split; [lia|]. split; auto. split; [intros k K; apply S0; lia|].
      split; [lia|]. split.
      * intros k K. destruct (D k) as (s' & E'); [lia|]. rewrite app_nth1 in E' by lia. eauto.
      * rewrite total_app. cbn [total]. lia.
  - intros [(d & E)|((d & E) & H)].
    + exists i, v, []. rewrite Nat.sub_diag. split; [lia|]. split; [left; eauto|]. split; [intros; lia|]. split; [reflexivity|].
      split; [intros; lia|]. cbn. lia.
    + destruct i as [|i].
      * destruct H as [Hs ->]. exists 0, 0%Z, []. split; [lia|]. split; [right; eauto 6|]. split; [intros; lia|]. split; [reflexivity|].
        split; [intros; lia|]. reflexivity.
      * destruct H as (s & x & E1 & (j & base & ds & Hj & B & S0 & Ld & D & Ev)).
        exists j, base, (ds ++ [x]). split; [lia|]. split; auto. split; [|split; [|split]].
        -- intros k K. destruct (Nat.eq_dec k (S i)) as [->|]; [eauto|]. apply S0. lia.
        -- rewrite app_length. cbn [length]. lia.
        -- intros k K. destruct (Nat.eq_dec k (i - j)) as [->|].
           ++ exists s. replace (j + (i - j)) with i by lia. rewrite app_nth2 by lia. replace (i - j - length ds) with 0 by lia. auto.
           ++ destruct (D k) as (s' & E'); [lia|]. exists s'. rewrite app_nth1 by lia. auto.
        -- rewrite total_app. cbn [total]. lia.
Qed.
Lemma period_start_unique : forall st t i v w, period_start st t i v -> period_start st t i w -> v = w.
Proof.
  intros st t i. induction i as [|i IH]; intros v w A B; apply period_start_step in A; apply period_start_step in B;
    destruct A as [(d & A)|((d & A) & A')], B as [(e & B)|((e & B) & B')]; try congruence.
  - destruct A', B'. congruence.
  - destruct A' as (s & x & A1 & A2), B' as (s' & x' & B1 & B2). rewrite A1 in B1. inversion B1; subst.
    specialize (IH _ _ A2 B2). lia.
Qed.

Lemma index_of_nth : forall ps i p k, NoDup ps -> nth_error ps i = Some p -> index_of p (map Some ps) k = Some (k + i).
Proof.
  induction ps as [|q ps IH]; intros i p k ND E; [destruct i; discriminate|]. inversion ND as [|? ? NI ND']; subst. destruct i as [|i]; cbn in E.
  - inversion E; subst. cbn. rewrite Nat.eqb_refl. f_equal. lia.
  - cbn. destruct (Nat.eqb_spec q p) as [->|N].
    + exfalso. apply NI. eapply nth_error_In; eauto.
    + rewrite (IH i p (S k)); auto. f_equal. lia.
Qed.
Lemma index_of_in : forall ps p k, In p ps -> exists i, index_of p (map Some ps) k = Some (k + i) /\ nth_error ps i = Some p /\ i < length ps.
Proof.
  induction ps as [|q ps IH]; intros p k I; [contradiction|]. cbn [map index_of]. destruct (Nat.eqb_spec q p) as [->|N].
  - exists 0. split; [f_equal; lia|]. split; auto. cbn. lia.
  - destruct I as [I|I]; [congruence|]. destruct (IH p (S k) I) as (i & E & F & L). exists (S i). split; [rewrite E; f_equal; lia|]. split; auto. cbn. lia.
Qed.
Lemma index_of_first : forall ps p k i j, index_of p (map Some ps) k = Some (k + i) -> nth_error ps j = Some p -> i <= j.
Proof.
  induction ps as [|q ps IH]; intros p k i j E F; [discriminate|]. cbn [map index_of] in E. destruct (Nat.eqb_spec q p) as [->|N].
  - inversion E. lia.
  - destruct j as [|j]; [cbn in F; congruence|]. cbn in F. destruct i as [|i].
    + exfalso. assert (In p ps) as I by (eapply nth_error_In; eauto). destruct (index_of_in ps p (S k) I) as (x & X & _). rewrite X in E. inversion E. lia.
    + replace (k + S i) with (S k + i) in E by lia. specialize (IH _ _ _ _ E F). lia.
Qed.

Section Timing.
  Variables (h : heap) (m : loc) (mn : node) (ps : list loc).
  Hypothesis LM : linked_mpd h m mn ps.
  Let t := timing h ps.
  Let st := beq (mpd_type h mn) (str "static").
  Lemma nth_timing : forall i p, nth_error ps i = Some p -> exists pn, mem h p = Some pn /\ parent pn = Some m /\ nth_error t i = Some (dfield h pn FStart, dfield h pn FDuration).
  Proof using LM.
    intros i p E. destruct (lm_back _ _ _ _ LM p (nth_error_In _ _ E)) as (pn & M & P). exists pn. split; auto. split; auto.
    unfold t, timing. rewrite nth_error_map, E. cbn. now rewrite M.
  Qed.
  Lemma nth_timing_none : forall i, nth_error ps i = None -> nth_error t i = None.
  Proof. intros i E. unfold t, timing. rewrite nth_error_map, E. reflexivity. Qed.
  Lemma get_index_ok : NoDup ps -> forall i p, nth_error ps i = Some p -> get_index h p = Ok i.
  Proof using LM.
    intros ND i p E. destruct (nth_timing i p E) as (pn & M & P & _). unfold get_index, at_loc. rewrite M. cbn [bind]. rewrite P.
    rewrite (lm_mpd _ _ _ _ LM). cbn [bind]. rewrite (lm_list _ _ _ _ LM), (index_of_nth ps i p 0 ND E). reflexivity.
  Qed.
  Lemma period_at_ok : forall i q, nth_error ps i = Some q -> period_at h mn i = at_loc h q.
  Proof using LM. intros i q E. unfold period_at. rewrite (lm_list _ _ _ _ LM), nth_error_map, E. reflexivity. Qed.
  Lemma get_start_eq : forall fuel i p, index_of p (map Some ps) 0 = Some i -> nth_error ps i = Some p ->
    get_start (S fuel) h p =
    match nth_error t i with
    | Some (Some s, _) => Ok s
    | _ => match i with
           | 0 => if st then Ok 0%Z else Err ErrUnknownPeriodStart
           | S j => match nth_error ps j, nth_error t j with
                    | Some q, Some (_, Some d) => do s <- get_start fuel h q ; Ok (wrap_i64 (s + d)%Z)
                    | _, _ => Err ErrUnknownPeriodStart
                    end
           end
    end.
  Proof using LM.
    intros fuel i p X E. destruct (nth_timing i p E) as (pn & M & P & T). cbn [get_start].
    unfold at_loc at 1. rewrite M. cbn [bind]. rewrite P, T. destruct (dfield h pn FStart) as [s|]; [reflexivity|].
    unfold get_index, at_loc at 1. rewrite M. cbn [bind]. rewrite P. unfold at_loc at 1. rewrite (lm_mpd _ _ _ _ LM). cbn [bind].
    rewrite (lm_list _ _ _ _ LM), X. cbn [bind]. unfold at_loc at 1. rewrite (lm_mpd _ _ _ _ LM). cbn [bind].
    destruct i as [|j]; [reflexivity|]. rewrite (lm_list _ _ _ _ LM), nth_error_map.
    destruct (nth_error ps j) as [q|] eqn:Q.
    - cbn [option_map]. destruct (nth_timing j q Q) as (qn & Mq & Pq & Tq). unfold at_loc. rewrite Mq. cbn [bind]. rewrite Tq.
      destruct (dfield h qn FDuration); reflexivity.
    - exfalso. apply nth_error_None in Q. assert (S j < length ps) by (apply nth_error_Some; congruence). lia.
  Qed.
  Theorem get_start_spec : NoDup ps -> timing_i64 t -> forall i p fuel, nth_error ps i = Some p -> i < fuel ->
    (exists v, period_start st t i v /\ get_start fuel h p = Ok (wrap_i64 v)) \/
    ((forall v, ~ period_start st t i v) /\ get_start fuel h p = Err ErrUnknownPeriodStart).
  Proof using LM.
    intros ND TI i. induction i as [|i IH]; intros p fuel E F; (destruct fuel as [|fuel]; [lia|]);
      pose proof (index_of_nth ps _ p 0 ND E) as X; cbn [Nat.add] in X; rewrite (get_start_eq fuel _ p X E);
      destruct (nth_timing _ p E) as (pn & M & P & T); rewrite T; destruct (dfield h pn FStart) as [s|] eqn:DS.
    1, 3: left; exists s; split; [apply period_start_step; left; eauto|];
      rewrite wrap_i64_id; [reflexivity|]; apply nth_error_In in T; unfold timing_i64 in TI; rewrite Forall_forall in TI; apply TI in T; apply T.
    - destruct st eqn:ST.
      + left. exists 0%Z. split; [|reflexivity]. apply period_start_step. right. eauto.
      + right. split; [|reflexivity]. intros v V. apply period_start_step in V.
        destruct V as [(d & V)|(_ & V & _)]; [rewrite T in V|]; discriminate.
    - destruct (nth_error ps i) as [q|] eqn:Q.
      2: { exfalso. apply nth_error_None in Q. assert (S i < length ps) by (apply nth_error_Some; congruence). lia. }
      destruct (nth_timing i q Q) as (qn & Mq & Pq & Tq). rewrite Tq. destruct (dfield h qn FDuration) as [d|] eqn:DD.
      + destruct (IH q fuel eq_refl ltac:(lia)) as [(v & V & G)|(NV & G)]; rewrite G; cbn [bind].
        * left. exists (v + d)%Z. split; [|now rewrite wrap_add]. apply period_start_step. right. split; eauto.
          exists (dfield h qn FStart), d. split; auto. replace (v + d - d)%Z with v by lia. auto.
        * right. split; auto. intros v V. apply period_start_step in V.
          destruct V as [(e & V)|(_ & s & e & V1 & V2)]; [congruence|]. eapply NV; eauto.
      + right. split; auto. intros v V. apply period_start_step in V.
        destruct V as [(e & V)|(_ & s & e & V1 & V2)]; congruence.
  Qed.
  Theorem get_start_terminates : forall p fuel, In p ps -> length ps <= fuel -> get_start fuel h p <> OutOfFuel.
  Proof using LM.
    assert (K : forall i p fuel, index_of p (map Some ps) 0 = Some i -> nth_error ps i = Some p -> i < fuel -> get_start fuel h p <> OutOfFuel).
    { intro i. induction i as [i IH] using (well_founded_induction lt_wf). intros p fuel X E F. destruct fuel as [|fuel]; [lia|].
      rewrite (get_start_eq fuel i p X E). destruct (nth_timing i p E) as (pn & M & P & T). rewrite T.
      destruct (dfield h pn FStart); [discriminate|]. destruct i as [|i]; [destruct st; discriminate|].
      destruct (nth_error ps i) as [q|] eqn:Q; [|discriminate].
      destruct (nth_timing i q Q) as (qn & Mq & Pq & Tq). rewrite Tq. destruct (dfield h qn FDuration); [|discriminate].
      destruct (index_of_in ps q 0 (nth_error_In _ _ Q)) as (j & J1 & J2 & J3).
      pose proof (index_of_first ps q 0 j i J1 Q) as J4.
      assert (get_start fuel h q <> OutOfFuel) by (apply (IH j); auto; lia).
      destruct (get_start fuel h q); cbn [bind]; congruence. }
    intros p fuel I F. destruct (index_of_in ps p 0 I) as (i & X & E & L). apply (K i); auto. lia.
  Qed.

  (** ** Duration of a period *)
  Definition entry (i : nat) : option Z * option Z := match nth_error t i with Some e => e | None => (None, None) end.
  Theorem get_duration_spec : NoDup ps -> forall i p, nth_error ps i = Some p ->
    get_duration h p =
    match entry i with
    | (_, Some d) => Ok d
    | (s, None) =>
        if st then
          match dfield h mn FMPDur with
          | None => Err ErrNoMediaPresentationDuration
          | Some total =>
              match s, (if Nat.eqb (S i) (length ps) then Some total else fst (entry (S i))) with
              | Some s, Some e => Ok (wrap_i64 (e - s)%Z)
              | _, _ => Err ErrUnknownPeriodDur
              end
          end
        else
          match s, (if Nat.eqb (S i) (length ps) then None else fst (entry (S i))) with
          | Some s, Some e => Ok (wrap_i64 (e - s)%Z)
          | _, _ => Err ErrUnknownPeriodDur
          end
    end.
  Proof using LM.
    intros ND i p E. pose proof (get_index_ok ND i p E) as GI. destruct (nth_timing i p E) as (pn & M & P & T).
    unfold get_duration, entry. rewrite T. unfold at_loc at 1. rewrite M. cbn [bind].
    destruct (dfield h pn FDuration) as [d|]; [reflexivity|]. rewrite P. unfold at_loc at 1. rewrite (lm_mpd _ _ _ _ LM). cbn [bind].
    rewrite GI. cbn [bind]. rewrite (lm_list _ _ _ _ LM), map_length. fold st.
    assert (L : i < length ps) by (apply nth_error_Some; congruence).
    assert (NX : S i <> length ps -> exists q qn, nth_error ps (S i) = Some q /\ mem h q = Some qn /\ nth_error t (S i) = Some (dfield h qn FStart, dfield h qn FDuration)).
    { intro N. destruct (nth_error ps (S i)) as [q|] eqn:Q; [|apply nth_error_None in Q; lia].
      destruct (nth_timing (S i) q Q) as (qn & Mq & _ & Tq). eauto. }
    destruct st.
    - destruct (dfield h mn FMPDur) as [tot|]; [|reflexivity].
      destruct (Nat.eqb_spec (S i) (length ps)) as [EQ|NE].
      + replace (Nat.ltb (S i) (length ps)) with false by lia. cbn [bind]. destruct (dfield h pn FStart); reflexivity.
      + replace (Nat.ltb (S i) (length ps)) with true by lia. destruct (NX NE) as (q & qn & Q & Mq & Tq).
        rewrite (period_at_ok _ _ Q). unfold at_loc. rewrite Mq. cbn [bind]. rewrite Tq. cbn [fst].
        destruct (dfield h qn FStart), (dfield h pn FStart); reflexivity.
    - destruct (dfield h pn FStart) as [s|]; [|reflexivity].
      destruct (Nat.eqb_spec (S i) (length ps)) as [EQ|NE]; [reflexivity|].
      destruct (NX NE) as (q & qn & Q & Mq & Tq). rewrite (period_at_ok _ _ Q). unfold at_loc. rewrite Mq. cbn [bind]. rewrite Tq. cbn [fst].
      destruct (dfield h qn FStart); reflexivity.
  Qed.

  (** ** Type of a period *)
  Definition terminated (i : nat) : bool :=
    match snd (entry i) with
    | None => false
    | Some _ => match dfield h mn FMinUpd with
                | Some _ => true
                | None => match fst (entry (S i)) with Some _ => true | None => false end
                end
    end.
  Theorem get_ptype_spec : NoDup ps -> forall i p, nth_error ps i = Some p ->
    get_ptype h p = Ok
      (match fst (entry i), (match i with 0 => None | S j => snd (entry j) end) with
       | Some _, _ => if terminated i then PTEarlyTerminated else PTRegular
       | None, Some _ => if terminated i then PTEarlyTerminated else PTRegularOrEarlyTerminated
       | None, None => if beq (mpd_type h mn) (str "dynamic") then PTEarlyAvailable else PTRegular
       end).
  Proof using LM.
    intros ND i p E. pose proof (get_index_ok ND i p E) as GI. destruct (nth_timing i p E) as (pn & M & P & T).
    unfold get_ptype. unfold at_loc at 1. rewrite M. cbn [bind]. rewrite P. unfold at_loc at 1. rewrite (lm_mpd _ _ _ _ LM). cbn [bind].
    rewrite GI. cbn [bind]. rewrite (lm_list _ _ _ _ LM), map_length.
    assert (L : i < length ps) by (apply nth_error_Some; congruence).
    assert (ET : is_early_terminated h pn mn i (length ps) = Ok (terminated i)).
    { unfold is_early_terminated, terminated, entry. rewrite T. cbn [snd]. destruct (dfield h pn FDuration); [|reflexivity].
      destruct (dfield h mn FMinUpd); [reflexivity|]. destruct (Nat.ltb_spec (S i) (length ps)) as [H|H].
      - destruct (nth_error ps (S i)) as [q|] eqn:Q; [|apply nth_error_None in Q; lia].
        destruct (nth_timing (S i) q Q) as (qn & Mq & _ & Tq). rewrite (period_at_ok _ _ Q). unfold at_loc. rewrite Mq. cbn [bind]. rewrite Tq. reflexivity.
      - rewrite nth_timing_none; [reflexivity|]. apply nth_error_None. lia. }
    assert (E0 : fst (entry i) = dfield h pn FStart) by (unfold entry; rewrite T; reflexivity). rewrite E0.
    destruct (dfield h pn FStart).
    { rewrite ET. reflexivity. }
    destruct i as [|j]; [cbn [bind]; destruct (beq (mpd_type h mn) (str "dynamic")); reflexivity|].
    destruct (nth_error ps j) as [q|] eqn:Q; [|apply nth_error_None in Q; lia].
    destruct (nth_timing j q Q) as (qn & Mq & _ & Tq). rewrite (period_at_ok _ _ Q). unfold at_loc. rewrite Mq. cbn [bind].
    assert (E1 : snd (entry j) = dfield h qn FDuration) by (unfold entry; rewrite Tq; reflexivity). rewrite E1.
    destruct (dfield h qn FDuration); [rewrite ET; reflexivity|]. destruct (beq (mpd_type h mn) (str "dynamic")); reflexivity.
  Qed.
End Timing.

(** ** Templates *)
Definition wrap_dollar (k : bytes) : bytes := str "$" ++ k ++ str "$".
Lemma strip_spec : forall p s r, strip p s = Some r <-> s = p ++ r.
Proof.
  induction p as [|x p IH]; intros s r; cbn; [split; congruence|]. destruct s as [|y s]; [split; discriminate|].
  destruct (Z.eqb_spec x y) as [->|N].
  - rewrite IH. split; congruence.
  - split; congruence.
Qed.
(** [replace_all] with enough fuel does not depend on the fuel. *)
Lemma strip_len : forall p s r, strip p s = Some r -> p <> [] -> length r < length s.
Proof. intros p s r H N. apply strip_spec in H. subst. rewrite app_length. destruct p; [congruence|cbn; lia]. Qed.
Lemma replace_fuel : forall n m s old new, old <> [] -> length s <= n -> length s <= m -> replace_all n s old new = replace_all m s old new.
Proof.
  induction n as [|n IH]; intros m s old new O L1 L2.
  - destruct s; [|cbn in L1; lia]. destruct m; cbn; auto. destruct old; [congruence|reflexivity].
  - destruct m as [|m]; [destruct s; [|cbn in L2; lia]; cbn; destruct old; [congruence|reflexivity]|].
    cbn [replace_all]. destruct (strip old s) as [r|] eqn:E.
    + f_equal. pose proof (strip_len _ _ _ E O). apply IH; auto; lia.
    + destruct s as [|c s]; auto. f_equal. cbn in L1, L2. apply IH; auto; lia.
Qed.
Definition repl (s old new : bytes) : bytes := replace_all (length s) s old new.
Lemma repl_hit : forall old new r, old <> [] -> repl (old ++ r) old new = new ++ repl r old new.
Proof.
  intros old new r O. unfold repl. rewrite (replace_fuel _ (S (length (old ++ r))) _ old new) by (auto; lia).
  cbn [replace_all]. assert (E : strip old (old ++ r) = Some r) by now apply strip_spec. rewrite E. f_equal.
  apply replace_fuel; auto. rewrite app_length. lia.
Qed.
Lemma repl_miss : forall old new c r, old <> [] -> strip old (c :: r) = None -> repl (c :: r) old new = c :: repl r old new.
Proof. intros old new c r O E. unfold repl. cbn [length replace_all]. rewrite E. reflexivity. Qed.
Lemma repl_nil : forall old new, repl [] old new = [].
Proof. reflexivity. Qed.
Lemma repl_lit : forall k new s r, dollar_free s -> repl (s ++ r) (wrap_dollar k) new = s ++ repl r (wrap_dollar k) new.
Proof.
  intros k new. induction s as [|c s IH]; intros r D; [reflexivity|]. cbn [app]. rewrite repl_miss; [|discriminate|].
  - f_equal. apply IH. intro I. apply D. now right.
  - unfold wrap_dollar. cbn. destruct c as [|c|c]; auto. destruct (Pos.eqb_spec 36 c) as [<-|]; auto. exfalso. apply D. now left.
Qed.
Lemma dollar_split : forall a b r r', dollar_free a -> dollar_free b -> a ++ 36%Z :: r = b ++ 36%Z :: r' -> a = b /\ r = r'.
Proof.
  induction a as [|x a IH]; intros [|y b] r r' A B E; cbn in E; inversion E; subst; auto.
  - exfalso. apply B. now left.
  - exfalso. apply A. now left.
  - destruct (IH b r r') as [-> ->]; auto; intro I; [apply A|apply B]; now right.
Qed.
(** The text after a closing dollar does not start with the word [k] and a dollar. *)
Lemma gap_miss : forall k, dollar_free k -> forall ts g, toks_ok ts -> dollar_free g -> gaps_ok k (Some g) ts ->
  forall r, g ++ text ts <> k ++ 36%Z :: r.
Proof.
  intros k K. induction ts as [|t ts IH]; intros g O DG GO r E.
  - cbn in E. rewrite app_nil_r in E. apply DG. rewrite E. apply in_or_app. right. now left.
  - inversion O as [|? ? O1 O2]; subst. destruct t as [s|s]; cbn [gaps_ok] in GO.
    + unfold text in E. cbn in E. rewrite app_assoc in E. apply (IH (g ++ s) O2) in E; auto.
      intro I. apply in_app_or in I. destruct I; auto.
    + destruct GO as [GO _]. unfold text in E. cbn in E. apply dollar_split in E; auto. destruct E as [-> _]. congruence.
Qed.
Lemma repl_text : forall k new, dollar_free k -> forall ts gap, toks_ok ts -> gaps_ok k gap ts ->
  repl (text ts) (wrap_dollar k) new = text (subst k new ts).
Proof.
  intros k new K. induction ts as [|t ts IH]; intros gap O GO; [reflexivity|].
  inversion O as [|? ? O1 O2]; subst. destruct t as [s|s].
  - cbn [gaps_ok] in GO. change (text (Lit s :: ts)) with (s ++ text ts). rewrite repl_lit by auto.
    change (text (subst k new (Lit s :: ts))) with (s ++ text (subst k new ts)). f_equal. eapply IH; eauto.
  - cbn [gaps_ok] in GO. destruct GO as [_ GO]. destruct (beq s k) eqn:B.
    + pose proof B as B'. apply beq_eq in B'. subst s. change (text (Ident k :: ts)) with (wrap_dollar k ++ text ts).
      assert (ES : text (subst k new (Ident k :: ts)) = new ++ text (subst k new ts)) by (unfold text, subst; cbn [map]; rewrite B; reflexivity).
      rewrite ES, repl_hit by discriminate. f_equal. eapply IH; eauto.
    + assert (ES : text (subst k new (Ident s :: ts)) = 36%Z :: s ++ 36%Z :: text (subst k new ts)).
      { unfold text, subst. cbn [map]. rewrite B. cbn [map concat tok_text]. cbn. now rewrite <- app_assoc. }
      assert (ET : text (Ident s :: ts) = 36%Z :: s ++ 36%Z :: text ts).
      { unfold text. cbn. now rewrite <- app_assoc. }
      rewrite ES, ET. rewrite repl_miss; [|discriminate|].
      * f_equal. rewrite repl_lit by auto. f_equal. rewrite repl_miss; [|discriminate|].
        -- f_equal. eapply IH; eauto.
        -- destruct (strip (wrap_dollar k) (36%Z :: text ts)) as [r|] eqn:E; auto. exfalso. apply strip_spec in E.
           unfold wrap_dollar in E. cbn in E. rewrite <- app_assoc in E. cbn in E. inversion E as [E'].
           apply (gap_miss k K ts [] O2) in E'; auto. intros [].
      * destruct (strip (wrap_dollar k) _) as [r|] eqn:E; auto. exfalso. apply strip_spec in E. unfold wrap_dollar in E. cbn in E. inversion E as [E'].
        rewrite <- app_assoc in E'. cbn in E'. apply dollar_split in E'; auto. destruct E' as [-> _]. rewrite beq_refl in B. discriminate.
Qed.
Lemma subst_ok : forall k v ts, dollar_free v -> toks_ok ts -> toks_ok (subst k v ts).
Proof.
  intros k v ts D O. induction O as [|t ts T O IH]; constructor; auto. destruct t as [s|s]; auto. destruct (beq s k); auto.
Qed.
Definition RID := str "RepresentationID".
Definition BW := str "Bandwidth".
Lemma RID_free : dollar_free RID. Proof. cbv. intuition discriminate. Qed.
Lemma BW_free : dollar_free BW. Proof. cbv. intuition discriminate. Qed.
Theorem fill_spec : forall ts id bw, toks_ok ts -> dollar_free id -> gaps_ok RID None ts -> gaps_ok BW None (subst RID id ts) ->
  fill_template (text ts) id bw = text (subst BW (itoa bw) (subst RID id ts)).
Proof.
  intros ts id bw O D G1 G2. unfold fill_template. change (str "$RepresentationID$") with (wrap_dollar RID). change (str "$Bandwidth$") with (wrap_dollar BW).
  fold (repl (text ts) (wrap_dollar RID) id). rewrite (repl_text RID id RID_free ts None O G1).
  fold (repl (text (subst RID id ts)) (wrap_dollar BW) (itoa bw)). apply (repl_text BW (itoa bw) BW_free _ None); auto. now apply subst_ok.
Qed.
