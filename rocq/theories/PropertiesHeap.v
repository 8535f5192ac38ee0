(** Theorems C09 to C18: period timing, parent links, cloning, accessors.  Specification: HeapSpec.v. *)
From Coq Require Import String.
From Coq Require Import ZArith List Bool Lia SpecFloat Reals Psatz.
From Coq Require Import ZifyBool ZifyNat.
From Flocq Require Import Core.
From Verif Require Import Base Float64 Float64Proofs Duration Time TimeSpec TimeProofs PropertiesTime.
From Verif Require Import Heap HeapSpec HeapProofs HeapClone HeapPeriod.
Import ListNotations.
Local Open Scope nat_scope.

(** ** Concrete graphs used by the examples, built through the exported API *)
Definition run (os : list gop) : heap := match exec_all empty_heap os with Ok h => h | _ => empty_heap end.
(** MPD 0 with periods 1, 2, 3; starts and durations in objects 4.. *)
Definition ex_mpd (starts durs : list (option Z)) : heap :=
  let cells := fix go (l : loc) (f : fld) (p : loc) (vs : list (option Z)) : list gop :=
    match vs with
    | [] => []
    | None :: r => go l f (S p) r
    | Some v :: r => ONew KDur :: OData l FVal [v] :: ORefs p f [Some l] :: go (S l) f (S p) r
    end in
  let n := length (filter (fun o => match o with Some _ => true | None => false end) starts) in
  run ([ONew KMPD; ONew KPeriod; ONew KPeriod; ONew KPeriod;
        OAppend FPeriods 0 1; OAppend FPeriods 0 2; OAppend FPeriods 0 3]
       ++ cells 4 FStart 1 starts ++ cells (4 + n) FDuration 1 durs).

(** ** C09 *)
Theorem C09_period_start : forall h m mn ps i p fuel,
  linked_mpd h m mn ps -> NoDup ps -> timing_i64 (timing h ps) -> nth_error ps i = Some p -> i < fuel ->
  (exists v, period_start (beq (mpd_type h mn) (str "static")) (timing h ps) i v /\ get_start fuel h p = Ok (wrap_i64 v)) \/
  ((forall v, ~ period_start (beq (mpd_type h mn) (str "static")) (timing h ps) i v) /\ get_start fuel h p = Err ErrUnknownPeriodStart).
Proof. intros h m mn ps i p fuel LM ND TI E F. exact (get_start_spec h m mn ps LM ND TI i p fuel E F). Qed.
Print Assumptions C09_period_start.
(** The specification determines the start. *)
Theorem C09_spec_functional : forall st t i v w, period_start st t i v -> period_start st t i w -> v = w.
Proof. exact period_start_unique. Qed.
Print Assumptions C09_spec_functional.
(** Nothing after the period matters. *)
Theorem C09_prefix : forall h m mn ps h' m' mn' ps' i p p' fuel,
  linked_mpd h m mn ps -> NoDup ps -> timing_i64 (timing h ps) -> nth_error ps i = Some p ->
  linked_mpd h' m' mn' ps' -> NoDup ps' -> timing_i64 (timing h' ps') -> nth_error ps' i = Some p' ->
  i < fuel -> mpd_type h mn = mpd_type h' mn' ->
  firstn (S i) (timing h ps) = firstn (S i) (timing h' ps') ->
  get_start fuel h p = get_start fuel h' p'.
Proof.
  intros h m mn ps h' m' mn' ps' i p p' fuel A ND TI E A' ND' TI' E' F TY FN.
  assert (T : forall st v, period_start st (timing h ps) i v <-> period_start st (timing h' ps') i v).
  { assert (NE : forall k, k <= i -> nth_error (timing h ps) k = nth_error (timing h' ps') k).
    { intros k K. rewrite <- (firstn_skipn (S i) (timing h ps)), <- (firstn_skipn (S i) (timing h' ps')), FN.
      destruct (Nat.lt_ge_cases k (length (firstn (S i) (timing h' ps')))) as [L|L]; [now rewrite !nth_error_app1 by auto|].
      exfalso. rewrite firstn_length in L. unfold timing in L at 1. rewrite map_length in L.
      assert (i < length ps') by (apply nth_error_Some; congruence). lia. }
    intros st v. unfold period_start. split; intros (j & base & ds & Hj & B & S0 & Ld & D & Ev); exists j, base, ds.
    - split; auto. split; [|split; [|split; [|split]]]; auto.
      + rewrite <- (NE j), <- (NE 0) by lia. auto.
      + intros k K. rewrite <- NE by lia. auto.
      + intros k K. rewrite <- NE by lia. auto.
    - split; auto. split; [|split; [|split; [|split]]]; auto.
      + rewrite (NE j), (NE 0) by lia. auto.
      + intros k K. rewrite NE by lia. auto.
      + intros k K. rewrite NE by lia. auto. }
  destruct (C09_period_start h m mn ps i p fuel A ND TI E F) as [(v & V & G)|(V & G)];
  destruct (C09_period_start h' m' mn' ps' i p' fuel A' ND' TI' E' F) as [(v' & V' & G')|(V' & G')]; rewrite G, G'; auto.
  - apply T in V. rewrite TY in V. now rewrite (period_start_unique _ _ _ _ _ V V').
  - exfalso. apply T in V. rewrite TY in V. eapply V'; eauto.
  - exfalso. apply T in V'. rewrite <- TY in V'. eapply V; eauto.
Qed.
Print Assumptions C09_prefix.
Definition ex9 := ex_mpd [None; None; Some 100%Z] [Some 30%Z; Some 40%Z; None].
Example C09_ex : get_start 3 ex9 1 = Ok 0%Z /\ get_start 3 ex9 2 = Ok 30%Z /\ get_start 3 ex9 3 = Ok 100%Z /\
  (exists mn, linked_mpd ex9 0 mn [1; 2; 3]) /\ timing ex9 [1; 2; 3] = [(None, Some 30%Z); (None, Some 40%Z); (Some 100%Z, None)].
Proof.
  repeat split. eexists. constructor; [reflexivity|reflexivity|]. intros p [<-|[<-|[<-|[]]]]; eexists; split; reflexivity.
Qed.
(** A start that is a new Duration is zero. *)
Example C09_zero : get_start 1 (run [ONew KMPD; ONew KPeriod; OAppend FPeriods 0 1; ONew KDur; ORefs 1 FStart [Some 2]]) 1 = Ok 0%Z.
Proof. reflexivity. Qed.

(** ** C10 *)
Theorem C10_terminates : forall h m mn ps p fuel,
  linked_mpd h m mn ps -> In p ps -> length ps <= fuel -> get_start fuel h p <> OutOfFuel.
Proof. intros h m mn ps p fuel LM. exact (get_start_terminates h m mn ps LM p fuel). Qed.
Print Assumptions C10_terminates.
(** Two periods, each appended last to the MPD where it follows the other: MPDs 0 and 1, periods 2 and 3, both
    with a duration and no start. *)
Definition ex10 : list gop :=
  [ONew KMPD; ONew KMPD; ONew KPeriod; ONew KPeriod; ONew KDur; OData 4 FVal [1000%Z];
   ORefs 2 FDuration [Some 4]; ORefs 3 FDuration [Some 4];
   OAppend FPeriods 0 3; OAppend FPeriods 1 2; OAppend FPeriods 0 2; OAppend FPeriods 1 3].
Theorem C10_terminates_refuted : exists h, exec_all empty_heap ex10 = Ok h /\ forall fuel, get_start fuel h 2 = OutOfFuel.
Proof.
  exists (run ex10). split; [reflexivity|].
  assert (A : forall fuel, get_start (S fuel) (run ex10) 2 = do s <- get_start fuel (run ex10) 3 ; Ok (wrap_i64 (s + 1000)%Z)) by reflexivity.
  assert (B : forall fuel, get_start (S fuel) (run ex10) 3 = do s <- get_start fuel (run ex10) 2 ; Ok (wrap_i64 (s + 1000)%Z)) by reflexivity.
  assert (C : forall fuel, get_start fuel (run ex10) 2 = OutOfFuel /\ get_start fuel (run ex10) 3 = OutOfFuel).
  { induction fuel as [|fuel [I2 I3]]; [split; reflexivity|]. rewrite A, B, I2, I3. split; reflexivity. }
  intro fuel. apply C.
Qed.
Print Assumptions C10_terminates_refuted.

(** ** C11 *)
Section C11.
  Variables (h : heap) (m : loc) (mn : node) (ps : list loc) (i : nat) (p : loc).
  Hypothesis LM : linked_mpd h m mn ps.
  Hypothesis ND : NoDup ps.
  Hypothesis TI : timing_i64 (timing h ps).
  Hypothesis AT : nth_error ps i = Some p.
  (** An explicit duration always wins. *)
  Theorem C11_explicit : forall s d, nth_error (timing h ps) i = Some (s, Some d) -> get_duration h p = Ok d.
  Proof using LM ND AT.
    intros s d E. rewrite (get_duration_spec h m mn ps LM ND i p AT). unfold entry. now rewrite E.
  Qed.
  (** Without one, a successful answer ends exactly at the next period's start, or at the end of a static
      presentation. *)
  Theorem C11_tiles : forall s v, nth_error (timing h ps) i = Some (s, None) -> get_duration h p = Ok v ->
    exists start fin, get_start (length ps) h p = Ok start /\ wrap_i64 (start + v)%Z = wrap_i64 fin /\
      ((exists d, nth_error (timing h ps) (S i) = Some (Some fin, d)) \/
       (S i = length ps /\ mpd_type h mn = str "static" /\ dfield h mn FMPDur = Some fin)).
  Proof using LM ND TI AT.
    intros s v E. rewrite (get_duration_spec h m mn ps LM ND i p AT). unfold entry. rewrite E.
    assert (L : i < length ps) by (apply nth_error_Some; congruence).
    assert (GS : forall a, s = Some a -> get_start (length ps) h p = Ok a).
    { intros a ->. destruct (C09_period_start h m mn ps i p (length ps) LM ND TI AT L) as [(w & W & G)|(W & _)].
      - rewrite G. f_equal. assert (W2 : period_start (beq (mpd_type h mn) (str "static")) (timing h ps) i a) by (apply period_start_step; left; eauto).
        rewrite (period_start_unique _ _ _ _ _ W W2). apply wrap_i64_id. apply nth_error_In in E. unfold timing_i64 in TI.
        rewrite Forall_forall in TI. apply (TI _ E).
      - exfalso. eapply W. apply period_start_step. left. eauto. }
    assert (AR : forall a e, wrap_i64 (a + wrap_i64 (e - a)) = wrap_i64 e).
    { intros a e. rewrite Z.add_comm, wrap_add. f_equal. lia. }
    assert (NX : forall e, fst (match nth_error (timing h ps) (S i) with Some e => e | None => (None, None) end) = Some e ->
                 exists d, nth_error (timing h ps) (S i) = Some (Some e, d)).
    { intros e. destruct (nth_error (timing h ps) (S i)) as [[x y]|]; cbn; [intros ->; eauto|discriminate]. }
    destruct (beq (mpd_type h mn) (str "static")) eqn:ST.
    - destruct (dfield h mn FMPDur) as [tot|]; [|discriminate]. destruct s as [a|]; [|discriminate].
      destruct (Nat.eqb_spec (S i) (length ps)) as [EQ|NE].
      + intro H. inversion H; subst. exists a, tot. split; auto. split; auto. right. apply beq_eq in ST. auto.
      + destruct (fst _) as [e|] eqn:FE; [|discriminate]. intro H. inversion H; subst. exists a, e. split; auto.
    - destruct s as [a|]; [|discriminate]. destruct (Nat.eqb_spec (S i) (length ps)) as [EQ|NE]; [discriminate|].
      destruct (fst _) as [e|] eqn:FE; [|discriminate]. intro H. inversion H; subst. exists a, e. split; auto.
  Qed.
  (** When it succeeds: own start known, next start known or last of a static MPD, and, for a static MPD,
      a media presentation duration. *)
  Theorem C11_succeeds : forall s, nth_error (timing h ps) i = Some (Some s, None) ->
    (mpd_type h mn = str "static" -> dfield h mn FMPDur <> None) ->
    ((exists e d, nth_error (timing h ps) (S i) = Some (Some e, d)) \/ (S i = length ps /\ mpd_type h mn = str "static")) ->
    exists v, get_duration h p = Ok v.
  Proof using LM ND AT.
    intros s E HS HN. rewrite (get_duration_spec h m mn ps LM ND i p AT). unfold entry. rewrite E.
    assert (NXL : forall e d, nth_error (timing h ps) (S i) = Some (Some e, d) -> S i <> length ps).
    { intros e d X EQ. assert (nth_error (timing h ps) (S i) = None) by (apply nth_error_None; unfold timing; rewrite map_length; lia). congruence. }
    destruct (beq (mpd_type h mn) (str "static")) eqn:ST.
    - apply beq_eq in ST. specialize (HS ST). destruct (dfield h mn FMPDur) as [tot|]; [|congruence].
      destruct HN as [(e & d & X)|(X & _)].
      + destruct (Nat.eqb_spec (S i) (length ps)); [exfalso; eapply NXL; eauto|]. rewrite X. cbn. eauto.
      + destruct (Nat.eqb_spec (S i) (length ps)); [eauto|contradiction].
    - destruct HN as [(e & d & X)|(X & Y)].
      + destruct (Nat.eqb_spec (S i) (length ps)); [exfalso; eapply NXL; eauto|]. rewrite X. cbn. eauto.
      + rewrite Y in ST. discriminate.
  Qed.
  (** And only then. *)
  Theorem C11_exact : forall s, nth_error (timing h ps) i = Some (s, None) ->
    (exists v, get_duration h p = Ok v) <->
    (s <> None /\ (mpd_type h mn = str "static" -> dfield h mn FMPDur <> None) /\
     ((exists e d, nth_error (timing h ps) (S i) = Some (Some e, d)) \/ (S i = length ps /\ mpd_type h mn = str "static"))).
  Proof using LM ND TI AT.
    intros s E. split.
    - intros [v V]. destruct (C11_tiles s v E V) as (_ & fin & _ & _ & X). split; [|split; [|destruct X as [[d X]|(X & Y & _)]; eauto]].
      + intros ->. rewrite (get_duration_spec h m mn ps LM ND i p AT) in V. unfold entry in V. rewrite E in V.
        destruct (beq (mpd_type h mn) (str "static")), (dfield h mn FMPDur); discriminate.
      + intros ST N. rewrite (get_duration_spec h m mn ps LM ND i p AT) in V. unfold entry in V. rewrite E, ST, beq_refl, N in V. discriminate.
    - intros (N & A & B). destruct s as [s|]; [|congruence]. eapply C11_succeeds; eauto.
  Qed.
End C11.
Print Assumptions C11_exact.
Print Assumptions C11_explicit.
Print Assumptions C11_tiles.
Print Assumptions C11_succeeds.
(** A static MPD with one period, media presentation duration 60, no start: start 0 is known but the duration is not. *)
Definition ex11 : heap := run
  [ONew KMPD; ONew KPeriod; OAppend FPeriods 0 1; ONew KDur; OData 2 FVal [60%Z]; ORefs 0 FMPDur [Some 2]].
Theorem C11_single_static_refuted : get_start 1 ex11 1 = Ok 0%Z /\ get_duration ex11 1 = Err ErrUnknownPeriodDur /\
  (exists mn, linked_mpd ex11 0 mn [1] /\ dfield ex11 mn FMPDur = Some 60%Z /\ mpd_type ex11 mn = str "static").
Proof.
  split; [reflexivity|]. split; [reflexivity|]. eexists. split; [|].
  { constructor; [reflexivity|reflexivity|]. intros p [<-|[]]. eexists; split; reflexivity. }
  split; reflexivity.
Qed.
Print Assumptions C11_single_static_refuted.
(** A static MPD without media presentation duration: both starts are known, the duration between them is not given. *)
Theorem C11_between_starts_refuted : let h := ex_mpd [Some 0%Z; Some 50%Z; None] [None; None; None] in
  get_start 3 h 1 = Ok 0%Z /\ get_start 3 h 2 = Ok 50%Z /\ get_duration h 1 = Err ErrNoMediaPresentationDuration.
Proof. repeat split. Qed.
Print Assumptions C11_between_starts_refuted.
Example C11_ex : get_duration (run ([ONew KMPD; ONew KPeriod; OAppend FPeriods 0 1; ONew KDur; OData 2 FVal [60%Z]; ORefs 0 FMPDur [Some 2];
  ONew KDur; OData 3 FVal [10%Z]; ORefs 1 FStart [Some 3]])) 1 = Ok 50%Z.
Proof. reflexivity. Qed.

(** ** C12 *)
(** The decision table, for a period that its parent lists. *)
Theorem C12_period_type : forall h m mn ps i p, linked_mpd h m mn ps -> NoDup ps -> nth_error ps i = Some p ->
  exists start dur, nth_error (timing h ps) i = Some (start, dur) /\
  let next_start := match nth_error (timing h ps) (S i) with Some (s, _) => s | None => None end in
  let prev_dur := match i with 0 => None | S j => match nth_error (timing h ps) j with Some (_, d) => d | None => None end end in
  let ends_early := dur <> None /\ (dfield h mn FMinUpd <> None \/ next_start <> None) in
  (get_ptype h p = Ok PTEarlyTerminated <-> (start <> None \/ prev_dur <> None) /\ ends_early) /\
  (get_ptype h p = Ok PTRegularOrEarlyTerminated <-> start = None /\ prev_dur <> None /\ ~ ends_early) /\
  (get_ptype h p = Ok PTEarlyAvailable <-> start = None /\ prev_dur = None /\ mpd_type h mn = str "dynamic") /\
  (get_ptype h p = Ok PTRegular <-> (start <> None /\ ~ ends_early) \/ (start = None /\ prev_dur = None /\ mpd_type h mn <> str "dynamic")) /\
  exists t, get_ptype h p = Ok t /\ t <> PTBad.
Proof.
  intros h m mn ps i p LM ND E. destruct (nth_timing h m mn ps LM i p E) as (pn & M & P & T).
  exists (dfield h pn FStart), (dfield h pn FDuration). split; auto. cbv zeta.
  rewrite (get_ptype_spec h m mn ps LM ND i p E). unfold terminated, entry. rewrite T. cbn [fst snd].
  set (nx := nth_error (timing h ps) (S i)).
  replace (fst match nx with Some e => e | None => (None, None) end) with (match nx with Some (s, _) => s | None => None end)
    by (destruct nx as [[a b]|]; reflexivity).
  generalize (match nx with Some (s, _) => s | None => None end). intro ns.
  set (pd := match i with 0 => None | S j => snd _ end).
  assert (EP : pd = match i with 0 => None | S j => match nth_error (timing h ps) j with Some (_, d) => d | None => None end end).
  { unfold pd. destruct i as [|j]; auto. destruct (nth_error (timing h ps) j) as [[a b]|]; reflexivity. }
  rewrite <- EP. generalize pd. clear pd EP. intro pd.
  assert (DY := beq_eq (mpd_type h mn) (str "dynamic")). destruct (beq (mpd_type h mn) (str "dynamic")) eqn:BD.
  - assert (D1 : mpd_type h mn = str "dynamic") by now apply DY. clear DY.
    destruct (dfield h pn FStart), pd, (dfield h pn FDuration), (dfield h mn FMinUpd), ns;
      repeat split; try congruence; try tauto; try (intuition congruence); try (eexists; split; [reflexivity|discriminate]).
  - assert (D1 : mpd_type h mn <> str "dynamic") by (intro X; apply DY in X; discriminate). clear DY.
    destruct (dfield h pn FStart), pd, (dfield h pn FDuration), (dfield h mn FMinUpd), ns;
      repeat split; try congruence; try tauto; try (intuition congruence); try (eexists; split; [reflexivity|discriminate]).
Qed.
Print Assumptions C12_period_type.
(** It fails only without a parent or when the parent does not list the period. *)
Theorem C12_errors : forall h p pn, mem h p = Some pn ->
  (parent pn = None -> get_ptype h p = Err ErrParentNotSet) /\
  (forall m mn, parent pn = Some m -> mem h m = Some mn -> ~ In (Some p) (refs mn FPeriods) -> get_ptype h p = Err ErrPeriodNotFound).
Proof.
  intros h p pn M. split.
  - intro P. unfold get_ptype, at_loc. rewrite M. cbn. now rewrite P.
  - intros m mn P Mm N. unfold get_ptype, get_index, at_loc. rewrite M. cbn [bind]. rewrite P, Mm. cbn [bind].
    assert (X : forall k, index_of p (refs mn FPeriods) k = None).
    { revert N. generalize (refs mn FPeriods). induction l as [|q l IH]; intros N k; auto. cbn.
      destruct q as [q|]; [destruct (Nat.eqb_spec q p) as [->|]; [exfalso; apply N; now left|]|]; apply IH; intro I; apply N; now right. }
    now rewrite X.
Qed.
Print Assumptions C12_errors.
(** The names of the types: one of the four possible answers has none. *)
Theorem C12_names : (forall t, t = PTRegular \/ t = PTEarlyAvailable \/ t = PTEarlyTerminated -> ptype_string t <> str "unknown") /\
  (forall a b, ptype_string a = ptype_string b -> a = b \/ ptype_string a = str "unknown") /\
  map ptype_string [PTRegular; PTEarlyAvailable; PTEarlyTerminated] = map str ["regular"; "early-available"; "early-terminated"]%string.
Proof.
  split; [|split; [|reflexivity]].
  - intros t [-> | [-> | ->]]; vm_compute; discriminate.
  - intros [] []; vm_compute; auto; discriminate.
Qed.
Print Assumptions C12_names.
Theorem C12_names_refuted : let h := ex_mpd [Some 0%Z; None; None] [Some 30%Z; None; None] in
  get_ptype h 2 = Ok PTRegularOrEarlyTerminated /\ ptype_string PTRegularOrEarlyTerminated = str "unknown".
Proof. split; reflexivity. Qed.
Print Assumptions C12_names_refuted.

(** ** C13 *)
Theorem C13_absolute_start : forall h p m mn fuel, mem h m = Some mn ->
  (data mn FAst = [] -> absolute_start fuel h p m = Err ErrASTRequired) /\
  (data mn FAst <> [] -> to_seconds (data mn FAst) = None -> absolute_start fuel h p m = Err ErrDate) /\
  (forall ast e, data mn FAst <> [] -> to_seconds (data mn FAst) = Some ast -> get_start fuel h p = Err e ->
     absolute_start fuel h p m = Err e) /\
  (forall ast s, data mn FAst <> [] -> to_seconds (data mn FAst) = Some ast -> get_start fuel h p = Ok s ->
     absolute_start fuel h p m = Ok (fadd ast (dur_seconds s))).
Proof.
  intros h p m mn fuel M. unfold absolute_start, at_loc. rewrite M. cbn [bind].
  destruct (beq (data mn FAst) []) eqn:B; [apply beq_eq in B|apply beq_neq in B]; repeat split; intros; try congruence;
  repeat match goal with H : to_seconds _ = _ |- _ => rewrite H end; auto; now rewrite H1.
Qed.
Print Assumptions C13_absolute_start.
Lemma dur_seconds_whole : forall n, (Z.abs n <= 4611686018)%Z -> rep (dur_seconds (n * 1000000000)) (IZR n).
Proof.
  intros n H. unfold dur_seconds, second_ns.
  assert (RX : rep (f64_of_Z (n * 1000000000)) (IZR (n * 1000000000))).
  { pose proof (rep_of_Z (n * 1000000000)) as X. rewrite RN_format in X by (now apply ns_format).
    apply X, small_1000. change (2 ^ 64)%Z with 18446744073709551616%Z. lia. }
  assert (EQ : (IZR (n * 1000000000) / 1000000000)%R = IZR n) by (rewrite mult_IZR; field).
  replace (IZR n) with (RN (IZR (n * 1000000000) / 1000000000)) at 1.
  - apply rep_div; [exact RX|exact rep_1e9|lra|]. rewrite EQ. rewrite <- abs_IZR. change (bpow radix2 1000) with (IZR (2 ^ 1000)). apply IZR_le.
    apply small_1000. change (2 ^ 64)%Z with 18446744073709551616%Z. lia.
  - rewrite EQ. apply RN_small. change (2 ^ 53)%Z with 9007199254740992%Z. lia.
Qed.
(** Whole seconds add up exactly: availability start at second [a] of the epoch, period start [n] seconds. *)
Theorem C13_exact : forall h p m mn fuel a n t, mem h m = Some mn ->
  instant_text t (a * 1000) -> data mn FAst = t -> get_start fuel h p = Ok (n * 1000000000)%Z ->
  (Z.abs a <= 4611686018)%Z -> (Z.abs n <= 4611686018)%Z ->
  exists f, absolute_start fuel h p m = Ok f /\ rep f (IZR (a + n)).
Proof.
  intros h p m mn fuel a n t M T D G Ha Hn. pose proof (proj2 (proj2 (proj2 (C13_absolute_start h p m mn fuel M)))) as OKc. rewrite D in OKc.
  destruct (datetime_s_text a) as (t' & E' & T'); [unfold min_sec, max_sec; lia|].
  assert (TS : to_seconds t = Some (f64_of_Z a)).
  { pose proof (C08_exact a t' Ha E') as X. unfold to_seconds in *. rewrite (parse_instant _ _ T). rewrite (parse_instant _ _ T') in X. exact X. }
  assert (NE : beq t [] = false).
  { apply beq_neq. intros ->. unfold to_seconds in TS. rewrite (parse_instant _ _ T) in TS. apply parse_instant in T. discriminate. }
  apply beq_neq in NE. eexists. split; [exact (OKc _ _ NE TS G)|].
  assert (RA : rep (f64_of_Z a) (IZR a)).
  { rewrite <- (RN_small a) by (change (2 ^ 53)%Z with 9007199254740992%Z; lia). apply rep_of_Z, small_1000. change (2 ^ 64)%Z with 18446744073709551616%Z. lia. }
  pose proof (rep_add _ _ _ _ RA (dur_seconds_whole n Hn)) as X. rewrite <- plus_IZR in X. rewrite RN_small in X by (change (2 ^ 53)%Z with 9007199254740992%Z; lia).
  apply X. rewrite <- abs_IZR. change (bpow radix2 1000) with (IZR (2 ^ 1000)). apply IZR_le. apply small_1000. change (2 ^ 64)%Z with 18446744073709551616%Z. lia.
Qed.
Print Assumptions C13_exact.
Definition ex13 : heap := run [ONew KMPD; ONew KPeriod; OAppend FPeriods 0 1; OData 0 FAst (str "2023-11-14T22:13:20Z");
  ONew KDur; OData 2 FVal [30000000000%Z]; ORefs 1 FStart [Some 2]].
Example C13_ex : absolute_start 1 ex13 1 0 = Ok (f64_of_Z 1700000030).
Proof. vm_compute. reflexivity. Qed.

(** ** C14 *)
Theorem C14_set_parents : forall h m n, go_heap h -> no_nil h -> mem h m = Some n -> nkind n = KMPD ->
  (forall x y c, below h m x -> below h m y -> lists h x c -> lists h y c -> x = y) ->
  exists h', mpd_set_parents h (Some m) = Ok h' /\ content_eq h h' /\ linked_below h' m /\
    (forall c, ~ (exists x, below h m x /\ lists h x c) -> par h' c = par h c) /\
    (forall c, par h' c = par h c \/ exists x, below h m x /\ lists h x c /\ par h' c = Some x).
Proof. exact (sets_parents_linked _ _ mpd_sets). Qed.
Print Assumptions C14_set_parents.
Theorem C14_period_set_parents : forall h m n, go_heap h -> no_nil h -> mem h m = Some n -> nkind n = KPeriod ->
  (forall x y c, below h m x -> below h m y -> lists h x c -> lists h y c -> x = y) ->
  exists h', period_set_parents h (Some m) = Ok h' /\ content_eq h h' /\ linked_below h' m /\
    (forall c, ~ (exists x, below h m x /\ lists h x c) -> par h' c = par h c) /\
    (forall c, par h' c = par h c \/ exists x, below h m x /\ lists h x c /\ par h' c = Some x).
Proof. exact (sets_parents_linked _ _ period_sets). Qed.
Print Assumptions C14_period_set_parents.
(** Even with shared objects every listed object ends up with one of the objects that list it. *)
Theorem C14_some_lister : forall h m n, go_heap h -> no_nil h -> mem h m = Some n -> nkind n = KMPD ->
  exists h', mpd_set_parents h (Some m) = Ok h' /\
    forall x c, below h m x -> lists h x c -> exists y, below h m y /\ lists h y c /\ par h' c = Some y.
Proof.
  intros h m n G NN M K. destruct (mpd_sets h m n G NN M K) as (h' & E & _ & P & _). exists h'. split; auto. intros x c B L. apply P. eauto.
Qed.
Print Assumptions C14_some_lister.
(** The tree a reader builds: MPD 0, Period 1, AdaptationSet 2 with Representation 3, EmptyAdaptationSet 4 with
    Representation 5.  (Raw heap as Unmarshal leaves it: no parent set.) *)
Definition ex14_node (k : kind) (f : fld) (cs : list ptr) : node := Node k (fun _ => []) (fun g => if fld_dec g f then cs else []) None.
Definition ex14 : heap := Heap (fun l => match l with
  | 0 => Some (ex14_node KMPD FPeriods [Some 1])
  | 1 => Some (Node KPeriod (fun _ => []) (fun g => match g with FSets => [Some 2] | FEmpty => [Some 4] | _ => [] end) None)
  | 2 => Some (ex14_node KSet FReps [Some 3])
  | 3 => Some (ex14_node KRep FSubs [])
  | 4 => Some (ex14_node KSet FReps [Some 5])
  | 5 => Some (ex14_node KRep FSubs [])
  | _ => None end) 6.
Definition ex14' : heap := match mpd_set_parents ex14 (Some 0) with Ok h => h | _ => empty_heap end.
Example C14_ex : par ex14' 1 = Some 0 /\ par ex14' 2 = Some 1 /\ par ex14' 3 = Some 2 /\ par ex14 3 = None.
Proof. repeat split. Qed.
(** EmptyAdaptationSets and what they contain are left out. *)
Theorem C14_empty_sets_refuted : mpd_set_parents ex14 (Some 0) = Ok ex14' /\ par ex14' 4 = None /\ par ex14' 5 = None /\
  exists n, mem ex14' 1 = Some n /\ refs n FEmpty = [Some 4].
Proof. repeat split. eexists. split; reflexivity. Qed.
Print Assumptions C14_empty_sets_refuted.

(** ** C15 *)
Theorem C15_histories : forall os h, go_heap h -> no_nil h -> linked_all h -> legal_all h os ->
  exists h', exec_all h os = Ok h' /\ go_heap h' /\ no_nil h' /\ linked_all h' /\
    forall x f, child_list f -> refs_at h' (Some x) f = refs_at h (Some x) f ++ appended f x os.
Proof.
  intros os h G NN L LG. destruct (history os h (conj G (conj NN L)) LG) as (h' & E & (A & B & C) & D). exists h'. auto.
Qed.
Print Assumptions C15_histories.
(** An executable check of [legal_all], used by the example. *)
Definition child_fieldb (k : kind) : option fld :=
  match k with KMPD => Some FPeriods | KPeriod => Some FSets | KSet => Some FReps | KRep => Some FSubs | _ => None end.
Definition listsb (h : heap) (y c : loc) : bool :=
  match mem h y with
  | Some n => match child_fieldb (nkind n) with
              | Some f => existsb (fun p => match p with Some d => Nat.eqb d c | None => false end) (refs n f)
              | None => false
              end
  | None => false
  end.
Definition field_kindb (f : fld) (k : kind) : bool :=
  match f, k with FPeriods, KPeriod | FSets, KSet | FReps, KRep | FSubs, KSub => true | _, _ => false end.
Definition legalb (h : heap) (o : gop) : bool :=
  match o with
  | ONew _ => true
  | OAppend f x c =>
      match mem h x, mem h c with
      | Some xn, Some cn => (match child_fieldb (nkind xn) with Some g => if fld_dec g f then true else false | None => false end)
                            && field_kindb f (nkind cn) && forallb (fun y => Nat.eqb y x || negb (listsb h y c)) (seq 0 (next h))
      | _, _ => false
      end
  | _ => false
  end.
Fixpoint legal_allb (h : heap) (os : list gop) : bool :=
  match os with
  | [] => true
  | o :: r => legalb h o && match exec h o with Ok h' => legal_allb h' r | _ => false end
  end.
Lemma legalb_ok : forall h o, go_heap h -> legalb h o = true -> legal h o.
Proof.
  intros h o G H. destruct o as [k|f x c|x f v|x f ps]; cbn [legalb legal] in *; try discriminate; auto.
  destruct (mem h x) as [xn|] eqn:Mx; [|discriminate]. destruct (mem h c) as [cn|] eqn:Mc; [|discriminate].
  apply andb_prop in H. destruct H as [H HL]. apply andb_prop in H. destruct H as [HC HK]. split.
  - exists xn, cn. repeat split; auto.
    + destruct (child_fieldb (nkind xn)) as [g|] eqn:E; [|discriminate]. destruct (fld_dec g f) as [->|]; [|discriminate].
      destruct (nkind xn); inversion E; subst; exact I.
    + destruct f; try discriminate; destruct (nkind cn); try discriminate; reflexivity.
  - intros y (n & g & My & C & J). rewrite forallb_forall in HL. specialize (HL y). rewrite in_seq in HL.
    pose proof (gh_alloc h G y n My) as L. specialize (HL ltac:(lia)). destruct (Nat.eqb_spec y x) as [EQ|N]; auto. cbn [orb] in HL.
    exfalso. assert (X : listsb h y c = true).
    { unfold listsb. rewrite My. assert (E : child_fieldb (nkind n) = Some g) by (destruct (nkind n), g; try contradiction; reflexivity).
      rewrite E. apply existsb_exists. exists (Some c). split; auto. apply Nat.eqb_refl. }
    now rewrite X in HL.
Qed.
Lemma legal_allb_ok : forall os h, good h -> legal_allb h os = true -> legal_all h os.
Proof.
  induction os as [|o os IH]; intros h G H; cbn [legal_all legal_allb] in *; auto. apply andb_prop in H. destruct H as [H1 H2].
  pose proof (legalb_ok h o (proj1 G) H1) as L. split; auto. intros h' E. rewrite E in H2. apply IH; auto.
  destruct (C15_histories [o] h (proj1 G) (proj1 (proj2 G)) (proj2 (proj2 G))) as (h'' & E2 & A & B & C & _).
  - cbn. auto.
  - cbn [exec_all] in E2. rewrite E in E2. inversion E2; subst h''. split; auto.
Qed.
Example C15_ex : legal_all empty_heap
  [ONew KMPD; ONew KPeriod; ONew KPeriod; ONew KSet; OAppend FPeriods 0 1; OAppend FPeriods 0 2; OAppend FSets 1 3] /\ good empty_heap.
Proof.
  assert (G : good empty_heap).
  { split; [constructor; discriminate|split; [intros l n f M; discriminate|intros x c (n & f & M & _); discriminate]]. }
  split; auto. apply legal_allb_ok; auto.
Qed.
(** Appending a period that another MPD lists breaks the other MPD's link. *)
Theorem C15_shared_refuted : let h := run [ONew KMPD; ONew KMPD; ONew KPeriod; OAppend FPeriods 0 2; OAppend FPeriods 1 2] in
  lists h 0 2 /\ par h 2 = Some 1.
Proof. split; [|reflexivity]. eexists. exists FPeriods. split; [reflexivity|]. split; [exact I|]. cbn. auto. Qed.
Print Assumptions C15_shared_refuted.

(** ** C16 *)
Definition clone_statement (cl : heap -> loc -> outcome merr (heap * loc)) (k : kind) : Prop :=
  forall h l n, go_heap h -> no_nil h -> mem h l = Some n -> nkind n = k ->
  (forall x y c, below h l x -> below h l y -> lists h x c -> lists h y c -> x = y) ->
  exists h' l', cl h l = Ok (h', l') /\
    (forall x nx, mem h x = Some nx -> mem h' x = Some nx) /\
    same_content h l h' l' /\ linked_below h' l' /\
    (forall x, reach h' l' x -> next h <= x) /\
    (forall r x, r < next h -> reach h' r x -> x < next h) /\
    (forall x, reach h' l' x -> exists nx, mem h' x = Some nx).
Theorem C16_clone_mpd : clone_statement clone_mpd KMPD.
Proof. exact (clone_ok _ _ mpd_sets). Qed.
Print Assumptions C16_clone_mpd.
Theorem C16_clone_period : clone_statement clone_period KPeriod.
Proof. exact (clone_ok _ _ period_sets). Qed.
Print Assumptions C16_clone_period.
Theorem C16_clone_set : clone_statement clone_set KSet.
Proof. exact (clone_ok _ _ set_sets). Qed.
Print Assumptions C16_clone_set.
(** From there on, whatever is written through the original or the copy, in any order, the two stay disjoint and
    what is written through one only is never seen through the other. *)
Theorem C16_independent : forall h r s w h', separate h r s -> writes h r s w h' -> separate h' r s /\
  (Forall (eq true) w -> forall x, reach h s x -> mem h' x = mem h x) /\
  (Forall (eq false) w -> forall x, reach h r x -> mem h' x = mem h x).
Proof. intros. eapply writes_separate; eauto. Qed.
Print Assumptions C16_independent.
(** The state after cloning is such a state. *)
Theorem C16_separate : forall cl k, clone_statement cl k -> forall h l n, go_heap h -> no_nil h -> mem h l = Some n -> nkind n = k ->
  (forall x y c, below h l x -> below h l y -> lists h x c -> lists h y c -> x = y) ->
  exists h' l', cl h l = Ok (h', l') /\ separate h' l l'.
Proof.
  intros cl k S h l n G NN M K LO. destruct (S h l n G NN M K LO) as (h' & l' & E & KP & _ & _ & A & B & C).
  exists h', l'. split; auto. pose proof (gh_alloc h G l n M) as L. split; [|split]; auto.
  - intros x X Y. apply A in Y. apply (B l x L) in X. lia.
  - assert (RR : forall x, reach h' l x -> exists nx, mem h x = Some nx).
    { intros x R. induction R as [|x y R IH (nx & Mx & P)]; [eauto|]. destruct IH as (nx' & Mx'). rewrite (KP _ _ Mx') in Mx. inversion Mx; subst nx'.
      destruct P as [(f & P)|P]; [destruct (gh_refs h G _ _ _ _ Mx' P) as (? & ? & _)|destruct (gh_parent h G _ _ _ Mx' P) as (? & ? & _)]; eauto. }
    intros x R. destruct (RR x R) as (nx & Mx). eauto.
Qed.
Print Assumptions C16_separate.
Example C16_ex : exists h', clone_mpd ex14' 0 = Ok (h', 6) /\ par h' 7 = Some 6 /\ par h' 9 = Some 8 /\ par h' 1 = Some 0 /\ par h' 11 = None.
Proof. eexists. repeat split. Qed.

(** ** C17 *)
Theorem C17_templates : forall ts id bw, toks_ok ts -> dollar_free id ->
  gaps_ok (str "RepresentationID") None ts -> gaps_ok (str "Bandwidth") None (subst (str "RepresentationID") id ts) ->
  fill_template (text ts) id bw = text (subst (str "Bandwidth") (itoa bw) (subst (str "RepresentationID") id ts)).
Proof. exact fill_spec. Qed.
Print Assumptions C17_templates.
Example C17_ex : let ts := [Lit (str "video/"); Ident (str "RepresentationID"); Lit (str "_"); Ident (str "Bandwidth"); Lit (str "/"); Ident (str "Number%05d"); Lit (str ".m4s")] in
  toks_ok ts /\ gaps_ok (str "RepresentationID") None ts /\ gaps_ok (str "Bandwidth") None (subst (str "RepresentationID") (str "V300") ts) /\
  fill_template (text ts) (str "V300") 300000 = str "video/V300_300000/$Number%05d$.m4s".
Proof.
  repeat split; try (vm_compute; intuition discriminate).
  repeat constructor; vm_compute; intuition discriminate.
Qed.
(** The printed bandwidth is its decimal form. *)
Theorem C17_bandwidth_digits : forall n, (0 <= n < 4294967296)%Z ->
  Forall (fun c => is_digit c = true) (itoa n) /\ itoa n <> [] /\ fold_left (fun a c => (a * 10 + (c - 48))%Z) (itoa n) 0%Z = n /\
  (n <> 0%Z -> hd 0%Z (itoa n) <> 48%Z).
Proof.
  assert (K : forall fuel n acc, (0 <= n < 10 ^ Z.of_nat fuel)%Z -> (0 < fuel) -> Forall (fun c => is_digit c = true) acc ->
     Forall (fun c => is_digit c = true) (itoa_loop fuel n acc) /\
     fold_left (fun a c => (a * 10 + (c - 48))%Z) (itoa_loop fuel n acc) 0%Z = fold_left (fun a c => (a * 10 + (c - 48))%Z) acc n /\
     itoa_loop fuel n acc <> [] /\ (n <> 0%Z -> hd 0%Z (itoa_loop fuel n acc) <> 48%Z)).
  { induction fuel as [|fuel IH]; intros n acc Hn Hf HA; [lia|]. cbn [itoa_loop].
    assert (HD : (0 <= n mod 10 < 10)%Z) by (apply Z.mod_pos_bound; lia).
    assert (HA' : Forall (fun c => is_digit c = true) ((48 + n mod 10)%Z :: acc)) by (constructor; auto; unfold is_digit; lia).
    pose proof (Z.div_mod n 10 ltac:(lia)) as DM.
    destruct (Z.eqb_spec (n / 10) 0) as [Q|Q].
    - split; auto. split; [cbn [fold_left]; f_equal; lia|]. split; [discriminate|]. cbn [hd]. lia.
    - assert (H10 : (0 <= n / 10 < 10 ^ Z.of_nat fuel)%Z).
      { split; [apply Z.div_pos; lia|]. apply Z.div_lt_upper_bound; [lia|]. replace (Z.of_nat (S fuel)) with (Z.succ (Z.of_nat fuel)) in Hn by lia.
        rewrite Z.pow_succ_r in Hn by lia. lia. }
      destruct fuel as [|fuel']; [cbn in H10; lia|].
      destruct (IH (n / 10)%Z _ H10 ltac:(lia) HA') as (A & B & C & D). split; auto. split; [|split; auto].
      rewrite B. cbn [fold_left]. f_equal. lia. }
  intros n Hn. assert (H20 : (0 <= n < 10 ^ Z.of_nat 20)%Z) by (change (10 ^ Z.of_nat 20)%Z with 100000000000000000000%Z; lia).
  destruct (K 20 n [] H20 ltac:(lia) ltac:(constructor)) as (A & B & C & D). unfold itoa.
  auto.
Qed.
Print Assumptions C17_bandwidth_digits.
(** An id that contains [$Bandwidth$] is substituted a second time; a word between two identifiers is taken for one. *)
Theorem C17_templates_refuted :
  fill_template (str "$RepresentationID$.mp4") (str "a$Bandwidth$b") 7 = str "a7b.mp4" /\
  (let ts := [Ident (str "Number"); Lit (str "Bandwidth"); Ident (str "Time")] in
   toks_ok ts /\ text ts = str "$Number$Bandwidth$Time$" /\
   fill_template (text ts) (str "v") 7 = str "$Number7Time$").
Proof.
  split; [reflexivity|]. split; [|split; reflexivity]. repeat constructor; vm_compute; intuition discriminate.
Qed.
Print Assumptions C17_templates_refuted.

(** ** C18 *)
(** A representation whose parent link is set: own value if present, else the adaptation set's. *)
Theorem C18_inherit : forall h r n a an, mem h r = Some n -> parent n = Some a -> mem h a = Some an ->
  rep_template h r = Ok (match pfield n FTemplate with Some t => Some t | None => pfield an FTemplate end) /\
  rep_mime h r = Ok (match data n FMime with [] => data an FMime | s => s end) /\
  rep_codecs h r = Ok (match data n FCodecs with [] => data an FCodecs | s => s end) /\
  rep_prots h r = Ok (match refs n FProt with [] => refs an FProt | s => s end).
Proof.
  intros h r n a an M P Ma. unfold rep_template, rep_mime, rep_codecs, rep_prots, set_template, set_mime, set_codecs, set_prots, deref, at_loc.
  rewrite M. cbn [bind]. rewrite P, Ma. cbn [bind].
  destruct (pfield n FTemplate); destruct (data n FMime); destruct (data n FCodecs); destruct (refs n FProt); cbn; auto.
Qed.
Print Assumptions C18_inherit.
Theorem C18_addresses : forall h r n, mem h r = Some n -> forall f, f = FInit \/ f = FMedia ->
  (parent n = None -> get_address f h r = Err ErrParentNotSet) /\
  (forall a an, parent n = Some a -> mem h a = Some an -> pfield n FTemplate = None -> pfield an FTemplate = None ->
     get_address f h r = Err ErrSegmentTemplateNotSet) /\
  (forall a an t tn, parent n = Some a -> mem h a = Some an ->
     (match pfield n FTemplate with Some t => Some t | None => pfield an FTemplate end) = Some t -> mem h t = Some tn ->
     get_address f h r = Ok (fill_template (data tn f) (data n FId) (hd 0%Z (data n FBandwidth)))).
Proof.
  intros h r n M f _. unfold get_address, at_loc. rewrite M. cbn [bind]. split; [|split].
  - now intros ->.
  - intros a an P Ma T1 T2. rewrite P. destruct (C18_inherit h r n a an M P Ma) as (E & _). rewrite E. cbn [bind]. now rewrite T1, T2.
  - intros a an t tn P Ma T Mt. rewrite P. destruct (C18_inherit h r n a an M P Ma) as (E & _). rewrite E. cbn [bind]. now rewrite T, Mt.
Qed.
Print Assumptions C18_addresses.
(** No accessor crashes on a representation listed in a tree whose links are set. *)
Theorem C18_no_crash : forall h m r x, go_heap h -> linked_below h m -> below h m x -> lists h x r ->
  (exists rn, mem h r = Some rn /\ nkind rn = KRep) ->
  rep_template h r <> Panic /\ rep_mime h r <> Panic /\ rep_codecs h r <> Panic /\ rep_prots h r <> Panic /\
  get_init h r <> Panic /\ get_media h r <> Panic.
Proof.
  intros h m r x G LB B L (rn & Mr & K). assert (P := LB x r B L). unfold par in P. rewrite Mr in P.
  destruct (gh_parent h G r rn x Mr P) as (xn & Mx & _).
  destruct (C18_inherit h r rn x xn Mr P Mx) as (E1 & E2 & E3 & E4). rewrite E1, E2, E3, E4.
  assert (GA : forall f, get_address f h r <> Panic).
  { intro f. unfold get_address, at_loc. rewrite Mr. cbn [bind]. rewrite P, E1. cbn [bind].
    destruct (match pfield rn FTemplate with Some t => Some t | None => pfield xn FTemplate end) as [t|] eqn:T; [|discriminate].
    assert (exists tn, mem h t = Some tn) as (tn & Mt).
    { unfold pfield in T. destruct (refs rn FTemplate) as [|[q|] l] eqn:R1; [|inversion T; subst|].
      - destruct (refs xn FTemplate) as [|[q|] l] eqn:R2; inversion T; subst.
        destruct (gh_refs h G x xn FTemplate t Mx) as (tn & Mt & _); [rewrite R2; now left|eauto].
      - destruct (gh_refs h G r rn FTemplate t Mr) as (tn & Mt & _); [rewrite R1; now left|eauto].
      - destruct (refs xn FTemplate) as [|[q|] l'] eqn:R2; inversion T; subst.
        destruct (gh_refs h G x xn FTemplate t Mx) as (tn & Mt & _); [rewrite R2; now left|eauto]. }
    rewrite Mt. discriminate. }
  repeat split; try discriminate; apply GA.
Qed.
Print Assumptions C18_no_crash.
Example C18_ex : let h := run [ONew KSet; ONew KRep; OAppend FReps 0 1; OData 0 FMime (str "video/mp4"); OData 1 FCodecs (str "avc1");
   ONew KTemplate; OData 2 FInit (str "$RepresentationID$/init.mp4"); ORefs 0 FTemplate [Some 2]; OData 1 FId (str "v")] in
  rep_mime h 1 = Ok (str "video/mp4") /\ rep_codecs h 1 = Ok (str "avc1") /\ get_init h 1 = Ok (str "v/init.mp4").
Proof. repeat split. Qed.
(** After reading an MPD with an EmptyAdaptationSet, accessors of its representation crash. *)
Theorem C18_empty_set_refuted : rep_mime ex14' 5 = Panic /\ rep_template ex14' 5 = Panic /\ get_init ex14' 5 = Err ErrParentNotSet.
Proof. repeat split. Qed.
Print Assumptions C18_empty_set_refuted.
