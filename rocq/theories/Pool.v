(** The encoder pool: histories of uses and interleavings of goroutines (xml/marshal.go:157-198, sync.Pool). *)
From Coq Require Import String.
From Coq Require Import ZArith List Bool Lia ZifyBool ZifyNat.
From Verif Require Import Base Utf8 Lexer Escape Decoder Printer Writer WriterProofs.
Import ListNotations.

(** *** One goroutine: what can be in the pool.
    sync.Pool may hand out any encoder put back before or make a new one, and may drop encoders. *)
Inductive pool_of : list encoder -> Prop :=
| P_empty : pool_of []
| P_drop p q : pool_of p -> incl q p -> pool_of q
  (* WriteXML with an encoder from the pool or a new one, for any writer and any way it ends *)
| P_write p e o m indent header u n r back :
    pool_of p -> e = pool_new \/ In e p ->
    write_xml o m indent header e = Some (u, n, r, Some back) -> pool_of (back :: p)
  (* AcquireEncoder and ReleaseEncoder around any use of the encoder *)
| P_use p e u used : pool_of p -> e = pool_new \/ In e p -> pool_of (release (used (acquire u e)) :: p).

(** *** Goroutines.  A job uses the encoder it acquired one step at a time; [step] and [over] are arbitrary. *)
Section Concurrent.
  Variable job : Type.
  Variable step : job -> encoder -> job * encoder.
  Variable over : job -> bool.
  Variable dst : job -> dest.

  Inductive status := Waiting (j : job) | Using (id : nat) (j : job) | Finished (j : job) (e : encoder).
  Record world := mkw {
    w_go : nat -> status;          (* goroutines *)
    w_store : nat -> encoder;      (* encoders by identity *)
    w_pool : list nat;             (* identities in the pool *)
    w_next : nat                   (* identities from here on are not yet made *)
  }.
  Definition upd {A} (f : nat -> A) (i : nat) (a : A) : nat -> A := fun k => if (k =? i)%nat then a else f k.
  (** The sequential use of a new encoder. *)
  Fixpoint steps (n : nat) (j : job) (e : encoder) : job * encoder :=
    match n with O => (j, e) | S n => let '(j', e') := steps n j e in step j' e' end.

  Inductive wstep : world -> world -> Prop :=
  | W_get w g j a id b : w_go w g = Waiting j -> w_pool w = a ++ id :: b ->
      wstep w (mkw (upd (w_go w) g (Using id j)) (upd (w_store w) id (acquire (dst j) (w_store w id))) (a ++ b) (w_next w))
  | W_new w g j : w_go w g = Waiting j ->
      wstep w (mkw (upd (w_go w) g (Using (w_next w) j)) (upd (w_store w) (w_next w) (acquire (dst j) pool_new)) (w_pool w) (S (w_next w)))
  | W_work w g id j j' e' : w_go w g = Using id j -> over j = false -> step j (w_store w id) = (j', e') ->
      wstep w (mkw (upd (w_go w) g (Using id j')) (upd (w_store w) id e') (w_pool w) (w_next w))
  | W_put w g id j : w_go w g = Using id j -> over j = true ->
      wstep w (mkw (upd (w_go w) g (Finished j (w_store w id))) (upd (w_store w) id (release (w_store w id))) (id :: w_pool w) (w_next w))
  | W_drop w a id b : w_pool w = a ++ id :: b -> wstep w (mkw (w_go w) (w_store w) (a ++ b) (w_next w)).
  Inductive wsteps (w : world) : world -> Prop :=
  | WS_refl : wsteps w w
  | WS_step w1 w2 : wsteps w w1 -> wstep w1 w2 -> wsteps w w2.

  (** All goroutines waiting, nothing in the pool. *)
  Definition start (jobs : nat -> job) : world := mkw (fun g => Waiting (jobs g)) (fun _ => pool_new) [] 0.

  Definition inv (jobs : nat -> job) (w : world) : Prop :=
    NoDup (w_pool w) /\ (forall id, In id (w_pool w) -> (id < w_next w)%nat /\ w_store w id = pool_new) /\
    (forall g, match w_go w g with
               | Waiting j => j = jobs g
               | Using id j => (id < w_next w)%nat /\ ~ In id (w_pool w) /\ (forall g' j', g' <> g -> w_go w g' <> Using id j') /\
                               exists n, steps n (jobs g) (acquire (dst (jobs g)) pool_new) = (j, w_store w id)
               | Finished j e => over j = true /\ exists n, steps n (jobs g) (acquire (dst (jobs g)) pool_new) = (j, e)
               end).
  Lemma upd_same : forall A (f : nat -> A) i a, upd f i a i = a.
  Proof. intros. unfold upd. rewrite Nat.eqb_refl. auto. Qed.
  Lemma upd_other : forall A (f : nat -> A) i a k, k <> i -> upd f i a k = f k.
  Proof. intros. unfold upd. replace (k =? i)%nat with false by lia. auto. Qed.
  Lemma inv_step : forall jobs w w', inv jobs w -> wstep w w' -> inv jobs w'.
  Proof.
    intros jobs w w' (ND & P & G) S.
    destruct S as [w g j a id b HG HP|w g j HG|w g id j j' e' HG HO HS|w g id j HG HO|w a id b HP].
    - rewrite HP in ND. assert (NI : ~ In id (a ++ b)) by (apply NoDup_remove_2; auto). destruct (P id) as [LT CL]; [rewrite HP; apply in_elt|].
      split; [eapply NoDup_remove_1; eauto|]. cbn [w_pool w_next w_store w_go]. split.
      + intros i I. assert (i <> id) by congruence. rewrite upd_other; auto. apply P. rewrite HP. apply in_app_iff in I. apply in_app_iff. cbn. tauto.
      + intro g'. destruct (Nat.eq_dec g' g) as [->|N].
        * rewrite upd_same. split; auto. split; auto. split.
          -- intros g2 j2 N2. rewrite upd_other; auto. intro E. specialize (G g2). rewrite E in G. destruct G as (_ & X & _). apply X. rewrite HP. apply in_elt.
          -- exists O. rewrite upd_same. specialize (G g). rewrite HG in G. subst j. cbn. rewrite CL. auto.
        * rewrite upd_other; auto. specialize (G g'). destruct (w_go w g') as [j1|i1 j1|j1 e1] eqn:E; auto.
          destruct G as (L1 & N1 & D1 & n & S1). assert (i1 <> id) by (intros ->; apply N1; rewrite HP; apply in_elt).
          split; auto. split; [intro X; apply N1; rewrite HP; apply in_app_iff in X; apply in_app_iff; cbn; tauto|]. split.
          -- intros g2 j2 N2. destruct (Nat.eq_dec g2 g) as [->|N3]; [rewrite upd_same; congruence|rewrite upd_other; auto].
          -- exists n. rewrite upd_other; auto.
    - split; auto. cbn [w_pool w_next w_store w_go]. split.
      + intros i I. destruct (P i I). rewrite upd_other by lia. split; [lia|auto].
      + intro g'. destruct (Nat.eq_dec g' g) as [->|N].
        * rewrite upd_same. split; [lia|]. split; [intro X; destruct (P _ X); lia|]. split.
          -- intros g2 j2 N2. rewrite upd_other; auto. intro E. specialize (G g2). rewrite E in G. lia.
          -- exists O. rewrite upd_same. specialize (G g). rewrite HG in G. subst j. auto.
        * rewrite upd_other; auto. specialize (G g'). destruct (w_go w g') as [j1|i1 j1|j1 e1] eqn:E; auto.
          destruct G as (L1 & N1 & D1 & n & S1). split; [lia|]. split; auto. split.
          -- intros g2 j2 N2. destruct (Nat.eq_dec g2 g) as [->|N3]; [rewrite upd_same; intros [= X]; lia|rewrite upd_other; auto].
          -- exists n. rewrite upd_other by lia. auto.
    - pose proof (G g) as Gg. rewrite HG in Gg. destruct Gg as (L & NP & D & n & Sn). split; auto. cbn [w_pool w_next w_store w_go]. split.
      + intros i I. assert (i <> id) by congruence. rewrite upd_other; auto.
      + intro g'. destruct (Nat.eq_dec g' g) as [->|N].
        * rewrite upd_same. split; auto. split; auto. split.
          -- intros g2 j2 N2. rewrite upd_other; auto.
          -- exists (S n). rewrite upd_same. cbn. rewrite Sn. auto.
        * rewrite upd_other; auto. specialize (G g'). destruct (w_go w g') as [j1|i1 j1|j1 e1] eqn:E; auto.
          destruct G as (L1 & N1 & D1 & n1 & S1). assert (i1 <> id) by (intros ->; apply (D g' j1 N); auto). split; auto. split; auto. split.
          -- intros g2 j2 N2. destruct (Nat.eq_dec g2 g) as [->|N3]; [rewrite upd_same; congruence|rewrite upd_other; auto].
          -- exists n1. rewrite upd_other; auto.
    - pose proof (G g) as Gg. rewrite HG in Gg. destruct Gg as (L & NP & D & n & Sn). split; [constructor; auto|]. cbn [w_pool w_next w_store w_go]. split.
      + intros i [<-|I]; [rewrite upd_same; auto|]. assert (i <> id) by congruence. rewrite upd_other; auto.
      + intro g'. destruct (Nat.eq_dec g' g) as [->|N].
        * rewrite upd_same. split; auto. exists n. auto.
        * rewrite upd_other; auto. specialize (G g'). destruct (w_go w g') as [j1|i1 j1|j1 e1] eqn:E; auto.
          destruct G as (L1 & N1 & D1 & n1 & S1). assert (i1 <> id) by (intros ->; apply (D g' j1 N); auto). split; auto. split; [intros [X|X]; auto|]. split.
          -- intros g2 j2 N2. destruct (Nat.eq_dec g2 g) as [->|N3]; [rewrite upd_same; congruence|rewrite upd_other; auto].
          -- exists n1. rewrite upd_other; auto.
    - rewrite HP in ND. split; [eapply NoDup_remove_1; eauto|]. cbn [w_pool w_next w_store w_go].
      assert (SUB : forall i, In i (a ++ b) -> In i (w_pool w)) by (intros i I; rewrite HP; apply in_app_iff in I; apply in_app_iff; cbn; tauto).
      split; [intros; apply P; auto|]. intro g'. specialize (G g'). destruct (w_go w g'); auto. destruct G as (L1 & N1 & D1 & X). split; auto.
  Qed.
  Lemma inv_steps : forall jobs w, wsteps (start jobs) w -> inv jobs w.
  Proof.
    intros jobs w H. induction H as [|w1 w2 H IH S]; [|eapply inv_step; eauto]. split; [constructor|]. split; [intros id []|]. intro g. reflexivity.
  Qed.
End Concurrent.
Arguments Waiting {job} j. Arguments Using {job} id j. Arguments Finished {job} j e.
Arguments mkw {job}. Arguments w_go {job}. Arguments w_store {job}. Arguments w_pool {job}. Arguments w_next {job}.
