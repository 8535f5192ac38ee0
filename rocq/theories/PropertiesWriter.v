(** Properties C23, C24, C25: WriteXML, the counting writer and the encoder pool.
    They hold for every printer program [m], of which the encoding of a Go value is one. *)
From Coq Require Import String.
From Coq Require Import ZArith List Bool Lia ZifyBool ZifyNat.
From Verif Require Import Base Utf8 Lexer Escape Decoder Printer Writer WriterProofs Pool.
Import ListNotations.
Open Scope Z_scope.

(** The document: the header, and what [m] writes when started on its own with this indentation. *)
Definition document (m : M unit) (indent : bytes) (header : bool) : bytes :=
  (if header then xml_header else []) ++ concat (fst (fst (m (mkp 0 indent [] 0 false false [])))).
Definition result (m : M unit) (indent : bytes) : outcome eerr unit := snd (m (mkp 0 indent [] 0 false false [])).

Lemma pooled_new : forall p e, pool_of p -> In e p -> e = pool_new.
Proof.
  intros p e H. revert e. induction H as [|p q H IH I|p x o m indent header u n r back H IH X W|p x u used H IH X]; intros e I0.
  - destruct I0.
  - auto.
  - destruct I0 as [<-|I0]; auto. unfold write_xml in W. destruct (if header then _ else _) as [[er|] u0]; [discriminate|].
    destruct (enc_encode _ _ _) as [[e2 []]|]; [| | |discriminate].
    + destruct (enc_flush o e2) as [e3 r3]. injection W as _ _ _ <-. reflexivity.
    + injection W as _ _ _ <-. reflexivity.
    + injection W as _ _ _ <-. reflexivity.
  - destruct I0 as [<-|I0]; auto.
Qed.

(** C23. For every writer that keeps the io.Writer contract, and whatever encoder the pool hands out after any
    history: WriteXML returns, the count is the number of bytes the writer accepted, these are a prefix of the
    document, and all of it when no error is returned.  It panics only if encoding does. *)
Theorem C23_count : forall o m indent header p e, obeys o -> pool_of p -> e = pool_new \/ In e p -> result m indent <> OutOfFuel ->
  exists u n r back, write_xml o m indent header e = Some (u, n, r, back) /\
    n = Z.of_nat (length (u_out u)) /\ (exists rest, document m indent header = u_out u ++ rest) /\
    (r = Done -> u_out u = document m indent header /\ exists x, result m indent = Ok x) /\ (r = Crashed -> result m indent = Panic).
Proof.
  intros o m indent header p e O P E NF. assert (e = pool_new) as -> by (destruct E; auto; eapply pooled_new; eauto).
  destruct (write_xml_ok o m indent header pool_new O NF) as (u & n & r & back & A & B & C & D & _ & F). exists u, n, r, back. auto.
Qed.
Print Assumptions C23_count.
(** C23. With a writer that accepts everything, the error is that of encoding. *)
Theorem C23_complete : forall o m indent header p e u n r back, (forall h q, o h q = (length q, None)) ->
  pool_of p -> e = pool_new \/ In e p -> write_xml o m indent header e = Some (u, n, r, back) ->
  (r = Done <-> exists x, result m indent = Ok x).
Proof.
  intros o m indent header p e u n r back W P E H. assert (e = pool_new) as -> by (destruct E; auto; eapply pooled_new; eauto).
  exact (write_xml_willing _ _ _ _ _ _ _ _ _ W H).
Qed.
Print Assumptions C23_complete.

(** A writer that fails on its second call after taking two bytes of it. *)
Definition two_then_fail : writer := fun h p => match h with [] => (length p, None) | _ => (Nat.min 2 (length p), Some (WErr 7)) end.
Lemma two_then_fail_obeys : obeys two_then_fail.
Proof. intros h p. destruct h; cbn [two_then_fail fst snd]; (split; [lia|intro]); [lia|congruence]. Qed.
Definition small_doc : M unit := mdo_ write_start (mkname [] (str "MPD")) [] ; write_end (mkname [] (str "MPD")).
Example C23_example :
  write_xml two_then_fail small_doc (str "  ") true pool_new =
    Some (mkdest [xml_header; str "<MPD></MPD>"] (xml_header ++ str "<M") 41, 41, Failed, Some pool_new) /\
  document small_doc (str "  ") true = xml_header ++ str "<MPD></MPD>" /\ result small_doc (str "  ") = Ok tt.
Proof. vm_compute. auto. Qed.
(** The contract is needed: a writer that takes less without an error makes bufio report a short write. *)
Example C23_short : exists u, write_xml (fun _ p => (Nat.min 3 (length p), None)) small_doc [] false pool_new = Some (u, 3, Failed, Some pool_new).
Proof. eexists. vm_compute. reflexivity. Qed.
(** The contract is needed: an empty header write is taken as success. *)
Theorem C23_contract_refuted : exists o u n back, write_xml o small_doc [] true pool_new = Some (u, n, Done, back) /\ u_out u <> document small_doc [] true.
Proof. exists (fun h p => match h with [] => (O, None) | _ => (length p, None) end). do 3 eexists. split; [vm_compute; reflexivity|vm_compute; discriminate]. Qed.
Print Assumptions C23_contract_refuted.

(** C24. Whatever was written before and however it ended, a pooled encoder behaves as a new one: the calls to
    the writer, the count, the result and the encoder put back are the same, also for writers that break their
    contract. *)
Theorem C24_no_trace : forall p e, pool_of p -> In e p ->
  forall o m indent header, write_xml o m indent header e = write_xml o m indent header pool_new.
Proof. intros p e P I o m indent header. rewrite (pooled_new _ _ P I). reflexivity. Qed.
Print Assumptions C24_no_trace.
(** C24. The same for the encoder that AcquireEncoder returns: it is the one NewEncoder makes. *)
Theorem C24_acquire : forall p e u, pool_of p -> e = pool_new \/ In e p -> acquire u e = new_encoder u.
Proof. intros p e u P E. assert (e = pool_new) as -> by (destruct E; auto; eapply pooled_new; eauto). reflexivity. Qed.
Print Assumptions C24_acquire.
(** C24. WriteXML gives its encoder back on every path on which it took one. *)
Theorem C24_given_back : forall o m indent header e u n r back, write_xml o m indent header e = Some (u, n, r, back) ->
  back = None -> header = true /\ r = Failed.
Proof.
  intros o m indent header e u n r back W ->. unfold write_xml in W. destruct header.
  - destruct (cw_write o xml_header new_dest) as [[k [er|]] u0]; [injection W as _ _ <-; auto|].
    destruct (enc_encode _ _ _) as [[e2 []]|]; [destruct (enc_flush o e2)| | |]; discriminate.
  - destruct (enc_encode _ _ _) as [[e2 []]|]; [destruct (enc_flush o e2)| | |]; discriminate.
Qed.
Print Assumptions C24_given_back.
(** A history that left elements open, with indentation and a failed write. *)
Definition broken_doc : M unit := mdo_ write_start (mkname (str "u:ns") (str "p:MPD")) [] ; mdo_ write_start (mkname [] (str "Period")) [] ; mfail (str "no").
Example C24_example : exists p e, pool_of p /\ In e p /\ exists u n, write_xml two_then_fail broken_doc (str "    ") false pool_new = Some (u, n, Failed, Some e).
Proof.
  exists [pool_new], pool_new. assert (H : exists u n, write_xml two_then_fail broken_doc (str "    ") false pool_new = Some (u, n, Failed, Some pool_new)) by (eexists _, _; vm_compute; reflexivity).
  split; [|split; [left; reflexivity|exact H]]. destruct H as (u & n & H).
  eapply P_write; [constructor|left; reflexivity|exact H].
Qed.

(** C25. In every interleaving no encoder is used by two goroutines at once, none in use is in the pool, and a
    goroutine that finished has exactly the result of the same job run alone on a new encoder. *)
Theorem C25_exclusive : forall job (step : job -> encoder -> job * encoder) over dst jobs w,
  wsteps job step over dst (start job jobs) w ->
  (forall g g' id j j', w_go w g = Using id j -> w_go w g' = Using id j' -> g = g') /\
  (forall g id j, w_go w g = Using id j -> ~ In id (w_pool w)) /\ NoDup (w_pool w).
Proof.
  intros job step over dst jobs w H. destruct (inv_steps _ _ _ _ _ _ H) as (ND & P & G). split; [|split; auto].
  - intros g g' id j j' A B. destruct (Nat.eq_dec g' g) as [|N]; auto. specialize (G g). rewrite A in G. destruct G as (_ & _ & D & _). exfalso. apply (D g' j' N B).
  - intros g id j A. specialize (G g). rewrite A in G. apply G.
Qed.
Print Assumptions C25_exclusive.
Theorem C25_own_result : forall job (step : job -> encoder -> job * encoder) over dst jobs w g j e,
  wsteps job step over dst (start job jobs) w -> w_go w g = Finished j e ->
  over j = true /\ exists n, steps job step n (jobs g) (new_encoder (dst (jobs g))) = (j, e).
Proof. intros job step over dst jobs w g j e H F. destruct (inv_steps _ _ _ _ _ _ H) as (ND & P & G). specialize (G g). rewrite F in G. exact G. Qed.
Print Assumptions C25_own_result.
(** C25. That run alone has only one result: the first state that is over. *)
Theorem C25_unique : forall job (step : job -> encoder -> job * encoder) over dst jobs w w' g j e j' e',
  wsteps job step over dst (start job jobs) w -> wsteps job step over dst (start job jobs) w' ->
  w_go w g = Finished j e -> w_go w' g = Finished j' e' ->
  (forall j e, over j = true -> step j e = (j, e)) -> j = j' /\ e = e'.
Proof.
  intros job step over dst jobs w w' g j e j' e' H H' F F' ST.
  destruct (C25_own_result _ _ _ _ _ _ _ _ _ H F) as (O & n & S1). destruct (C25_own_result _ _ _ _ _ _ _ _ _ H' F') as (O' & n' & S2).
  assert (K : forall n k j0 e0 j e, steps job step n j0 e0 = (j, e) -> over j = true -> steps job step (k + n) j0 e0 = (j, e)).
  { intros n0 k j0 e0 j1 e1 X Y. induction k as [|k IH]; auto. cbn. rewrite IH. auto. }
  pose proof (K _ n' _ _ _ _ S1 O) as A. pose proof (K _ n _ _ _ _ S2 O') as B. rewrite Nat.add_comm in A. rewrite A in B. injection B as -> ->. auto.
Qed.
Print Assumptions C25_unique.

(** Two goroutines write two documents token by token, one step each in turn; the second gets the first's encoder later on. *)
Definition tok_step (j : list token) (e : encoder) : list token * encoder :=
  match j with
  | [] => (j, e)
  | t :: r => (r, match run_step (fun _ p => (length p, None)) (encode_token (length (b_buf (en_b e))) t) e with Some (e', _) => e' | None => e end)
  end.
Definition tok_over (j : list token) : bool := match j with [] => true | _ => false end.
Definition doc_of (g : nat) : list token :=
  match g with
  | O => [TStart (mkname [] (str "a")) []; TEnd (mkname [] (str "a"))]
  | _ => [TStart (mkname [] (str "b")) []; TChar (str "x"); TEnd (mkname [] (str "b"))]
  end.
(** Moves of a schedule, executed. *)
Inductive move := New (g : nat) | Get (g : nat) | Work (g : nat) | Put (g : nat).
Definition exec (mv : move) (w : world (list token)) : option (world (list token)) :=
  match mv with
  | New g => match w_go w g with
             | Waiting j => Some (mkw (upd (w_go w) g (Using (w_next w) j)) (upd (w_store w) (w_next w) (acquire new_dest pool_new)) (w_pool w) (S (w_next w)))
             | _ => None
             end
  | Get g => match w_go w g, w_pool w with
             | Waiting j, id :: b => Some (mkw (upd (w_go w) g (Using id j)) (upd (w_store w) id (acquire new_dest (w_store w id))) b (w_next w))
             | _, _ => None
             end
  | Work g => match w_go w g with
              | Using id (t :: r) => let '(j, e) := tok_step (t :: r) (w_store w id) in Some (mkw (upd (w_go w) g (Using id j)) (upd (w_store w) id e) (w_pool w) (w_next w))
              | _ => None
              end
  | Put g => match w_go w g with
             | Using id [] => Some (mkw (upd (w_go w) g (Finished [] (w_store w id))) (upd (w_store w) id (release (w_store w id))) (id :: w_pool w) (w_next w))
             | _ => None
             end
  end.
Fixpoint execs (ms : list move) (w : world (list token)) : option (world (list token)) :=
  match ms with [] => Some w | m :: ms => match exec m w with Some w => execs ms w | None => None end end.
Lemma execs_sound : forall ms w0 w w', wsteps _ tok_step tok_over (fun _ => new_dest) w0 w -> execs ms w = Some w' -> wsteps _ tok_step tok_over (fun _ => new_dest) w0 w'.
Proof.
  induction ms as [|m ms IH]; intros w0 w w' H E; cbn [execs] in E; [injection E as <-; auto|].
  destruct (exec m w) as [w1|] eqn:X; [|discriminate]. apply (IH w0 w1 w'); auto. apply WS_step with w; auto. clear E IH H.
  destruct m as [g|g|g|g]; cbn [exec] in X; destruct (w_go w g) as [j|id j|j e] eqn:G; try discriminate.
  - injection X as <-. apply (W_new _ tok_step tok_over (fun _ => new_dest) w g j G).
  - destruct (w_pool w) as [|id b] eqn:P; [discriminate|]. injection X as <-. exact (W_get _ tok_step tok_over (fun _ => new_dest) w g j [] id b G P).
  - destruct j as [|t r]; [discriminate|]. destruct (tok_step (t :: r) (w_store w id)) as [j1 e1] eqn:S. injection X as <-. apply (W_work _ tok_step tok_over (fun _ => new_dest) w g id (t :: r) j1 e1 G eq_refl S).
  - destruct j as [|t r]; [|discriminate]. injection X as <-. apply (W_put _ tok_step tok_over (fun _ => new_dest) w g id [] G eq_refl).
Qed.
Definition schedule : list move := [New 0; New 1; Work 0; Work 1; Work 1; Work 0; Put 0; Get 2; Work 1; Put 1]%nat.
Definition text_in (s : status (list token)) : option bytes := match s with Finished _ e => Some (b_buf (en_b e)) | _ => None end.
Definition user_of (s : status (list token)) : option nat := match s with Using id _ => Some id | _ => None end.
Example C25_example : exists w, wsteps _ tok_step tok_over (fun _ => new_dest) (start _ doc_of) w /\
  text_in (w_go w 0%nat) = Some (str "<a></a>") /\ text_in (w_go w 1%nat) = Some (str "<b>x</b>") /\ user_of (w_go w 2%nat) = Some 0%nat /\ w_pool w = [1%nat].
Proof.
  destruct (execs schedule (start _ doc_of)) as [w|] eqn:E.
  - exists w. split; [eapply execs_sound; [apply WS_refl|exact E]|].
    assert (X : match execs schedule (start _ doc_of) with
                | Some w => (text_in (w_go w 0%nat), text_in (w_go w 1%nat), user_of (w_go w 2%nat), w_pool w)
                | None => (None, None, None, []) end = (Some (str "<a></a>"), Some (str "<b>x</b>"), Some 0%nat, [1%nat])) by (vm_compute; reflexivity).
    rewrite E in X. injection X as A B C D. auto.
  - exfalso. assert (X : match execs schedule (start _ doc_of) with Some _ => true | None => false end = true) by (vm_compute; reflexivity).
    rewrite E in X. discriminate.
Qed.
