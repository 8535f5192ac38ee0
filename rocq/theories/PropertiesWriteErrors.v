(** Property C90: the error of WriteXML is the error of the writer, and the writer is left alone after it. *)
From Coq Require Import String.
From Coq Require Import ZArith List Bool Lia ZifyBool ZifyNat.
From Verif Require Import Base Utf8 Lexer Escape Decoder Printer Writer WriterProofs Pool PropertiesWriter.
Import ListNotations.
Open Scope Z_scope.

(** *** The model *)
(** What an error comes from: writing or encoding. *)
Inductive cause := Sink (x : werr) | Coding (x : eerr).
Definition of_sink (e : option werr) : list cause := match e with Some x => [Sink x] | None => [] end.
(** mpd/io.go:59-78 WriteXML with marshal.go:214-220 Encode, 352-354 Flush, 1208-1211 cachedWriteError: the error returned is one of
    these, and none if there are none.  If there is both an error of the writer and one of encoding, the code returns the one it
    comes upon first; the model has both. *)
Definition write_errors (o : writer) (m : M unit) (indent : bytes) (header : bool) (e : encoder) : option (list cause) :=
  let '(err, u) := if header then let '(_, err, u) := cw_write o xml_header new_dest in (err, u) else (None, new_dest) in
  match err with
  | Some x => Some [Sink x]
  | None =>
      let e1 := enc_indent [] indent (acquire u e) in
      match enc_encode o m e1 with
      | None => None
      | Some (e2, Done) => Some (of_sink (b_err (en_b (fst (enc_flush o e2)))))
      | Some (e2, _) => Some (match snd (m (en_p e1)) with
                              | Ok _ => of_sink (b_err (en_b e2))
                              | Err x => Coding x :: of_sink (en_err e2)
                              | _ => []
                              end)
      end
  end.

(** *** What is claimed *)
(** What the writer said to the last of its calls; it said nothing to the others. *)
Definition heard (o : writer) (calls : list bytes) : option werr := match rev calls with [] => None | p :: h => snd (o (rev h) p) end.
Definition quiet (o : writer) (calls : list bytes) : Prop := forall h p t, calls = h ++ p :: t -> t <> [] -> snd (o h p) = None.
(** The last call took less than it was given and did not say so. *)
Definition took_less (o : writer) (calls : list bytes) : Prop := exists h p, calls = h ++ [p] /\ snd (o h p) = None /\ (fst (o h p) < length p)%nat.

(** *** Proofs *)
Definition told (o : writer) (u : dest) (e : option werr) : Prop := quiet o (u_calls u) /\ (e = heard o (u_calls u) \/ e = Some short_write /\ heard o (u_calls u) = None /\ took_less o (u_calls u)).
Lemma heard_snoc : forall o c p, heard o (c ++ [p]) = snd (o c p).
Proof. intros o c p. unfold heard. rewrite rev_app_distr. cbn. rewrite rev_involutive. reflexivity. Qed.
Lemma quiet_snoc : forall o c p, quiet o c -> heard o c = None -> quiet o (c ++ [p]).
Proof.
  intros o c p Q H h q t E N. destruct t as [|x t] using rev_ind; [congruence|]. clear IHt N. change (q :: t ++ [x]) with ((q :: t) ++ [x]) in E. rewrite app_assoc in E. apply app_inj_tail in E as (E & _).
  destruct t as [|y t]; [|apply (Q h q (y :: t) E); discriminate]. rewrite E, heard_snoc in H. exact H.
Qed.
Lemma told_none : forall o u, told o u None -> quiet o (u_calls u) /\ heard o (u_calls u) = None.
Proof. intros o u (Q & [E|(E & _)]); [auto|discriminate]. Qed.
Lemma cw_told : forall o p u n e u', told o u None -> cw_write o p u = (n, e, u') -> told o u' e /\ u_calls u' = u_calls u ++ [p] /\ o (u_calls u) p = (n, e).
Proof.
  intros o p u n e u' T H. apply told_none in T as (Q & E). unfold cw_write in H. destruct (o (u_calls u) p) as [n0 e0] eqn:O. injection H as <- <- <-. unfold told. cbn [u_calls]. rewrite heard_snoc, O. split; [|auto]. split; [apply quiet_snoc; assumption|]. left. reflexivity.
Qed.
Lemma flush_told : forall o b, told o (b_dst b) (b_err b) -> told o (b_dst (b_flush o b)) (b_err (b_flush o b)).
Proof.
  intros o b T. unfold b_flush. destruct (b_err b) as [x|] eqn:E; [rewrite E; exact T|]. destruct (b_buf b) as [|c l] eqn:B; [rewrite E; exact T|]. destruct (cw_write o (c :: l) (b_dst b)) as [[n e] u] eqn:W.
  destruct (cw_told _ _ _ _ _ _ T W) as ((Q & T') & C & O). destruct e as [x|]; [split; assumption|]. destruct (n <? length (c :: l))%nat eqn:L; [|split; assumption]. split; [exact Q|]. right. cbn [b_dst b_err]. split; [reflexivity|]. rewrite C, heard_snoc, O. split; [reflexivity|].
  exists (u_calls (b_dst b)), (c :: l). rewrite O. split; [reflexivity|]. split; [reflexivity|]. cbn [fst]. lia.
Qed.
Lemma b_write_told : forall o k p b b', told o (b_dst b) (b_err b) -> b_write k o p b = Some b' -> told o (b_dst b') (b_err b').
Proof.
  intros o. induction k as [|k IH]; intros p b b' T H; cbn [b_write] in H; (destruct (b_err b) as [x|] eqn:E; [injection H as <-; rewrite E; exact T|]); (destruct (_ <=? _)%nat; [injection H as <-; exact T|]); [discriminate|].
  destruct (b_buf b) as [|c l] eqn:B.
  - destruct (cw_write o p (b_dst b)) as [[n e] u] eqn:W. destruct (cw_told _ _ _ _ _ _ T W) as (T' & _). eapply IH; [|exact H]. exact T'.
  - eapply IH; [|exact H]. apply flush_told. exact T.
Qed.
Definition etold (o : writer) (e : encoder) : Prop := told o (b_dst (en_b e)) (b_err (en_b e)) /\ en_closed e = false /\ en_err e = b_err (en_b e).
Lemma p_writes_told : forall o cs e e', etold o e -> p_writes o cs e = Some e' -> etold o e'.
Proof.
  intros o. induction cs as [|c cs IH]; intros e e' T H; cbn [p_writes] in H; [injection H as <-; exact T|]. destruct (p_write o c e) as [e1|] eqn:P; [|discriminate]. eapply IH; [|exact H]. destruct T as (T & C & E). unfold p_write in P. rewrite C in P.
  destruct (en_err e) as [x|] eqn:X; [injection P as <-; split; [exact T|]; split; [reflexivity|exact E]|]. destruct (b_write rounds o c (en_b e)) as [b|] eqn:W; [|discriminate]. injection P as <-. split; [exact (b_write_told _ _ _ _ _ T W)|]. split; reflexivity.
Qed.

(** C90. Whatever the writer does, whatever is encoded, and whatever encoder comes from the pool: the writer is not called again after it has returned an error.
    If it returned one, WriteXML returns an error, and if encoding is not at fault then this error.  If it returned none and encoding is not at fault, then
    WriteXML returns none, unless the writer took less than it was given without an error: then the error is io.ErrShortWrite. *)
Theorem C90_error : forall o m indent header p e u n r back, pool_of p -> e = pool_new \/ In e p -> write_xml o m indent header e = Some (u, n, r, back) ->
  exists l, write_errors o m indent header e = Some l /\ quiet o (u_calls u) /\ (r = Failed <-> l <> []) /\ (heard o (u_calls u) <> None -> r <> Done) /\
    (forall x, In (Sink x) l -> heard o (u_calls u) = Some x \/ x = short_write /\ took_less o (u_calls u)) /\
    (forall x, In (Coding x) l -> result m indent = Err x) /\
    (forall x, r = Failed -> result m indent = Ok x -> exists y, l = [Sink y]) /\
    (forall x, r = Failed -> result m indent = Err x -> heard o (u_calls u) = None -> took_less o (u_calls u) \/ l = [Coding x]).
Proof.
  intros o m indent header p e u n r back P E H. assert (e = pool_new) as -> by (destruct E; auto; eapply pooled_new; eauto). clear P E. unfold write_xml in H. unfold write_errors.
  assert (NL : forall c : cause, [c] <> []) by discriminate.
  assert (T0 : forall err u, (if header then let '(_, err, u) := cw_write o xml_header new_dest in (err, u) else (None, new_dest)) = (err, u) -> told o u err).
  { assert (T : told o new_dest None) by (split; [intros h q t X; destruct h; discriminate|left; reflexivity]). intros err u0 X. destruct header; [|injection X as <- <-; exact T]. destruct (cw_write o xml_header new_dest) as [[n0 e0] u1] eqn:W. injection X as <- <-. eapply cw_told; eauto. }
  assert (SK : forall u e, told o u e -> forall x, In (Sink x) (of_sink e) -> heard o (u_calls u) = Some x \/ x = short_write /\ took_less o (u_calls u)).
  { intros u0 e0 (_ & T) x I. destruct e0 as [y|]; [|destruct I]. destruct I as [I|[]]. injection I as ->. destruct T as [T|(T & _ & L)]; [left; symmetry; exact T|right; injection T as ->; auto]. }
  assert (SC : forall e x, ~ In (Coding x) (of_sink e)) by (intros [y|] x I; [destruct I as [I|[]]; discriminate|destruct I]).
  assert (SH : forall u e, told o u e -> heard o (u_calls u) <> None -> e <> None) by (intros u0 e0 (_ & [->|(-> & X & _)]) N; [exact N|discriminate]).
  destruct (if header then _ else _) as [err u0]. specialize (T0 err u0 eq_refl). destruct err as [x|].
  { injection H as <- <- <- <-. exists [Sink x]. split; [reflexivity|]. split; [apply T0|]. split; [split; [intros; apply NL|reflexivity]|]. split; [discriminate|]. split; [exact (SK _ _ T0)|]. split; [intros y I; destruct (SC (Some x) y I)|]. split; [eauto|].
    intros y _ _ N. destruct T0 as (_ & [T0|(_ & _ & L)]); [congruence|left; exact L]. }
  set (e1 := enc_indent [] indent (acquire u0 pool_new)) in *. assert (R : result m indent = snd (m (en_p e1))) by reflexivity. rewrite R. clear R.
  assert (T1 : etold o e1) by (split; [exact T0|]; split; reflexivity). unfold enc_encode, run_step in *. destruct (m (en_p e1)) as [[cs s] res] eqn:M. destruct (p_writes o (cs ++ [[]]) _) as [e2|] eqn:PW; [|discriminate].
  assert (T2 : etold o e2) by (eapply p_writes_told; [|exact PW]; exact T1). clear PW T1. destruct T2 as (T2 & C2 & E2). cbn [snd]. destruct res as [x|x| |]; [| | |discriminate].
  - rewrite E2 in *. destruct (b_err (en_b e2)) as [y|] eqn:B2.
    + injection H as <- <- <- <-. exists [Sink y]. cbn [of_sink]. rewrite ?B2. cbn [of_sink]. split; [reflexivity|]. split; [apply T2|]. split; [split; [intros; apply NL|reflexivity]|]. split; [discriminate|]. split; [exact (SK _ _ T2)|]. split; [intros z I; destruct (SC (Some y) z I)|]. split; [eauto|]. intros z _ Z. discriminate.
    + rewrite <- B2 in T2. pose proof (flush_told _ _ T2) as T3. unfold enc_flush in *. cbn [en_b en_p en_closed en_err fst] in *. set (b3 := b_flush o (en_b e2)) in *. destruct (b_err b3) as [y|] eqn:B3.
      * injection H as <- <- <- <-. cbn [en_b]. rewrite ?B3. exists [Sink y]. split; [reflexivity|]. split; [apply T3|]. split; [split; [intros; apply NL|reflexivity]|]. split; [discriminate|]. split; [exact (SK _ _ T3)|]. split; [intros z I; destruct (SC (Some y) z I)|]. split; [eauto|]. intros z _ Z. discriminate.
      * rewrite <- B3 in T3. pose proof (flush_told _ _ T3) as T4. set (b4 := b_flush o b3) in *. exists (of_sink (b_err b4)). cbn [en_b]. split; [reflexivity|]. injection H as <- <- <- <-. split; [apply T4|]. split; [destruct (b_err b4); split; cbn; try discriminate; try congruence|].
        split; [intros N; specialize (SH _ _ T4 N); destruct (b_err b4); [discriminate|congruence]|]. split; [exact (SK _ _ T4)|]. split; [intros z I; destruct (SC _ z I)|]. split; [|intros z _ Z; discriminate].
        intros z F _. destruct (b_err b4) as [y|]; [exists y; reflexivity|discriminate].
  - injection H as <- <- <- <-. exists (Coding x :: of_sink (en_err e2)). split; [reflexivity|]. split; [apply T2|]. split; [split; [intros; discriminate|reflexivity]|]. split; [discriminate|]. split; [intros y [I|I]; [discriminate|]; rewrite E2 in I; exact (SK _ _ T2 y I)|].
    split; [intros y [I|I]; [congruence|destruct (SC _ y I)]|]. split; [intros y _ Z; discriminate|]. intros y _ Z N. injection Z as <-. destruct T2 as (_ & [T2|(_ & _ & L)]); [right; rewrite E2, T2, N; reflexivity|left; exact L].
  - injection H as <- <- <- <-. exists []. split; [reflexivity|]. split; [apply T2|]. split; [split; [discriminate|congruence]|]. split; [discriminate|]. split; [intros y []|]. split; [intros y []|]. split; intros y Z; discriminate.
Qed.
Print Assumptions C90_error.
(** C90 for writers that keep the io.Writer contract: the error returned is the last one of the writer, word for word. *)
Theorem C90_contract : forall o m indent header p e u n r back x, obeys o -> pool_of p -> e = pool_new \/ In e p -> result m indent = Ok x -> write_xml o m indent header e = Some (u, n, r, back) ->
  write_errors o m indent header e = Some (of_sink (heard o (u_calls u))) /\ (r = Done <-> heard o (u_calls u) = None).
Proof.
  intros o m indent header p e u n r back x O P E R H. destruct (C90_error _ _ _ _ _ _ _ _ _ _ P E H) as (l & L & _ & F & D & S & _ & OK & _). rewrite L.
  assert (TL : ~ took_less o (u_calls u)) by (intros (h & q & _ & X & Y); destruct (O h q) as (_ & Z); specialize (Z Y); congruence).
  destruct (C23_count o m indent header p e O P E ltac:(rewrite R; discriminate)) as (u' & n' & r' & b' & H' & _ & _ & _ & CR). assert (r' = r) by congruence. subst r'.
  assert (NC : r <> Crashed) by (intro Z; specialize (CR Z); congruence).
  destruct r; [| |congruence].
  - assert (l = []) as -> by (destruct l; [reflexivity|exfalso; assert (Z : Done = Failed) by (apply F; discriminate); discriminate]). destruct (heard o (u_calls u)); [exfalso; apply D; [discriminate|reflexivity]|]. split; [reflexivity|tauto].
  - destruct (OK x eq_refl R) as (y & ->). destruct (S y (or_introl eq_refl)) as [->|(_ & Z)]; [|contradiction]. split; [reflexivity|split; discriminate].
Qed.
Print Assumptions C90_contract.
(** The writer of C23 fails on its second call; a writer that takes three bytes without an error; both kinds of error. *)
Definition bad_doc : M unit := mdo_ write_start (mkname [] (str "MPD")) [] ; write_end (mkname [] (str "Period")).
Example C90_ex : write_errors two_then_fail small_doc (str "  ") true pool_new = Some [Sink (WErr 7)] /\
  write_errors (fun _ p => (Nat.min 3 (length p), None)) small_doc [] false pool_new = Some [Sink short_write] /\ short_write <> closed_err /\
  write_errors (fun _ p => (length p, None)) small_doc [] true pool_new = Some [] /\
  (exists x, write_errors (fun _ p => (length p, None)) bad_doc [] true pool_new = Some [Coding x]).
Proof. split; [vm_compute; reflexivity|]. split; [vm_compute; reflexivity|]. split; [discriminate|]. split; [vm_compute; reflexivity|]. eexists. vm_compute. reflexivity. Qed.
