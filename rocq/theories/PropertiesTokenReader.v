(** Property C67: decoders over a stream of tokens. *)
From Coq Require Import String.
From Coq Require Import ZArith List Bool Lia.
From Coq Require Import ZifyBool ZifyNat.
From Verif Require Import Base Lexer Decoder ByteDecoder ByteRuns ByteToken BytePlace ByteScope ByteLoose ByteEnd PropertiesPosition TokenReader.
Import ListNotations.
Open Scope Z_scope.

(** Tokens returned one after the other without an error. *)
Inductive got_t {S} (next : token_reader S) (c : cfg) (x : S * bdec) : list (option token) -> S * bdec -> Prop :=
| gt_nil : got_t next c x [] x
| gt_more : forall ts x1 t x2, got_t next c x ts x1 -> TokenT next c x1 = ((t, None), x2) -> got_t next c x (ts ++ [t]) x2.

Lemma tokent_cases : forall S (next : token_reader S) c s d t s' d', TokenT next c (s, d) = ((t, None), (s', d')) ->
  exists t0 d0, (let '(t', d'') := auto c t0 d0 in finish c t' d'') = ((t, None), d') /\ (d0 = d \/ d0 = with_tok None d).
Proof.
  intros S next c s d t s' d' E. unfold TokenT in E.
  assert (G : forall s0 t0 d0, (let '(t', d'1) := auto c t0 d0 in let '(r, d'') := finish c t' d'1 in (r, (s0, d''))) = ((t, None), (s', d')) ->
    (let '(t', d'') := auto c t0 d0 in finish c t' d'') = ((t, None), d')).
  { intros s0 t0 d0 X. destruct (auto c t0 d0) as [t' d1]. destruct (finish c t' d1) as [r d2]. inversion X; subst. reflexivity. }
  assert (M : match b_stk d with BEof :: _ => False | _ => True end) by (destruct (b_stk d) as [|[]]; try exact I; discriminate E).
  assert (E2 : match b_tok d with
      | Some t => let '(t', d') := auto c (Some t) (with_tok None d) in let '(r, d'') := finish c t' d' in (r, (s, d''))
      | None =>
          let '((t, e), s') := next s in
          match t, e with
          | None, Some e => ((None, Some match e, b_stk d with LRead FEof, _ :: _ => LSyntax (str "unexpected EOF") (l_line (b_lex d)) | _, _ => e end), (s', d))
          | _, _ => let '(t', d') := auto c t d in let '(r, d'') := finish c t' d' in (r, (s', d''))
          end
      end = ((t, None), (s', d'))) by (destruct (b_stk d) as [|[]]; try exact E; contradiction).
  clear E. destruct (b_tok d) as [t1|]; [exists (Some t1), (with_tok None d); split; [eapply G; exact E2 | auto]|].
  destruct (next s) as [[[t1|] e] s1]; [exists (Some t1), d; split; [eapply G; exact E2 | auto]|].
  destruct e; [discriminate E2|]. exists None, d. split; [eapply G; exact E2 | auto].
Qed.

(** Whatever the TokenReader returns, the tokens are nested: with any options by local name. *)
Theorem C67_balanced : forall S (next : token_reader S) c s ts x, got_t next c (new_tdec s) ts x -> balanced by_local [] ts.
Proof.
  intros S next c s ts x G.
  cut (balanced by_local [] ts /\
       map (pair []) (opened (b_stk (snd x))) = fold_left (open_after by_local) ts []); [tauto|].
  induction G as [|ts [s1 d1] t [s2 d2] G (B & M) E]; [split; [exact I | reflexivity]|]. cbn [snd] in *.
  rewrite balanced_app, fold_left_app, <- M. cbn [fold_left]. apply tokent_cases in E. destruct E as (t0 & d0 & F & D).
  assert (D' : b_stk d0 = b_stk d1) by (destruct D as [->| ->]; reflexivity). pose proof (auto_stk c t0 d0) as A. destruct (auto c t0 d0) as [t' d'].
  cbn [snd] in A. apply finish_opened in F. rewrite A, D' in F.
  destruct t as [[n a|n| | | |]|]; rewrite ?F; cbn [map balanced tl open_after]; unfold by_local; auto.
Qed.
Print Assumptions C67_balanced.
(** In strict mode by their whole names. *)
Theorem C67_strict_balanced : forall S (next : token_reader S) c s ts x, c_strict c = true -> got_t next c (new_tdec s) ts x -> balanced by_name [] ts.
Proof.
  intros S next c s ts x ST G.
  cut (balanced by_name [] ts /\ exists os, levels c (b_stk (snd x)) (b_ns (snd x)) os /\ map by_name os = fold_left (open_after by_name) ts []); [tauto|].
  induction G as [|ts [s1 d1] t [s2 d2] G (B & os & L & M) E]; [split; [exact I|]; exists []; split; reflexivity|]. cbn [snd] in *.
  apply tokent_cases in E. destruct E as (t0 & d0 & F & D). unfold auto in F. rewrite ST in F.
  assert (L0 : levels c (b_stk d0) (b_ns d0) os) by (destruct D as [->| ->]; exact L).
  destruct (finish_levels c t0 d0 t d2 os ST F L0) as (B2 & os' & L2 & M2).
  rewrite balanced_app, fold_left_app, <- M. cbn [fold_left]. split; [split; assumption|]. exists os'. split; assumption.
Qed.
Print Assumptions C67_strict_balanced.

(** The decoder over the raw tokens of another decoder gives the tokens of that decoder, until the first error, which is the
    same but for the line: the decoder over tokens has none and says 1. *)
Definition same_error (a b : lerr) : Prop :=
  match a, b with LSyntax m _, LSyntax m' _ => m = m' | _, _ => a = b end.
Lemma same_error_refl : forall e, same_error e e. Proof. destruct e; simpl; auto. Qed.

(** [i] reads bytes, [o] is over its raw tokens, [d] does both. *)
Definition paired (i o d : bdec) : Prop :=
  d = mkb (b_lex i) (b_close i) (b_stk o) (b_ns o) None (b_depth i) /\ b_tok o = None /\ b_depth i = 0 /\ no_eof (b_stk o).
Lemma paired_step : forall c i o d r d', c_strict c = true -> paired i o d -> Token c d = Some (r, d') ->
  exists r' i' o', TokenT (raw_tokens c) c (i, o) = (r', (i', o')) /\
    match r with
    | (t, None) => r' = (t, None) /\ paired i' o' d'
    | (t, Some e) => t = None /\ exists e', r' = (None, Some e') /\ same_error e e'
    end.
Proof.
  intros c i o d r d' ST (D & TK & DP & NE) E. unfold Token in E. rewrite D in E. cbn [b_stk b_tok] in E. rewrite (stk_head _ _ _ _ NE) in E.
  unfold TokenT. rewrite (stk_head _ _ _ _ NE), TK. unfold raw_tokens, RawToken. rewrite DP. cbn [Z.ltb Z.compare].
  assert (RB : raw_b c d = match raw_b c i with None => None | Some (t, i') => Some (t, mkb (b_lex i') (b_close i') (b_stk o) (b_ns o) None 0) end).
  { unfold raw_b. rewrite D. unfold b_err. cbn [b_lex b_close]. destruct (l_err (b_lex i)); [rewrite DP; reflexivity|].
    destruct (b_close i) eqn:BC; [cbn; rewrite DP; reflexivity|]. destruct (raw_token_b c (b_lex i)) as [[[[t cl]|] s]|]; unfold with_lex; cbn; rewrite ?DP, ?BC; reflexivity. }
  rewrite <- D, RB in E. destruct (raw_b c i) as [[t i1]|] eqn:RI; [|discriminate E]. destruct (rawb_rest _ _ _ _ RI) as (_ & _ & _ & DI).
  rewrite DP in DI. cbn [b_err b_lex b_stk] in E. unfold auto in *. rewrite ST in *.
  assert (FIN : forall t0, match finish c t0 (mkb (b_lex i1) (b_close i1) (b_stk o) (b_ns o) None 0) with
                | ((t, None), d') => exists o', finish c t0 o = ((t, None), o') /\ paired i1 o' d'
                | ((t, Some e), d') => t = None /\ exists e' o', finish c t0 o = ((None, Some e'), o') /\ same_error e e'
                end).
  { assert (P0 : paired i1 o (mkb (b_lex i1) (b_close i1) (b_stk o) (b_ns o) None 0)) by (split; [rewrite DI; reflexivity | auto]).
    intros t0. destruct t0 as [[n a|n| | | |]|]; cbn [finish]; try (exists o; split; [reflexivity | exact P0]); cbn [b_stk b_ns].
    - pose proof (ns_no_eof a (b_stk o) (b_ns o) NE) as NE2. destruct (declare_b a (b_stk o, b_ns o)) as [[stk m] [e|]].
      + split; [reflexivity|]. do 2 eexists. split; [reflexivity | reflexivity].
      + eexists. split; [reflexivity|]. split; [cbn; rewrite DI; reflexivity|]. split; [exact TK|]. split; [exact DI|].
        cbn. intros [X|X]; [discriminate | exact (NE2 X)].
    - unfold pop_b. cbn [b_stk]. rewrite ST. cbn [negb]. destruct (b_stk o) as [|[s|p u ok|] stk] eqn:SO.
      + split; [reflexivity|]. do 2 eexists. split; reflexivity.
      + destruct (beq (local s) (local n)); cbn [negb]; [|split; [reflexivity|]; do 2 eexists; split; reflexivity].
        destruct (beq (space s) (space n)); cbn [negb]; [|split; [reflexivity|]; do 2 eexists; split; reflexivity].
        cbn [b_ns with_stk]. pose proof (undo_no_eof stk (b_ns o) ltac:(intros X; apply NE; right; exact X)) as NE2.
        destruct (undo_b stk (b_ns o)) as [stk' m']. eexists. split; [reflexivity|].
        split; [cbn; rewrite DI; reflexivity|]. split; [exact TK|]. split; [exact DI | exact NE2].
      + split; [reflexivity|]. do 2 eexists. split; reflexivity.
      + split; [reflexivity|]. do 2 eexists. split; reflexivity. }
  destruct t as [t|].
  - specialize (FIN (Some t)). destruct (finish c (Some t) (mkb (b_lex i1) (b_close i1) (b_stk o) (b_ns o) None 0)) as [[t' [e|]] d2];
    inversion E; subst r d2; clear E.
    + destruct FIN as (-> & e' & o' & F & SE). rewrite F. do 3 eexists. split; [reflexivity|]. split; [reflexivity|]. exists e'. auto.
    + destruct FIN as (o' & F & P). rewrite F. do 3 eexists. split; [reflexivity | auto].
  - unfold b_err in *. cbn [b_lex] in E. destruct (l_err (b_lex i1)) as [e|].
    + inversion E; subst r d'. do 3 eexists. split; [reflexivity|]. split; [reflexivity|]. eexists. split; [reflexivity|].
      destruct e as [[|m]|m l|m], (b_stk o); simpl; auto.
    + specialize (FIN None). destruct (finish c None (mkb (b_lex i1) (b_close i1) (b_stk o) (b_ns o) None 0)) as [[t' [e|]] d2];
      inversion E; subst r d2; clear E.
      * destruct FIN as (-> & e' & o' & F & SE). rewrite F. do 3 eexists. split; [reflexivity|]. split; [reflexivity|]. exists e'. auto.
      * destruct FIN as (o' & F & P). rewrite F. do 3 eexists. split; [reflexivity | auto].
Qed.
Theorem C67_same : forall c r ts d, c_strict c = true -> got_tokens c (new_bdec r) ts d ->
  exists x, got_t (raw_tokens c) c (new_tdec (new_bdec r)) ts x /\
    forall t e d', Token c d = Some ((t, Some e), d') -> exists e' x', TokenT (raw_tokens c) c x = ((None, Some e'), x') /\ same_error e e'.
Proof.
  intros c r ts d ST G.
  assert (P : exists i o, got_t (raw_tokens c) c (new_tdec (new_bdec r)) ts (i, o) /\ paired i o d).
  { induction G as [|ts d1 t d2 G (i & o & GT & P) E].
    - do 2 eexists. split; [constructor|]. split; [reflexivity|]. split; [reflexivity|]. split; [reflexivity | intros []].
    - destruct (paired_step c i o d1 _ d2 ST P E) as (r' & i' & o' & T & -> & P'). exists i', o'. split; [econstructor; eauto | exact P']. }
  destruct P as (i & o & GT & P). exists (i, o). split; [exact GT|]. intros t e d' E.
  destruct (paired_step c i o d _ d' ST P E) as (r' & i' & o' & T & _ & e' & -> & SE). exists e', (i', o'). auto.
Qed.
Print Assumptions C67_same.
Definition ttokens {S} (n : nat) (next : token_reader S) (c : cfg) (x : S * bdec) : list (option token * option lerr) :=
  (fix go (n : nat) (x : S * bdec) := match n with O => [] | Datatypes.S n => let '(r, x') := TokenT next c x in r :: go n x' end) n x.
Definition src (s : string) : bdec := new_bdec (mksrc (str s) FEof).
Example C67_example :
  ttokens 5 (raw_tokens std) std (new_tdec (src "<p:a xmlns:p='u'><b/></p:a>")) =
  [(Some (TStart (nm "u" "a") [mkattr (mkname xmlnsURL (str "p")) (str "u")]), None); (Some (TStart (nm "" "b") []), None);
   (Some (TEnd (nm "" "b")), None); (Some (TEnd (nm "u" "a")), None); (None, Some (LRead FEof))].
Proof. vm_compute. reflexivity. Qed.
(** Not so in lenient mode: the end tag of <a> that has to wait until <b> is closed is lost. *)
Theorem C67_lenient_refuted : exists T t d, got_tokens lax (src T) [Some (TStart (nm "" "a") []); Some (TStart (nm "" "b") []); Some (TEnd (nm "" "b")); t] d /\
  forall x, ~ got_t (raw_tokens lax) lax (new_tdec (src T)) [Some (TStart (nm "" "a") []); Some (TStart (nm "" "b") []); Some (TEnd (nm "" "b")); t] x.
Proof.
  exists "<a><b></a>"%string, (Some (TEnd (nm "" "a"))).
  destruct (tokens_got lax [Some (TStart (nm "" "a") []); Some (TStart (nm "" "b") []); Some (TEnd (nm "" "b")); Some (TEnd (nm "" "a"))] (src "<a><b></a>")) as [d G]; [vm_compute; reflexivity|].
  exists d. split; [exact G|]. intros x H.
  assert (D : forall ts x0, got_t (raw_tokens lax) lax (new_tdec (src "<a><b></a>")) ts x0 ->
    ttokens (length ts) (raw_tokens lax) lax (new_tdec (src "<a><b></a>")) = map (fun t => (t, None)) ts).
  { assert (A : forall (n : nat) next (y : bdec * bdec), ttokens (S n) next lax y = ttokens n next lax y ++ [fst (TokenT next lax (Nat.iter n (fun z => snd (TokenT next lax z)) y))]).
    { induction n as [|n IH]; intros next y; [unfold ttokens; simpl; destruct (TokenT next lax y); reflexivity|].
      change (ttokens (S (S n)) next lax y) with (let '(r, x') := TokenT next lax y in r :: ttokens (S n) next lax x').
      change (ttokens (S n) next lax y) with (let '(r, x') := TokenT next lax y in r :: ttokens n next lax x').
      destruct (TokenT next lax y) as [r x'] eqn:E. rewrite IH. cbn [app]. do 3 f_equal. f_equal.
      assert (SH : forall k (z : bdec * bdec), Nat.iter k (fun z => snd (TokenT next lax z)) (snd (TokenT next lax z)) = snd (TokenT next lax (Nat.iter k (fun z => snd (TokenT next lax z)) z))).
      { induction k as [|k IHk]; intros z; [reflexivity|]. simpl. rewrite IHk. reflexivity. }
      simpl. rewrite <- SH, E. reflexivity. }
    intros ts x0 GT.
    cut (ttokens (length ts) (raw_tokens lax) lax (new_tdec (src "<a><b></a>")) = map (fun t => (t, None)) ts /\ x0 = Nat.iter (length ts) (fun z => snd (TokenT (raw_tokens lax) lax z)) (new_tdec (src "<a><b></a>"))); [tauto|].
    induction GT as [|ts x1 t x2 GT [IH1 IH2] E]; [split; reflexivity|]. rewrite app_length, Nat.add_1_r, A, IH1, map_app, <- IH2, E. split; [reflexivity|].
    simpl. rewrite <- IH2, E. reflexivity. }
  apply D in H. vm_compute in H. discriminate H.
Qed.
Print Assumptions C67_lenient_refuted.
(** Behind an error the decoder over tokens goes on; what it returns is no longer nested. *)
Example C67_goes_on :
  map snd (ttokens 4 (raw_tokens std) std (new_tdec (src "<a><b></a></a>"))) = [None; None; Some (LSyntax (str "element closed by another") 1); None] /\
  map fst (ttokens 4 (raw_tokens std) std (new_tdec (src "<a><b></a></a>"))) = [Some (TStart (nm "" "a") []); Some (TStart (nm "" "b") []); None; Some (TEnd (nm "" "a"))].
Proof. vm_compute. split; reflexivity. Qed.
