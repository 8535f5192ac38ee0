(** Token of the byte by byte decoder against next_token of Decoder.v, for strict decoders. *)
From Coq Require Import String.
From Coq Require Import ZArith List Bool Lia.
From Coq Require Import ZifyBool ZifyNat.
From Verif Require Import Base Utf8 NameTables Lexer LexerProofs Decoder DecoderProofs ByteDecoder ByteRuns ByteLoud ByteSim.
Import ListNotations.
Open Scope Z_scope.

Definition lift (e : sent) : bent := match e with SStart n => BStart n | SNs p u ok => BNs p u ok end.
Definition no_eof (l : list bent) : Prop := ~ In BEof l.
Lemma lift_no_eof : forall l, no_eof (map lift l).
Proof. intros l H. apply in_map_iff in H. destruct H as ([] & E & _); discriminate. Qed.

(** The two decoders are in the same state; [fe] is how the reader ends. *)
Definition like (fe : rfail) (d : dstate) (x : bdec) : Prop :=
  b_tok x = None /\
  match d_err d with
  | None => b_stk x = map lift (d_stk d) /\ b_ns x = d_ns d /\ b_close x = d_close d /\
            (exists buf, rd fe (d_inp d) buf (b_lex x)) /\ (b_err x = None \/ d_close d = None)
  | Some e => failed fe e (b_lex x) /\ (e = EEof -> b_stk x = map lift (d_stk d)) /\ no_eof (b_stk x)
  end.

Lemma new_like : forall r, like (s_end r) (new_decoder (s_bytes r)) (new_bdec r).
Proof.
  intros [b e]. split; [reflexivity|]. simpl. repeat split; auto. exists []. unfold rd, view. simpl.
  split; [reflexivity|]. split; [reflexivity|]. split; [auto|]. split; [|reflexivity].
  split; [simpl; unfold max_intern; lia|]. split; constructor.
Qed.

Lemma declare_like : forall a stk m,
  match declare a (stk, m) with
  | inl (stk', m') => declare_b a (map lift stk, m) = ((map lift stk', m'), None)
  | inr e => exists stk' m' msg, declare_b a (map lift stk, m) = ((stk', m'), Some msg) /\ no_eof stk' /\ e = ESyntax msg /\
                                 at_end msg = false /\ beq msg bad_version = false /\ beq msg bad_charset = false
  end.
Proof.
  induction a as [|[n v] a IH]; intros stk m; cbn [declare declare_b]; [reflexivity|].
  destruct (beq (space n) xmlnsPrefix && beq v []).
  { do 3 eexists. split; [reflexivity|]. split; [apply lift_no_eof|]. repeat split; vm_compute; reflexivity. }
  destruct (beq (space n) xmlnsPrefix && beq (local n) []).
  { do 3 eexists. split; [reflexivity|]. split; [apply lift_no_eof|]. repeat split; vm_compute; reflexivity. }
  assert (P : forall p v stk m, push_ns p v (map lift stk, m) = (map lift (fst (set_ns p v (stk, m))), snd (set_ns p v (stk, m)))).
  { intros. simpl. destruct (m0 p); reflexivity. }
  destruct (beq (space n) xmlnsPrefix); destruct (beq (space n) [] && beq (local n) xmlnsPrefix); cbv zeta;
    rewrite ?P; cbn [fst snd].
  - specialize (IH (fst (set_ns [] v (set_ns (local n) v (stk, m)))) (snd (set_ns [] v (set_ns (local n) v (stk, m))))).
    rewrite <- !surjective_pairing in IH. rewrite <- !(surjective_pairing (set_ns (local n) v (stk, m))). exact IH.
  - specialize (IH (fst (set_ns (local n) v (stk, m))) (snd (set_ns (local n) v (stk, m)))).
    rewrite <- surjective_pairing in IH. exact IH.
  - specialize (IH (fst (set_ns [] v (stk, m))) (snd (set_ns [] v (stk, m)))).
    rewrite <- surjective_pairing in IH. exact IH.
  - apply IH.
Qed.
Lemma undo_like : forall stk m, undo_b (map lift stk) m = (map lift (fst (undo stk m)), snd (undo stk m)).
Proof. induction stk as [|[n|p u ok] stk IH]; intros m; simpl; auto. Qed.
Lemma translate_like : forall c m n b, usual c -> translate_b c m n b = translate m n b.
Proof.
  intros c m [sp lo] b U. unfold translate_b, translate. rewrite (u_default _ U). simpl.
  destruct (beq sp xmlnsPrefix); [reflexivity|]. destruct (beq sp [] && negb b); [reflexivity|].
  destruct (beq sp xmlPrefix); [reflexivity|]. destruct (beq sp [] && beq lo xmlnsPrefix); [reflexivity|].
  destruct (m sp); [reflexivity|]. destruct (beq sp []) eqn:B; [|reflexivity]. apply beq_eq in B. subst. reflexivity.
Qed.

(** What Token returns, by the result of next_token. *)
Definition same_token (fe : rfail) (R : tokres) (m : option ((option token * option lerr) * bdec)) : Prop :=
  match R with
  | TokOk t d => exists x, (m = Some ((Some t, None), x) \/ m = Some ((None, None), x) /\ t = TChar []) /\ like fe d x
  | TokErr e d => exists x, m = Some ((None, Some (low_err fe e (l_line (b_lex x)))), x) /\ like fe d x
  | TokFuel => False
  end.

Lemma rd_lex : forall fe inp buf s, rd fe inp buf s -> l_err s = None \/ l_err s = Some (LRead fe) /\ inp = [].
Proof. intros fe inp buf s (_ & _ & [C | [C D]] & _); auto. Qed.

Lemma stk_head : forall A (l : list bent) (a b : A), no_eof l -> match l with BEof :: _ => a | _ => b end = b.
Proof. intros A [|[]] a b H; auto. exfalso. apply H. left. reflexivity. Qed.

Lemma translate_map : forall c m a, usual c ->
  map (fun a => mkattr (translate_b c m (aname a) false) (avalue a)) a = map (fun a => mkattr (translate m (aname a) false) (avalue a)) a.
Proof. intros. apply map_ext. intros. rewrite translate_like; auto. Qed.

(** Token by what rawToken returns. *)
Definition final_err (e : lerr) (x : bdec) : lerr :=
  match e, b_stk x with LRead FEof, _ :: _ => LSyntax (str "unexpected EOF") (l_line (b_lex x)) | _, _ => e end.
Lemma token_error : forall c x e x', no_eof (b_stk x) -> b_tok x = None -> raw_b c x = Some (None, x') -> b_err x' = Some e ->
  Token c x = Some ((None, Some (final_err e x')), x').
Proof. intros c x e x' NB TK RB E. unfold Token. rewrite (stk_head _ _ _ _ NB), TK, RB, E. reflexivity. Qed.
Lemma token_some : forall c x t x', usual c -> no_eof (b_stk x) -> b_tok x = None -> raw_b c x = Some (Some t, x') ->
  Token c x = Some (finish c (Some t) x').
Proof. intros c x t x' U NB TK RB. unfold Token, auto. rewrite (stk_head _ _ _ _ NB), TK, RB, (u_strict _ U). reflexivity. Qed.
Lemma token_nil : forall c x x', usual c -> no_eof (b_stk x) -> b_tok x = None -> raw_b c x = Some (None, x') -> b_err x' = None ->
  Token c x = Some ((None, None), x').
Proof. intros c x x' U NB TK RB E. unfold Token, auto. rewrite (stk_head _ _ _ _ NB), TK, RB, E, (u_strict _ U). reflexivity. Qed.
(** The error of Token for an error of rawToken. *)
Definition token_err (e : derr) (stk : list sent) : derr :=
  match e with EEof => match stk with [] => EEof | _ :: _ => unexpected_eof end | _ => e end.
Lemma final_like : forall fe e stk x, (e = EEof -> b_stk x = map lift stk) ->
  final_err (low_err fe e (l_line (b_lex x))) x = low_err fe (token_err e stk) (l_line (b_lex x)).
Proof.
  intros fe e stk x H. destruct e as [|m].
  - unfold final_err. rewrite (H eq_refl). destruct stk; destruct fe; reflexivity.
  - unfold final_err. simpl. destruct (at_end m); [destruct fe; reflexivity|].
    destruct (beq m bad_version || beq m bad_charset); reflexivity.
Qed.

Theorem token_like : forall c fe d x, usual c -> like fe d x -> same_token fe (next_token d) (Token c x).
Proof.
  intros c fe d x U [TK H]. unfold same_token, next_token, raw_step.
  destruct (d_err d) as [e|] eqn:DE.
  { destruct H as (F & S & NB).
    assert (LK : like fe d x). { split; [exact TK|]. rewrite DE. auto. }
    assert (RB : raw_b c x = Some (None, x)). { unfold raw_b, b_err. rewrite F. reflexivity. }
    rewrite (token_error c x _ x NB TK RB F), (final_like fe e (d_stk d) x S).
    destruct e as [|m]; [destruct (d_stk d)|]; exists x; auto. }
  destruct H as (S & NS & CL & (buf & R) & CE).
  assert (NB : no_eof (b_stk x)) by (rewrite S; apply lift_no_eof).
  assert (FIN : forall t cl rest lex y, b_stk y = map lift (d_stk d) -> b_ns y = d_ns d -> b_close y = cl -> b_lex y = lex -> b_tok y = None ->
     (exists buf, rd fe rest buf lex) -> l_err lex = None \/ cl = None ->
     match
       match t with
       | TStart n a =>
          match declare a (d_stk d, d_ns d) with
          | inr e => TokErr e (mkd rest cl (d_stk d) (d_ns d) (Some e))
          | inl (stk, m) =>
              TokOk (TStart (translate m n true) (map (fun a => mkattr (translate m (aname a) false) (avalue a)) a))
                    (mkd rest cl (SStart n :: stk) m None)
          end
      | TEnd n =>
          match pop_element n (d_stk d) (d_ns d) with
          | inr e => TokErr e (mkd rest cl (d_stk d) (d_ns d) (Some e))
          | inl (n', stk, m) => TokOk (TEnd n') (mkd rest cl stk m None)
          end
      | _ => TokOk t (mkd rest cl (d_stk d) (d_ns d) None)
      end
     with
     | TokOk t0 d0 => exists x0, (Some (finish c (Some t) y) = Some ((Some t0, None), x0) \/ Some (finish c (Some t) y) = Some ((None, None), x0) /\ t0 = TChar []) /\ like fe d0 x0
     | TokErr e d0 => exists x0, Some (finish c (Some t) y) = Some ((None, Some (low_err fe e (l_line (b_lex x0)))), x0) /\ like fe d0 x0
     | TokFuel => False
     end).
  { clear R CE CL S NS TK NB x buf. intros t cl rest lex y S NS CL LX TK RR CE.
    assert (PL : like fe (mkd rest cl (d_stk d) (d_ns d) None) y).
    { split; [exact TK|]. simpl. unfold b_err. rewrite LX. auto 10. }
    assert (FL : forall msg stk m cl' stk0 ns0, no_eof stk -> at_end msg = false -> beq msg bad_version = false -> beq msg bad_charset = false ->
      exists x0, Some ((@None token, b_err (dfail msg (with_stk stk m y))), dfail msg (with_stk stk m y)) =
                 Some ((None, Some (low_err fe (ESyntax msg) (l_line (b_lex x0)))), x0) /\ like fe (mkd rest cl' stk0 ns0 (Some (ESyntax msg))) x0).
    { intros msg stk m cl' stk0 ns0 NB A B C. exists (dfail msg (with_stk stk m y)). split.
      - simpl. rewrite A, B, C. reflexivity.
      - split; [exact TK|]. cbn [d_err]. split; [apply fail_failed; auto|]. split; [discriminate | exact NB]. }
    destruct t as [n a|n| | | |]; cbn [finish].
    - pose proof (declare_like a (d_stk d) (d_ns d)) as D. rewrite S, NS.
      destruct (declare a (d_stk d, d_ns d)) as [[stk' m']|e].
      + rewrite D. eexists. split.
        * left. rewrite translate_like, translate_map by auto. reflexivity.
        * split; [exact TK|]. simpl. unfold b_err. simpl. rewrite LX. auto 10.
      + destruct D as (stk' & m' & msg & D & NB & -> & A & B & C). rewrite D. apply FL; auto.
    - unfold pop_b. rewrite S. destruct (d_stk d) as [|[s|p u ok] stk]; cbn [map lift pop_element].
      + destruct (FL (str "unexpected end element") [] (b_ns y) cl [] (d_ns d)) as (x0 & E & L); try (vm_compute; reflexivity); [intros []|].
        assert (Y : with_stk [] (b_ns y) y = y). { destruct y; simpl in S. subst b_stk. reflexivity. }
        rewrite Y in E. exists x0. split; [exact E | exact L].
      + cbn [b_ns with_stk]. destruct (negb (beq (local s) (local n))).
        { rewrite (u_strict _ U). cbn [negb]. apply FL; try (vm_compute; reflexivity). apply lift_no_eof. }
        destruct (negb (beq (space s) (space n))).
        { apply FL; try (vm_compute; reflexivity). apply lift_no_eof. }
        rewrite NS, undo_like. destruct (undo stk (d_ns d)) as [stk2 m2]. cbn [fst snd].
        eexists. split.
        * left. rewrite translate_like by auto. reflexivity.
        * split; [exact TK|]. simpl. unfold b_err. simpl. rewrite LX. auto 10.
      + apply FL; try (vm_compute; reflexivity). apply lift_no_eof.
    - eexists. split; [left; reflexivity | exact PL].
    - eexists. split; [left; reflexivity | exact PL].
    - eexists. split; [left; reflexivity | exact PL].
    - eexists. split; [left; reflexivity | exact PL]. }
  destruct (rd_lex _ _ _ _ R) as [NE | [ER IN]].
  - destruct (d_close d) as [n|] eqn:DC.
    + assert (RB : raw_b c x = Some (Some (TEnd n), with_close None x)). { unfold raw_b, b_err. rewrite NE, CL. reflexivity. }
      rewrite (token_some c x _ _ U NB TK RB).
      apply (FIN (TEnd n) None (d_inp d) (b_lex x) (with_close None x)); auto. exists buf. exact R.
    + pose proof (raw_sim c fe (d_inp d) buf (b_lex x) U R NE) as H. unfold raw_like in H.
      destruct (raw_token (d_inp d)) as [[t cl] rest|e|]; [| |contradiction].
      * destruct H as (s' & buf' & R' & [[E K] | (E & K & Q)]).
        -- assert (RB : raw_b c x = Some (Some t, with_close cl (with_lex s' x))). { unfold raw_b, b_err. rewrite NE, CL, E. reflexivity. }
           rewrite (token_some c x _ _ U NB TK RB).
           apply (FIN t cl rest s' (with_close cl (with_lex s' x))); auto. exists buf'. exact R'.
        -- assert (RB : raw_b c x = Some (None, with_lex s' x)). { unfold raw_b, b_err. rewrite NE, CL, E. reflexivity. }
           rewrite (token_nil c x _ U NB TK RB K). inversion Q; subst. exists (with_lex s' x). split.
           ++ right. split; reflexivity.
           ++ split; [exact TK|]. simpl. rewrite CL. split; [exact S|]. split; [exact NS|]. split; [reflexivity|].
              split; [exists buf'; exact R' | auto].
      * destruct H as (s' & E & F).
        assert (RB : raw_b c x = Some (None, with_lex s' x)). { unfold raw_b, b_err. rewrite NE, CL, E. reflexivity. }
        rewrite (token_error c x _ _ NB TK RB F).
        assert (LK : like fe (mkd [] None (d_stk d) (d_ns d) (Some e)) (with_lex s' x)).
        { split; [exact TK|]. cbn [d_err d_stk b_lex with_lex b_stk]. rewrite S. split; [exact F|]. split; [auto | apply lift_no_eof]. }
        change (l_line s') with (l_line (b_lex (with_lex s' x))).
        rewrite (final_like fe e (d_stk d) (with_lex s' x) (fun _ => S)).
        destruct e as [|m]; [cbn [d_stk]; destruct (d_stk d)|]; exists (with_lex s' x); auto.
  - destruct CE as [CE|CE]; [unfold b_err in CE; congruence|]. rewrite CE, IN. cbn [raw_token].
    assert (RB : raw_b c x = Some (None, x)). { unfold raw_b, b_err. rewrite ER. reflexivity. }
    rewrite (token_error c x _ x NB TK RB ER).
    assert (LK : like fe (mkd [] None (d_stk d) (d_ns d) (Some EEof)) x).
    { split; [exact TK|]. cbn [d_err d_stk]. split; [exact ER|]. split; [auto | rewrite S; apply lift_no_eof]. }
    change (LRead fe) with (low_err fe EEof (l_line (b_lex x))).
    rewrite (final_like fe EEof (d_stk d) x (fun _ => S)).
    cbn [d_stk token_err]. destruct (d_stk d); exists x; auto.
Qed.
