(** Positions at the level of tokens: calls of Token and RawToken in any order, with any options. *)
From Coq Require Import String.
From Coq Require Import ZArith List Bool Lia.
From Coq Require Import ZifyBool ZifyNat.
From Verif Require Import Base Utf8 NameTables Lexer Decoder ByteDecoder ByteRuns ByteLoud ByteSim ByteToken.
Import ListNotations.
Open Scope Z_scope.

(** The decoder stands in the text [T]; behind an error a line end may have been put back; a start tag that is
    still to be returned ends at the place. *)
Definition starts (t : option token) : bool := match t with Some t => negb (no_start t) | None => false end.
Definition steady (T : bytes) (fe : rfail) (o : option nat) (d : bdec) : Prop :=
  placed T fe o (b_lex d) /\ (l_next (b_lex d) = Some 10 -> b_err d <> None /\ b_tok d = None) /\
  (starts (b_tok d) = true -> l_next (b_lex d) = None).

Local Opaque lmust lfuel getc mustgetc.

(** A nil token without an error: the byte '>' was put back. *)
Lemma raw_nil : forall c s s', raw_token_b c s = Some (None, s') -> l_err s' = None -> l_next s' = Some 62.
Proof.
  intros c s s' E N. destruct (raw_quiet _ _ _ E N) as (b & s1 & G & B & X).
  assert (NE : l_err s1 = None).
  { Transparent getc. unfold getc in G. Opaque getc. destruct (l_err s); [discriminate|]. destruct (l_next s); [inversion G; reflexivity|].
    destruct (s_bytes (l_src s)); inversion G; reflexivity. }
  pose proof (text_quiet _ _ _ _ _ X N) as F. destruct (Z.eq_dec b 62) as [->|NB].
  2: { rewrite (text_used c b s1 _ _ B NB NE X) in F. discriminate. }
  unfold text_b, ltry in X. rewrite ldo_eq in X.
  assert (K : exists k, lfuel (reset (ungetc 62 s1)) = S k). { Transparent lfuel. unfold lfuel. Opaque lfuel. eexists. reflexivity. }
  destruct K as [k K]. rewrite K in X. cbn [text_loop_b] in X.
  assert (G2 : exists s2, getc (reset (ungetc 62 s1)) = (Some 62, s2)).
  { Transparent getc. unfold getc. Opaque getc. unfold reset, set_buf, ungetc. simpl. rewrite NE. eexists. reflexivity. }
  destruct G2 as [s2 G2]. rewrite G2 in X. simpl in X.
  destruct (forallb good_piece (pieces (firstn (length (l_buf s2) - 0) (l_buf s2)))).
  - inversion X. reflexivity.
  - inversion X; subst. discriminate N.
Qed.

Lemma steady_lex : forall T fe o d, steady T fe o d -> placed T fe o (b_lex d).
Proof. intros T fe o d [H _]. exact H. Qed.

(** What a call does: the place does not go back, and behind a token it can be reported. *)
Definition reads (T : bytes) (fe : rfail) (o : option nat) (d : bdec) (m : option ((option token * option lerr) * bdec)) : Prop :=
  exists t e d', m = Some ((t, e), d') /\ steady T fe o d' /\ input_offset (b_lex d) <= input_offset (b_lex d') /\
    (e = None -> l_next (b_lex d') <> Some 10) /\
    (starts t = true -> l_next (b_lex d') = None) /\
    (t <> None -> e = None) /\
    (forall msg n, e = Some (LSyntax msg n) -> n = l_line (b_lex d')) /\
    (forall m, e = Some (LRead (FFail m)) -> fe = FFail m /\ view (b_lex d') = []).

Lemma raw_steady : forall c T fe o d, c_charset c = None -> steady T fe o d -> b_tok d = None ->
  exists t d', raw_b c d = Some (t, d') /\ steady T fe o d' /\ b_tok d' = None /\ l_off (b_lex d) <= l_off (b_lex d') /\
    (t <> None \/ b_err d' = None -> l_next (b_lex d') <> Some 10) /\ (starts t = true -> l_next (b_lex d') = None).
Proof.
  intros c T fe o d CS (P & S & S2) TK.
  assert (NS : forall d', b_tok d' = None -> starts (b_tok d') = true -> l_next (b_lex d') = None) by (intros d' X; rewrite X; discriminate).
  unfold raw_b. destruct (b_err d) as [e|] eqn:E.
  { exists None, d. split; [reflexivity|]. split; [split; [exact P | split; [intros; split; auto; congruence | exact S2]]|]. split; [exact TK|].
    split; [lia|]. split; [|discriminate]. intros [H|H]; [congruence | rewrite H in E; discriminate]. }
  assert (N10 : l_next (b_lex d) <> Some 10) by (intro X; apply S in X; destruct X; congruence).
  destruct (b_close d) as [n|].
  { exists (Some (TEnd n)), (with_close None d). split; [reflexivity|]. split; [split; [exact P | split; [intros; contradiction | exact S2]]|].
    split; [exact TK|]. split; [simpl; lia|]. split; [intros _; exact N10 | discriminate]. }
  destruct (raw_token_runs c (length (view (b_lex d))) CS T fe o (b_lex d) P (or_introl E) ltac:(lia)) as (r & s' & R1 & R2 & R3 & R4).
  rewrite R1. destruct r as [[t cl]|].
  - exists (Some t), (with_close cl (with_lex s' d)). destruct R4 as [R4 R5]. split; [reflexivity|].
    split; [split; [exact R2 | split; [intros; contradiction | apply NS; exact TK]]|]. split; [exact TK|]. split; [exact R3|]. split; [intros _; exact R4|].
    simpl. intros X. apply R5. apply negb_true_iff. exact X.
  - exists None, (with_lex s' d). split; [reflexivity|]. split; [split; [exact R2|split; [|apply NS; exact TK]]|].
    + intros X. split; [|exact TK]. intros Y. unfold b_err in Y. simpl in *. rewrite (raw_nil _ _ _ R1 Y) in X. discriminate.
    + split; [exact TK|]. split; [exact R3|]. split; [|discriminate]. intros [H|H]; [congruence|].
      unfold b_err in H. simpl in *. rewrite (raw_nil _ _ _ R1 H). discriminate.
Qed.

Lemma placed_err : forall T fe o s, placed T fe o s -> forall m n, l_err s = Some (LSyntax m n) -> n = l_line s.
Proof. intros T fe o s [] m n E. eauto. Qed.

Theorem raw_reads : forall c T fe o d, c_charset c = None -> steady T fe o d -> b_tok d = None -> reads T fe o d (RawToken c d).
Proof.
  intros c T fe o d CS S TK. unfold RawToken. destruct (0 <? b_depth d).
  { exists None, (Some errRawToken), d. split; [reflexivity|]. split; [exact S|]. split; [lia|]. repeat split; intros; try discriminate; congruence. }
  destruct (raw_steady c T fe o d CS S TK) as (t & d' & E & S' & TK' & O & N & K). rewrite E. destruct t as [t|].
  - exists (Some t), None, d'. split; [reflexivity|]. split; [exact S'|]. split; [exact O|].
    split; [intros _; apply N; left; discriminate|]. split; [exact K|]. repeat split; intros; discriminate.
  - exists None, (b_err d'), d'. split; [reflexivity|]. split; [exact S'|]. split; [exact O|]. split; [intros H; apply N; right; exact H|].
    split; [discriminate|].
    split; [congruence|]. split; [intros m n H; exact (placed_err _ _ _ _ (proj1 S') _ _ H)|].
    intros m H. destruct (pl_stop _ _ _ _ (proj1 S') _ H) as [A B]. auto.
Qed.

Lemma finish_reads : forall c T fe o t d, placed T fe o (b_lex d) -> l_next (b_lex d) <> Some 10 ->
  (starts t = true \/ starts (b_tok d) = true -> l_next (b_lex d) = None) -> reads T fe o d (Some (finish c t d)).
Proof.
  intros c T fe o t d P N ST.
  assert (OK : forall (t' : option token) d', b_lex d' = b_lex d -> b_tok d' = b_tok d -> starts t' = starts t -> reads T fe o d (Some ((t', None), d'))).
  { intros t0 d' L TK X. exists t0, None, d'. split; [reflexivity|]. unfold steady, input_offset. rewrite L, TK, X.
    split; [split; [exact P | split; [intros; contradiction | auto]]|]. split; [lia|]. repeat split; auto; intros; discriminate. }
  assert (BAD : forall msg d', b_lex d' = b_lex d -> b_tok d' = b_tok d -> reads T fe o d (Some ((@None token, b_err (dfail msg d')), dfail msg d'))).
  { intros msg d' L TK. exists None, (b_err (dfail msg d')), (dfail msg d'). split; [reflexivity|]. unfold steady, dfail, input_offset, b_err. simpl. rewrite L, TK.
    split; [split; [apply placed_fail; exact P | split; [intros; contradiction | auto]]|]. split; [lia|]. split; [discriminate|]. split; [discriminate|]. split; [congruence|].
    split; intros; congruence. }
  destruct t as [[n a|n| | | |]|]; cbn [finish]; try (apply OK; reflexivity).
  - destruct (declare_b a (b_stk d, b_ns d)) as [[stk m] [msg|]]; [apply BAD | apply OK]; reflexivity.
  - unfold pop_b. destruct (b_stk d) as [|[s|p u ok|] stk]; try (apply BAD; reflexivity).
    destruct (negb (beq (local s) (local n))).
    { destruct (negb (c_strict c)); [apply OK | apply BAD]; reflexivity. }
    destruct (negb (beq (space s) (space n))); [apply BAD; reflexivity|].
    cbn [b_ns with_stk]. destruct (undo_b stk (b_ns d)) as [stk' m']. apply OK; reflexivity.
Qed.
Lemma auto_lex : forall c t d, b_tok d = None -> b_lex (snd (auto c t d)) = b_lex d /\
  (starts (fst (auto c t d)) = true \/ starts (b_tok (snd (auto c t d))) = true -> starts t = true).
Proof.
  intros c t d TK. unfold auto. destruct (c_strict c); [simpl; split; [reflexivity|]; rewrite TK; intros [H|H]; [exact H | discriminate]|].
  unfold auto_close. destruct (b_stk d) as [|[s|p u ok|] stk]; try (simpl; split; [reflexivity|]; rewrite TK; intros [H|H]; [exact H | discriminate]).
  destruct (existsb (fun x => c_fold c x (local s)) (c_close c)); [|simpl; split; [reflexivity|]; rewrite TK; intros [H|H]; [exact H | discriminate]].
  destruct t as [[n a|n| | | |]|]; simpl; try (split; [reflexivity|]; intros [H|H]; first [exact H | discriminate]).
  destruct (c_fold c (local n) (local s)); simpl; split; try reflexivity; rewrite ?TK; intros [H|H]; discriminate.
Qed.

Theorem token_reads : forall c T fe o d, c_charset c = None -> steady T fe o d -> reads T fe o d (Token c d).
Proof.
  intros c T fe o d CS S.
  assert (EOFT : reads T fe o d (Some ((@None token, Some (LRead FEof)), d))).
  { exists None, (Some (LRead FEof)), d. split; [reflexivity|]. split; [exact S|]. split; [lia|]. repeat split; intros; try discriminate; congruence. }
  assert (MAIN : reads T fe o d
      match b_tok d with
      | Some t => let '(t', d') := auto c (Some t) (with_tok None d) in Some (finish c t' d')
      | None =>
          match raw_b c d with
          | None => None
          | Some (t, d') =>
              match t, b_err d' with
              | None, Some e =>
                  Some ((None, Some match e, b_stk d' with
                                    | LRead FEof, _ :: _ => LSyntax (str "unexpected EOF") (l_line (b_lex d'))
                                    | _, _ => e
                                    end), d')
              | _, _ => let '(t', d'') := auto c t d' in Some (finish c t' d'')
              end
          end
      end).
  { destruct (b_tok d) as [t|] eqn:TK.
    - destruct (auto_lex c (Some t) (with_tok None d) eq_refl) as [L LS]. destruct (auto c (Some t) (with_tok None d)) as [t' d']. simpl in L, LS.
      destruct S as (P & S & S2). assert (N : l_next (b_lex d) <> Some 10) by (intro X; apply S in X; destruct X; congruence).
      rewrite TK in S2. simpl in S2. rewrite <- L in P, N, S2.
      destruct (finish_reads c T fe o t' d' P N (fun h => S2 (LS h))) as (a & e & d2 & H). exists a, e, d2. unfold input_offset in *. rewrite <- L. exact H.
    - destruct (raw_steady c T fe o d CS S TK) as (t & d' & E & S' & TK' & O & N & K). rewrite E.
      assert (FIN : t <> None \/ b_err d' = None -> reads T fe o d (let '(t', d'') := auto c t d' in Some (finish c t' d''))).
      { intros H. specialize (N H). destruct (auto_lex c t d' TK') as [L LS]. destruct (auto c t d') as [t' d'']. simpl in L, LS.
        destruct S' as [P _]. rewrite <- L in P, N, O, K.
        destruct (finish_reads c T fe o t' d'' P N (fun h => K (LS h))) as (a & e & d2 & H1 & H2 & H3 & H4).
        exists a, e, d2. split; [exact H1|]. split; [exact H2|]. split; [unfold input_offset in *; lia | exact H4]. }
      destruct t as [t|]; [apply FIN; left; discriminate|]. destruct (b_err d') as [e|] eqn:ER; [|apply FIN; right; reflexivity].
      clear FIN. exists None. eexists. exists d'. split; [reflexivity|]. split; [exact S'|]. split; [exact O|]. split; [discriminate|]. split; [discriminate|].
      split; [congruence|].
      split.
      + intros m n H. destruct e as [[|m']|m' n'|m'], (b_stk d') as [|x l]; inversion H; subst; auto; exact (placed_err _ _ _ _ (proj1 S') _ _ ER).
      + intros m H. destruct e as [[|m']|m' n'|m'], (b_stk d') as [|x l]; inversion H; subst;
          destruct (pl_stop _ _ _ _ (proj1 S') _ ER) as [A B]; auto. }
  unfold Token. destruct (b_stk d) as [|[]]; auto.
Qed.

(** *** Any sequence of calls *)
Inductive call := CToken (c : cfg) | CRawToken (c : cfg).
Definition no_charset (k : call) : Prop := match k with CToken c | CRawToken c => c_charset c = None end.
Definition perform (k : call) (d : bdec) : option ((option token * option lerr) * bdec) :=
  match k with CToken c => Token c d | CRawToken c => RawToken c d end.
(** RawToken is not called between the two tokens that Token makes out of one when it closes an element by itself
    (AutoClose, not strict). *)
Definition allowed (k : call) (d : bdec) : Prop := no_charset k /\ match k with CRawToken _ => b_tok d = None | _ => True end.
Inductive later (d : bdec) : bdec -> Prop :=
| later_here : later d d
| later_call : forall k d1 x d2, later d d1 -> allowed k d1 -> perform k d1 = Some (x, d2) -> later d d2.
(** [after r d]: the decoder [d] was reached from a new one on [r], also with captures of inner XML that begin directly
    behind a start tag, and with UnmarshalXML methods. *)
Inductive after (r : source) : bdec -> Prop :=
| after_new : after r (new_bdec r)
| after_call : forall k d x d', after r d -> allowed k d -> perform k d = Some (x, d') -> after r d'
| after_save : forall d, after r d -> l_next (b_lex d) = None -> after r (with_lex (snd (begin_save (b_lex d))) d)
| after_saved : forall d i j v s, after r d -> end_save i j (b_lex d) = Some (v, s) -> after r (with_lex s d)
| after_enter : forall d d', after r d -> enter_scope d = Some d' -> after r d'
| after_leave : forall d, after r d -> after r (snd (leave_scope d)).

Lemma new_steady : forall r, steady (s_bytes r) (s_end r) None (new_bdec r).
Proof. intros [b e]. split; [|split; discriminate]. exists []; simpl; auto; try (intros; discriminate). Qed.
Lemma perform_reads : forall T fe o k d, allowed k d -> steady T fe o d -> reads T fe o d (perform k d).
Proof. intros T fe o [c|c] d [NC TK] S; simpl in *; [apply token_reads | apply raw_reads]; auto. Qed.
Lemma later_steady : forall T fe o d d', later d d' -> steady T fe o d -> steady T fe o d' /\ input_offset (b_lex d) <= input_offset (b_lex d').
Proof.
  intros T fe o d d' H S. induction H as [|k d1 x d2 H [IH1 IH2] A E]; [split; [exact S | lia]|].
  destruct (perform_reads _ _ _ k d1 A IH1) as (t & e & d3 & E2 & S2 & O2 & _). rewrite E in E2. inversion E2; subst. split; [exact S2 | lia].
Qed.
Lemma steady_swap : forall T fe o o' d s stk m n, steady T fe o d -> placed T fe o' s -> l_next s = l_next (b_lex d) -> l_err s = l_err (b_lex d) ->
  steady T fe o' (mkb s (b_close d) stk m (b_tok d) n).
Proof. intros T fe o o' d s stk m n (P & S1 & S2) P' N E. unfold steady, b_err in *. simpl. rewrite N, E. auto. Qed.

Lemma saved_placed : forall T fe o s, placed T fe o s -> l_next s = None ->
  placed T fe (match o with Some k => Some k | None => Some (Z.to_nat (l_off s)) end) (snd (begin_save s)).
Proof.
  intros T fe o s P N. unfold begin_save, saved_offset. destruct P as [p P1 P2 P3 P4 P5 P6 P9 P7 P8].
  destruct o as [k|]; rewrite P6; simpl.
  - exists p; auto.
  - destruct s. simpl in *. subst. exists p; auto; simpl.
    + unfold ahead. simpl. f_equal. rewrite Nat2Z.id, app_nil_r. rewrite skipn_all. reflexivity.
    + intros k K. inversion K. lia.
Qed.
Lemma unsaved_placed : forall T fe o s, placed T fe o s -> placed T fe None (set_saved None s).
Proof.
  intros T fe o s [p P1 P2 P3 P4 P5 P6 P9 P7 P8]. destruct s. simpl in *. exists p; auto; try (intros; discriminate).
Qed.

Theorem after_steady : forall r d, after r d -> exists o, steady (s_bytes r) (s_end r) o d.
Proof.
  intros r d H. induction H as [|k d x d' H [o IH] A E|d H [o IH] N|d i j v s H [o IH] E|d d' H [o IH] E|d H [o IH]].
  - exists None. apply new_steady.
  - exists o. destruct (perform_reads _ _ _ k d A IH) as (t & e & d2 & E2 & S & _). rewrite E in E2. inversion E2; subst. exact S.
  - eexists. eapply steady_swap; [exact IH | apply saved_placed; [apply IH | exact N] | |].
    + unfold begin_save. destruct (l_saved (b_lex d)), (saved_offset (b_lex d)); reflexivity.
    + unfold begin_save. destruct (l_saved (b_lex d)), (saved_offset (b_lex d)); reflexivity.
  - unfold end_save in E. destruct (l_saved (b_lex d)); [|discriminate]. destruct ((0 <=? i) && (i <=? j) && (j <=? Z.of_nat (length b))); [|discriminate].
    inversion E. destruct (i =? 0).
    + exists None. eapply steady_swap; [exact IH | eapply unsaved_placed; apply IH | reflexivity | reflexivity].
    + exists o. eapply steady_swap; [exact IH | apply IH | reflexivity | reflexivity].
  - exists o. unfold enter_scope in E. destruct (push_eof (b_stk d)) as [stk|]; inversion E.
    eapply steady_swap; [exact IH | apply IH | reflexivity | reflexivity].
  - exists o. unfold leave_scope, pop_eof. destruct (b_stk (with_depth (b_depth d - 1) d)) as [|[]];
      (eapply steady_swap; [exact IH | apply IH | reflexivity | reflexivity]).
Qed.

(** *** What the place means *)
Lemma place : forall T fe o d, steady T fe o d ->
  let n := Z.to_nat (input_offset (b_lex d)) in
  0 <= input_offset (b_lex d) <= Z.of_nat (length T) /\ T = firstn n T ++ view (b_lex d) /\ l_line (b_lex d) = line_of (firstn n T) /\
  (l_next (b_lex d) <> Some 10 -> input_pos (b_lex d) = (line_of (firstn n T), column_of (firstn n T))).
Proof.
  intros T fe o d ([p P1 P2 P3 P4 P5 P6 P9 P7 P8] & _). unfold input_offset, input_pos. rewrite P3, Nat2Z.id, P1.
  rewrite firstn_app, Nat.sub_diag, firstn_all, app_nil_r, app_length. split; [lia|]. split; [reflexivity|]. split; [exact P4|].
  intros N. specialize (P5 N). rewrite P3 in P5. rewrite P4, P5. reflexivity.
Qed.

(** The bytes of [T] from one place to another. *)
Definition between (T : bytes) (a b : Z) : bytes := firstn (Z.to_nat (b - a)) (skipn (Z.to_nat a) T).
Lemma saved_slice : forall T fe k s, placed T fe (Some k) s ->
  exists v j, l_saved s = Some v /\ saved_offset s = Some j /\ j = l_off s - Z.of_nat k /\ 0 <= j <= Z.of_nat (length v) /\
    firstn (Z.to_nat j) v = between T (Z.of_nat k) (l_off s).
Proof.
  intros T fe k s [p P1 P2 P3 P4 P5 P6 P9 P7 P8]. unfold saved_offset. rewrite P6. simpl. specialize (P9 _ eq_refl).
  assert (LN : Z.of_nat (length (skipn k (p ++ ahead s))) - match l_next s with Some _ => 1 | None => 0 end = l_off s - Z.of_nat k).
  { rewrite skipn_length, app_length. unfold ahead. destruct (l_next s); cbn [length]; lia. }
  rewrite LN. exists (skipn k (p ++ ahead s)), (l_off s - Z.of_nat k). split; [reflexivity|]. split; [reflexivity|]. split; [reflexivity|].
  split; [destruct (l_next s); lia|]. unfold between. rewrite Nat2Z.id.
  replace (Z.to_nat (l_off s - Z.of_nat k)) with (length p - k)%nat by lia.
  rewrite P1, !skipn_app, !firstn_app, !skipn_length, !Nat.sub_diag. reflexivity.
Qed.

Lemma skip_skip : forall (T : bytes) a b, skipn a (skipn b T) = skipn (b + a) T.
Proof. induction T as [|x T IH]; intros a b; [rewrite !skipn_nil; reflexivity|]. destruct b; simpl; auto. Qed.
Theorem inner : forall T fe o d d', steady T fe o d -> l_next (b_lex d) = None -> later (with_lex (snd (begin_save (b_lex d))) d) d' ->
  exists j s', saved_offset (b_lex d') = Some j /\
    end_save (fst (begin_save (b_lex d))) j (b_lex d') = Some (between T (input_offset (b_lex d)) (input_offset (b_lex d')), s').
Proof.
  intros T fe o d d' S N L. pose proof (saved_placed _ _ _ _ (proj1 S) N) as SP.
  set (k := match o with Some k => k | None => Z.to_nat (l_off (b_lex d)) end).
  assert (SP' : placed T fe (Some k) (snd (begin_save (b_lex d)))) by (destruct o; exact SP). clear SP.
  assert (S1 : steady T fe (Some k) (with_lex (snd (begin_save (b_lex d))) d)).
  { eapply steady_swap; [exact S | exact SP' | |]; unfold begin_save; destruct (l_saved (b_lex d)), (saved_offset (b_lex d)); reflexivity. }
  destruct (later_steady _ _ _ _ _ L S1) as [S2 O2].
  assert (O : input_offset (b_lex (with_lex (snd (begin_save (b_lex d))) d)) = input_offset (b_lex d)).
  { unfold begin_save; destruct (l_saved (b_lex d)), (saved_offset (b_lex d)); reflexivity. }
  rewrite O in O2.
  assert (I : fst (begin_save (b_lex d)) = input_offset (b_lex d) - Z.of_nat k /\ 0 <= input_offset (b_lex d) - Z.of_nat k).
  { destruct S as [P _]. destruct o as [k0|].
    - destruct (saved_slice _ _ _ _ P) as (v & j & E1 & E2 & E3 & E4 & _). unfold begin_save. rewrite E1, E2. unfold input_offset. subst k. simpl. lia.
    - destruct P as [p P1 P2 P3 P4 P5 P6 P9 P7 P8]. unfold begin_save. rewrite P6. unfold input_offset. subst k. simpl. lia. }
  destruct I as [I I0]. destruct (saved_slice _ _ _ _ (proj1 S2)) as (v & j & E1 & E2 & E3 & E4 & E5).
  exists j. unfold end_save. rewrite E1, E2, I. unfold input_offset in *.
  assert (B : ((0 <=? l_off (b_lex d) - Z.of_nat k) && (l_off (b_lex d) - Z.of_nat k <=? j) && (j <=? Z.of_nat (length v))) = true) by lia.
  rewrite B. eexists. split; [reflexivity|]. f_equal. f_equal.
  (* a piece of the saved bytes *)
  assert (E6 : firstn (Z.to_nat (j - (l_off (b_lex d) - Z.of_nat k))) (skipn (Z.to_nat (l_off (b_lex d) - Z.of_nat k)) v)
             = skipn (Z.to_nat (l_off (b_lex d) - Z.of_nat k)) (firstn (Z.to_nat j) v)).
  { rewrite skipn_firstn_comm. f_equal. lia. }
  rewrite E6, E5. unfold between. rewrite skipn_firstn_comm, skip_skip. f_equal; [lia|]. f_equal. lia.
Qed.
