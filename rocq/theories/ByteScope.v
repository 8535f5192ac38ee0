(** UnmarshalXML methods: the decoder that pushEOF gives them ends with their element. *)
From Coq Require Import String.
From Coq Require Import ZArith List Bool Lia.
From Coq Require Import ZifyBool ZifyNat.
From Verif Require Import Base Utf8 NameTables Lexer Decoder ByteDecoder.
Import ListNotations.
Open Scope Z_scope.

Definition is_ns (e : bent) : bool := match e with BNs _ _ _ => true | _ => false end.
(** A part of the stack with [h] elements, each over its namespace entries. *)
Inductive framed : nat -> list bent -> Prop :=
| framed_nil : framed 0 []
| framed_cons : forall h n nss hi, forallb is_ns nss = true -> framed h hi -> framed (S h) (BStart n :: nss ++ hi).

Lemma below_split : forall stk, exists nss lo, stk = nss ++ lo /\ below_ns stk = nss ++ BEof :: lo /\ forallb is_ns nss = true /\
  match lo with BNs _ _ _ :: _ => False | _ => True end.
Proof.
  induction stk as [|[n|p u ok|] stk IH].
  - exists [], []. simpl. auto.
  - exists [], (BStart n :: stk). simpl. auto.
  - destruct IH as (nss & lo & A & B & C & D). exists (BNs p u ok :: nss), lo. simpl. rewrite B, C, A. auto.
  - exists [], (BEof :: stk). simpl. auto.
Qed.
(** [x] is the decoder [d] with the end marker under the element [n], which holds [h] open elements. *)
Inductive inside (h : nat) (d x : bdec) : Prop :=
| Inside (hi : list bent) (n : name) (nss lo : list bent)
    (i_stk : b_stk d = hi ++ BStart n :: nss ++ lo)
    (i_stk' : b_stk x = hi ++ BStart n :: nss ++ BEof :: lo)
    (i_framed : framed h hi)
    (i_ns : forallb is_ns nss = true)
    (i_lo : match lo with BNs _ _ _ :: _ => False | _ => True end)
    (i_rest : x = with_depth (b_depth d + 1) (with_stk (b_stk x) (b_ns d) d)).
(** [x] has read the whole element. *)
Definition closed (d x : bdec) : Prop := x = with_depth (b_depth d + 1) (with_stk (BEof :: b_stk d) (b_ns d) d).

Lemma enter_inside : forall d n stk, b_stk d = BStart n :: stk -> exists x, enter_scope d = Some x /\ inside 0 d x.
Proof.
  intros d n stk E. unfold enter_scope. rewrite E. simpl. eexists. split; [reflexivity|].
  destruct (below_split stk) as (nss & lo & A & B & C & D). apply (Inside 0 d _ [] n nss lo); auto.
  - simpl. rewrite E, A. reflexivity.
  - simpl. rewrite B. reflexivity.
  - constructor.
Qed.
Lemma closed_end : forall c d x, closed d x -> Token c x = Some ((None, Some (LRead FEof)), x) /\ leave_scope x = (true, d).
Proof.
  intros c d x C. unfold closed in C. subst x. split; [reflexivity|]. destruct d. unfold leave_scope, pop_eof, with_stk, with_depth. simpl. rewrite Z.add_simpl_r. reflexivity.
Qed.
Lemma inside_top : forall h d x, inside h d x -> (exists n l, b_stk d = BStart n :: l) /\ (exists n l, b_stk x = BStart n :: l).
Proof. intros h d x [hi n nss lo S S' F NS LO R]. rewrite S, S'. destruct F as [|h m nss' hi NS' F]; cbn [app]; split; do 2 eexists; reflexivity. Qed.
Lemma inside_leave : forall h d x, inside h d x -> fst (leave_scope x) = false.
Proof.
  intros h d x I. destruct (inside_top _ _ _ I) as [_ (n & l & E)]. unfold leave_scope, pop_eof. simpl. rewrite E. reflexivity.
Qed.

Definition more (t : option token) (h : nat) : option nat :=
  match t with
  | Some (TStart _ _) => Some (S h)
  | Some (TEnd _) => match h with O => None | S h => Some h end
  | _ => Some h
  end.

Lemma push_any : forall p v stk m, exists e, is_ns e = true /\ forall stk', push_ns p v (stk', m) = (e :: stk', snd (push_ns p v (stk, m))).
Proof. intros p v stk m. unfold push_ns. destruct (m p) as [old|]; eexists; (split; [|reflexivity]); reflexivity. Qed.
Lemma declare_any : forall a m, exists nss m' e, forallb is_ns nss = true /\ forall stk, declare_b a (stk, m) = ((nss ++ stk, m'), e).
Proof.
  induction a as [|[n v] a IH]; intros m; [exists [], m, None; split; [reflexivity|intros; reflexivity]|]. cbn [declare_b].
  destruct (beq (space n) xmlnsPrefix && beq v []); [exists [], m; eexists; split; [reflexivity|intros; reflexivity]|].
  destruct (beq (space n) xmlnsPrefix && beq (local n) []); [exists [], m; eexists; split; [reflexivity|intros; reflexivity]|].
  assert (ONE : forall (b : bool) p v m, exists nss m', forallb is_ns nss = true /\ forall stk, (if b then push_ns p v (stk, m) else (stk, m)) = (nss ++ stk, m')).
  { intros b p v0 m0. destruct b; [|exists [], m0; auto]. destruct (push_any p v0 [] m0) as (e & E1 & E2). exists [e], (snd (push_ns p v0 ([], m0))).
    split; [simpl; rewrite E1; reflexivity|]. intros stk. apply E2. }
  destruct (ONE (beq (space n) xmlnsPrefix) (local n) v m) as (n1 & m1 & N1 & E1).
  destruct (ONE (beq (space n) [] && beq (local n) xmlnsPrefix) [] v m1) as (n2 & m2 & N2 & E2).
  destruct (IH m2) as (n3 & m3 & e & N3 & E3). exists (n3 ++ n2 ++ n1), m3, e. split.
  - rewrite !forallb_app, N1, N2, N3. reflexivity.
  - intros stk. cbv zeta. rewrite E1, E2, E3. rewrite !app_assoc. reflexivity.
Qed.

Lemma undo_ns : forall nss m, forallb is_ns nss = true -> exists m', forall lo, match lo with BNs _ _ _ :: _ => False | _ => True end ->
  undo_b (nss ++ lo) m = (lo, m').
Proof.
  induction nss as [|[n|p u ok|] nss IH]; intros m H; try discriminate.
  - exists m. intros lo L. destruct lo as [|[]]; [reflexivity | reflexivity | contradiction | reflexivity].
  - simpl in *. apply IH. exact H.
Qed.

Lemma framed_head : forall h hi n l, framed h hi -> match hi ++ BStart n :: l with BNs _ _ _ :: _ => False | _ => True end.
Proof. intros h hi n l [|]; simpl; auto. Qed.

(** Token behind rawToken. *)
Lemma finish_inside : forall c t h d x, c_strict c = true -> inside h d x ->
  fst (finish c t x) = fst (finish c t d) /\
  (snd (fst (finish c t d)) = None ->
   match more t h with
   | Some h' => inside h' (snd (finish c t d)) (snd (finish c t x))
   | None => closed (snd (finish c t d)) (snd (finish c t x))
   end).
Proof.
  intros c t h d x ST I. pose proof I as [hi n nss lo S S' F NS LO R].
  assert (LX : b_lex x = b_lex d) by (rewrite R; reflexivity).
  assert (NX : b_ns x = b_ns d) by (rewrite R; reflexivity).
  destruct t as [[nm a|nm| | | |]|]; try (cbn [finish fst snd more]; split; [reflexivity | intros _; exact I]).
  - cbn [finish more]. rewrite NX. destruct (declare_any a (b_ns d)) as (ns2 & m' & e & N2 & E2). rewrite !E2. destruct e as [msg|].
    + split; [|discriminate]. cbn [fst]. unfold b_err, dfail, with_stk. simpl. rewrite LX. reflexivity.
    + cbn [fst snd]. split; [reflexivity|]. intros _. apply (Inside (Datatypes.S h) _ _ (BStart nm :: ns2 ++ hi) n nss lo); auto.
      * simpl. rewrite S, <- app_assoc. reflexivity.
      * simpl. rewrite S', <- app_assoc. reflexivity.
      * constructor; auto.
      * rewrite R. reflexivity.
  - cbn [finish]. unfold pop_b. rewrite S, S', NX.
    destruct F as [|h m nss' hi NS' F]; cbn [app].
    + destruct (undo_ns nss (b_ns d) NS) as (m' & U). 
      destruct (negb (beq (local n) (local nm))).
      { rewrite ST. cbn [negb fst snd]. split; [|discriminate]. unfold b_err, dfail, with_stk. simpl. rewrite LX. reflexivity. }
      destruct (negb (beq (space n) (space nm))).
      { cbn [fst snd]. split; [|discriminate]. unfold b_err, dfail, with_stk. simpl. rewrite LX. reflexivity. }
      cbn [b_ns with_stk]. rewrite (U lo LO), (U (BEof :: lo) Logic.I). cbn [fst snd more]. split; [reflexivity|]. intros _.
      unfold closed. rewrite R. reflexivity.
    + destruct (undo_ns nss' (b_ns d) NS') as (m' & U).
      destruct (negb (beq (local m) (local nm))).
      { rewrite ST. cbn [negb fst snd]. split; [|discriminate]. unfold b_err, dfail, with_stk. simpl. rewrite LX. reflexivity. }
      destruct (negb (beq (space m) (space nm))).
      { cbn [fst snd]. split; [|discriminate]. unfold b_err, dfail, with_stk. simpl. rewrite LX. reflexivity. }
      cbn [b_ns with_stk]. rewrite <- !app_assoc. rewrite (U (hi ++ BStart n :: nss ++ lo)), (U (hi ++ BStart n :: nss ++ BEof :: lo)) by (eapply framed_head; eauto).
      cbn [fst snd more]. split; [reflexivity|]. intros _. apply (Inside h _ _ hi n nss lo); auto.
      rewrite R. reflexivity.
Qed.

Lemma raw_inside : forall c h d x, inside h d x ->
  match raw_b c d with
  | None => raw_b c x = None
  | Some (t, d') => exists x', raw_b c x = Some (t, x') /\ inside h d' x'
  end.
Proof.
  intros c h d x I. pose proof I as [hi n nss lo S S' F NS LO R].
  assert (LX : b_lex x = b_lex d) by (rewrite R; reflexivity).
  assert (CX : b_close x = b_close d) by (rewrite R; reflexivity).
  unfold raw_b, b_err. rewrite LX, CX. destruct (l_err (b_lex d)); [exists x; auto|].
  assert (K : forall cl s, inside h (with_close cl (with_lex s d)) (with_close cl (with_lex s x))).
  { intros cl s. apply (Inside h _ _ hi n nss lo); auto. rewrite R. reflexivity. }
  destruct (b_close d) as [m|] eqn:CD.
  - eexists. split; [reflexivity|]. specialize (K None (b_lex d)). rewrite <- LX in K at 2. destruct d, x. exact K.
  - destruct (raw_token_b c (b_lex d)) as [[[[t cl]|] s]|]; [| |reflexivity].
    + eexists. split; [reflexivity | apply K].
    + eexists. split; [reflexivity|]. specialize (K None s). destruct d, x. simpl in *. subst. exact K.
Qed.

(** One call: the same result, and as long as no error is returned the marker stays under the element. *)
Theorem token_inside : forall c h d x, c_strict c = true -> b_tok d = None -> inside h d x ->
  match Token c d with
  | None => Token c x = None
  | Some ((t, e), d') =>
      exists x', Token c x = Some ((t, e), x') /\ b_tok d' = None /\
        (e = None -> match more t h with Some h' => inside h' d' x' | None => closed d' x' end)
  end.
Proof.
  intros c h d x ST TK I. destruct (inside_top _ _ _ I) as [(n1 & l1 & T1) (n2 & l2 & T2)].
  unfold Token, auto. rewrite T1, T2, ST.
  assert (TX : b_tok x = None) by (destruct I as [hi n nss lo S S' F NS LO R]; rewrite R; exact TK).
  rewrite TK, TX. pose proof (raw_inside c h d x I) as H.
  destruct (raw_b c d) as [[t d']|] eqn:RB; [|rewrite H; reflexivity]. destruct H as (x' & RX & I'). rewrite RX.
  assert (TK' : b_tok d' = None).
  { unfold raw_b in RB. destruct (b_err d); [inversion RB; subst; exact TK|]. destruct (b_close d); [inversion RB; exact TK|].
    destruct (raw_token_b c (b_lex d)) as [[[[? ?]|] ?]|]; inversion RB; exact TK. }
  assert (LX : b_lex x' = b_lex d') by (destruct I' as [hi n nss lo S S' F NS LO R]; rewrite R; reflexivity).
  destruct (inside_top _ _ _ I') as [(n3 & l3 & T3) (n4 & l4 & T4)].
  assert (FIN : match finish c t d' with
                | ((t0, e), d2) => exists x2, Some (finish c t x') = Some ((t0, e), x2) /\ b_tok d2 = None /\
                    (e = None -> match more t0 h with Some h' => inside h' d2 x2 | None => closed d2 x2 end)
                end).
  { destruct (finish_inside c t h d' x' ST I') as [E1 E2].
    destruct (finish c t d') as [[t0 e] d2] eqn:FD. destruct (finish c t x') as [r x2] eqn:FX. cbn [fst snd] in *. subst r.
    exists x2. split; [reflexivity|]. split.
    - clear - FD TK'. destruct t as [[nm a|nm| | | |]|]; cbn [finish] in FD; try (inversion FD; subst; exact TK').
      + destruct (declare_b a (b_stk d', b_ns d')) as [[stk m] [msg|]]; inversion FD; subst; exact TK'.
      + unfold pop_b in FD. destruct (b_stk d') as [|[s|p u ok|] stk]; try (inversion FD; subst; exact TK').
        destruct (negb (beq (local s) (local nm))).
        { destruct (negb (c_strict c)); inversion FD; subst; exact TK'. }
        destruct (negb (beq (space s) (space nm))); [inversion FD; subst; exact TK'|].
        destruct (undo_b stk (b_ns (with_stk stk (b_ns d') d'))) as [stk' m']. inversion FD; subst; exact TK'.
    - intros E. specialize (E2 E). assert (M : more t0 h = more t h).
      { clear - FD E. destruct t as [[nm a|nm| | | |]|]; cbn [finish] in FD; try (inversion FD; subst; reflexivity).
        - destruct (declare_b a (b_stk d', b_ns d')) as [[stk m] [msg|]]; inversion FD; subst; [discriminate | reflexivity].
        - destruct (pop_b c nm d') as [[n'|] d3] eqn:PB; inversion FD; subst; [reflexivity|].
          exfalso. unfold pop_b in PB. destruct (b_stk d') as [|[s|p u ok|] stk]; try (inversion PB; subst; discriminate).
          destruct (negb (beq (local s) (local nm))).
          { destruct (negb (c_strict c)); inversion PB; subst; discriminate. }
          destruct (negb (beq (space s) (space nm))); [inversion PB; subst; discriminate|].
          destruct (undo_b stk (b_ns (with_stk stk (b_ns d') d'))) as [stk' m']. inversion PB. }
      rewrite M. exact E2. }
  unfold b_err. rewrite LX. destruct t as [t|].
  - destruct (finish c (Some t) d') as [[t0 e] d2]. exact FIN.
  - destruct (l_err (b_lex d')) as [e|] eqn:ER.
    + eexists. split; [rewrite T3, T4; reflexivity|]. split; [exact TK' | discriminate].
    + destruct (finish c None d') as [[t0 e] d2]. exact FIN.
Qed.

(** *** All the tokens of an element *)
(** Token is called over and over, each time without an error. *)
Inductive got_tokens (c : cfg) (d : bdec) : list (option token) -> bdec -> Prop :=
| got_nil : got_tokens c d [] d
| got_more : forall ts d1 t d2, got_tokens c d ts d1 -> Token c d1 = Some ((t, None), d2) -> got_tokens c d (ts ++ [t]) d2.
(** The open elements behind some tokens inside an element: [None] when it was left. *)
Fixpoint depth_of (h : nat) (ts : list (option token)) : option nat :=
  match ts with [] => Some h | t :: ts => match more t h with Some h => depth_of h ts | None => None end end.
Lemma depth_app : forall ts h t, depth_of h (ts ++ [t]) = match depth_of h ts with Some h => more t h | None => None end.
Proof.
  induction ts as [|a ts IH]; intros h t; cbn [app depth_of].
  - destruct (more t h) as [h1|]; reflexivity.
  - destruct (more a h) as [h1|]; [apply IH | reflexivity].
Qed.
Theorem tokens_inside : forall c h d x ts d', c_strict c = true -> b_tok d = None -> inside h d x -> got_tokens c d ts d' ->
  forall h', depth_of h ts = Some h' -> exists x', got_tokens c x ts x' /\ inside h' d' x' /\ b_tok d' = None.
Proof.
  intros c h d x ts d' ST TK I G. induction G as [|ts d1 t d2 G IH E]; intros h' D.
  - inversion D; subst. exists x. split; [constructor | auto].
  - rewrite depth_app in D. destruct (depth_of h ts) as [h1|]; [|discriminate]. destruct (IH _ eq_refl) as (x1 & G1 & I1 & TK1).
    pose proof (token_inside c h1 d1 x1 ST TK1 I1) as H. rewrite E in H. destruct H as (x2 & E2 & TK2 & K). specialize (K eq_refl). rewrite D in K.
    exists x2. split; [econstructor; eauto | auto].
Qed.
