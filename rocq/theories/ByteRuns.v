(** Positions in the byte by byte decoder: every function of ByteDecoder.v ends, and keeps the line, the
    column, the offset and the saved bytes right, for all options without CharsetReader. *)
From Coq Require Import String.
From Coq Require Import ZArith List Bool Lia.
From Coq Require Import ZifyBool ZifyNat.
From Verif Require Import Base Utf8 NameTables Lexer Decoder ByteDecoder.
Import ListNotations.
Open Scope Z_scope.

(** The line and the column of the place behind a text: one more than the line ends in it, one more than the
    bytes since the last line end. *)
Fixpoint line_of (p : bytes) : Z :=
  match p with [] => 1 | b :: t => (if b =? 10 then 1 else 0) + line_of t end.
Fixpoint col_from (c : Z) (p : bytes) : Z :=
  match p with [] => c | b :: t => col_from (if b =? 10 then 1 else c + 1) t end.
Definition column_of (p : bytes) : Z := col_from 1 p.

Lemma line_app : forall p q, line_of (p ++ q) = line_of p + line_of q - 1.
Proof. induction p; intros; cbn [line_of app]; [lia | rewrite IHp; lia]. Qed.
Lemma col_app : forall p q c, col_from c (p ++ q) = col_from (col_from c p) q.
Proof. induction p; intros; simpl; auto. Qed.

Definition view (s : lst) : bytes :=
  match l_next s with Some b => b :: s_bytes (l_src s) | None => s_bytes (l_src s) end.
Definition ahead (s : lst) : bytes := match l_next s with Some b => [b] | None => [] end.

(** The state stands in the text [T] ended by [fe]; bytes are saved from the place [o] on, if any. *)
Inductive placed (T : bytes) (fe : rfail) (o : option nat) (s : lst) : Prop :=
| Placed (p : bytes)
    (p_text : T = p ++ view s)
    (p_end : s_end (l_src s) = fe)
    (p_off : l_off s = Z.of_nat (length p))
    (p_line : l_line s = line_of p)
    (p_col : l_next s <> Some 10 -> l_off s - l_start s + 1 = column_of p)
    (p_saved : l_saved s = option_map (fun k => skipn k (p ++ ahead s)) o)
    (p_from : forall k, o = Some k -> (k <= length p)%nat)
    (p_err : forall m n, l_err s = Some (LSyntax m n) -> n = l_line s)
    (p_stop : forall e, l_err s = Some (LRead e) -> e = fe /\ view s = []).
Lemma pl_stop : forall T fe o s, placed T fe o s -> forall e, l_err s = Some (LRead e) -> e = fe /\ view s = [].
Proof. intros T fe o s [] e E. auto. Qed.

(** No error but that of the reader. *)
Definition calm (s : lst) : Prop := l_err s = None \/ exists e, l_err s = Some (LRead e).
(** The byte [b] was just read. *)
Definition got (T : bytes) (fe : rfail) (o : option nat) (b : Z) (s : lst) : Prop :=
  l_next s = None /\ l_err s = None /\ placed T fe o s /\ placed T fe o (ungetc b s).

(** The same but for the buffers. *)
Definition same (s s' : lst) : Prop :=
  l_src s' = l_src s /\ l_next s' = l_next s /\ l_line s' = l_line s /\ l_start s' = l_start s /\
  l_off s' = l_off s /\ l_saved s' = l_saved s /\ l_err s' = l_err s.
Lemma placed_same : forall T fe o s s', same s s' -> placed T fe o s -> placed T fe o s'.
Proof.
  intros T fe o [] [] (A & B & C & D & F & G & H) [p P1 P2 P3 P4 P5 P6 P9 P7 P8]. simpl in *. subst.
  exists p; simpl in *; auto.
Qed.
Lemma got_same : forall T fe o b s s', same s s' -> got T fe o b s -> got T fe o b s'.
Proof.
  intros T fe o b s s' S (A & B & C & D). pose proof S as S0.
  destruct S as (S1 & S2 & S3 & S4 & S5 & S6 & S7).
  repeat split; [congruence | congruence | eapply placed_same; eauto | ].
  eapply placed_same; [| exact D]. unfold same, ungetc. simpl. rewrite S1, S3, S4, S5, S6, S7. auto 10.
Qed.
Lemma same_put : forall b s, same s (put b s). Proof. intros b []. unfold same; simpl; auto 10. Qed.
Lemma same_puts : forall b s, same s (puts b s). Proof. intros b []. unfold same; simpl; auto 10. Qed.
Lemma same_reset : forall s, same s (reset s). Proof. intros []. unfold same; simpl; auto 10. Qed.
Lemma same_truncate : forall b s, same s (truncate b s). Proof. intros b []. unfold same; simpl; auto 10. Qed.
Lemma same_intern : forall b s, same s (set_intern b s). Proof. intros b []. unfold same; simpl; auto 10. Qed.
Lemma same_refl : forall s, same s s. Proof. unfold same; auto 10. Qed.
Lemma calm_same : forall s s', same s s' -> calm s -> calm s'.
Proof. intros s s' (_ & _ & _ & _ & _ & _ & H) [A | [e A]]; [left | right; exists e]; congruence. Qed.
Lemma view_same : forall s s', same s s' -> view s' = view s.
Proof. intros s s' (A & B & _). unfold view. rewrite A, B. reflexivity. Qed.

Lemma placed_length : forall T fe o s, placed T fe o s -> l_off s + Z.of_nat (length (view s)) = Z.of_nat (length T).
Proof. intros T fe o s [p P1 P2 P3]. rewrite P1, app_length. lia. Qed.
Lemma placed_fail : forall T fe o s m, placed T fe o s -> placed T fe o (fail m s).
Proof.
  intros T fe o [] m [p P1 P2 P3 P4 P5 P6 P9 P7 P8]. unfold fail, set_err. simpl in *.
  exists p; simpl; auto; intros; congruence.
Qed.
Lemma placed_other : forall T fe o s m, placed T fe o s -> placed T fe o (set_err (LOther m) s).
Proof.
  intros T fe o [] m [p P1 P2 P3 P4 P5 P6 P9 P7 P8]. unfold set_err. simpl in *.
  exists p; simpl; auto; intros; congruence.
Qed.

(** *** Reading one byte *)
Lemma getc_placed : forall T fe o s, placed T fe o s -> calm s ->
  match getc s with
  | (Some b, s') => got T fe o b s' /\ l_off s' = l_off s + 1 /\ view s = b :: view s'
  | (None, s') => placed T fe o s' /\ l_off s' = l_off s /\ l_err s' = Some (LRead fe) /\ view s' = [] /\
                  l_next s' = None /\ view s = []
  end.
Proof.
  intros T fe o [src nx ln st off sv buf fr it er] P C. unfold getc. simpl.
  destruct er as [e|].
  - destruct C as [C | [x C]]; simpl in C; [discriminate|]. inversion C; subst.
    pose proof (pl_stop _ _ _ _ P _ eq_refl) as [A B]. subst x.
    assert (nx = None) by (unfold view in B; simpl in B; destruct nx; auto; discriminate). subst.
    auto 10.
  - clear C. destruct P as [p P1 P2 P3 P4 P5 P6 P9 P7 P8]. unfold view, ahead in *. simpl in *.
    destruct nx as [b|].
    + simpl. split; [|auto]. unfold got, count. simpl.
      split; [reflexivity|]. split; [reflexivity|]. split.
      * exists (p ++ [b]); unfold view, ahead; simpl.
        -- rewrite <- app_assoc. exact P1.
        -- exact P2.
        -- rewrite app_length. simpl. lia.
        -- rewrite line_app. simpl. destruct (b =? 10); lia.
        -- intros _. unfold column_of. rewrite col_app. simpl.
           destruct (b =? 10) eqn:B; [lia|]. fold (column_of p). rewrite <- (P5 ltac:(intro X; inversion X; lia)). lia.
        -- rewrite app_nil_r. exact P6.
        -- intros k V. specialize (P9 _ V). rewrite app_length. lia.
        -- intros; discriminate.
        -- intros; discriminate.
      * exists p; unfold view, ahead; simpl; auto; try (intros; discriminate).
        -- lia.
        -- destruct (b =? 10); lia.
        -- intros N. destruct (b =? 10) eqn:B; [assert (b = 10) by lia; congruence|]. rewrite <- P5; [lia|]. congruence.
    + destruct (s_bytes src) as [|b t] eqn:S; simpl.
      * rewrite P2. split; [|auto]. exists p; unfold view, ahead; simpl; auto; try (intros; discriminate).
        -- rewrite S. exact P1.
        -- intros e X. inversion X. subst. auto.
      * split; [|auto]. unfold got, count. simpl.
        assert (SV : option_map (fun v => v ++ [b]) sv = option_map (fun k => skipn k (p ++ [b])) o).
        { rewrite P6. destruct o as [k|]; [|reflexivity]. simpl. f_equal. rewrite app_nil_r, skipn_app.
          specialize (P9 _ eq_refl). replace (k - length p)%nat with O by lia. reflexivity. }
        split; [reflexivity|]. split; [reflexivity|]. split.
        -- exists (p ++ [b]); unfold view, ahead; simpl.
           ++ rewrite <- app_assoc. exact P1.
           ++ exact P2.
           ++ rewrite app_length. simpl. lia.
           ++ rewrite line_app. simpl. destruct (b =? 10); lia.
           ++ intros _. unfold column_of. rewrite col_app. simpl.
              destruct (b =? 10) eqn:B; [lia|]. fold (column_of p). rewrite <- (P5 ltac:(discriminate)). lia.
           ++ rewrite app_nil_r. exact SV.
           ++ intros k V. specialize (P9 _ V). rewrite app_length. lia.
           ++ intros; discriminate.
           ++ intros; discriminate.
        -- exists p; unfold view, ahead; simpl; auto; try (intros; discriminate).
           ++ lia.
           ++ destruct (b =? 10); lia.
           ++ intros N. destruct (b =? 10) eqn:B; [assert (b = 10) by lia; congruence|]. rewrite <- P5; [lia|]. congruence.
Qed.
Lemma mustgetc_placed : forall T fe o s, placed T fe o s -> calm s ->
  match mustgetc s with
  | (Some b, s') => got T fe o b s' /\ l_off s' = l_off s + 1 /\ view s = b :: view s'
  | (None, s') => placed T fe o s' /\ l_off s' = l_off s /\ l_next s' = None /\ view s = []
  end.
Proof.
  intros T fe o s P C. pose proof (getc_placed _ _ _ _ P C) as G. unfold mustgetc.
  destruct (getc s) as [[b|] s']; auto. destruct G as (A & B & D & F & N & V).
  rewrite D. destruct fe; auto. split; [apply placed_fail; auto|]. unfold fail, set_err. simpl. auto.
Qed.

(** *** What a function does to the position *)
Definition runs {A} (n : nat) (m : L A) (Q : A -> lst -> Prop) : Prop :=
  forall T fe o s, placed T fe o s -> calm s -> (length (view s) <= n)%nat ->
  exists r s', m s = Some (r, s') /\ placed T fe o s' /\ l_off s <= l_off s' /\
               match r with Some a => Q a s' | None => True end.
(** The same for a function that is called when [b] was just read and may put it back. *)
Definition runs_from {A} (n : nat) (b : Z) (m : L A) (Q : A -> lst -> Prop) : Prop :=
  forall T fe o s, got T fe o b s -> (length (view s) <= n)%nat ->
  exists r s', m s = Some (r, s') /\ placed T fe o s' /\ l_off s - 1 <= l_off s' /\
               match r with Some a => Q a s' | None => True end.
Definition quiet {A} : A -> lst -> Prop := fun _ s => calm s.
(** An end that can be reported. *)
Definition ended {A} : A -> lst -> Prop := fun _ s => l_next s <> Some 10.
Definition stopped {A} : A -> lst -> Prop := fun _ s => l_next s = None.
Definition silent {A} : A -> lst -> Prop := fun _ s => calm s /\ l_next s <> Some 10.

Lemma runs_ret : forall A n (a : A) (Q : A -> lst -> Prop), (forall s, calm s -> Q a s) -> runs n (lret a) Q.
Proof. intros A n a Q HQ T fe o s P C N. exists (Some a), s. repeat split; auto; try lia. Qed.
Lemma runs_fail : forall A n m (Q : A -> lst -> Prop), runs n (lfail m) Q.
Proof. intros A n m Q T fe o s P C N. exists None, (fail m s). repeat split; auto; try (simpl; lia). apply placed_fail; auto. Qed.
Lemma from_ret : forall A n b (a : A) (Q : A -> lst -> Prop), (forall s, calm s -> l_next s = None -> Q a s) -> runs_from n b (lret a) Q.
Proof.
  intros A n b a Q HQ T fe o s (G1 & G2 & G3 & G4) N. exists (Some a), s. repeat split; auto; try lia.
  apply HQ; auto. left; auto.
Qed.
Lemma from_fail : forall A n b m (Q : A -> lst -> Prop), runs_from n b (lfail m) Q.
Proof.
  intros A n b m Q T fe o s (G1 & G2 & G3 & G4) N. exists None, (fail m s). repeat split; auto; try (simpl; lia).
  apply placed_fail; auto.
Qed.
Lemma from_runs : forall A n b (m : L A) (Q : A -> lst -> Prop), runs n m Q -> runs_from n b m Q.
Proof.
  intros A n b m Q H T fe o s (G1 & G2 & G3 & G4) N.
  destruct (H T fe o s G3 (or_introl G2) N) as (r & s' & E1 & E2 & E3 & E4). exists r, s'. repeat split; auto. lia.
Qed.
Lemma from_unget : forall A n b (m : L A) (Q : A -> lst -> Prop), runs (S n) m Q -> runs_from n b (step ungetc b; m) Q.
Proof.
  intros A n b m Q H T fe o s (G1 & G2 & G3 & G4) N. unfold ldo.
  destruct (H T fe o _ G4) as (r & s' & E1 & E2 & E3 & E4).
  - left. exact G2.
  - unfold view, ungetc in *. simpl. rewrite G1 in N. lia.
  - exists r, s'. repeat split; auto.
Qed.
Lemma runs_step : forall A n (m : L A) g (Q : A -> lst -> Prop), (forall s, same s (g s)) -> runs n m Q -> runs n (step g; m) Q.
Proof.
  intros A n m g Q S H T fe o s P C N. unfold ldo. pose proof (S s) as S1.
  destruct (H T fe o (g s)) as (r & s' & E1 & E2 & E3 & E4).
  - eapply placed_same; eauto.
  - eapply calm_same; eauto.
  - rewrite (view_same _ _ S1). exact N.
  - exists r, s'. repeat split; auto. destruct S1 as (_ & _ & _ & _ & O & _). lia.
Qed.
Lemma from_step : forall A n b (m : L A) g (Q : A -> lst -> Prop), (forall s, same s (g s)) -> runs_from n b m Q -> runs_from n b (step g; m) Q.
Proof.
  intros A n b m g Q S H T fe o s G N. unfold ldo. pose proof (S s) as S1.
  destruct (H T fe o (g s)) as (r & s' & E1 & E2 & E3 & E4).
  - eapply got_same; eauto.
  - rewrite (view_same _ _ S1). exact N.
  - exists r, s'. repeat split; auto. destruct S1 as (_ & _ & _ & _ & O & _). lia.
Qed.
Lemma runs_weak : forall A n n' (m : L A) (Q : A -> lst -> Prop), runs n' m Q -> (n <= n')%nat -> runs n m Q.
Proof. intros A n n' m Q H N T fe o s P C V. apply H; auto. lia. Qed.
Lemma from_weak : forall A n n' b (m : L A) (Q : A -> lst -> Prop), runs_from n' b m Q -> (n <= n')%nat -> runs_from n b m Q.
Proof. intros A n n' b m Q H N T fe o s P V. apply H; auto. lia. Qed.
Lemma runs_post : forall A n (m : L A) (Q Q' : A -> lst -> Prop), runs n m Q -> (forall a s, Q a s -> Q' a s) -> runs n m Q'.
Proof.
  intros A n m Q Q' H I T fe o s P C N. destruct (H T fe o s P C N) as (r & s' & E1 & E2 & E3 & E4).
  exists r, s'. repeat split; auto. destruct r; auto.
Qed.
(** Sequencing. *)
Lemma runs_try : forall A B n (m : L A) (f : A -> L B) R (Q : B -> lst -> Prop),
  runs n m R -> (forall a, exists Q', (forall s, R a s -> calm s) /\ runs n (f a) Q' /\ (forall b s, Q' b s -> Q b s)) ->
  runs n (ltry m f) Q.
Proof.
  intros A B n m f R Q H K T fe o s P C N. unfold ltry.
  destruct (H T fe o s P C N) as (r & s' & E1 & E2 & E3 & E4). rewrite E1.
  destruct r as [a|]; [|exists None, s'; auto].
  destruct (K a) as (Q' & K1 & K2 & K3).
  pose proof (placed_length _ _ _ _ P). pose proof (placed_length _ _ _ _ E2).
  destruct (K2 T fe o s' E2 (K1 _ E4) ltac:(lia)) as (r & s'' & F1 & F2 & F3 & F4).
  exists r, s''. repeat split; auto; try lia. destruct r; auto.
Qed.
Lemma runs_bind : forall A B n (m : L A) (f : A -> L B) (Q : B -> lst -> Prop),
  runs n m quiet -> (forall a, runs n (f a) Q) -> runs n (ltry m f) Q.
Proof. intros. eapply runs_try; [eassumption|]. intro a. exists Q. split; auto. Qed.
Lemma runs_msg : forall A B n (m : L A) msg (f : A -> L B) (Q : B -> lst -> Prop),
  runs n m quiet -> (forall a, runs n (f a) Q) -> runs n (ltry_msg m msg f) Q.
Proof.
  intros A B n m msg f Q H K T fe o s P C N. unfold ltry_msg.
  destruct (H T fe o s P C N) as (r & s' & E1 & E2 & E3 & E4). rewrite E1.
  destruct r as [a|].
  - pose proof (placed_length _ _ _ _ P). pose proof (placed_length _ _ _ _ E2).
    destruct (K a T fe o s' E2 E4 ltac:(lia)) as (r & s'' & F1 & F2 & F3 & F4).
    exists r, s''. repeat split; auto; lia.
  - destruct (has_err s'); [exists None, s'; auto|]. exists None, (fail msg s'). repeat split; auto. apply placed_fail; auto.
Qed.
Lemma runs_must : forall B n (f : Z -> L B) (Q : B -> lst -> Prop),
  (forall b m, n = S m -> runs_from m b (f b) Q) -> runs n (try b <- lmust; f b) Q.
Proof.
  intros B n f Q H T fe o s P C N. unfold ltry, lmust. pose proof (mustgetc_placed _ _ _ _ P C) as G.
  destruct (mustgetc s) as [[b|] s'].
  - destruct G as (G1 & G2 & G3). rewrite G3 in N. simpl in N. destruct n as [|m]; [lia|].
    destruct (H b m eq_refl T fe o s' G1 ltac:(lia)) as (r & s'' & E1 & E2 & E3 & E4).
    exists r, s''. repeat split; auto. lia.
  - destruct G as (G1 & G2 & G3). exists None, s'. repeat split; auto. lia.
Qed.
Lemma from_must : forall B n b (f : Z -> L B) (Q : B -> lst -> Prop),
  (forall b m, n = S m -> runs_from m b (f b) Q) -> runs_from n b (try b <- lmust; f b) Q.
Proof. intros. apply from_runs. apply runs_must; auto. Qed.
(** A budget computed from the state is enough. *)
Lemma runs_fuel : forall A n (m : nat -> L A) (Q : A -> lst -> Prop),
  (forall k n', (n' < k)%nat -> (n' <= n)%nat -> runs n' (m k) Q) -> runs n (fun s => m (lfuel s) s) Q.
Proof.
  intros A n m Q H T fe o s P C N. apply (H (lfuel s) (length (view s))); auto.
  unfold lfuel, view. destruct (l_next s); simpl; lia.
Qed.

Ltac samet := intros; first [apply same_put | apply same_puts | apply same_reset | apply same_truncate | apply same_intern].

(** *** The functions *)
Lemma space_runs : forall k n, (n < k)%nat -> runs n (space_loop k) quiet.
Proof.
  induction k as [|k IH]; intros n K; [lia|]. intros T fe o s P C N. simpl.
  pose proof (getc_placed _ _ _ _ P C) as G. destruct (getc s) as [[b|] s'].
  - destruct G as (G1 & G2 & G3). rewrite G3 in N. simpl in N. destruct n as [|n]; [lia|].
    destruct (is_space b).
    + destruct G1 as (A1 & A2 & A3 & A4).
      destruct (IH n ltac:(lia) T fe o s' A3 (or_introl A2) ltac:(lia)) as (r & s'' & E1 & E2 & E3 & E4).
      exists r, s''. repeat split; auto. lia.
    + destruct G1 as (A1 & A2 & A3 & A4). exists (Some tt), (ungetc b s'). repeat split; auto; simpl; try lia. left. exact A2.
  - destruct G as (G1 & G2 & G3 & G4 & G5 & G6). exists (Some tt), s'. repeat split; auto; try lia. right. eauto.
Qed.
Lemma lspace_runs : forall n, runs n lspace quiet.
Proof. intro n. unfold lspace. apply (runs_fuel unit n space_loop). intros. apply space_runs; auto. Qed.

Lemma name_loop_runs : forall k n, (n < k)%nat -> runs n (name_loop k) quiet.
Proof.
  induction k as [|k IH]; intros n K; [lia|]. simpl. apply runs_must. intros b m M. subst.
  destruct (name_byte b).
  - apply from_step; [samet|]. apply from_runs. apply IH. lia.
  - apply from_unget. apply runs_ret. auto.
Qed.
Lemma read_name_runs : forall n, runs n read_name_b quiet.
Proof.
  intro n. unfold read_name_b. apply (runs_fuel unit n (fun k => try b <- lmust; if name_byte b then step put b; name_loop k
            else step ungetc b; fun s => Some (None, s))).
  intros k n' K1 K2. apply runs_must. intros b m M. subst. destruct (name_byte b).
  - apply from_step; [samet|]. apply from_runs. apply name_loop_runs. lia.
  - apply from_unget. intros T fe o s P C N. exists None, s. repeat split; auto; lia.
Qed.
Lemma name_runs : forall n, runs n name_b quiet.
Proof.
  intro n. unfold name_b. apply runs_step; [samet|]. apply runs_bind; [apply read_name_runs|]. intros _.
  intros T fe o s P C N. destruct (is_name (l_buf s)).
  - destruct (intern (l_intern s) (l_buf s)) as [i x]. exists (Some x), (set_intern i s).
    repeat split; auto; try (simpl; lia). eapply placed_same; [apply same_intern | exact P].
  - apply (runs_fail _ n); auto.
Qed.
Lemma nsname_runs : forall n, runs n nsname_b quiet.
Proof.
  intro n. unfold nsname_b. apply runs_bind; [apply name_runs|]. intros x. destruct (split_ns x).
  - apply runs_ret. auto.
  - intros T fe o s P C N. exists None, s. repeat split; auto; lia.
Qed.

Lemma digits_runs : forall base16 k n b, (n < k)%nat ->
  forall T fe o s, got T fe o b s -> (length (view s) <= n)%nat ->
  exists r s', digits_loop k base16 b s = Some (r, s') /\ placed T fe o s' /\ l_off s <= l_off s' /\
               match r with Some b' => got T fe o b' s' | None => True end.
Proof.
  intros base16. induction k as [|k IH]; intros n b K T fe o s G N; [lia|]. simpl.
  destruct (hex_digit base16 b).
  - unfold ldo, ltry, lmust. pose proof (got_same _ _ _ _ _ _ (same_put b s) G) as G'.
    destruct G' as (A1 & A2 & A3 & A4).
    pose proof (mustgetc_placed _ _ _ _ A3 (or_introl A2)) as M.
    destruct (mustgetc (put b s)) as [[b'|] s'].
    + destruct M as (M1 & M2 & M3). rewrite (view_same _ _ (same_put b s)) in M3. rewrite M3 in N. simpl in N.
      destruct n as [|n]; [lia|]. destruct (IH n b' ltac:(lia) T fe o s' M1 ltac:(lia)) as (r & s'' & E1 & E2 & E3 & E4).
      exists r, s''. repeat split; auto. simpl in M2. lia.
    + destruct M as (M1 & M2 & M3). exists None, s'. repeat split; auto. simpl in M2. lia.
  - exists (Some b), s. split; [reflexivity|]. pose proof G as (_ & _ & G3 & _). repeat split; auto; try apply G. lia.
Qed.

(** Continuing behind the digits. *)
Lemma number_runs : forall n b base16 (f : Z -> L (option bytes)),
  (forall b, runs_from n b (f b) quiet) ->
  runs_from n b (fun s => (try b <- digits_loop (lfuel s) base16 b; f b) s) quiet.
Proof.
  intros n b base16 f F T fe o s G N. pose proof G as (A1 & A2 & A3 & A4).
  destruct (digits_runs base16 (lfuel s) (length (view s)) b ltac:(unfold lfuel, view; rewrite A1; lia) T fe o s G ltac:(lia))
    as (r & s' & E1 & E2 & E3 & E4).
  unfold ltry. rewrite E1. destruct r as [b'|]; [|exists None, s'; repeat split; auto; lia].
  pose proof (placed_length _ _ _ _ A3). pose proof (placed_length _ _ _ _ E2).
  destruct (F b' T fe o s' E4 ltac:(lia)) as (r & s'' & F1 & F2 & F3 & F4).
  exists r, s''. repeat split; auto. lia.
Qed.

Lemma from_put_ret : forall A n b (x : Z) (f : bytes -> A), runs_from n b (fun s => lret (f (l_buf s)) (put x s)) quiet.
Proof.
  intros A n b x f T fe o s G N. exists (Some (f (l_buf s))), (put x s). pose proof G as (A1 & A2 & A3 & A4).
  repeat split; auto; try (simpl; lia).
  - eapply placed_same; [apply same_put | exact A3].
  - left. exact A2.
Qed.

Lemma entity_runs : forall c before n, runs n (entity_b c before) quiet.
Proof.
  intros c before n. unfold entity_b. apply runs_must. intros b m M. subst n. destruct (b =? 35).
  - apply from_step; [samet|]. apply from_must. intros b1 m1 M1. subst m.
    assert (F : forall base16 n b0, runs_from n b0 (fun s : lst => (try b <- digits_loop (lfuel s) base16 b0;
       if negb (b =? 59) then step ungetc b; lret None
       else fun s0 => lret (parse_rune base16 (skipn (length (l_buf s)) (l_buf s0))) (put 59 s0)) s) quiet).
    { intros base16 n b0. intros T fe o s G N.
      apply (number_runs n b0 base16 (fun b => if negb (b =? 59) then step ungetc b; lret None
       else fun s0 => lret (parse_rune base16 (skipn (length (l_buf s)) (l_buf s0))) (put 59 s0))); auto.
      intros b'. destruct (negb (b' =? 59)).
      - apply from_unget. apply runs_ret. auto.
      - apply (from_put_ret (option bytes) n b' 59 (fun v => parse_rune base16 (skipn (length (l_buf s)) v))). }
    destruct (b1 =? 120).
    + apply from_step; [samet|]. apply from_must. intros b2 m2 M2. apply F.
    + apply F.
  - apply from_unget. intros T fe o s P C N.
    destruct (read_name_runs (S m) T fe o s P C N) as (r & s' & E1 & E2 & E3 & E4). rewrite E1.
    assert (CC : match r with Some _ => false | None => has_err s' end = false -> calm s').
    { intro H. destruct r; auto. left. unfold has_err in H. destruct (l_err s'); [discriminate | reflexivity]. }
    destruct (match r with Some _ => false | None => has_err s' end) eqn:H.
    + exists None, s'. repeat split; auto.
    + pose proof (placed_length _ _ _ _ P). pose proof (placed_length _ _ _ _ E2).
      refine (let '(ex_intro _ r1 (ex_intro _ s1 (conj F1 (conj F2 (conj F3 F4))))) :=
        runs_must (option bytes) (S m) _ quiet _ T fe o s' E2 (CC eq_refl) _ in
        ex_intro _ r1 (ex_intro _ s1 (conj F1 (conj F2 (conj _ F4))))); [ | lia | lia].
      intros b' m' M'. destruct (negb (b' =? 59)).
      * apply from_unget. apply runs_ret. auto.
      * apply (from_put_ret (option bytes) m' b' 59 (fun v => let name := skipn (S before) v in
           if is_name name then match entity name with Some r => Some (encode_rune r) | None => c_entity c name end else None)).
Qed.

Lemma text_loop_runs : forall c quote cdata k n b0 b1, (n < k)%nat ->
  runs n (text_loop_b k c quote cdata b0 b1) silent.
Proof.
  intros c quote cdata. induction k as [|k IH]; intros n b0 b1 K; [lia|]. intros T fe o s P C N. simpl.
  pose proof (getc_placed _ _ _ _ P C) as G. destruct (getc s) as [[b|] s1].
  - destruct G as (G1 & G2 & G3). rewrite G3 in N. simpl in N. destruct n as [|n]; [lia|].
    match goal with |- exists r s', ?m = Some (r, s') /\ _ =>
      enough (RF : exists r s', m = Some (r, s') /\ placed T fe o s' /\ l_off s1 - 1 <= l_off s' /\
              match r with Some a => silent a s' | None => True end) by
        (destruct RF as (r & s' & E1 & E2 & E3 & E4); exists r, s'; repeat split; auto; lia)
    end.
    assert (RET : forall x, runs_from n b (lret x) (@silent nat)).
    { intro x. apply from_ret. intros s0 A B. split; auto. congruence. }
    assert (UN : forall x : Z, x <> 10 -> b = x -> exists r s', lret O (ungetc x s1) = Some (r, s') /\ placed T fe o s' /\
              l_off s1 - 1 <= l_off s' /\ match r with Some a => silent a s' | None => True end).
    { intros x X ->. exists (Some O), (ungetc x s1). pose proof G1 as (A1 & A2 & A3 & A4).
      repeat split; auto; try (simpl; lia). left; exact A2. simpl. congruence. }
    destruct (negb match quote with Some _ => true | None => false end && (b0 =? 93) && (b1 =? 93) && (b =? 62)).
    { destruct cdata; [apply (RET 2%nat T fe o s1 G1); lia | apply (from_fail nat n b _ silent T fe o s1 G1); lia]. }
    destruct ((b =? 60) && negb cdata) eqn:B60.
    { destruct quote; [apply (from_fail nat n b _ silent T fe o s1 G1); lia | apply UN; lia]. }
    destruct ((b =? 62) && negb cdata && negb match quote with Some _ => true | None => false end) eqn:B62.
    { apply UN; lia. }
    destruct (match quote with Some q => b =? q | None => false end).
    { apply (RET O T fe o s1 G1); lia. }
    destruct ((b =? 38) && negb cdata).
    { refine (from_step nat n b _ (put 38) silent _ _ T fe o s1 G1 ltac:(lia)); [samet|]. apply from_runs.
      apply runs_bind; [apply entity_runs|]. intros [t|].
      - apply runs_step; [samet|]. apply runs_step; [samet|]. apply IH. lia.
      - destruct (negb (c_strict c)); [apply IH; lia | apply runs_fail]. }
    set (s2 := if b =? 13 then put 10 s1 else if (b1 =? 13) && (b =? 10) then s1 else put b s1).
    assert (S2 : same s1 s2).
    { unfold s2. destruct (b =? 13); [apply same_put|]. destruct ((b1 =? 13) && (b =? 10)); [apply same_refl | apply same_put]. }
    pose proof (got_same _ _ _ _ _ _ S2 G1) as (A1 & A2 & A3 & A4).
    destruct (IH n b1 b ltac:(lia) T fe o s2 A3 (or_introl A2)) as (r & s' & E1 & E2 & E3 & E4).
    { rewrite (view_same _ _ S2). lia. }
    exists r, s'. repeat split; auto. destruct S2 as (_ & _ & _ & _ & O & _). lia.
  - destruct G as (G1 & G2 & G3 & G4 & G5 & G6). destruct cdata.
    + rewrite G3. exists None. destruct fe.
      * exists (fail (str "unexpected EOF in CDATA section") s1). repeat split; auto; [apply placed_fail; auto | simpl; lia].
      * exists s1. repeat split; auto. lia.
    + exists (Some O), s1. repeat split; auto; [lia | right; eauto | congruence].
Qed.

Lemma text_runs : forall c quote cdata n, runs n (text_b c quote cdata) silent.
Proof.
  intros c quote cdata n. unfold text_b. apply runs_step; [samet|].
  intros T fe o s P C N.
  destruct (text_loop_runs c quote cdata (lfuel s) (length (view s)) 0 0 ltac:(unfold lfuel, view; destruct (l_next s); simpl; lia)
    T fe o s P C ltac:(lia)) as (r & s' & E1 & E2 & E3 & E4).
  unfold ltry. rewrite E1. destruct r as [x|]; [|exists None, s'; auto].
  destruct (forallb good_piece (pieces (firstn (length (l_buf s') - x) (l_buf s')))).
  - eexists _, s'. repeat split; eauto. destruct (l_fresh s'); auto.
  - exists None, (fail (str "invalid UTF-8 or illegal character code") s'). repeat split; auto. apply placed_fail; auto.
Qed.

Lemma value_loop_runs : forall k n, (n < k)%nat -> runs n (value_loop k) quiet.
Proof.
  induction k as [|k IH]; intros n K; [lia|]. simpl. apply runs_must. intros b m M. subst.
  destruct (is_value_byte b).
  - apply from_step; [samet|]. apply from_runs. apply IH. lia.
  - apply from_unget. apply runs_ret. auto.
Qed.
Lemma attrval_runs : forall c n, runs n (attrval_b c) quiet.
Proof.
  intros c n. unfold attrval_b. apply runs_must. intros b m M. subst.
  destruct ((b =? 34) || (b =? 39)).
  - apply from_runs. eapply runs_post; [apply text_runs|]. intros a s [A B]. exact A.
  - destruct (c_strict c); [apply from_fail|]. apply from_unget. apply runs_step; [samet|].
    intros T fe o s P C N.
    destruct (value_loop_runs (lfuel s) (length (view s)) ltac:(unfold lfuel, view; destruct (l_next s); simpl; lia)
      T fe o s P C ltac:(lia)) as (r & s' & E1 & E2 & E3 & E4).
    unfold ltry. rewrite E1. destruct r as [x|]; [|exists None, s'; auto].
    eexists _, s'. repeat split; eauto. destruct (l_fresh s'); auto.
Qed.

Lemma pi_loop_runs : forall k n b0, (n < k)%nat -> runs n (pi_loop_b k b0) silent.
Proof.
  induction k as [|k IH]; intros n b0 K; [lia|]. simpl. apply runs_must. intros b m M. subst.
  apply from_step; [samet|]. destruct ((b0 =? 63) && (b =? 62)).
  - apply from_ret. intros s A B. split; auto. congruence.
  - apply from_runs. apply IH. lia.
Qed.
Lemma comment_loop_runs : forall k n b0 b1, (n < k)%nat -> runs n (comment_loop_b k b0 b1) silent.
Proof.
  induction k as [|k IH]; intros n b0 b1 K; [lia|]. simpl. apply runs_must. intros b m M. subst.
  apply from_step; [samet|]. destruct ((b0 =? 45) && (b1 =? 45)).
  - destruct (b =? 62); [|apply from_fail]. apply from_ret. intros s A B. split; auto. congruence.
  - apply from_runs. apply IH. lia.
Qed.
Lemma expect_runs : forall p n, runs n (expect_b p) quiet.
Proof.
  induction p as [|c p IH]; intros n; simpl; [apply runs_ret; auto|]. apply runs_must. intros b m M.
  destruct (b =? c); [apply from_runs; apply IH | apply from_fail].
Qed.
Lemma skip_comment_runs : forall k n b0 b1, (n < k)%nat -> runs n (skip_comment_b k b0 b1) quiet.
Proof.
  induction k as [|k IH]; intros n b0 b1 K; [lia|]. simpl. apply runs_must. intros b m M. subst.
  destruct ((b0 =? 45) && (b1 =? 45) && (b =? 62)).
  - apply from_ret. auto.
  - apply from_runs. apply IH. lia.
Qed.
Lemma fuel_view : forall s, (length (view s) < lfuel s)%nat.
Proof. intros s. unfold lfuel, view. destruct (l_next s); simpl; lia. Qed.

(** At least one byte is read when the result is a byte. *)
Lemma match_bang_runs : forall p i T fe o s, placed T fe o s -> calm s ->
  exists r s', match_bang_b p i s = Some (r, s') /\ placed T fe o s' /\ l_off s <= l_off s' /\
    match r with
    | Some (Some _) => calm s' /\ l_off s < l_off s'
    | Some None => calm s'
    | None => True
    end.
Proof.
  induction p as [|c p IH]; intros i T fe o s P C; simpl.
  - exists (Some None), s. repeat split; auto; lia.
  - unfold ltry, lmust. pose proof (mustgetc_placed _ _ _ _ P C) as G. destruct (mustgetc s) as [[b|] s'].
    + destruct G as ((A1 & A2 & A3 & A4) & G2 & G3). destruct (b =? c).
      * destruct (IH (S i) T fe o s' A3 (or_introl A2)) as (r & s'' & E1 & E2 & E3 & E4).
        exists r, s''. repeat split; auto; [lia|]. destruct r as [[x|]|]; auto. destruct E4. split; auto; lia.
      * exists (Some (Some (i, b))), s'. repeat split; auto; try lia. left; auto.
    + destruct G as (G1 & G2 & G3). exists None, s'. repeat split; auto. lia.
Qed.

Lemma directive_runs : forall k n pend inq depth,
  (n + (match pend with Some _ => 1 | None => 0 end) < k)%nat -> runs n (directive_loop_b k pend inq depth) silent.
Proof.
  induction k as [|k IH]; intros n pend inq depth K; [lia|].
  assert (H : forall b n', (n' + 1 < S k)%nat -> runs n' (
        (step put b;
        if b =? inq then directive_loop_b k None 0 depth
        else if negb (inq =? 0) then directive_loop_b k None inq depth
        else if (b =? 39) || (b =? 34) then directive_loop_b k None b depth
        else if b =? 62 then directive_loop_b k None inq (depth - 1)
        else if b =? 60 then
          try m <- match_bang_b (str "!--") 0;
          match m with
          | None =>
              step (fun s => truncate (length (l_buf s) - 1) s);
              fun s => (try _ <- skip_comment_b (lfuel s) 0 0;
                        step put 32;
                        directive_loop_b k None inq depth) s
          | Some (n, b) =>
              step puts (firstn n (str "!--"));
              directive_loop_b k (Some b) inq (depth + 1)
          end
        else directive_loop_b k None inq depth)) silent).
  { intros b n' K'. apply runs_step; [samet|].
    destruct (b =? inq); [apply IH; lia|]. destruct (negb (inq =? 0)); [apply IH; lia|].
    destruct ((b =? 39) || (b =? 34)); [apply IH; lia|]. destruct (b =? 62); [apply IH; lia|].
    destruct (b =? 60); [|apply IH; lia].
    intros T fe o s P C N. unfold ltry at 1.
    destruct (match_bang_runs (str "!--") 0 T fe o s P C) as (r & s' & E1 & E2 & E3 & E4). rewrite E1.
    pose proof (placed_length _ _ _ _ P). pose proof (placed_length _ _ _ _ E2).
    destruct r as [[[i b']|]|].
    - destruct E4 as [E4 E5].
      assert (R : runs (n' - 1) (step puts (firstn i (str "!--")); directive_loop_b k (Some b') inq (depth + 1)) silent).
      { apply runs_step; [samet|]. apply IH. lia. }
      destruct (R T fe o s' E2 E4 ltac:(lia)) as (r & s'' & F1 & F2 & F3 & F4). exists r, s''. repeat split; auto. lia.
    - assert (R : runs n' (step (fun s => truncate (length (l_buf s) - 1) s);
              fun s => (try _ <- skip_comment_b (lfuel s) 0 0; step put 32; directive_loop_b k None inq depth) s) silent).
      { apply runs_step; [samet|]. intros T1 fe1 o1 s1 P1 C1 N1.
        apply (runs_bind unit unit (length (view s1)) (skip_comment_b (lfuel s1) 0 0) (fun _ => step put 32; directive_loop_b k None inq depth) silent); auto.
        - apply skip_comment_runs. apply fuel_view.
        - intros _. apply runs_step; [samet|]. apply IH. lia. }
      destruct (R T fe o s' E2 E4 ltac:(lia)) as (r & s'' & F1 & F2 & F3 & F4). exists r, s''. repeat split; auto. lia.
    - exists None, s'. repeat split; auto. }
  cbn [directive_loop_b]. destruct pend as [b|].
  - apply H. lia.
  - apply runs_must. intros b m M. subst. destruct ((inq =? 0) && (b =? 62) && (depth =? 0)).
    + apply from_ret. intros s A B. split; auto. congruence.
    + apply from_runs. apply H. lia.
Qed.

Lemma attrs_runs : forall c k n acc, (n < k)%nat -> runs n (attrs_loop_b k c acc) stopped.
Proof.
  intros c. induction k as [|k IH]; intros n acc K; [lia|]. cbn [attrs_loop_b].
  apply runs_bind; [apply lspace_runs|]. intros _ T fe o s P C N.
  pose proof (mustgetc_placed _ _ _ _ P C) as G. destruct (mustgetc s) as [[b|] s'].
  - destruct G as (G1 & G2 & G3). rewrite G3 in N. simpl in N. destruct n as [|m]; [lia|].
    assert (R : runs_from m b (if b =? 47 then
               try b <- lmust;
               if b =? 62 then lret (acc, true) else lfail (str "expected /> in element")
             else if b =? 62 then lret (acc, false)
             else
               step ungetc b;
               ltry_msg nsname_b (str "expected attribute name in element") (fun n =>
               try _ <- lspace;
               try b <- lmust;
               if negb (b =? 61) then
                 if c_strict c then lfail (str "attribute name without = in element")
                 else attrs_loop_b k c (acc ++ [mkattr n (local n)])
               else
                 try _ <- lspace;
                 try v <- attrval_b c;
                 attrs_loop_b k c (acc ++ [mkattr n v]))) stopped).
    { destruct (b =? 47).
      - apply from_must. intros b' m' M'. destruct (b' =? 62); [|apply from_fail].
        apply from_ret. intros s0 A B. exact B.
      - destruct (b =? 62).
        + apply from_ret. intros s0 A B. exact B.
        + apply from_unget. apply runs_msg; [apply nsname_runs|]. intros nm.
          apply runs_bind; [apply lspace_runs|]. intros _. apply runs_must. intros b' m' M'. inversion M'; subst m'. clear M'.
          destruct (negb (b' =? 61)).
          * destruct (c_strict c); [apply from_fail|]. apply from_runs. apply IH. lia.
          * apply from_runs. apply runs_bind; [apply lspace_runs|]. intros _.
            apply runs_bind; [apply attrval_runs|]. intros v. apply IH. lia. }
    destruct (R T fe o s' G1 ltac:(lia)) as (r & s'' & F1 & F2 & F3 & F4). exists r, s''. repeat split; auto. lia.
  - destruct G as (G1 & G2 & G3 & G4). destruct (negb (length acc =? 0)%nat && negb (c_strict c)).
    + exists (Some (acc, false)), s'. split; [reflexivity|]. split; [auto|]. split; [lia | exact G3].
    + exists None, s'. repeat split; auto. lia.
Qed.

(** *** A raw token *)
(** An end that can be reported; behind a start tag no byte was put back. *)
Definition no_start (t : token) : bool := match t with TStart _ _ => false | _ => true end.
Definition told : raw -> lst -> Prop := fun r s => l_next s <> Some 10 /\ (no_start (fst r) = false -> l_next s = None).
Lemma raw_token_runs : forall c n, c_charset c = None -> runs n (raw_token_b c) told.
Proof.
  intros c n CS T fe o s P C N. unfold raw_token_b. pose proof (getc_placed _ _ _ _ P C) as G.
  destruct (getc s) as [[b|] s1].
  2: { destruct G as (G1 & G2 & G3 & G4). exists None, s1. repeat split; auto. lia. }
  destruct G as (G1 & G2 & G3). rewrite G3 in N. simpl in N. destruct n as [|n]; [lia|].
  match goal with |- exists r s', ?m s1 = Some (r, s') /\ _ => enough (RF : runs_from n b m told) by
    (destruct (RF T fe o s1 G1 ltac:(lia)) as (r & s' & E1 & E2 & E3 & E4); exists r, s'; repeat split; auto; lia) end.
  clear T fe o s P C N s1 G1 G2 G3.
  assert (SB : forall A n (m : L A) (f : A -> lst -> raw), (forall a s, no_start (fst (f a s)) = true) ->
             runs n m silent -> runs n (try a <- m; fun s => lret (f a s) s) told).
  { intros A n0 m f NST H T fe o s P C N. unfold ltry. destruct (H T fe o s P C N) as (r & s' & E1 & E2 & E3 & E4). rewrite E1.
    destruct r as [a|]; [|exists None, s'; auto]. exists (Some (f a s')), s'. repeat split; auto; [apply E4|]. rewrite NST. discriminate. }
  destruct (negb (b =? 60)).
  { apply from_unget. apply (SB bytes (S n) (text_b c None false) (fun d _ => (TChar d, None))); [reflexivity|]. apply text_runs. }
  apply from_must. intros b1 m1 M1. subst n. destruct (b1 =? 47).
  { apply from_runs. apply runs_msg; [apply nsname_runs|]. intros nm. apply runs_bind; [apply lspace_runs|]. intros _.
    apply runs_must. intros b2 m2 M2. destruct (b2 =? 62); [|apply from_fail]. apply from_ret. intros s0 A B. split; [congruence | discriminate]. }
  destruct (b1 =? 63).
  { apply from_runs. apply runs_msg; [apply name_runs|]. intros nm. apply runs_bind; [apply lspace_runs|]. intros _.
    apply runs_step; [samet|]. intros T fe o s P C N.
    destruct (pi_loop_runs (lfuel s) (length (view s)) 0 (fuel_view s) T fe o s P C ltac:(lia)) as (r & s' & E1 & E2 & E3 & E4).
    unfold ltry. rewrite E1. destruct r as [x|]; [|exists None, s'; auto]. destruct E4 as [E4 E5].
    destruct (beq nm (str "xml")).
    - unfold charset_b. rewrite CS.
      match goal with |- context [if ?b then Some (None, set_err (LOther ?m1) _) else if ?b2 then _ else _] =>
        destruct b; [exists None, (set_err (LOther m1) s')|destruct b2; [eexists None, _|]] end.
      + repeat split; auto. apply placed_other; auto.
      + split; [reflexivity|]. repeat split; auto. apply placed_other; auto.
      + eexists _, s'. split; [reflexivity|]. repeat split; auto; discriminate.
    - eexists _, s'. split; [reflexivity|]. repeat split; auto; discriminate. }
  destruct (b1 =? 33).
  { apply from_must. intros b2 m2 M2. subst m1. destruct (b2 =? 45).
    - apply from_must. intros b3 m3 M3. subst m2. destruct (negb (b3 =? 45)); [apply from_fail|].
      apply from_runs. apply runs_step; [samet|]. intros T fe o s P C N.
      apply (SB unit (length (view s)) (comment_loop_b (lfuel s) 0 0)
        (fun _ s => (TComment (firstn (length (l_buf s) - 3) (l_buf s)), None))); auto.
      apply comment_loop_runs. apply fuel_view.
    - destruct (b2 =? 91).
      + apply from_runs. apply runs_bind; [apply expect_runs|]. intros _.
        apply (SB bytes m2 (text_b c None true) (fun d _ => (TChar d, None))); [reflexivity|]. apply text_runs.
      + apply from_runs. apply runs_step; [samet|]. apply runs_step; [samet|]. intros T fe o s P C N.
        apply (SB unit (length (view s)) (directive_loop_b (2 * lfuel s) None 0 0) (fun _ s => (TDirective (l_buf s), None))); auto.
        apply directive_runs. pose proof (fuel_view s). lia. }
  apply from_unget. apply runs_msg; [apply nsname_runs|]. intros nm. intros T fe o s P C N.
  unfold ltry. destruct (attrs_runs c (lfuel s) (length (view s)) [] (fuel_view s) T fe o s P C ltac:(lia)) as (r & s' & E1 & E2 & E3 & E4).
  rewrite E1. destruct r as [x|]; [|exists None, s'; auto].
  eexists _, s'. split; [reflexivity|]. split; [exact E2|]. split; [lia|]. unfold stopped in E4. split; [rewrite E4; discriminate | intros _; exact E4].
Qed.
