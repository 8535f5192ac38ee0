(** C75: what a token refers to, and CopyToken.  C76: slices that are grown on reading. *)
From Coq Require Import String.
From Coq Require Import ZArith List Bool Lia ZifyBool ZifyNat.
From Verif Require Import Base Lexer Decoder GoType Schema Simple Unmarshal Io PropertiesDocument Memory.
Import ListNotations.
Local Open Scope nat_scope.

(** *** Arrays *)
Section Arrays.
Context {A : Type}.
Implicit Types (m : mem A) (s : slice) (l : list A).
Definition valid m s : Prop := s_id s < m_next m /\ s_off s + s_len s <= length (m_arr m (s_id s)).
Lemma contents_eq : forall m m' s, m_arr m' (s_id s) = m_arr m (s_id s) -> contents m' s = contents m s.
Proof. intros m m' s H. unfold contents. rewrite H. reflexivity. Qed.
Lemma contents_length : forall m s, valid m s -> length (contents m s) = s_len s.
Proof. intros m s (_ & H). unfold contents. rewrite firstn_length, skipn_length. lia. Qed.
Lemma overwrite_length : forall i l arr, i + length l <= length arr -> length (overwrite i l arr) = length arr.
Proof. intros i l arr H. unfold overwrite. rewrite !app_length, firstn_length, skipn_length. lia. Qed.
Lemma alloc_spec : forall m l room, let '(m', s) := alloc m l room in
  contents m' s = l /\ valid m' s /\ s_id s = m_next m /\ m_next m' = S (m_next m) /\ s_off s = 0 /\ s_len s = length l /\ forall id, id < m_next m -> m_arr m' id = m_arr m id.
Proof.
  intros m l room. cbn. unfold contents, valid. cbn. rewrite Nat.eqb_refl. split; [rewrite firstn_app, Nat.sub_diag, firstn_O, app_nil_r; apply firstn_all|].
  split; [split; [lia|rewrite app_length; lia]|]. repeat split; auto. intros id H. destruct (Nat.eqb_spec id (m_next m)); [lia|reflexivity].
Qed.
Lemma append_spec : forall m s l room, valid m s -> let '(m', s') := append m s l room in
  contents m' s' = contents m s ++ l /\ valid m' s' /\ (s_id s' = s_id s \/ s_id s' = m_next m) /\ m_next m <= m_next m' /\ (s_off s = 0 -> s_off s' = 0) /\
  forall id, id < m_next m -> id <> s_id s -> m_arr m' id = m_arr m id.
Proof.
  intros m s l room (V1 & V2). unfold append. destruct (Nat.leb_spec (s_off s + s_len s + length l) (length (m_arr m (s_id s)))) as [H|H].
  - cbn. unfold contents, valid. cbn. rewrite Nat.eqb_refl.
    split.
    { unfold overwrite. set (arr := m_arr m (s_id s)) in *. rewrite (firstn_skipn_comm (s_len s) (s_off s) arr). rewrite skipn_app, firstn_length, Nat.min_l by lia.
      replace (s_off s - (s_off s + s_len s)) with 0 by lia. cbn [skipn]. rewrite firstn_app, skipn_length, firstn_length, Nat.min_l by lia.
      replace (s_len s + length l - (s_off s + s_len s - s_off s)) with (length l) by lia. rewrite firstn_app, Nat.sub_diag, firstn_O, app_nil_r, firstn_all. f_equal.
      apply firstn_all2. rewrite skipn_length, firstn_length. lia. }
    split; [split; [exact V1|rewrite overwrite_length; lia]|]. split; [auto|]. split; [lia|]. split; [auto|]. intros id _ N. destruct (Nat.eqb_spec id (s_id s)); [contradiction|reflexivity].
  - pose proof (alloc_spec m (contents m s ++ l) room) as S. destruct (alloc m (contents m s ++ l) room) as (m', s'). destruct S as (S1 & S2 & S3 & S4 & S5 & _ & S6).
    repeat split; auto; try lia; try apply S2.
Qed.
End Arrays.

(** *** The decoder *)
Definition inv (x : state) : Prop :=
  valid (st_bytes x) (st_buf x) /\ s_off (st_buf x) = 0 /\ match st_work x with Some w => valid (st_attrs x) w | None => True end.
(** No action of the decoder writes to what the token refers to. *)
Definition safe (x : state) (t : mtoken) : Prop :=
  match t with
  | MStart _ a => s_id a < m_next (st_attrs x) /\ match st_work x with Some w => s_id w <> s_id a | None => True end
  | MEnd _ => True
  | MChar s | MComment s | MProc _ s | MDirective s => s_id s < m_next (st_bytes x) /\ s_id s <> s_id (st_buf x)
  end.
(** Everything that can happen, as far as tokens are concerned. *)
Definition harmless (x y : state) : Prop := inv y /\ forall t, safe x t -> safe y t /\ value y t = value x t.
Lemma harmless_refl : forall x, inv x -> harmless x x.
Proof. intros x H. split; auto. Qed.
Lemma harmless_trans : forall x y z, harmless x y -> (inv y -> harmless y z) -> harmless x z.
Proof. intros x y z (A & B) H. destruct (H A) as (C & D). split; [exact C|]. intros t S. destruct (B t S) as (S1 & E1). destruct (D t S1) as (S2 & E2). split; [exact S2|congruence]. Qed.
Lemma safe_bytes : forall x y, st_attrs y = st_attrs x -> st_work y = st_work x -> m_next (st_bytes x) <= m_next (st_bytes y) ->
  (s_id (st_buf y) = s_id (st_buf x) \/ s_id (st_buf y) = m_next (st_bytes x)) -> (forall id, id < m_next (st_bytes x) -> id <> s_id (st_buf x) -> m_arr (st_bytes y) id = m_arr (st_bytes x) id) ->
  forall t, safe x t -> safe y t /\ value y t = value x t.
Proof.
  intros x y A W N B C t S.
  assert (K : forall s, s_id s < m_next (st_bytes x) /\ s_id s <> s_id (st_buf x) -> (s_id s < m_next (st_bytes y) /\ s_id s <> s_id (st_buf y)) /\ contents (st_bytes y) s = contents (st_bytes x) s).
  { intros s (S1 & S2). split; [split; [lia|destruct B; lia]|]. apply contents_eq. apply C; assumption. }
  destruct t; cbn [safe value] in *; rewrite ?A, ?W; try (split; [exact S|reflexivity]); destruct (K _ S) as (K1 & ->); (split; [exact K1|reflexivity]).
Qed.
Lemma safe_attrs : forall x y, st_bytes y = st_bytes x -> st_buf y = st_buf x -> m_next (st_attrs x) <= m_next (st_attrs y) ->
  (forall w, st_work y = Some w -> (exists v, st_work x = Some v /\ s_id w = s_id v) \/ m_next (st_attrs x) <= s_id w) ->
  (forall id, id < m_next (st_attrs x) -> (forall w, st_work x = Some w -> id <> s_id w) -> m_arr (st_attrs y) id = m_arr (st_attrs x) id) ->
  forall t, safe x t -> safe y t /\ value y t = value x t.
Proof.
  intros x y A B N W C t S. destruct t; cbn [safe value] in *; rewrite ?A, ?B; try (split; [exact S|reflexivity]). destruct S as (S1 & S2).
  split.
  - split; [lia|]. destruct (st_work y) as [w|] eqn:E; [|exact I]. destruct (W w eq_refl) as [(v & V & ->)|H]; [rewrite V in S2; exact S2|lia].
  - f_equal. apply contents_eq. apply C; [exact S1|]. intros w E X. rewrite E in S2. congruence.
Qed.
Lemma act_harmless : forall x o, inv x -> harmless x (act x o).
Proof.
  intros x o (V & O & W). destruct o as [|l room|n|room|a room|i a]; cbn [act].
  - split; [split; [|split; [exact O|exact W]]|].
    + destruct V as (V1 & V2). split; [exact V1|cbn; lia].
    + apply safe_bytes; cbn; auto.
  - pose proof (append_spec (st_bytes x) (st_buf x) l room V) as S. destruct (append (st_bytes x) (st_buf x) l room) as (m, b). destruct S as (_ & S2 & S3 & S4 & S5 & S6).
    split; [split; [exact S2|split; [exact (S5 O)|exact W]]|]. apply safe_bytes; cbn; auto.
  - split; [split; [|split; [exact O|exact W]]|].
    + destruct V as (V1 & V2). split; [exact V1|cbn; lia].
    + apply safe_bytes; cbn; auto.
  - pose proof (alloc_spec (st_attrs x) [] room) as S. destruct (alloc (st_attrs x) [] room) as (m, s). destruct S as (_ & S2 & S3 & S4 & _ & _ & S6).
    split; [split; [exact V|split; [exact O|exact S2]]|]. apply safe_attrs; cbn; auto; try lia. intros w E. injection E as <-. right. lia.
  - destruct (st_work x) as [s|] eqn:E; [|apply harmless_refl; unfold inv; rewrite E; auto].
    pose proof (append_spec (st_attrs x) s [a] room W) as S. destruct (append (st_attrs x) s [a] room) as (m, s'). destruct S as (_ & S2 & S3 & S4 & S5 & S6).
    split; [split; [exact V|split; [exact O|exact S2]]|]. apply safe_attrs; cbn; auto; try lia.
    intros w X. injection X as <-. destruct S3 as [S3|S3]; [left; exists s; auto|right; lia].
  - destruct (st_work x) as [s|] eqn:E; [|apply harmless_refl; unfold inv; rewrite E; auto].
    destruct (Nat.ltb_spec i (s_len s)) as [L|L]; [|apply harmless_refl; unfold inv; rewrite E; auto]. destruct W as (W1 & W2).
    split; [split; [exact V|split; [exact O|]]|].
    + cbn. split; [exact W1|]. cbn. rewrite Nat.eqb_refl. rewrite overwrite_length; [exact W2|cbn; lia].
    + apply safe_attrs; cbn; auto.
      * intros w X. injection X as <-. left. exists s. auto.
      * rewrite E. intros id H X. destruct (Nat.eqb_spec id (s_id s)) as [->|]; [destruct (X s eq_refl eq_refl)|reflexivity].
Qed.
Lemma acts_harmless : forall l x, inv x -> harmless x (fold_left act l x).
Proof. induction l as [|o l IH]; intros x I; [apply harmless_refl; exact I|]. cbn [fold_left]. apply (harmless_trans _ (act x o)); [apply act_harmless; exact I|apply IH]. Qed.
Lemma give_harmless : forall x r, inv x -> harmless x (snd (give x r)).
Proof.
  intros x r I. destruct r; cbn [give snd]; try (apply harmless_refl; exact I). destruct (st_work x) as [s|] eqn:E; cbn [snd]; [|apply harmless_refl; exact I].
  destruct I as (V & O & W). split; [split; [exact V|split; [exact O|exact Logic.I]]|]. apply safe_attrs; cbn; auto. discriminate.
Qed.
Lemma used_harmless : forall x u, inv x -> harmless x (used x u).
Proof.
  intros x [c|t] I; cbn [used].
  - unfold call. apply (harmless_trans _ (fold_left act (fst c) x)); [apply acts_harmless; exact I|apply give_harmless].
  - destruct I as (V & O & W).
    assert (B : forall f s, harmless x (fst (let '(m, s') := clone (st_bytes x) s in (mkst m (st_attrs x) (st_buf x) (st_work x), f s' : mtoken)))).
    { intros f s. pose proof (alloc_spec (st_bytes x) (contents (st_bytes x) s) []) as S. unfold clone. destruct (alloc _ _ _) as (m, s'). destruct S as (_ & S2 & S3 & S4 & _ & _ & S6). cbn [fst].
      destruct V as (V1 & V2). split; [split; [|split; [exact O|exact W]]|].
      - split; cbn; [lia|]. rewrite S6; assumption.
      - apply safe_bytes; cbn; auto; lia. }
    destruct t; cbn [copy_token]; try apply B; [|apply harmless_refl; split; auto].
    pose proof (alloc_spec (st_attrs x) (contents (st_attrs x) a) []) as S. unfold clone. destruct (alloc _ _ _) as (m, s'). destruct S as (_ & S2 & S3 & S4 & _ & _ & S6). cbn [fst].
    split; [split; [exact V|split; [exact O|]]|].
    + cbn. destruct (st_work x) as [w|]; [|exact Logic.I]. destruct W as (W1 & W2). split; [lia|]. rewrite S6; assumption.
    + apply safe_attrs; cbn; auto; try lia. intros w E. left. exists w. auto.
Qed.
Lemma uses_harmless : forall us x, inv x -> harmless x (fold_left used us x).
Proof. induction us as [|u us IH]; intros x I; [apply harmless_refl; exact I|]. cbn [fold_left]. apply (harmless_trans _ (used x u)); [apply used_harmless; exact I|apply IH]. Qed.
Lemma reached_inv : forall x, reached x -> inv x.
Proof.
  intros x R. induction R as [|x u R IH]; [|apply (used_harmless x u IH)]. split; [split; cbn; lia|]. split; [reflexivity|exact I].
Qed.

(** C75. A start tag stays as it is, whatever is read afterwards. *)
Theorem C75_start_kept : forall x c n a x' us, reached x -> call x c = (Some (MStart n a), x') -> value (fold_left used us x') (MStart n a) = value x' (MStart n a).
Proof.
  intros x c n a x' us R C. apply reached_inv in R. destruct (acts_harmless (fst c) x R) as (I & _). unfold call in C.
  assert (X : inv x') by (pose proof (give_harmless _ (snd c) I) as (J & _); rewrite C in J; exact J).
  refine (proj2 (proj2 (uses_harmless us x' X) (MStart n a) _)).
  destruct (snd c) as [[] ?|m|m|]; cbn [give] in C; try discriminate. destruct (st_work (fold_left act (fst c) x)) as [s|] eqn:E; [|discriminate]. injection C as <- <- <-.
  destruct I as (_ & _ & W). rewrite E in W. cbn. split; [apply W|exact Logic.I].
Qed.
Print Assumptions C75_start_kept.

(** C75. A copy has the value of the token ... *)
Theorem C75_copy_same : forall x t x' t', copy_token x t = (x', t') -> value x' t' = value x t.
Proof.
  intros x t x' t' H.
  assert (B : forall (m : mem Z) s m' s', clone m s = (m', s') -> contents m' s' = contents m s).
  { intros m s m' s' E. pose proof (alloc_spec m (contents m s) []) as S. unfold clone in E. rewrite E in S. apply S. }
  destruct t as [n a|n|s|s|p s|s]; cbn [copy_token] in H; try (destruct (clone (st_bytes x) s) as (m', s') eqn:E; injection H as <- <-; cbn; rewrite (B _ _ _ _ E); reflexivity).
  - pose proof (alloc_spec (st_attrs x) (contents (st_attrs x) a) []) as S. unfold clone in H. destruct (alloc _ _ _) as (m', s'). injection H as <- <-. cbn. f_equal. apply S.
  - injection H as <- <-. reflexivity.
Qed.
Print Assumptions C75_copy_same.
(** ... and keeps it, whatever is read or copied afterwards. *)
Theorem C75_copy_kept : forall x t x' t' us, reached x -> copy_token x t = (x', t') -> value (fold_left used us x') t' = value x t.
Proof.
  intros x t x' t' us R C. apply reached_inv in R. rewrite <- (C75_copy_same _ _ _ _ C).
  assert (X : inv x') by (pose proof (used_harmless x (UCopy t) R) as (J & _); cbn [used] in J; rewrite C in J; exact J).
  refine (proj2 (proj2 (uses_harmless us x' X) t' _)). destruct R as ((V1 & _) & _ & W).
  destruct t as [n a|n|s|s|p s|s]; cbn [copy_token] in C; try (unfold clone, alloc in C; injection C as <- <-; cbn; split; [lia|lia]).
  - unfold clone, alloc in C. injection C as <- <-. cbn. split; [lia|]. destruct (st_work x) as [w|]; [|exact Logic.I]. destruct W. lia.
  - injection C as <- <-. exact Logic.I.
Qed.
Print Assumptions C75_copy_kept.
(** C75. Making a copy changes no token that was returned before. *)
Definition made (x : state) (t : mtoken) : Prop :=
  match t with MStart _ a => s_id a < m_next (st_attrs x) | MEnd _ => True | MChar s | MComment s | MProc _ s | MDirective s => s_id s < m_next (st_bytes x) end.
Lemma made_value : forall x y t, made x t -> (forall id, id < m_next (st_bytes x) -> m_arr (st_bytes y) id = m_arr (st_bytes x) id) ->
  (forall id, id < m_next (st_attrs x) -> m_arr (st_attrs y) id = m_arr (st_attrs x) id) -> value y t = value x t.
Proof. intros x y t M B A. destruct t; cbn in *; f_equal; apply contents_eq; auto. Qed.
Theorem C75_until_next : forall x c t x' copies, reached x -> call x c = (Some t, x') -> value (fold_left used (map UCopy copies) x') t = value x' t.
Proof.
  intros x c t x' copies R C. apply reached_inv in R. destruct (acts_harmless (fst c) x R) as ((V & _ & W) & _). unfold call in C.
  assert (M : made x' t).
  { destruct (snd c) as [k ch|m|m|]; cbn [give] in C; try discriminate.
    - injection C as <- <-. destruct k; cbn; apply V.
    - destruct (st_work (fold_left act (fst c) x)) as [s|]; [|discriminate]. injection C as <- <-. apply W.
    - injection C as <- <-. exact I. }
  clear - M. revert x' M. induction copies as [|u us IH]; intros x' M; [reflexivity|]. cbn [map fold_left].
  assert (K : (forall id, id < m_next (st_bytes x') -> m_arr (st_bytes (used x' (UCopy u))) id = m_arr (st_bytes x') id) /\
    (forall id, id < m_next (st_attrs x') -> m_arr (st_attrs (used x' (UCopy u))) id = m_arr (st_attrs x') id) /\
    m_next (st_bytes x') <= m_next (st_bytes (used x' (UCopy u))) /\ m_next (st_attrs x') <= m_next (st_attrs (used x' (UCopy u)))).
  { destruct u; cbn; repeat split; auto; intros id H; match goal with |- (if ?c then _ else _) = _ => destruct c eqn:EQ; [apply Nat.eqb_eq in EQ; lia|reflexivity] end. }
  destruct K as (K1 & K2 & K3 & K4). rewrite IH; [apply made_value; assumption|]. destruct t; cbn [made] in *; lia.
Qed.
Print Assumptions C75_until_next.

(** C75 fails without copying: the next call changes the text that was returned. *)
Definition read_text (t : string) : list action * result := ([AReset; AWrite (str t) (repeat 0%Z 64)], RBuf KChar 0).
Theorem C75_uncopied_refuted : exists x c t x' c', reached x /\ call x c = (Some t, x') /\ value x' t = TChar (str "one") /\ value (used x' (UCall c')) t = TChar (str "two").
Proof.
  exists new_state, (read_text "one"). eexists. eexists. exists (read_text "two"). split; [constructor|]. split; [reflexivity|]. split; reflexivity.
Qed.
Print Assumptions C75_uncopied_refuted.

(** *** The buffer as a list *)
Definition list_act (b : bytes) (o : action) : bytes :=
  match o with AReset => [] | AWrite l _ => b ++ l | ATruncate n => firstn n b | _ => b end.
Lemma act_buffer : forall x o, inv x -> contents (st_bytes (act x o)) (st_buf (act x o)) = list_act (contents (st_bytes x) (st_buf x)) o.
Proof.
  intros x o (V & O & W). destruct o as [|l room|n|room|a room|i a]; cbn [act list_act].
  - reflexivity.
  - pose proof (append_spec (st_bytes x) (st_buf x) l room V) as S. destruct (append _ _ _ _). apply S.
  - cbn. unfold contents. cbn. rewrite firstn_firstn. reflexivity.
  - reflexivity.
  - destruct (st_work x); [|reflexivity]. destruct (append _ _ _ _). reflexivity.
  - destruct (st_work x); [|reflexivity]. destruct (i <? s_len s)%nat; reflexivity.
Qed.
Lemma acts_buffer : forall l x, inv x -> contents (st_bytes (fold_left act l x)) (st_buf (fold_left act l x)) = fold_left list_act l (contents (st_bytes x) (st_buf x)).
Proof. induction l as [|o l IH]; intros x I; [reflexivity|]. cbn [fold_left]. rewrite IH; [|apply act_harmless; exact I]. f_equal. apply act_buffer. exact I. Qed.
(** C75. At its return the token is what was written to the buffer, as a list of bytes. *)
Theorem C75_returned : forall x os k chop t x', reached x -> call x (os, RBuf k chop) = (Some t, x') ->
  let b := fold_left list_act os (contents (st_bytes x) (st_buf x)) in let d := firstn (length b - chop) b in
  value x' t = match k with KChar => TChar d | KComment => TComment d | KProc p => TProc p d | KDirective => TDirective d end.
Proof.
  intros x os k chop t x' R C b d. apply reached_inv in R. unfold call in C. cbn [fst snd give] in C. injection C as <- <-. pose proof (acts_buffer os x R) as B. destruct (acts_harmless os x R) as (I & _). set (y := fold_left act os x) in *.
  assert (E : contents (st_bytes y) (cut (s_len (st_buf y) - chop) (st_buf y)) = d).
  { unfold d, b. rewrite <- B. rewrite contents_length by apply I. unfold contents. cbn. rewrite firstn_firstn. f_equal. lia. }
  destruct k; cbn [value]; rewrite E; reflexivity.
Qed.
Print Assumptions C75_returned.

(** *** Collecting text *)
Fixpoint texts (b : bytes) (l : list (list action * result * bytes)) : list bytes :=
  match l with
  | [] => []
  | (os, r, _) :: l =>
      let b' := fold_left list_act os b in
      match r with RBuf KChar chop => firstn (length b' - chop) b' :: texts b' l | _ => texts b' l end
  end.
(** C75. The text collected for a field is all the texts that were returned, although each call writes over the text
    before. *)
Theorem C75_collected : forall l x data x' data', reached x -> valid (st_bytes x) data -> s_id data <> s_id (st_buf x) -> collect x data l = (x', data') ->
  contents (st_bytes x') data' = contents (st_bytes x) data ++ concat (texts (contents (st_bytes x) (st_buf x)) l).
Proof.
  assert (G : forall l x data x' data', inv x -> valid (st_bytes x) data -> s_id data <> s_id (st_buf x) -> collect x data l = (x', data') ->
    contents (st_bytes x') data' = contents (st_bytes x) data ++ concat (texts (contents (st_bytes x) (st_buf x)) l)).
  { induction l as [|((os, r), room) l IH]; intros x data x' data' I V N C; cbn [collect texts] in *.
    - injection C as <- <-. rewrite app_nil_r. reflexivity.
    - destruct (acts_harmless os x I) as (J & H). destruct (H (MChar data) (conj (proj1 V) N)) as (S & E). cbn [value] in E. injection E as E. cbn [safe] in S. pose proof (acts_buffer os x I) as B.
      assert (VD : valid (st_bytes (fold_left act os x)) data).
      { split; [apply S|]. clear - V N I. revert x I V N. induction os as [|o os IHo]; intros x I (V1 & V2) N; [exact V2|]. cbn [fold_left].
        assert (K : valid (st_bytes (act x o)) data /\ s_id data <> s_id (st_buf (act x o))).
        { destruct (act_harmless x o I) as (_ & Q). destruct (Q (MChar data) (conj V1 N)) as ((Q1 & Q2) & _). split; [|exact Q2]. split; [exact Q1|].
          destruct I as (VB & _). destruct o as [|w room|n|room|a room|i a]; cbn [act]; auto.
          - pose proof (append_spec (st_bytes x) (st_buf x) w room VB) as P. destruct (append _ _ _ _) as (m, b). destruct P as (_ & _ & _ & _ & _ & P). cbn. rewrite P; assumption.
          - destruct (st_work x); [|auto]. destruct (append _ _ _ _); auto.
          - destruct (st_work x); [|auto]. destruct (_ <? _)%nat; auto. }
        destruct K as (K1 & K2). apply IHo; auto. apply act_harmless. exact I. }
      unfold call in C. cbn [fst snd] in C. set (y := fold_left act os x) in *. rewrite <- E. rewrite <- B.
      assert (SKIP : forall y', st_bytes y' = st_bytes y -> st_buf y' = st_buf y -> inv y' -> collect y' data l = (x', data') ->
        contents (st_bytes x') data' = contents (st_bytes y) data ++ concat (texts (contents (st_bytes y) (st_buf y)) l)).
      { intros y' E1 E2 I' C'. rewrite <- E1, <- E2. apply (IH y' data); auto; rewrite ?E1, ?E2; [exact VD|apply S]. }
      destruct r as [k chop|n|n|]; cbn [give] in C.
      + destruct k; try (exact (SKIP y eq_refl eq_refl J C)).
        assert (T : contents (st_bytes y) (cut (s_len (st_buf y) - chop) (st_buf y)) = firstn (length (contents (st_bytes y) (st_buf y)) - chop) (contents (st_bytes y) (st_buf y))).
        { rewrite contents_length by apply J. unfold contents. cbn. rewrite firstn_firstn. f_equal. lia. }
        rewrite T in C. pose proof (append_spec (st_bytes y) data (firstn (length (contents (st_bytes y) (st_buf y)) - chop) (contents (st_bytes y) (st_buf y))) room VD) as P.
        destruct (append (st_bytes y) data _ room) as (m, d2). destruct P as (P1 & P2 & P3 & P4 & _ & P6).
        destruct J as ((J1 & J2) & J3 & J4). destruct S as (S1 & S2).
        assert (BE : m_arr m (s_id (st_buf y)) = m_arr (st_bytes y) (s_id (st_buf y))) by (apply P6; auto).
        apply IH in C; cbn [st_bytes st_buf].
        * rewrite C. cbn [st_bytes st_buf concat]. rewrite P1, app_assoc. f_equal. f_equal. rewrite (contents_eq _ m _ BE). reflexivity.
        * split; [|split; [exact J3|exact J4]]. cbn. split; [lia|rewrite BE; exact J2].
        * exact P2.
        * destruct P3 as [->| ->]; [exact S2|lia].
      + destruct (st_work y); refine (SKIP _ _ _ _ C); try reflexivity; [|exact J]. destruct J as (J1 & J2 & _). split; [exact J1|split; [exact J2|exact Logic.I]].
      + exact (SKIP y eq_refl eq_refl J C).
      + exact (SKIP y eq_refl eq_refl J C). }
  intros l x data x' data' R. apply G. apply reached_inv. exact R.
Qed.
Print Assumptions C75_collected.
(** Two texts with a comment between: each read over the one before, the copy of the first and the text collected keep it;
    growing the buffer leaves the first array behind. *)
Definition read_comment : list action * result := ([AReset; AWrite (str " c -->") []], RBuf KComment 3).
Example C75_example :
  (let '(t, x1) := call new_state (read_text "one") in
   match t with
   | Some t => let '(x2, t2) := copy_token x1 t in
               let x3 := fold_left used [UCall read_comment; UCall (read_text "two")] x2 in
               value x1 t = TChar (str "one") /\ value x2 t = TChar (str "one") /\ value x3 t = TChar (str "two") /\ value x3 t2 = TChar (str "one")
   | None => False
   end) /\
  (let '(m, data) := alloc (st_bytes new_state) [] [] in
   let '(x, d) := collect (mkst m (st_attrs new_state) (st_buf new_state) None) data [(read_text "one", []); (read_comment, []); (read_text "two", [])] in
   contents (st_bytes x) d = str "onetwo") /\
  (let '(t, x1) := call new_state ([AMake (repeat (mkattr (mkname [] []) []) 8); AAttr (mkattr (mkname (str "p") (str "a")) (str "1")) []; ATranslate 0 (mkattr (mkname (str "urn:p") (str "a")) (str "1"))], RStart (mkname [] (str "e"))) in
   match t with
   | Some t => value (fold_left used [UCall (read_text "one"); UCall ([AMake []; AAttr (mkattr (mkname [] (str "b")) []) []], RStart (mkname [] (str "f")))] x1) t = TStart (mkname [] (str "e")) [mkattr (mkname (str "urn:p") (str "a")) (str "1")]
   | None => False
   end).
Proof. vm_compute. repeat split. Qed.

(** *** Slices that are grown on reading *)
Section Grow.
Context {A : Type} (zero : A).
(** The elements behind the slice. *)
Definition spare (m : mem A) (s : slice) : list A := skipn (s_off s + s_len s) (m_arr m (s_id s)).
(** Elements are read one after the other: each time the slice is grown and the new element, which is what [reading] starts with,
    is set. *)
Fixpoint read_all (m : mem A) (s : slice) (l : list ((A -> A) * nat)) : mem A * slice :=
  match l with
  | [] => (m, s)
  | (reading, room) :: l =>
      let '(m1, s1) := grow1 zero m s room in
      read_all (set_elem m1 s1 (s_len s) (reading (nth (s_len s) (contents m1 s1) zero))) s1 l
  end.
Lemma contents_snoc : forall (m : mem A) s x, valid m s -> nth_error (m_arr m (s_id s)) (s_off s + s_len s) = Some x -> contents m (mksl (s_id s) (s_off s) (S (s_len s))) = contents m s ++ [x].
Proof.
  intros m s x (_ & V) H. unfold contents. cbn [s_id s_off s_len]. set (arr := m_arr m (s_id s)) in *. clearbody arr. generalize dependent (s_len s). generalize dependent (s_off s). clear m s.
  intros o n V H. revert o V H. induction arr as [|y arr IH]; intros [|o] V H; cbn [skipn Nat.add] in *.
  - destruct n; discriminate.
  - discriminate.
  - clear IH. revert y arr V H. induction n as [|n IH]; intros y arr V H; [injection H as ->; reflexivity|]. cbn [nth_error] in H. destruct arr as [|z arr]; [destruct n; discriminate|]. cbn [firstn app] in *. f_equal. apply IH; [cbn [length] in *; lia|exact H].
  - apply IH; [cbn [length] in *; lia|exact H].
Qed.
Lemma nth_snoc : forall (l : list A) x d, nth (length l) (l ++ [x]) d = x.
Proof. intros l x d. rewrite app_nth2, Nat.sub_diag; auto. Qed.
Lemma grow_spec : forall (m : mem A) s room, valid m s -> Forall (eq zero) (spare m s) -> let '(m', s') := grow1 zero m s room in
  contents m' s' = contents m s ++ [zero] /\ valid m' s' /\ s_len s' = S (s_len s) /\ Forall (eq zero) (spare m' s').
Proof.
  intros m s room V Z. unfold grow1. destruct (Nat.ltb_spec (s_off s + s_len s) (length (m_arr m (s_id s)))) as [L|L].
  - destruct (nth_error (m_arr m (s_id s)) (s_off s + s_len s)) as [x|] eqn:E; [|apply nth_error_None in E; lia].
    assert (K : spare m s = x :: spare m (mksl (s_id s) (s_off s) (S (s_len s)))).
    { unfold spare. cbn [s_id s_off s_len]. rewrite Nat.add_succ_r. clear - E. revert E. generalize (m_arr m (s_id s)) as arr. induction (s_off s + s_len s) as [|n IH]; intros [|y arr] H; try discriminate; [injection H as ->; reflexivity|]. cbn [skipn nth_error] in *. exact (IH arr H). }
    rewrite K in Z. pose proof (Forall_inv Z) as Z1. apply Forall_inv_tail in Z as Z2. subst x. rewrite (contents_snoc m s zero V E). destruct V as (V1 & V2). split; [reflexivity|]. split; [split; [exact V1|cbn; lia]|]. split; [reflexivity|exact Z2].
  - pose proof (alloc_spec m (contents m s ++ [zero]) (repeat zero room)) as S. destruct (alloc m (contents m s ++ [zero]) (repeat zero room)) as (m', s') eqn:AL. destruct S as (S1 & S2 & S3 & _ & S5 & S6 & _).
    split; [exact S1|]. split; [exact S2|]. split; [rewrite S6, app_length, contents_length by exact V; cbn; lia|].
    unfold alloc in AL. injection AL as <- <-. unfold spare. cbn. rewrite Nat.eqb_refl. rewrite skipn_app, skipn_all, Nat.sub_diag. cbn [skipn app]. apply Forall_forall. intros x X. symmetry. exact (repeat_spec _ _ _ X).
Qed.
Lemma set_spec : forall (m : mem A) s c x y, valid m s -> contents m s = c ++ [x] -> contents (set_elem m s (length c) y) s = c ++ [y] /\ valid (set_elem m s (length c) y) s /\ spare (set_elem m s (length c) y) s = spare m s.
Proof.
  intros m s c x y V E. pose proof (contents_length m s V) as L. rewrite E, app_length in L. cbn [length] in L. destruct V as (V1 & V2).
  assert (LE : s_off s + length c + length [y] <= length (m_arr m (s_id s))) by (cbn; lia).
  unfold contents, set_elem, valid, spare in *. cbn. rewrite Nat.eqb_refl. split; [|split; [split; [exact V1|rewrite overwrite_length; [exact V2|exact LE]]|]].
  - unfold overwrite. cbn [length]. set (arr := m_arr m (s_id s)) in *. rewrite skipn_app, firstn_length, Nat.min_l by lia. replace (s_off s - (s_off s + length c)) with 0 by lia. cbn [skipn].
    rewrite firstn_app, skipn_length, firstn_length, Nat.min_l by lia. replace (s_len s - (s_off s + length c - s_off s)) with 1 by lia. cbn [firstn app]. f_equal.
    rewrite firstn_all2 by (rewrite skipn_length, firstn_length; lia). replace (s_off s + length c) with (s_off s + length c) by lia. rewrite <- (firstn_skipn_comm (length c) (s_off s) arr).
    assert (Q : firstn (length c) (firstn (s_len s) (skipn (s_off s) arr)) = firstn (length c) (c ++ [x])) by (rewrite E; reflexivity).
    rewrite firstn_firstn, Nat.min_l in Q by lia. rewrite Q, firstn_app, Nat.sub_diag, firstn_O, app_nil_r. apply firstn_all.
  - unfold overwrite. cbn [length]. set (arr := m_arr m (s_id s)) in *. rewrite app_assoc, skipn_app. rewrite app_length, firstn_length, Nat.min_l by lia. cbn [length].
    rewrite skipn_all2 by (rewrite app_length, firstn_length; cbn; lia). replace (s_off s + s_len s - (s_off s + length c + 1)) with 0 by lia. cbn [skipn app]. f_equal. lia.
Qed.
(** C76. A slice without used elements behind it, such as a nil slice, grows by what is read into zero values. *)
Theorem C76_zero : forall l (m : mem A) s m' s', valid m s -> Forall (eq zero) (spare m s) -> read_all m s l = (m', s') ->
  contents m' s' = contents m s ++ map (fun e => fst e zero) l /\ Forall (eq zero) (spare m' s').
Proof.
  induction l as [|(reading, room) l IH]; intros m s m' s' V Z H; cbn [read_all map] in *.
  - injection H as <- <-. rewrite app_nil_r. auto.
  - pose proof (grow_spec m s room V Z) as G. destruct (grow1 zero m s room) as (m1, s1). destruct G as (G1 & G2 & G3 & G4).
    rewrite G1 in H. rewrite <- (contents_length m s V) in H. rewrite nth_snoc in H.
    destruct (set_spec m1 s1 (contents m s) zero (reading zero) G2 G1) as (S1 & S2 & S3). apply IH in H; [|exact S2|rewrite S3; exact G4].
    rewrite S1, <- app_assoc in H. exact H.
Qed.
End Grow.
Print Assumptions C76_zero.
(** C76 fails for a slice cut by the caller: the elements before the cut are read into, and what the element does not mention is
    kept. *)
Definition old_period : gval := make "Period" [("Id", VStr (str "old"))]%string.
Theorem C76_cut_refuted : forall F, exists (m : mem gval) s,
  contents m s = [VPtr old_period] /\
  (let '(m1, s1) := grow1 VNil m (cut 0 s) 0 in contents m1 s1 = [VPtr old_period]) /\
  exists d, unmarshal F mpd_types embed_depth 30 20 (TPtr (TStruct (str "Period"))) (VPtr old_period) (mkname [] (str "Period")) [] (mkd (str "</Period>") None [SStart (mkname [] (str "Period"))] (fun _ => None) None) =
    Ok (VPtr (with_field (str "Period") (str "XMLName") (VName (mkname [] (str "Period"))) old_period), d).
Proof.
  intros F. exists (mkmem (fun _ => [VPtr old_period]) 1), (mksl 0 0 1). split; [reflexivity|]. split; [reflexivity|]. eexists. vm_compute. reflexivity.
Qed.
Print Assumptions C76_cut_refuted.
(** Three elements read into a nil slice, with an array that is full and one that is not. *)
Example C76_example : contents (fst (read_all 0%Z (mkmem (fun _ => []) 1) (mksl 0 0 0) [(Z.add 5, 1); (Z.add 6, 0); (Z.add 7, 4)])) (snd (read_all 0%Z (mkmem (fun _ => []) 1) (mksl 0 0 0) [(Z.add 5, 1); (Z.add 6, 0); (Z.add 7, 4)])) = [5; 6; 7]%Z /\
  contents (fst (read_all 0%Z (mkmem (fun _ => [1; 2; 3]%Z) 1) (mksl 0 0 0) [(Z.add 5, 1); (Z.add 6, 0)])) (snd (read_all 0%Z (mkmem (fun _ => [1; 2; 3]%Z) 1) (mksl 0 0 0) [(Z.add 5, 1); (Z.add 6, 0)])) = [6; 8]%Z.
Proof. vm_compute. split; reflexivity. Qed.
