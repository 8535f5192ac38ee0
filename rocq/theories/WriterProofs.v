(** Proofs about buffered output, the pool and WriteXML. *)
From Coq Require Import String.
From Coq Require Import ZArith List Bool Lia ZifyBool ZifyNat.
From Verif Require Import Base Utf8 Lexer Escape Decoder Printer Writer.
Import ListNotations.
Open Scope Z_scope.

Lemma buf_size_pos : (0 < buf_size)%nat.
Proof. unfold buf_size. lia. Qed.
Global Opaque buf_size.

Definition counted (u : dest) : Prop := u_n u = Z.of_nat (length (u_out u)).
Lemma cw_counted : forall o p u n e u', obeys o -> counted u -> cw_write o p u = (n, e, u') ->
  counted u' /\ u_out u' = u_out u ++ firstn n p /\ (n <= length p)%nat /\ ((n < length p)%nat -> e <> None).
Proof.
  intros o p u n e u' O C H. unfold cw_write in H. destruct (O (u_calls u) p) as [L S]. destruct (o (u_calls u) p) as [n0 e0]. cbn in L, S.
  injection H as <- <- <-. unfold counted in *. cbn. rewrite app_length, firstn_length, C. repeat split; auto. lia.
Qed.

(** The text [t] was written: all of it is in the destination or the buffer, or there was an error and the
    destination has a first part of it. *)
Definition took (b : bufw) (t : bytes) : Prop :=
  counted (b_dst b) /\
  ((b_err b = None /\ u_out (b_dst b) ++ b_buf b = t /\ (length (b_buf b) <= buf_size)%nat) \/
   (b_err b <> None /\ exists rest, t = u_out (b_dst b) ++ rest)).
Lemma took_more : forall b t p, took b t -> b_err b <> None -> took b (t ++ p).
Proof. intros b t p (C & [(E & _)|(E & r & ->)]) N; [congruence|]. split; auto. right. split; auto. exists (r ++ p). rewrite app_assoc. auto. Qed.
Lemma flush_took : forall o b t, obeys o -> took b t -> took (b_flush o b) t /\ (b_err (b_flush o b) = None -> b_buf (b_flush o b) = []).
Proof.
  intros o b t O T. unfold b_flush. destruct (b_err b) eqn:E; [split; auto; congruence|]. destruct (b_buf b) as [|x buf] eqn:B; [auto|].
  destruct (cw_write o (x :: buf) (b_dst b)) as [[n e] u] eqn:W. destruct T as (C & [(_ & T & L)|(X & _)]); [|congruence].
  destruct (cw_counted _ _ _ _ _ _ O C W) as (C' & OU & LE & S). 
  destruct e as [err|]; [|destruct (n <? length (x :: buf))%nat eqn:LT; [exfalso; apply S; auto; lia|]].
  - split; [|discriminate]. split; auto. right. split; [discriminate|]. cbn [b_dst]. exists (skipn n (x :: buf)). rewrite OU, <- app_assoc, firstn_skipn. rewrite <- T, B. auto.
  - split; auto. split; auto. left. cbn [b_err b_dst b_buf]. split; auto. split; [|cbn; lia].
    rewrite app_nil_r, OU. rewrite firstn_all2 by lia. rewrite <- T, B. auto.
Qed.
Lemma b_write_0 : forall k o p b, b_err b = None -> (length p <= buf_size - length (b_buf b))%nat -> b_write k o p b = Some (mkb (b_buf b ++ p) None (b_dst b)).
Proof.
  intros k o p b E L. destruct k; cbn; rewrite E; replace (length p <=? buf_size - length (b_buf b))%nat with true by lia; auto.
Qed.
Lemma b_write_err : forall k o p b, b_err b <> None -> b_write k o p b = Some b.
Proof. intros k o p b E. destruct k; cbn; destruct (b_err b); auto; congruence. Qed.
Lemma took_fit : forall b t p, took b t -> b_err b = None -> (length p <= buf_size - length (b_buf b))%nat -> took (mkb (b_buf b ++ p) None (b_dst b)) (t ++ p).
Proof.
  intros b t p (C & [(_ & T & L)|(X & _)]) E LP; [|congruence]. split; auto. left. cbn. split; auto. split; [rewrite app_assoc, T; auto|]. rewrite app_length. lia.
Qed.
(** A write with an empty buffer. *)
Lemma b_write_empty : forall k o p b t, obeys o -> took b t -> b_err b = None -> b_buf b = [] -> exists b', b_write (S k) o p b = Some b' /\ took b' (t ++ p).
Proof.
  intros k o p b t O T E B. destruct (length p <=? buf_size - length (b_buf b))%nat eqn:F.
  - rewrite b_write_0; auto; [|lia]. eexists. split; [reflexivity|]. apply took_fit; auto. lia.
  - cbn [b_write]. rewrite E, F, B. destruct (cw_write o p (b_dst b)) as [[n e] u] eqn:W. destruct T as (C & [(_ & T & L)|(X & _)]); [|congruence].
    destruct (cw_counted _ _ _ _ _ _ O C W) as (C' & OU & LE & S). destruct e as [err|].
    + rewrite b_write_err by discriminate. eexists. split; [reflexivity|]. split; auto. right. cbn. split; [discriminate|]. exists (skipn n p).
      rewrite OU, <- app_assoc, firstn_skipn. rewrite <- T, B, app_nil_r. auto.
    + assert (n = length p) as -> by (destruct (Nat.eq_dec n (length p)); auto; exfalso; apply S; auto; lia).
      rewrite skipn_all, b_write_0; cbn; auto; [|lia]. eexists. split; [reflexivity|]. split; auto. left. cbn. split; auto. split; [|lia].
      rewrite OU, firstn_all, app_nil_r, <- T, B, app_nil_r. auto.
Qed.
Lemma b_write_full : forall k o p b, b_err b = None -> (length p <=? buf_size - length (b_buf b))%nat = false -> b_buf b <> [] ->
  b_write (S k) o p b = b_write k o (skipn (buf_size - length (b_buf b)) p) (b_flush o (mkb (b_buf b ++ firstn (buf_size - length (b_buf b)) p) None (b_dst b))).
Proof. intros k o p b E F B. cbn [b_write]. rewrite E, F. destruct (b_buf b); [congruence|reflexivity]. Qed.
Lemma b_write_took : forall o p b t, obeys o -> took b t -> exists b', b_write rounds o p b = Some b' /\ took b' (t ++ p).
Proof.
  intros o p b t O T. destruct (b_err b) eqn:E.
  { rewrite b_write_err by congruence. eexists. split; [reflexivity|]. apply took_more; auto. congruence. }
  destruct (b_buf b) as [|x buf] eqn:B; [apply b_write_empty; auto|].
  unfold rounds. destruct (length p <=? buf_size - length (b_buf b))%nat eqn:F.
  { rewrite b_write_0; auto; [|lia]. eexists. split; [reflexivity|]. apply took_fit; auto. lia. }
  rewrite b_write_full, B; auto; [|congruence]. set (n := (buf_size - length (x :: buf))%nat).
  assert (T1 : took (mkb ((x :: buf) ++ firstn n p) None (b_dst b)) (t ++ firstn n p)).
  { rewrite <- B. apply took_fit; auto. rewrite firstn_length. subst n. rewrite B. lia. }
  destruct (flush_took o _ _ O T1) as [T2 EB]. set (b2 := b_flush o _) in *.
  replace (t ++ p) with ((t ++ firstn n p) ++ skipn n p) by (rewrite <- app_assoc, firstn_skipn; auto).
  destruct (b_err b2) eqn:E2.
  - assert (X : b_err b2 <> None) by congruence. exists b2. split; [|apply took_more; auto].
    apply b_write_err; auto.
  - apply b_write_empty; auto.
Qed.
(** WriteByte is Write of one byte. *)
Lemma b_write_byte_eq : forall o c b, (length (b_buf b) <= buf_size)%nat -> b_write rounds o [c] b = Some (b_write_byte o c b) \/ ~ obeys o.
Proof.
  intros o c b L. unfold b_write_byte. destruct (b_err b) eqn:E; [left; apply b_write_err; congruence|].
  destruct (buf_size <=? length (b_buf b))%nat eqn:F.
  - pose proof buf_size_pos. assert (NB : b_buf b <> []) by (intro X; rewrite X in F; cbn [length] in F; lia).
    unfold rounds. rewrite b_write_full; auto; [|cbn [length]; lia]. destruct (b_buf b) as [|x buf] eqn:B; [congruence|].
    replace (buf_size - length (x :: buf))%nat with O by lia. cbn [firstn skipn]. rewrite app_nil_r.
    assert (b_flush o (mkb (x :: buf) None (b_dst b)) = b_flush o b) as -> by (unfold b_flush; rewrite E, B; reflexivity).
    set (b1 := b_flush o b). assert (b_err b1 = None -> b_buf b1 = []) as EB.
    { unfold b1, b_flush. rewrite E, B. destruct (cw_write _ _ _) as [[n e] u]. destruct e; [discriminate|]. destruct (n <? _)%nat; [discriminate|auto]. }
    destruct (b_err b1) eqn:E1.
    + left. apply b_write_err. congruence.
    + left. apply b_write_0; auto. rewrite (EB eq_refl). cbn. lia.
  - left. rewrite E. apply b_write_0; auto. cbn. lia.
Qed.

(** The same through printer.Write. *)
Definition etook (e : encoder) (t : bytes) : Prop := took (en_b e) t /\ en_closed e = false /\ en_err e = b_err (en_b e).
Lemma p_write_took : forall o c e t, obeys o -> etook e t -> exists e', p_write o c e = Some e' /\ etook e' (t ++ c) /\ en_p e' = en_p e.
Proof.
  intros o c e t O (T & C & E). unfold p_write. rewrite C, E. destruct (b_err (en_b e)) eqn:X.
  - eexists. split; [reflexivity|]. split; auto. split; [|split; auto]. cbn. apply took_more; auto. congruence.
  - destruct (b_write_took o c _ _ O T) as (b & -> & T'). eexists. split; [reflexivity|]. split; auto. split; auto.
Qed.
Lemma p_writes_took : forall o cs e t, obeys o -> etook e t -> exists e', p_writes o cs e = Some e' /\ etook e' (t ++ concat cs) /\ en_p e' = en_p e.
Proof.
  induction cs as [|c cs IH]; intros e t O T; cbn; [rewrite app_nil_r; eauto|]. destruct (p_write_took o c e t O T) as (e1 & -> & T1 & P1).
  destruct (IH _ _ O T1) as (e2 & -> & T2 & P2). rewrite <- app_assoc in T2. exists e2. split; auto. split; auto. congruence.
Qed.
(** What a printer program writes, without a writer. *)
Definition text_of (m : M unit) (s : pstate) : bytes := concat (fst (fst (m s))).
Lemma run_step_took : forall o m e t, obeys o -> etook e t -> snd (m (en_p e)) <> OutOfFuel ->
  exists e' r, run_step o m e = Some (e', r) /\ etook e' (t ++ text_of m (en_p e)) /\ en_p e' = snd (fst (m (en_p e))) /\
  (r = Done <-> (exists x, snd (m (en_p e)) = Ok x) /\ en_err e' = None) /\ (r = Crashed <-> snd (m (en_p e)) = Panic).
Proof.
  intros o m e t O T NF. unfold run_step, text_of. destruct (m (en_p e)) as [[cs s] r]. cbn in *.
  destruct (p_writes_took o (cs ++ [[]]) (mkenc s (en_b e) (en_closed e) (en_err e)) t O T) as (e' & -> & T' & P).
  rewrite concat_app in T'. cbn in T'. rewrite app_nil_r in T'. cbn in P.
  destruct r as [x|er| |]; try congruence.
  - exists e', (match en_err e' with None => Done | Some _ => Failed end). split; auto. split; auto. split; auto.
    split; [destruct (en_err e'); split; [discriminate|intros [_ ?]; discriminate|eauto|auto]|destruct (en_err e'); split; discriminate].
  - exists e', Failed. split; auto. split; auto. split; auto. split; [split; [discriminate|intros [[y Y] _]; discriminate]|split; discriminate].
  - exists e', Crashed. split; auto. split; auto. split; auto. split; [split; [discriminate|intros [[y Y] _]; discriminate]|split; auto].
Qed.

(** The printer as AcquireEncoder and Indent leave it. *)
Definition start_printer (indent : bytes) : pstate := mkp 0 indent [] 0 false false [].
Definition clean (e : encoder) : Prop := en_p e = new_printer.
Lemma write_xml_ok : forall o (m : M unit) indent (header : bool) e, obeys o ->
  let s0 := en_p (enc_indent [] indent e) in
  snd (m s0) <> OutOfFuel ->
  let full := (if header then xml_header else []) ++ text_of m s0 in
  exists (u : dest) (n : Z) (r : ended) (back : option encoder), write_xml o m indent header e = Some (u, n, r, back) /\ n = Z.of_nat (length (u_out u)) /\
    (exists rest, full = u_out u ++ rest) /\ (r = Done -> u_out u = full /\ exists x, snd (m s0) = Ok x) /\ (forall b, back = Some b -> b = release e) /\
    (r = Crashed -> snd (m s0) = Panic).
Proof.
  intros o m indent header e O s0 NF full. unfold write_xml. set (hd := if header then xml_header else []) in *.
  assert (FE : full = hd ++ text_of m s0) by reflexivity. clearbody full. subst full.
  assert (H0 : exists err u, (if header then let '(_, err, u) := cw_write o xml_header new_dest in (err, u) else (None, new_dest)) = (err, u) /\ counted u /\
     (err = None -> u_out u = hd) /\ exists rest, hd = u_out u ++ rest).
  { subst hd. destruct header; [|exists None, new_dest; split; auto; split; [reflexivity|split; auto; exists []; auto]].
    destruct (cw_write o xml_header new_dest) as [[n err] u] eqn:W. exists err, u. split; auto.
    destruct (cw_counted _ _ _ _ _ _ O (eq_refl : counted new_dest) W) as (C & OU & L & S). split; auto. cbn [new_dest u_out app] in OU. split.
    - intros ->. rewrite OU. apply firstn_all2. destruct (Nat.eq_dec n (length xml_header)); [lia|]. exfalso. apply S; auto. lia.
    - exists (skipn n xml_header). rewrite OU, firstn_skipn. auto. }
  destruct H0 as (err & u & -> & C & HN & rest & HR). clearbody hd. destruct err as [err|].
  - exists u, (u_n u), Failed, None. split; auto. split; [exact C|]. split; [exists (rest ++ text_of m s0); rewrite HR, app_assoc; reflexivity|].
    repeat split; discriminate.
  - specialize (HN eq_refl). set (e1 := enc_indent [] indent (acquire u e)).
    assert (T1 : etook e1 hd). { split; [|split; reflexivity]. split; [exact C|]. left. cbn. split; auto. split; [rewrite app_nil_r; auto|lia]. }
    assert (P1 : en_p e1 = s0) by reflexivity.
    destruct (run_step_took o m e1 hd O T1) as (e2 & r & R & T2 & P2 & D & CR). { rewrite P1. auto. } unfold enc_encode. rewrite R. rewrite P1 in *.
    assert (DN : forall b t, took b t -> (exists rest, t = u_out (b_dst b) ++ rest) /\ u_n (b_dst b) = Z.of_nat (length (u_out (b_dst b)))).
    { intros b t (Cb & X). split; [|exact Cb]. destruct X as [(_ & <- & _)|(_ & X)]; eauto. }
    destruct r.
    + unfold enc_flush. cbn [en_b en_p]. destruct T2 as (T2 & T2c & T2e). destruct (flush_took o _ _ O T2) as [T3 B3]. set (b3 := b_flush o (en_b e2)) in *.
      destruct (flush_took o _ _ O T3) as [T4 B4]. destruct (b_err b3) eqn:E3.
      * exists (b_dst b3), (u_n (b_dst b3)), Failed, (Some (release e)). destruct (DN _ _ T3) as [X Y]. split; auto. split; auto. split; auto.
        repeat split; try discriminate. intros b [= <-]. auto.
      * assert (b_flush o b3 = b3) as F by (unfold b_flush; rewrite E3, B3; auto). rewrite F, E3. exists (b_dst b3), (u_n (b_dst b3)), Done, (Some (release e)). destruct (DN _ _ T3) as [X Y]. split; auto. split; auto. split; auto.
        repeat split; try discriminate; [|apply D; auto|intros b [= <-]; auto]. destruct T3 as (_ & [(_ & T3 & _)|(Z3 & _)]); [|congruence]. rewrite B3, app_nil_r in T3; auto.
    + destruct T2 as (T2 & _). destruct (DN _ _ T2) as [X Y]. eexists _, _, Failed, (Some (release e)). split; [reflexivity|]. split; auto. split; auto. repeat split; try discriminate. intros b [= <-]. auto.
    + destruct T2 as (T2 & _). destruct (DN _ _ T2) as [X Y]. eexists _, _, Crashed, (Some (release e)). split; [reflexivity|]. split; auto. split; auto. split; [discriminate|]. split; [intros b [= <-]; auto|]. intro. apply CR. auto.
Qed.

(** *** A writer that accepts everything. *)
Definition willing (o : writer) : Prop := forall h p, o h p = (length p, None).
Lemma willing_obeys : forall o, willing o -> obeys o.
Proof. intros o W h p. rewrite W. cbn. lia. Qed.
Lemma flush_willing : forall o b, willing o -> b_err b = None -> b_err (b_flush o b) = None.
Proof.
  intros o b W E. unfold b_flush. rewrite E. destruct (b_buf b); auto. unfold cw_write. rewrite W. rewrite Nat.ltb_irrefl. reflexivity.
Qed.
Lemma b_write_willing : forall o, willing o -> forall k p b b', b_err b = None -> b_write k o p b = Some b' -> b_err b' = None.
Proof.
  intros o W. induction k as [|k IH]; intros p b b' E H; cbn [b_write] in H; rewrite E in H; destruct (length p <=? buf_size - length (b_buf b))%nat.
  - injection H as <-. auto.
  - discriminate.
  - injection H as <-. auto.
  - destruct (b_buf b) eqn:B.
    + unfold cw_write in H. rewrite W in H. eapply IH; [|exact H]. reflexivity.
    + eapply IH; [|exact H]. apply flush_willing; auto.
Qed.
(** An encoder that is open and has seen no error. *)
Definition fine (e : encoder) : Prop := en_closed e = false /\ en_err e = None /\ b_err (en_b e) = None.
Lemma p_write_fine : forall o c e e', willing o -> fine e -> p_write o c e = Some e' -> fine e'.
Proof.
  intros o c e e' W (A & B & C) H. unfold p_write in H. rewrite B, A in H. destruct (b_write rounds o c (en_b e)) as [b|] eqn:X; [|discriminate].
  injection H as <-. pose proof (b_write_willing _ W _ _ _ _ C X) as Y. split; [|split]; cbn; auto.
Qed.
Lemma p_writes_fine : forall o cs e e', willing o -> fine e -> p_writes o cs e = Some e' -> fine e'.
Proof.
  induction cs as [|c cs IH]; intros e e' W F H; cbn in H; [injection H as <-; auto|].
  destruct (p_write o c e) as [e1|] eqn:X; [|discriminate]. apply (IH e1 e'); auto. eapply p_write_fine; eauto.
Qed.
Lemma run_step_fine : forall o m e e' r, willing o -> fine e -> run_step o m e = Some (e', r) ->
  fine e' /\ (r = Done <-> exists x, snd (m (en_p e)) = Ok x).
Proof.
  intros o m e e' r W F H. unfold run_step in H. destruct (m (en_p e)) as [[cs s] x]. destruct (p_writes _ _ _) as [e1|] eqn:P; [|discriminate].
  assert (F1 : fine e1) by (eapply p_writes_fine; [exact W| |exact P]; exact F). destruct F1 as (A & B & C).
  destruct x as [x|x| |]; [rewrite B in H| | |discriminate]; injection H as <- <-; (split; [split; auto|]); cbn; split; try discriminate; eauto; intros [y Y]; discriminate.
Qed.
Lemma enc_flush_fine : forall o e, willing o -> fine e -> fine (fst (enc_flush o e)) /\ snd (enc_flush o e) = Done.
Proof.
  intros o e W (A & B & C). unfold enc_flush. cbn. pose proof (flush_willing o (en_b e) W C) as X. rewrite X. split; auto. split; auto.
Qed.
(** With such a writer WriteXML succeeds exactly when encoding does. *)
Lemma write_xml_willing : forall o m indent header e u n r back, willing o -> write_xml o m indent header e = Some (u, n, r, back) ->
  (r = Done <-> exists x, snd (m (en_p (enc_indent [] indent e))) = Ok x).
Proof.
  intros o m indent header e u n r back W H. unfold write_xml in H.
  assert (X : exists u, (if header then let '(_, err, u) := cw_write o xml_header new_dest in (err, u) else (None, new_dest)) = (None, u)).
  { destruct header; [|eauto]. unfold cw_write. rewrite W. eauto. }
  destruct X as [u0 X]. rewrite X in H. set (e1 := enc_indent [] indent (acquire u0 e)) in *.
  assert (F : fine e1) by (split; [|split]; reflexivity). unfold enc_encode in H.
  destruct (run_step o m e1) as [[e2 r2]|] eqn:R; [|discriminate]. destruct (run_step_fine _ _ _ _ _ W F R) as [F2 D]. change (en_p e1) with (en_p (enc_indent [] indent e)) in D.
  destruct r2.
  - destruct (enc_flush_fine o e2 W F2) as [F3 D3]. destruct (enc_flush o e2) as [e3 r3] eqn:E3. cbn in D3, F3. subst r3.
    destruct (enc_flush_fine o e3 W F3) as [F4 D4]. destruct (enc_flush o e3) as [e4 r4] eqn:E4. cbn in D4, F4. subst r4. injection H as _ _ <- _. exact D.
  - injection H as _ _ <- _. exact D.
  - injection H as _ _ <- _. exact D.
Qed.
