(** What each printer step does to the open elements, and that it never runs out of fuel. *)
From Coq Require Import String.
From Coq Require Import ZArith List Bool Lia ZifyBool ZifyNat.
From Verif Require Import Base Utf8 NameTables Lexer Escape Decoder Printer PropertiesHelpers.
Import ListNotations.
Open Scope Z_scope.

(** *** Numbers and fresh prefixes *)
Lemma itoa_inj : forall a b, 0 <= a -> 0 <= b -> itoa a = itoa b -> a = b.
Proof.
  intros a b A B E. change (dec a = dec b) in E. destruct (dec_spec a A) as (_ & X & _). destruct (dec_spec b B) as (_ & Y & _). congruence.
Qed.
Lemma sget_in : forall m k, sget m k <> [] -> In k (map fst m).
Proof.
  induction m as [|[x v] m IH]; intros k H; cbn in *; [congruence|]. destruct (beq x k) eqn:E; [apply beq_eq in E; auto|right; auto].
Qed.
Lemma sget_set : forall m k v x, sget (sset m k v) x = if beq k x then v else sget m x.
Proof. reflexivity. Qed.
Lemma fresh_none : forall k p2n p seq, fresh_prefix k p2n p seq = None ->
  forall i, (i < k)%nat -> sget p2n (p ++ str "_" ++ itoa (seq + Z.of_nat i)) <> [].
Proof.
  induction k as [|k IH]; intros p2n p seq H i I; [lia|]. cbn [fresh_prefix] in H.
  destruct (beq _ []) eqn:E in H; [discriminate|]. destruct i as [|i].
  - apply beq_neq in E. replace (seq + Z.of_nat 0) with seq by lia. exact E.
  - replace (seq + Z.of_nat (S i)) with (seq + 1 + Z.of_nat i) by lia. apply IH; auto. lia.
Qed.
Lemma nodup_map : forall A B (f : A -> B) l, (forall a b, In a l -> In b l -> f a = f b -> a = b) -> NoDup l -> NoDup (map f l).
Proof.
  intros A B f l. induction l as [|x l IH]; intros I N; cbn; constructor; inversion N; subst.
  - intro X. apply in_map_iff in X. destruct X as (y & E & Y). assert (y = x) by (apply I; cbn; auto). congruence.
  - apply IH; auto. intros a b Ha Hb. apply I; cbn; auto.
Qed.
Lemma fresh_some : forall k p2n p seq, 0 <= seq -> (length p2n < k)%nat -> fresh_prefix k p2n p seq <> None.
Proof.
  intros k p2n p seq S L H. pose proof (fresh_none _ _ _ _ H) as N.
  set (ids := map (fun i => p ++ str "_" ++ itoa (seq + Z.of_nat i)) (List.seq 0 k)).
  assert (D : NoDup ids).
  { apply nodup_map; [|apply seq_NoDup]. intros a b A B E. apply app_inv_head in E. apply app_inv_head in E.
    apply itoa_inj in E; lia. }
  assert (I : incl ids (map fst p2n)).
  { intros x X. apply in_map_iff in X. destruct X as (i & <- & X). apply in_seq in X. apply sget_in, N. lia. }
  pose proof (NoDup_incl_length D I) as Q. subst ids. rewrite !map_length, seq_length in Q. lia.
Qed.
Lemma fresh_ok : forall k p2n p seq id n, fresh_prefix k p2n p seq = Some (id, n) ->
  seq <= n /\ id = p ++ str "_" ++ itoa n /\ sget p2n id = [].
Proof.
  induction k as [|k IH]; intros p2n p seq id n H; cbn [fresh_prefix] in H; [discriminate|].
  destruct (beq _ []) eqn:E in H.
  - injection H as <- <-. apply beq_eq in E. split; [lia|]. auto.
  - apply IH in H. split; [lia|]. tauto.
Qed.
Lemma pick_nonempty : forall p2n uri pre, pick_prefix p2n uri pre <> [].
Proof.
  intros. unfold pick_prefix. set (p := after_last 47 _). clearbody p.
  assert (X : (if beq p [] || negb (is_name p) || existsb (Z.eqb 58) p then str "_" else p) <> []).
  { destruct (beq p []) eqn:E; [discriminate|]. apply beq_neq in E. cbn [orb]. destruct (_ || _); [discriminate|auto]. }
  destruct ((3 <=? _)%nat && _); [discriminate|auto].
Qed.

(** *** Steps that may change the innermost element but nothing else. *)
Definition same_tag (a b : element) : Prop := el_ns a = el_ns b /\ el_name a = el_name b /\ el_prefix a = el_prefix b.
(** The state after a step: the same apart from the innermost element's tables and the sequence number. *)
Definition inner (s s' : pstate) : Prop :=
  p_indent s' = p_indent s /\ p_prefix s' = p_prefix s /\ p_depth s' = p_depth s /\ p_indented s' = p_indented s /\ p_newline s' = p_newline s /\
  (0 <= p_seq s -> 0 <= p_seq s') /\
  match p_elems s, p_elems s' with
  | e :: es, e' :: es' => es' = es /\ same_tag e e'
  | [], [] => True
  | _, _ => False
  end.
Lemma inner_refl : forall s, inner s s.
Proof. intro s. unfold inner, same_tag. destruct (p_elems s); tauto. Qed.
Lemma inner_trans : forall a b c, inner a b -> inner b c -> inner a c.
Proof.
  unfold inner, same_tag. intros a b c (A1 & A2 & A3 & A4 & A5 & A6 & A7) (B1 & B2 & B3 & B4 & B5 & B6 & B7).
  do 5 (split; [congruence|]). split; [tauto|]. destruct (p_elems a), (p_elems b), (p_elems c); try tauto. destruct A7 as (-> & X & Y & Z), B7 as (-> & X' & Y' & Z').
  split; auto. split; [congruence|]. split; congruence.
Qed.
Lemma create_ok : forall uri pre s, 0 <= p_seq s -> exists p b s', create_prefix uri pre s = ([], s', Ok (p, b)) /\ inner s s' /\
  (p_elems s <> [] -> p <> []).
Proof.
  intros uri pre s Q. unfold create_prefix, mbind, mget, mret. cbn [app].
  destruct (negb (beq (get_prefix (p_elems s) uri) []) && _) eqn:G.
  { eexists _, _, s. split; [reflexivity|]. split; [apply inner_refl|]. intros _. apply andb_true_iff in G. destruct G as [G _]. apply negb_true_iff, beq_neq in G. exact G. }
  destruct (p_elems s) as [|e es] eqn:ES.
  { eexists _, _, s. split; [reflexivity|]. split; [apply inner_refl|]. congruence. }
  set (p := pick_prefix (el_p2n e) uri pre). assert (PN : p <> []) by apply pick_nonempty.
  destruct (beq (sget (el_p2n e) p) []) eqn:T.
  - eexists _, _, _. cbn. split; [reflexivity|]. split; auto. unfold inner, same_tag. rewrite ES. cbn. tauto.
  - destruct (fresh_prefix _ (el_p2n e) p (p_seq s + 1)) as [[id n]|] eqn:F.
    + destruct (fresh_ok _ _ _ _ _ _ F) as (L & I & _). eexists _, _, _. cbn. split; [reflexivity|]. split; [|subst id; intros _; destruct p; discriminate].
      unfold inner, same_tag. rewrite ES. cbn. repeat split; auto. lia.
    + exfalso. eapply fresh_some; [| |exact F]; lia.
Qed.
Lemma write_attr_ok : forall a s, 0 <= p_seq s -> exists cs s', write_attr a s = (cs, s', Ok tt) /\ inner s s' /\ (cs = [] \/ exists t, concat cs = 32 :: t).
Proof.
  intros a s Q. unfold write_attr, mret. destruct (beq (local (aname a)) []); [eexists _, s; split; [reflexivity|]; split; [apply inner_refl|auto]|].
  destruct (split_prefixed (local (aname a))) as [pre loc]. unfold mbind, emit. destruct (beq (space (aname a)) xmlnsURL).
  - destruct (create_ok (avalue a) loc s Q) as (p & b & s' & E & I & _). rewrite E. eexists _, s'. split; [reflexivity|]. split; auto. right. eexists. reflexivity.
  - destruct (negb (beq (space (aname a)) [])).
    + destruct (create_ok (space (aname a)) pre s Q) as (p & b & s' & E & I & _). rewrite E. eexists _, s'. split; [reflexivity|]. split; auto. right. eexists. reflexivity.
    + eexists _, s. split; [reflexivity|]. split; [apply inner_refl|]. right. eexists. reflexivity.
Qed.
Lemma write_attrs_ok : forall a s, 0 <= p_seq s -> exists cs s', write_attrs a s = (cs, s', Ok tt) /\ inner s s' /\ (concat cs = [] \/ exists t, concat cs = 32 :: t).
Proof.
  induction a as [|x a IH]; intros s Q; cbn [write_attrs].
  - eexists _, s. split; [reflexivity|]. split; [apply inner_refl|auto].
  - unfold mbind. destruct (write_attr_ok x s Q) as (cs & s1 & E & I & C). rewrite E. destruct I as (A1 & A2 & A3 & A4 & A5 & A6 & A7).
    destruct (IH s1 (A6 Q)) as (cs2 & s2 & E2 & I2 & C2). rewrite E2. eexists _, s2. split; [reflexivity|].
    split; [eapply inner_trans; [|exact I2]; unfold inner; tauto|]. rewrite concat_app. destruct C as [->|[t ->]]; [exact C2|right; eexists; reflexivity].
Qed.
Lemma indent_ok : forall d s, exists cs s', write_indent d s = (cs, s', Ok tt) /\ p_elems s' = p_elems s /\ p_seq s' = p_seq s.
Proof.
  intros d s. unfold write_indent, mbind, mget, mret, mput, emit. cbn [app].
  destruct (beq (p_prefix s) [] && beq (p_indent s) []); [eauto|]. destruct ((d <? 0) && p_indented s).
  - eexists _, _. split; [reflexivity|]. destruct (d <? 0); auto.
  - eexists _, _. split; [reflexivity|]. cbn. destruct (d <? 0); auto.
Qed.

(** How the new element's own namespace is settled, before anything is written. *)
Definition only_prefix (s s' : pstate) : Prop :=
  (0 <= p_seq s -> 0 <= p_seq s') /\
  match p_elems s, p_elems s' with
  | e :: es, e' :: es' => es' = es /\ el_ns e = el_ns e' /\ el_name e = el_name e'
  | [], [] => True
  | _, _ => False
  end.
Lemma inner_only : forall s s', inner s s' -> only_prefix s s'.
Proof. unfold inner, only_prefix, same_tag. intros s s' (_ & _ & _ & _ & _ & A & B). split; auto. destruct (p_elems s), (p_elems s'); tauto. Qed.
Lemma only_trans : forall a b c, only_prefix a b -> only_prefix b c -> only_prefix a c.
Proof.
  unfold only_prefix. intros a b c [A B] [C D]. split; [tauto|]. destruct (p_elems a), (p_elems b), (p_elems c); try tauto. destruct B as (-> & X & Y), D as (-> & X' & Y').
  split; auto. split; congruence.
Qed.
Lemma set_prefix_only : forall p s, exists s', set_prefix p s = ([], s', Ok tt) /\ only_prefix s s' /\ (p_elems s <> [] -> top_prefix s' = p).
Proof.
  intros p s. unfold set_prefix. eexists. split; [reflexivity|]. unfold only_prefix, top_prefix. destruct (p_elems s) as [|e es] eqn:E; [rewrite E; split; [split; auto|congruence]|]. cbn. tauto.
Qed.
Lemma space_defined_ok : forall es e a s, 0 <= p_seq s -> exists b s', space_defined es e a s = ([], s', Ok b) /\ only_prefix s s' /\ (el_prefix e <> [] -> s' = s).
Proof.
  intros es e a s Q. unfold space_defined.
  assert (R : only_prefix s s) by apply inner_only, inner_refl.
  destruct (beq (el_ns e) []); [eexists _, s; split; [reflexivity|split; auto]|].
  destruct (existsb _ a); [eexists _, s; split; [reflexivity|split; auto]|].
  destruct (beq (el_prefix e) []) eqn:PE; cbn [negb]; [|eexists _, s; split; [reflexivity|split; auto]]. apply beq_eq in PE.
  destruct (existsb _ es); [eexists _, s; split; [reflexivity|split; auto]|].
  destruct (find _ a) as [x|].
  - destruct (create_ok (avalue x) (local (aname x)) s Q) as (p & b & s1 & E & I & _). unfold mbind. rewrite E.
    destruct (set_prefix_only p s1) as (s2 & E2 & I2 & _). rewrite E2. eexists _, s2. split; [reflexivity|]. split; [eapply only_trans; [apply inner_only; exact I|exact I2]|congruence].
  - unfold mbind, mget. destruct (set_prefix_only (get_prefix (p_elems s) (el_ns e)) s) as (s2 & E2 & I2 & _). rewrite E2. eexists _, s2. split; [reflexivity|split; [auto|congruence]].
Qed.

Lemma create_preferred : forall uri pre s e es, p_elems s = e :: es -> el_p2n e = [] -> pick_prefix [] uri pre = pre -> pre <> [] ->
  exists b s', create_prefix uri pre s = ([], s', Ok (pre, b)).
Proof.
  intros uri pre s e es E T P N. unfold create_prefix, mbind, mget, mret. rewrite E.
  destruct (negb (beq (get_prefix (e :: es) uri) []) && _) eqn:G.
  - apply andb_true_iff in G. destruct G as [_ G]. apply orb_true_iff in G. destruct G as [G|G]; apply beq_eq in G; [|congruence]. rewrite G. eexists _, _. reflexivity.
  - rewrite T, P. cbn. eexists _, _. reflexivity.
Qed.

(** What an element is called in the text. *)
Definition qname (e : element) : bytes := join_prefixed (el_prefix e) (el_name e).
(** A start call with a name is accepted, opens exactly one element and writes its name after a "<". *)
Lemma write_start_ok : forall n a s, 0 <= p_seq s -> local n <> [] ->
  exists cs s' e ind rest, write_start n a s = (cs, s', Ok tt) /\ p_elems s' = e :: p_elems s /\ 0 <= p_seq s' /\
    el_ns e = space n /\ el_name e = snd (split_prefixed (local n)) /\
    concat cs = ind ++ [60] ++ qname e ++ rest ++ [62] /\ (rest = [] \/ exists t, rest = 32 :: t) /\
    (fst (split_prefixed (local n)) <> [] -> pick_prefix [] (space n) (fst (split_prefixed (local n))) = fst (split_prefixed (local n)) ->
     el_prefix e = fst (split_prefixed (local n))).
Proof.
  intros n a s Q L. unfold write_start. replace (beq (local n) []) with false by (symmetry; now apply beq_neq).
  set (e0 := new_element n). assert (N0 : el_ns e0 = space n /\ el_name e0 = snd (split_prefixed (local n)) /\ el_prefix e0 = fst (split_prefixed (local n)) /\ el_p2n e0 = []).
  { subst e0. unfold new_element. destruct (split_prefixed (local n)). cbn. auto. }
  clearbody e0. set (s0 := with_elems (e0 :: p_elems s) s).
  unfold mbind at 1. unfold mget at 1. unfold mbind at 1. unfold mput at 1. fold s0.
  destruct (space_defined_ok (p_elems s) e0 a s0 Q) as (b & s1 & E1 & O1 & K1). unfold mbind at 1. rewrite E1. clear E1.
  destruct (indent_ok 1 s1) as (ci & s2 & E2 & EL2 & SQ2). unfold mbind at 1. rewrite E2. clear E2.
  unfold mbind at 1. unfold emit at 1. unfold mbind at 1. unfold mget at 1.
  assert (O2 : only_prefix s0 s2). { unfold only_prefix in *. rewrite SQ2, EL2. exact O1. }
  assert (T2 : exists e2, p_elems s2 = e2 :: p_elems s /\ el_ns e2 = el_ns e0 /\ el_name e2 = el_name e0).
  { destruct O2 as [_ O2]. cbn in O2. destruct (p_elems s2) as [|e2 es2]; [tauto|]. destruct O2 as (-> & X & Y). eauto. }
  destruct T2 as (e2 & T2 & NS2 & NM2).
  assert (K2 : el_prefix e0 <> [] -> e2 = e0). { intro X. specialize (K1 X). subst s1. rewrite T2 in EL2. injection EL2 as ->. reflexivity. } assert (Q2 : 0 <= p_seq s2) by (apply O2; exact Q).
  (* the name *)
  assert (NAME : exists cs3 s3 e3 rest3,
    (if negb (beq (top_prefix s2) []) then
            mdo (p, created) <- (if negb (beq (el_ns e0) []) && negb b
                                 then create_prefix (el_ns e0) (top_prefix s2)
                                 else mret (top_prefix s2, false)) ;
            mdo_ set_prefix p ;
            emit ([p; [58]; el_name e0] ++ (if created : bool then [[32]] ++ prefix_attr p (el_ns e0) else []))
          else if negb (beq (el_ns e0) []) then
            emit ([el_name e0] ++ (if b then [] else [str " xmlns="""] ++ esc_writes EAttr (el_ns e0) ++ [[34]]))
          else emit [el_name e0]) s2 = (cs3, s3, Ok tt) /\ p_elems s3 = e3 :: p_elems s /\ 0 <= p_seq s3 /\ el_ns e3 = el_ns e0 /\ el_name e3 = el_name e0 /\
    concat cs3 = qname e3 ++ rest3 /\ (rest3 = [] \/ exists t, rest3 = 32 :: t) /\
    (el_prefix e0 <> [] -> pick_prefix [] (el_ns e0) (el_prefix e0) = el_prefix e0 -> el_prefix e3 = el_prefix e0)).
  { assert (TP : top_prefix s2 = el_prefix e2) by (unfold top_prefix; rewrite T2; auto). rewrite TP.
    destruct (beq (el_prefix e2) []) eqn:PE; cbn [negb].
    - apply beq_eq in PE. assert (QN : qname e2 = el_name e0) by (unfold qname, join_prefixed; rewrite PE; auto).
      destruct (beq (el_ns e0) []) eqn:NE; cbn [negb].
      + eexists _, s2, e2, []. split; [reflexivity|]. split; auto. split; auto. split; auto. split; auto. rewrite QN. split; [reflexivity|]. split; auto. intros X _. rewrite (K2 X). reflexivity.
      + eexists _, s2, e2, _. split; [reflexivity|]. split; auto. split; auto. split; auto. split; auto. rewrite QN. split; [rewrite concat_app; cbn; rewrite app_nil_r; reflexivity|].
        split; [destruct b; [left; reflexivity|right]; eexists; reflexivity|]. intros X _. rewrite (K2 X). reflexivity.
    - apply beq_neq in PE.
      assert (CR : exists p created s3, (if negb (beq (el_ns e0) []) && negb b then create_prefix (el_ns e0) (el_prefix e2) else mret (el_prefix e2, false)) s2
                   = ([], s3, Ok (p, created)) /\ inner s2 s3 /\ p <> [] /\ (el_prefix e0 <> [] -> pick_prefix [] (el_ns e0) (el_prefix e0) = el_prefix e0 -> p = el_prefix e0)).
      { destruct (negb (beq (el_ns e0) []) && negb b).
        - destruct (create_ok (el_ns e0) (el_prefix e2) s2 Q2) as (p & c & s3 & E & I & NZ). exists p, c, s3. split; auto. split; auto. split; [apply NZ; rewrite T2; discriminate|].
          intros X Y. specialize (K2 X). subst e2. destruct (create_preferred (el_ns e0) (el_prefix e0) s2 e0 (p_elems s) T2 (proj2 (proj2 (proj2 N0))) Y X) as (b' & s' & Z). rewrite Z in E. injection E as _ <- _. reflexivity.
        - eexists _, _, s2. split; [reflexivity|]. split; [apply inner_refl|]. split; auto. intros X Y. rewrite (K2 X). auto. }
      destruct CR as (p & c & s3 & E & I & PN & PP). unfold mbind. rewrite E. unfold set_prefix.
      assert (T3 : exists e3, p_elems s3 = e3 :: p_elems s /\ same_tag e2 e3 /\ 0 <= p_seq s3).
      { unfold inner in I. rewrite T2 in I. destruct I as (_ & _ & _ & _ & _ & I1 & I2). destruct (p_elems s3) as [|e3 es3]; [tauto|]. destruct I2 as [-> I2]. eauto. }
      destruct T3 as (e3 & T3 & (A & B & C) & Q3). rewrite T3. unfold emit.
      eexists _, _, _, _. split; [reflexivity|]. cbn [with_elems p_elems p_seq]. split; [reflexivity|]. split; auto. split; [cbn; congruence|]. split; [cbn; congruence|].
      split; [|instantiate (1 := if c then [32] ++ concat (prefix_attr p (el_ns e0)) else []); split; [destruct c; [right; eexists; reflexivity|left; reflexivity]|exact PP]].
      unfold qname, join_prefixed. cbn [el_prefix el_name]. destruct p as [|c0 p]; [congruence|]. rewrite <- B, NM2. cbn [app]. rewrite <- (app_assoc p). destruct c; cbn [concat app]; rewrite <- ?app_assoc; reflexivity. }
  destruct NAME as (cs3 & s3 & e3 & rest3 & E3 & T3 & Q3 & NS3 & NM3 & C3 & R3 & PR3). unfold mbind at 1. rewrite E3. clear E3.
  destruct (write_attrs_ok a s3 Q3) as (cs4 & s4 & E4 & I4 & C4). unfold mbind. rewrite E4. unfold emit.
  assert (T4 : exists e4, p_elems s4 = e4 :: p_elems s /\ same_tag e3 e4 /\ 0 <= p_seq s4).
  { unfold inner in I4. rewrite T3 in I4. destruct I4 as (_ & _ & _ & _ & _ & I1 & I2). destruct (p_elems s4) as [|e4 es4]; [tauto|]. destruct I2 as [-> I2]. eauto. }
  destruct T4 as (e4 & T4 & (A & B & C) & Q4).
  eexists _, s4, e4, (concat ci), (rest3 ++ concat cs4). split; [reflexivity|]. split; auto. split; auto. split; [destruct N0 as (N0 & _); congruence|]. split; [destruct N0 as (_ & N0 & _); congruence|].
  split; [|split; [|destruct N0 as (N0 & _ & N2 & _); rewrite <- N0, <- N2; intros X Y; rewrite <- C; auto]].
  - assert (QE : qname e4 = qname e3) by (unfold qname; congruence). rewrite QE. rewrite !app_nil_l, !concat_app, C3. cbn [concat]. rewrite !app_nil_r, <- !app_assoc. reflexivity.
  - destruct R3 as [->|[t ->]]; [exact C4|right; eexists; reflexivity].
Qed.

(** An end call: exactly when it is accepted, what it closes and writes. *)
Definition end_matches (n : name) (e : element) : Prop :=
  snd (split_prefixed (local n)) = el_name e /\ space n = el_ns e /\
  (fst (split_prefixed (local n)) = [] \/ el_prefix e = [] \/ fst (split_prefixed (local n)) = el_prefix e).
Lemma write_end_ok : forall n s e es, p_elems s = e :: es -> el_name e <> [] -> local n <> [] -> end_matches n e ->
  exists cs s' ind, write_end n s = (cs, s', Ok tt) /\ p_elems s' = es /\ p_seq s' = p_seq s /\ concat cs = ind ++ [60; 47] ++ qname e ++ [62].
Proof.
  intros n s e es E NE LN (A & B & C). unfold write_end. replace (beq (local n) []) with false by (symmetry; now apply beq_neq).
  unfold mbind at 1. unfold mget at 1. rewrite E. replace (beq (el_name e) []) with false by (symmetry; now apply beq_neq).
  destruct (split_prefixed (local n)) as [p l]. cbn [fst snd] in *. subst l.
  replace (negb (beq p []) && negb (beq (el_prefix e) []) && negb (beq p (el_prefix e))) with false.
  2: { destruct C as [->|[->| ->]]; [reflexivity|rewrite andb_false_r; reflexivity|rewrite beq_refl, andb_false_r; reflexivity]. }
  rewrite beq_refl, B, beq_refl. cbn [negb].
  destruct (indent_ok (-1) s) as (ci & s1 & E1 & EL & SQ). unfold mbind at 1. rewrite E1. unfold mbind, emit, mget, mput.
  eexists _, _, (concat ci). split; [reflexivity|]. cbn. rewrite EL, E. split; auto. split; auto. rewrite !concat_app. cbn. rewrite !concat_app. unfold qname, join_prefixed.
  destruct (el_prefix e) as [|c pr] eqn:PE; cbn; [rewrite !app_nil_r; reflexivity|]. rewrite ?app_nil_r, <- ?app_assoc. reflexivity.
Qed.
Lemma write_end_refused : forall n s, (forall e es, p_elems s = e :: es -> ~ (el_name e <> [] /\ local n <> [] /\ end_matches n e)) ->
  exists m, write_end n s = ([], s, Err (EncErr m)).
Proof.
  intros n s H. unfold write_end. destruct (beq (local n) []) eqn:L; [eexists; reflexivity|]. apply beq_neq in L. unfold mbind at 1. unfold mget at 1.
  destruct (p_elems s) as [|e es]; [eexists; reflexivity|]. specialize (H e es eq_refl). destruct (beq (el_name e) []) eqn:NE; [eexists; reflexivity|]. apply beq_neq in NE.
  unfold end_matches in H. destruct (split_prefixed (local n)) as [p l]. cbn [fst snd] in *.
  destruct (negb (beq p []) && negb (beq (el_prefix e) []) && negb (beq p (el_prefix e))) eqn:P; [eexists; reflexivity|].
  destruct (beq l (el_name e)) eqn:EL; cbn [negb]; [|eexists; reflexivity]. destruct (beq (space n) (el_ns e)) eqn:ES; cbn [negb]; [|eexists; reflexivity].
  exfalso. apply H. apply beq_eq in EL. apply beq_eq in ES. split; auto. split; auto. split; auto. split; auto.
  destruct (beq p []) eqn:X1; [apply beq_eq in X1; auto|]. destruct (beq (el_prefix e) []) eqn:X2; [apply beq_eq in X2; auto|]. destruct (beq p (el_prefix e)) eqn:X3; [apply beq_eq in X3; auto|]. discriminate.
Qed.
