(** Everything that is read is text made of XML characters. *)
From Coq Require Import String.
From Coq Require Import ZArith List Bool Lia ZifyBool ZifyNat.
From Verif Require Import Base Utf8 NameTables Lexer Escape EscapeSpec EscapeProofs CdataProofs Decoder DecoderProofs Printer EncoderProofs NsProofs GoType TypeInfo TypeInfoSpec TypeInfoProofs Simple Unmarshal ValueSpec UnmarshalProofs MarshalProofs ReadNames RoundTripSpec.
Import ListNotations.
Open Scope Z_scope.

(** *** What is claimed *)
(** The parts of a name: XML text, the local part without colon. *)
Definition name_read (n : name) : Prop := xml_text (space n) /\ xml_text (local n) /\ ~ In 58 (local n).
Definition attr_read (a : attr) : Prop := name_read (aname a) /\ xml_text (avalue a).
(** Tokens.  The texts of comments, processing instructions and directives are not checked for their characters. *)
Definition token_read (t : token) : Prop :=
  match t with TStart n a => name_read n /\ Forall attr_read a | TEnd n => name_read n | TChar s => xml_text s | _ => True end.
(** The fields for inner XML and comments, which are not checked. *)
Definition unchecked (f : fdecl) : bool := is_inner (flags_of f) || is_comment (flags_of f).
(** Values: all strings and names are XML text, no entry of a list is nil, no pointer points to an empty list. *)
Section Legible.
Variable env : tenv.
Fixpoint legible (t : gtype) (v : gval) {struct v} : Prop :=
  match v with
  | VStr x => xml_text x
  | VNil => match t with TPtr _ => True | _ => False end
  | VPtr w => w <> VList [] /\ match t with TPtr t => legible t w | _ => False end
  | VList l => match t with TSlice t => (fix go (l : list gval) : Prop := match l with [] => True | w :: l => (w <> VNil /\ legible t w) /\ go l end) l | _ => False end
  | VRec l => match t with TStruct s => (fix go (fs : list fdecl) (l : list gval) {struct l} : Prop := match fs, l with f :: fs, w :: l => (unchecked f = true \/ legible (fd_type f) w) /\ go fs l | _, _ => True end) (fields_of env s) l | _ => False end
  | VName n => name_read n
  | VAttr a => attr_read a
  | _ => True
  end.
End Legible.

(** *** Tokens *)
Lemma good_decode : forall s, s <> [] -> good_piece (fst (decode_rune s), firstn (snd (decode_rune s)) s) = true ->
  utf8 (fst (decode_rune s)) (firstn (snd (decode_rune s)) s) /\ xml_char (fst (decode_rune s)) /\ snd (decode_rune s) <> O.
Proof.
  intros s NE G. unfold good_piece, bad_piece in G. cbn [fst snd] in G. apply andb_true_iff in G. destruct G as [G1 G2]. rewrite in_char_range_iff in G2.
  assert (B : (fst (decode_rune s) =? rune_error) && (snd (decode_rune s) =? 1)%nat = false).
  { destruct ((fst (decode_rune s) =? rune_error) && (snd (decode_rune s) =? 1)%nat) eqn:E; auto. exfalso. apply andb_true_iff in E. destruct E as [E1 E2]. rewrite E1 in G1. assert (E3 : snd (decode_rune s) = 1%nat) by lia. rewrite E3 in G1. destruct s; [congruence|]. cbn in G1. discriminate. }
  clear G1. destruct s as [|b0 t]; [congruence|]. unfold decode_rune in *. unfold lead in *.
  repeat match goal with
  | H : context [if ?c then _ else _] |- _ => let E := fresh "E" in destruct c eqn:E; cbn [fst snd] in *
  | H : context [match ?l with [] => _ | _ :: _ => _ end] |- _ => destruct l; cbn [fst snd] in *
  end; unfold xml_char, rune_error, within in *; try (cbn in B; discriminate); try lia; (split; [|split; [exact G2|discriminate]]); cbn [firstn].
  all: match goal with
  | |- utf8 _ [?b] => apply U1; lia
  | |- utf8 _ [?b; ?c] => replace [b; c] with [192 + (b - 192); 128 + (c - 128)] by (f_equal; [lia|f_equal; lia]); apply U2; lia
  | |- utf8 _ [?b; ?c; ?d] => replace [b; c; d] with [224 + (b - 224); 128 + (c - 128); 128 + (d - 128)] by (repeat (f_equal; try lia)); apply U3; lia
  | |- utf8 _ [?b; ?c; ?d; ?e] => replace [b; c; d; e] with [240 + (b - 240); 128 + (c - 128); 128 + (d - 128); 128 + (e - 128)] by (repeat (f_equal; try lia)); apply U4; lia
  end.
Qed.
Lemma good_text : forall s, forallb good_piece (pieces s) = true -> xml_text s.
Proof.
  intros s. remember (length s) as n eqn:L. revert s L. induction n as [n IH] using (well_founded_induction Wf_nat.lt_wf). intros s L H. destruct s as [|b t]; [constructor|].
  rewrite pieces_cons in H by discriminate. cbn [forallb] in H. destruct (decode_rune (b :: t)) as [r k] eqn:D. apply andb_true_iff in H. destruct H as [H1 H2].
  destruct (good_decode (b :: t)) as (U & X & K); [discriminate|rewrite D; exact H1|]. rewrite D in U, X, K. cbn [fst snd] in U, X, K.
  rewrite <- (firstn_skipn k (b :: t)). econstructor; eauto. apply (IH (length (skipn k (b :: t)))); auto. rewrite skipn_length. subst n. cbn [length]. lia.
Qed.
Definition xml_range (e : Z * Z * Z) : bool := let '(lo, hi, _) := e in (32 <=? lo) && (hi <=? 55295) || (57344 <=? lo) && (hi <=? 65533) || (65536 <=? lo) && (hi <=? 1114111).
Lemma table_chars : forall t r, forallb xml_range t = true -> in_table t r = true -> in_char_range r = true.
Proof.
  intros t r A H. unfold in_table in H. apply existsb_exists in H. destruct H as (((lo, hi), st) & I & H). rewrite forallb_forall in A. specialize (A _ I). unfold xml_range in A. unfold in_char_range. lia.
Qed.
Lemma name_text : forall s, is_name s = true -> xml_text s.
Proof.
  assert (T1 : forallb xml_range first_table = true) by (vm_compute; reflexivity). assert (T2 : forallb xml_range second_table = true) by (vm_compute; reflexivity).
  intros s H. apply good_text. unfold is_name in H. destruct (pieces s) as [|p ps]; [discriminate|]. rewrite !andb_true_iff in H. destruct H as [[H1 H2] H3]. cbn [forallb]. apply andb_true_iff. split.
  - unfold good_piece. rewrite H1. exact (table_chars _ _ T1 H2).
  - rewrite forallb_forall in H3 |- *. intros q I. specialize (H3 q I). apply andb_true_iff in H3. destruct H3 as [H3 H4]. unfold good_piece. rewrite H3. apply orb_true_iff in H4. destruct H4 as [H4|H4]; [exact (table_chars _ _ T1 H4)|exact (table_chars _ _ T2 H4)].
Qed.
Lemma nsname_read : forall inp n rest, get_nsname inp = inl (n, rest) -> name_read n.
Proof.
  intros inp n rest H. pose proof (nsname_local _ _ _ H) as C. unfold get_nsname in H. destruct (get_name inp) as [[s r]|] eqn:G; [|discriminate].
  assert (T : xml_text s). { unfold get_name in G. destruct (read_name inp) as [s' r'| |]; try discriminate. destruct (is_name s') eqn:N; [|discriminate]. injection G as <- <-. apply name_text. exact N. }
  destruct (split_ns s) as [n0|] eqn:S; [|discriminate]. injection H as <- <-. unfold split_ns in S.
  destruct (count_byte 58 s) as [|[|]]; [injection S as <-; split; [constructor|split; assumption]| |discriminate].
  destruct (index_byte 58 s) as [i|] eqn:I; [|discriminate]. destruct (_ || _); [discriminate|]. injection S as <-. apply index_byte_some in I as (E & _).
  destruct (xml_text_split s T (firstn i s) 58 (skipn (S i) s) E ltac:(lia)) as [A B]. split; [exact A|]. split; [|exact C]. apply (xml_text_tail 58); [exact B|lia].
Qed.
Lemma text_read : forall q c inp s rest, text q c inp = ROk s rest -> xml_text s.
Proof. intros q c inp s rest H. unfold text in H. destruct (text_loop _ q c 0 0 [] inp) as [data r| |]; try discriminate. destruct (forallb good_piece (pieces data)) eqn:G; [|discriminate]. injection H as <- <-. apply good_text. exact G. Qed.
Lemma attrs_read : forall k acc inp l e rest, Forall attr_read acc -> attrs_loop k acc inp = ROk (l, e) rest -> Forall attr_read l.
Proof.
  induction k as [|k IH]; intros acc inp l e rest A H; [discriminate|]. cbn [attrs_loop] in H. destruct (skip_space inp) as [|b t]; [discriminate|].
  destruct (b =? 47). { destruct t as [|c t]; [discriminate|]. destruct (c =? 62); [|discriminate]. injection H as <- <- <-. exact A. }
  destruct (b =? 62). { injection H as <- <- <-. exact A. }
  destruct (get_nsname (b :: t)) as [[n r]|[er|]] eqn:N; try discriminate. destruct (skip_space r) as [|c r']; [discriminate|]. destruct (negb (c =? 61)); [discriminate|].
  destruct (attrval (skip_space r')) as [v r2| |] eqn:V; try discriminate. refine (IH _ _ _ _ _ _ H). apply Forall_app. split; [exact A|]. constructor; [|constructor]. split; [exact (nsname_read _ _ _ N)|].
  cbn [avalue]. unfold attrval in V. destruct (skip_space r') as [|x y]; [discriminate|]. destruct ((x =? 34) || (x =? 39)); [|discriminate]. eapply text_read; eauto.
Qed.
Lemma raw_read : forall inp t c rest, raw_token inp = ROk (t, c) rest -> token_read t /\ match c with Some n => name_read n | None => True end.
Proof.
  intros [|b t0] t c rest H; [discriminate|]. unfold raw_token in H. destruct (b =? 60); cbn [negb] in H.
  2: { destruct (text None false (b :: t0)) as [s r| |] eqn:T; try discriminate. injection H as <- <- <-. split; [exact (text_read _ _ _ _ _ T)|exact I]. }
  destruct t0 as [|c0 t']; [discriminate|]. destruct (c0 =? 47).
  { destruct (get_nsname t') as [[m r]|[e|]] eqn:N; try discriminate. destruct (skip_space r) as [|x r']; [discriminate|]. destruct (x =? 62); [|discriminate]. injection H as <- <- <-. split; [exact (nsname_read _ _ _ N)|exact I]. }
  destruct (c0 =? 63).
  { destruct (get_name t') as [[m r]|[e|]]; try discriminate. destruct (pi_loop 0 [] (skip_space r)); try discriminate. destruct (if beq m _ then _ else _); [discriminate|]. injection H as <- <- <-. split; exact I. }
  destruct (c0 =? 33).
  { destruct t' as [|d t'']; [discriminate|]. destruct (d =? 45).
    { destruct t'' as [|e t3]; [discriminate|]. destruct (e =? 45); [|discriminate]. destruct (comment_loop 0 0 [] t3); try discriminate. injection H as <- <- <-. split; exact I. }
    destruct (d =? 91). { destruct (expect (str "CDATA[") t'') as [u r|e|]; try discriminate. destruct (text None true r) eqn:T; try discriminate. injection H as <- <- <-. split; [exact (text_read _ _ _ _ _ T)|exact I]. }
    destruct (directive_loop _ _ _ _ _ _); try discriminate. injection H as <- <- <-. split; exact I. }
  destruct (get_nsname (c0 :: t')) as [[m r]|[e|]] eqn:E; try discriminate. apply nsname_read in E.
  destruct (attrs_loop (S (length r)) [] r) as [[a' em] r'|e|] eqn:A; try discriminate. apply attrs_read in A; [|constructor]. injection H as <- <- <-. split; [split; assumption|]. destruct em; [exact E|exact I].
Qed.
(** The decoder holds XML text. *)
Definition entry_read (e : sent) : Prop := match e with SNs p u ok => xml_text u | SStart n => name_read n end.
Definition holds_text (d : dstate) : Prop := (forall p u, d_ns d p = Some u -> xml_text u) /\ Forall entry_read (d_stk d) /\ match d_close d with Some n => name_read n | None => True end.
Lemma url_text : xml_text xmlURL /\ xml_text xmlnsURL.
Proof. split; apply good_text; vm_compute; reflexivity. Qed.
Lemma translate_read : forall m n b, (forall p u, m p = Some u -> xml_text u) -> name_read n -> name_read (translate m n b).
Proof.
  intros m n b M (N1 & N2 & N3). destruct url_text as [U1 U2].
  assert (LK : forall n, name_read n -> name_read (match m (space n) with Some v => mkname v (local n) | None => n end)). { intros x (X1 & X2 & X3). destruct (m (space x)) as [v|] eqn:E; [|split; [assumption|split; assumption]]. split; [exact (M _ _ E)|split; assumption]. }
  unfold translate. repeat match goal with |- context [if ?c then _ else _] => destruct c end; try (split; [assumption|split; assumption]); apply LK; split; try assumption; try (split; assumption).
Qed.
Lemma declare_read : forall a s s', Forall attr_read a -> (forall p u, snd s p = Some u -> xml_text u) -> Forall entry_read (fst s) -> declare a s = inl s' -> (forall p u, snd s' p = Some u -> xml_text u) /\ Forall entry_read (fst s').
Proof.
  induction a as [|[n v] a IH]; intros s s' A M K H; [injection H as <-; auto|]. cbn [declare] in H. inversion A as [|? ? [A1 A2] A3]; subst. cbn [avalue] in A2.
  destruct (beq (space n) xmlnsPrefix && beq v []); [discriminate|]. destruct (beq (space n) xmlnsPrefix && beq (local n) []); [discriminate|].
  assert (ST : forall p s, (forall p u, snd s p = Some u -> xml_text u) -> Forall entry_read (fst s) -> (forall q u, snd (set_ns p v s) q = Some u -> xml_text u) /\ Forall entry_read (fst (set_ns p v s))).
  { intros p [stk m] M1 K1. unfold set_ns. cbn [fst snd] in *. split; [intros q u Q; unfold ns_set in Q; destruct (beq q p); [injection Q as <-; exact A2|exact (M1 _ _ Q)]|]. constructor; [|exact K1]. destruct (m p) eqn:E; [exact (M1 _ _ E)|constructor]. }
  match type of H with declare a (if ?c2 then set_ns ?p2 ?v2 ?s1 else ?s1') = _ => assert (S1 : (forall q u, snd s1 q = Some u -> xml_text u) /\ Forall entry_read (fst s1)) by (destruct (beq (space n) xmlnsPrefix); [apply ST; assumption|split; assumption]); destruct S1 as [S1 S2]; refine (IH _ _ A3 _ _ H); destruct c2; try assumption; apply ST; assumption end.
Qed.
Lemma undo_read : forall stk m, Forall entry_read stk -> (forall p u, m p = Some u -> xml_text u) -> (forall p u, snd (undo stk m) p = Some u -> xml_text u) /\ Forall entry_read (fst (undo stk m)).
Proof.
  induction stk as [|e stk IH]; intros m K M; [split; assumption|]. destruct e as [n|p u ok]; [split; assumption|]. cbn [undo]. inversion K; subst. apply IH; [assumption|]. intros q w Q. destruct ok; unfold ns_set, ns_del in Q; destruct (beq q p); try discriminate; [injection Q as <-; assumption| |]; exact (M _ _ Q).
Qed.
Lemma next_read : forall d t d', holds_text d -> next_token d = TokOk t d' -> token_read t /\ holds_text d'.
Proof.
  intros d t d' (M & K & C) H. unfold next_token in H. destruct (raw_step d) as [[(t0, d0)|(e, d0)]|] eqn:R; [| |discriminate].
  2: { destruct e; try discriminate. destruct (d_stk d0); discriminate. }
  assert (R' : token_read t0 /\ holds_text d0).
  { unfold raw_step in R. destruct (d_err d); [discriminate|]. destruct (d_close d) as [n|] eqn:DC; [injection R as <- <-; split; [exact C|split; [exact M|split; [exact K|exact I]]]|].
    destruct (raw_token (d_inp d)) as [(t1, c) rest|e|] eqn:E; try discriminate. injection R as <- <-. apply raw_read in E. destruct E as [E1 E2]. split; [exact E1|]. split; [exact M|split; [exact K|exact E2]]. }
  destruct R' as [T0 (M0 & K0 & C0)]. destruct t0 as [m b|m| | | |]; try (injection H as <- <-; split; [exact T0|split; [exact M0|split; [exact K0|exact C0]]]).
  - destruct (declare b _) as [(stk, ns)|] eqn:DE; [|discriminate]. destruct T0 as [T1 T2]. destruct (declare_read b (d_stk d0, d_ns d0) _ T2 M0 K0 DE) as [M1 K1]. cbn [fst snd] in M1, K1. injection H as <- <-. split.
    + split; [apply translate_read; assumption|]. apply Forall_map. eapply Forall_impl; [|exact T2]. intros x [X1 X2]. split; [apply translate_read; assumption|exact X2].
    + split; [exact M1|]. split; [constructor; assumption|exact C0].
  - unfold pop_element in H. destruct (d_stk d0) as [|[s|] stk] eqn:DK; try discriminate. destruct (negb _); [discriminate|]. destruct (negb _); [discriminate|]. inversion K0; subst. pose proof (undo_read stk (d_ns d0) ltac:(assumption) M0) as [U1 U2]. destruct (undo stk (d_ns d0)) as [stk' m'] eqn:U. injection H as <- <-. split; [apply translate_read; assumption|]. split; [exact U1|split; [exact U2|exact C0]].
Qed.
Lemma new_holds : forall inp, holds_text (new_decoder inp).
Proof. intros inp. split; [discriminate|]. split; [constructor|exact I]. Qed.

(** *** Values *)
Lemma legible_zero : forall env k t, legible env t (zero k env t).
Proof.
  assert (NR : name_read (mkname [] [])) by (split; [exact X_nil|split; [exact X_nil|intros []]]).
  intros env. induction k as [|k IH]; intros t; destruct t as [| | | | | | | | |n| |]; try exact I; try exact X_nil; try exact NR; try (split; [exact NR|exact X_nil]); cbn [zero legible]; [destruct (fields_of env n); exact I|].
  generalize (fields_of env n). induction l as [|f fs IHf]; [exact I|]. cbn [map]. split; [right; apply IH|exact IHf].
Qed.
Lemma legible_update : forall env fs l x f w w', (fix go (fs : list fdecl) (l : list gval) {struct l} : Prop := match fs, l with f :: fs, w :: l => (unchecked f = true \/ legible env (fd_type f) w) /\ go fs l | _, _ => True end) fs l ->
  nth_error fs x = Some f -> nth_error l x = Some w -> (unchecked f = true \/ legible env (fd_type f) w') ->
  (fix go (fs : list fdecl) (l : list gval) {struct l} : Prop := match fs, l with f :: fs, w :: l => (unchecked f = true \/ legible env (fd_type f) w) /\ go fs l | _, _ => True end) fs (firstn x l ++ w' :: skipn (S x) l).
Proof.
  intros env. induction fs as [|g fs IH]; intros [|u l] [|x] f w w' H N1 N2 L; try discriminate; cbn in N1, N2.
  - injection N1 as ->. destruct H as [_ H]. cbn. split; assumption.
  - destruct H as [H1 H2]. cbn [firstn skipn app]. split; [exact H1|]. exact (IH _ _ _ _ _ H2 N1 N2 L).
Qed.
Lemma legible_nth : forall env fs l x f w, (fix go (fs : list fdecl) (l : list gval) {struct l} : Prop := match fs, l with f :: fs, w :: l => (unchecked f = true \/ legible env (fd_type f) w) /\ go fs l | _, _ => True end) fs l ->
  nth_error fs x = Some f -> nth_error l x = Some w -> unchecked f = true \/ legible env (fd_type f) w.
Proof.
  intros env. induction fs as [|g fs IH]; intros [|u l] [|x] f w H N1 N2; try discriminate; cbn in N1, N2; destruct H as [H1 H2].
  - injection N1 as ->. injection N2 as ->. exact H1.
  - exact (IH _ _ _ _ H2 N1 N2).
Qed.
Lemma update_legible : forall ek env {A} (f : gtype -> gval -> outcome uerr (gval * A)) idx s v v' a, update_at ek env s idx v f = Ok (v', a) ->
  (exists fd w w', decl_at env s idx = Some fd /\ f (fd_type fd) w = Ok (w', a)) /\
  ((forall fd w w', decl_at env s idx = Some fd -> (unchecked fd = true \/ legible env (fd_type fd) w) -> f (fd_type fd) w = Ok (w', a) -> unchecked fd = true \/ legible env (fd_type fd) w') ->
   legible env (TStruct s) v -> legible env (TStruct s) v').
Proof.
  intros ek env A f. induction idx as [|x rest IH]; intros s v v' a E; [discriminate|]. cbn [update_at] in E. destruct v; try discriminate.
  destruct (nth_error (fields_of env s) x) as [fd|] eqn:N1; [|discriminate]. destruct (nth_error l x) as [w|] eqn:N2; [|discriminate].
  match type of E with bind ?y _ = _ => destruct y as [(w', a')| | |] eqn:Y end; try discriminate. cbn [bind] in E. injection E as <- <-.
  cbn [decl_at]. rewrite N1. destruct rest as [|y rest].
  { split; [exists fd, w, w'; auto|]. intros H L. cbn [legible] in *. refine (legible_update _ _ _ _ _ _ _ L N1 N2 _). exact (H fd w w' eq_refl (legible_nth _ _ _ _ _ _ L N1 N2) Y). }
  destruct (fd_type fd) as [| | | | | | |t| |s'| |] eqn:T; try discriminate.
  - destruct t as [| | | | | | | | |s'| |]; try discriminate.
    assert (Z : exists u u', update_at ek env s' (y :: rest) u f = Ok (u', a') /\ w' = VPtr u' /\ (w = VPtr u \/ u = zero ek env (TStruct s'))).
    { destruct w; try discriminate; match type of Y with bind ?z _ = _ => destruct z as [(u', a2)| | |] eqn:Z0 end; try discriminate; cbn [bind] in Y; injection Y as <- <-; eauto 10. }
    destruct Z as (u & u' & Z0 & -> & Z1). destruct (IH _ _ _ _ Z0) as [I1 I2]. split; [exact I1|]. intros H L. cbn [legible] in L |- *. refine (legible_update _ _ _ _ _ _ _ L N1 N2 _). rewrite T.
    destruct (legible_nth _ _ _ _ _ _ L N1 N2) as [K|K]; [left; exact K|right]. rewrite T in K.
    assert (LU : legible env (TStruct s') u) by (destruct Z1 as [-> | ->]; [exact (proj2 K)|apply legible_zero]). specialize (I2 H LU). split; [|exact I2]. intros ->. exact I2.
  - destruct (IH _ _ _ _ Y) as [I1 I2]. split; [exact I1|]. intros H L. cbn [legible] in L |- *. refine (legible_update _ _ _ _ _ _ _ L N1 N2 _). rewrite T.
    destruct (legible_nth _ _ _ _ _ _ L N1 N2) as [K|K]; [left; exact K|right]. rewrite T in K. exact (I2 H K).
Qed.
Definition solid (v : gval) : Prop := v <> VNil /\ v <> VList [].
Lemma copy_legible : forall F env t s v, xml_text s -> copy_value F t s = Ok v -> legible env t v /\ solid v.
Proof.
  assert (K : forall F env t s v, xml_text s -> copy_simple F t s = Ok v -> legible env t v /\ solid v).
  { intros F env t s v X H. destruct t; try discriminate; cbn [copy_simple] in H; unfold need in *; repeat match type of H with
      | context [if ?c then _ else _] => destruct c | context [match ?c with _ => _ end] => destruct c end; try discriminate; injection H as <-; (split; [first [exact I|exact X]|split; discriminate]). }
  intros F env t s v X H. destruct t; try exact (K _ env _ _ _ X H). cbn [copy_value] in H. destruct (copy_simple F t s) as [w| | |] eqn:E; try discriminate. injection H as <-. destruct (K _ env _ _ _ X E) as [L [_ S2]]. split; [split; assumption|split; discriminate].
Qed.
Lemma method_legible : forall F env t s v, method_value F t s = Ok v -> legible env t v /\ solid v.
Proof.
  intros F env t s v H. unfold method_value, need in H. destruct t; repeat match type of H with
    | context [if ?c then _ else _] => destruct c | context [match ?c with _ => _ end] => destruct c end; try discriminate; injection H as <-; (split; [exact I|split; discriminate]).
Qed.
Lemma legible_snoc : forall env t l x, legible env (TSlice t) (VList l) -> legible env t x -> solid x -> legible env (TSlice t) (VList (l ++ [x])) /\ solid (VList (l ++ [x])).
Proof.
  intros env t l x H X [S _]. split.
  - cbn [legible] in *. induction l as [|w l IH]; [split; [split; assumption|exact I]|]. destruct H as [H1 H2]. split; [exact H1|exact (IH H2)].
  - split; [discriminate|]. intro E. injection E as E. destruct l; discriminate.
Qed.
Lemma attr_legible : forall F env ek t v a w, attr_read a -> legible env t v -> unmarshal_attr F env ek t v a = Ok w -> legible env t w /\ solid w.
Proof.
  intros F env ek. induction t; intros v a w [A1 A2] P H; cbn [unmarshal_attr has_method] in H; try exact (copy_legible _ env _ _ _ A2 H); try exact (method_legible _ env _ _ _ H).
  - match type of H with bind ?c _ = _ => destruct c as [w'| | |] eqn:E end; try discriminate. injection H as <-. cut (legible env t w' /\ solid w'); [intros [L [_ S2]]; split; [split; assumption|split; discriminate]|].
    destruct (has_method t) eqn:M; [exact (method_legible _ env _ _ _ E)|]. destruct t as [| | | | | | |t|t| | |]; try exact (copy_legible _ env _ _ _ A2 E); [| |injection E as <-; split; [split; assumption|split; discriminate]].
    { destruct (has_method t); [|exact (copy_legible _ env _ _ _ A2 E)]. match type of E with bind ?c _ = _ => destruct c as [x| | |] eqn:MV end; try discriminate. cbn [bind] in E.
      destruct (match v with VPtr w => w | _ => zero_of env ek (TPtr t) end); try discriminate. injection E as <-. destruct (method_legible _ env _ _ _ MV) as [L [_ S2]]. split; [split; assumption|split; discriminate]. }
    assert (PV : legible env (TSlice t) (match v with VPtr w => w | _ => zero_of env ek (TSlice t) end)) by (destruct v; try apply legible_zero; exact (proj2 P)).
    destruct (match v with VPtr w => w | _ => zero_of env ek (TSlice t) end) as [| | | | | |l| | |]; try discriminate.
    specialize (IHt (VList []) a). cbn [unmarshal_attr] in IHt. destruct (unmarshal_attr F env ek t (zero_of env ek t) a) as [x| | |]; try discriminate. cbn [bind] in *. injection E as <-.
    destruct (IHt _ (conj A1 A2) I eq_refl) as [L _]. cbn [app legible] in L. destruct L as [[L1 L2] _]. cbn [legible] in PV |- *. clear - PV L1 L2. split; [|split; [discriminate|intro E; injection E as E; destruct l; discriminate]].
    induction l as [|w l IH]; [split; [split; assumption|exact I]|]. destruct PV as [H1 H2]. split; [exact H1|exact (IH H2)].
  - destruct v as [| | | | | |l| | |]; try discriminate. destruct (unmarshal_attr F env ek t (zero_of env ek t) a) as [x| | |] eqn:E; try discriminate. injection H as <-.
    apply IHt in E; [|split; assumption|apply legible_zero]. apply legible_snoc; tauto.
  - injection H as <-. split; [split; assumption|split; discriminate].
Qed.
Lemma own_flags : forall env i f fi, fd_name f <> str "XMLName" -> struct_field_info env i f = Ok fi -> fi_flags fi = flags_of f.
Proof.
  intros env i f fi NX H. unfold struct_field_info, flags_of in *. destruct (beq (fd_name f) xml_name) eqn:B; [apply beq_eq in B; contradiction|]. destruct (parse_tag f) as [((a, b), c)| | |]; try discriminate. cbn [bind] in H. destruct (beq b []).
  - destruct (lookup_xmlname env (fd_type f)); injection H as <-; reflexivity.
  - match type of H with (if ?c then _ else _) = _ => destruct c; [discriminate|] end.
    match type of H with (let '(_, _) := ?c in _) = _ => destruct c end.
    match type of H with (if ?c then _ else _) = _ => destruct c; [discriminate|] end.
    match type of H with match ?c with _ => _ end = _ => destruct c end; [|injection H as <-; reflexivity].
    match type of H with (if ?c then _ else _) = _ => destruct c; [|discriminate] end. injection H as <-. reflexivity.
Qed.
Lemma promoted_flags : forall env s f, promoted env s f -> forall fd, decl_at env s (fi_idx f) = Some fd -> fi_flags f = flags_of fd.
Proof.
  intros env s f H. induction H as [s i f fi N V E X I|s i f s' fi N V E P IH]; intros fd D.
  - rewrite (own_idx _ _ _ _ I) in D. cbn in D. rewrite N in D. injection D as <-. eapply own_flags; eauto.
  - unfold deeper in *. cbn [fi_idx fi_flags decl_at] in *. rewrite N in D. apply IH. destruct (promoted_decl _ _ _ P) as [NE _]. destruct (fi_idx fi) as [|y r]; [contradiction|]. destruct E as (_ & [E|E]); rewrite E in D; exact D.
Qed.
Lemma field_flags : forall k env s ti f fd, type_info k env s = Ok ti -> In f (ti_fields ti) -> decl_at env s (fi_idx f) = Some fd -> fi_flags f = flags_of fd.
Proof. intros k env s ti f fd H I. destruct (type_info_good _ _ _ _ H) as ((P & _) & _). exact (promoted_flags _ _ _ (P f I) fd). Qed.

Section Reading.
Variables (F : floats) (env : tenv) (ek : nat).
Lemma set_attrs_legible : forall ti s al v w, Forall attr_read al -> legible env (TStruct s) v -> set_attrs F env ek ti s v al = Ok w -> legible env (TStruct s) w.
Proof.
  intros ti s. induction al as [|a al IH]; intros v w A P H; [injection H as <-; exact P|]. cbn [set_attrs] in H. inversion A as [|? ? A1 A2]; subst. destruct (attr_field ti (aname a)) as [f|]; [|exact (IH _ _ A2 P H)].
  match type of H with bind ?c _ = _ => destruct c as [(w', [])| | |] eqn:E end; try discriminate. cbn [bind] in H. refine (IH _ _ A2 _ H). destruct (update_legible _ _ _ _ _ _ _ _ E) as [_ U]. apply U; [|exact P]. clear U.
  intros fd u u' D [L|L] X; [left; exact L|right]. unfold with_unit in X. destruct (unmarshal_attr F env ek (fd_type fd) u a) eqn:E1; try discriminate. injection X as <-. exact (proj1 (attr_legible _ _ _ _ _ _ _ A1 L E1)).
Qed.
(** A function for child elements that keeps [P]. *)
Definition child_legible (P : gval -> Prop) (c : child_fun) : Prop := forall v n a d v' d', name_read n -> Forall attr_read a -> holds_text d -> c v n a d = Ok (v', d') -> holds_text d' /\ (P v -> P v').
Lemma content_legible : forall P c, child_legible P c -> forall k v dt cm d w dt' cm' d1 d2, xml_text dt -> holds_text d -> content_loop k c v dt cm d = Ok (w, dt', cm', d1, d2) -> xml_text dt' /\ holds_text d2 /\ (P v -> P w).
Proof.
  intros P c C. induction k as [|k IH]; intros v dt cm d w dt' cm' d1 d2 X D H; [discriminate|]. cbn [content_loop] in H. destruct (next_token d) as [t d'|e d'|] eqn:N; try discriminate. destruct (next_read _ _ _ D N) as [T D'].
  destruct t; try exact (IH _ _ _ _ _ _ _ _ _ X D' H).
  - destruct (c v n a d') as [(v', d'')| | |] eqn:E; try discriminate. cbn [bind] in H. destruct T as [T1 T2]. destruct (C _ _ _ _ _ _ T1 T2 D' E) as [D2 PV]. destruct (IH _ _ _ _ _ _ _ _ _ X D2 H) as (H1 & H2 & H3). auto.
  - injection H as <- <- _ _ <-. auto.
  - apply (IH _ _ _ _ _ _ _ _ _) with (2 := D') in H; [exact H|]. apply xml_text_app; assumption.
Qed.
Lemma skip_loop_read : forall k n d d', holds_text d -> skip_loop k n d = Ok d' -> holds_text d'.
Proof.
  induction k as [|k IH]; intros n d d' D H; [discriminate|]. cbn [skip_loop] in H. destruct (next_token d) as [t d1|e d1|] eqn:N; try discriminate. destruct (next_read _ _ _ D N) as [_ D1]. destruct t; try exact (IH _ _ _ D1 H). destruct n; [injection H as <-; exact D1|exact (IH _ _ _ D1 H)].
Qed.
Lemma skip_legible : forall P k, child_legible P (skip_child k).
Proof.
  intros P k v n a d w d' _ _ D E. unfold skip_child, skip in E. destruct (skip_loop k 0 d) eqn:S; try discriminate. injection E as <- <-. split; [exact (skip_loop_read _ _ _ _ D S)|auto].
Qed.
Definition reader_legible (r : reader) : Prop := forall t v n a d w d', name_read n -> Forall attr_read a -> holds_text d -> r t v n a d = Ok (w, d') -> holds_text d' /\ (legible env t v -> legible env t w /\ solid w).
Lemma update_reads : forall (read : reader) s idx v n a d v' d', reader_legible read -> name_read n -> Forall attr_read a -> holds_text d -> update_at ek env s idx v (fun t w => read t w n a d) = Ok (v', d') ->
  holds_text d' /\ (legible env (TStruct s) v -> legible env (TStruct s) v').
Proof.
  intros read s idx v n a d v' d' R N A D E. destruct (update_legible _ _ _ _ _ _ _ _ E) as [(fd & u & u' & _ & X) U]. split; [exact (proj1 (R _ _ _ _ _ _ _ N A D X))|]. apply U. clear U E.
  intros fd1 w1 w2 D1 [L|L] Y; [left; exact L|right]. exact (proj1 (proj2 (R _ _ _ _ _ _ _ N A D Y) L)).
Qed.
Lemma path_legible : forall k read s fs, reader_legible read -> forall q ps v n a d v' d', name_read n -> Forall attr_read a -> holds_text d -> path_child env ek q k read s fs ps v n a d = Ok (Some (v', d')) -> holds_text d' /\ (legible env (TStruct s) v -> legible env (TStruct s) v').
Proof.
  intros k read s fs R. induction q as [|q IH]; intros ps v n a d v' d' N A D H; [discriminate|]. cbn [path_child] in H. destruct (find_path fs ps n) as [f|ps'|]; try discriminate.
  - match type of H with bind ?c _ = _ => destruct c as [(w', d1)| | |] eqn:E end; try discriminate. injection H as <- <-. exact (update_reads _ _ _ _ _ _ _ _ _ R N A D E).
  - match type of H with bind ?c _ = _ => destruct c as [((((w', dt), cm), d1), d2)| | |] eqn:E end; try discriminate. injection H as <- <-. eapply (content_legible (legible env (TStruct s))) in E; [destruct E as (_ & E1 & E2); split; assumption| |constructor|exact D].
    intros v1 n1 a1 d1' w1 d2' N1 A1 D1 E1. specialize (IH ps' v1 n1 a1 d1'). destruct (path_child env ek q k read s fs ps' v1 n1 a1 d1') as [[y|]| | |]; try discriminate; cbn [bind] in E1.
    + injection E1 as ->. exact (IH _ _ N1 A1 D1 eq_refl).
    + exact (skip_legible _ k _ _ _ _ _ _ N1 A1 D1 E1).
Qed.
Lemma touch_legible : forall s f v w, touch env ek s f v = Ok w -> legible env (TStruct s) v -> legible env (TStruct s) w.
Proof.
  intros s [f|] v w H P; [|injection H as <-; exact P]. cbn [touch] in H. match type of H with bind ?c _ = _ => destruct c as [(w', [])| | |] eqn:E end; try discriminate. injection H as <-.
  destruct (update_legible _ _ _ _ _ _ _ _ E) as [_ U]. apply U; [|exact P]. intros fd u u' D L X. injection X as <-. exact L.
Qed.
Lemma struct_solid : forall s v, legible env (TStruct s) v -> solid v.
Proof. intros s v L. split; intros ->; exact L. Qed.
Lemma body_legible : forall read k, reader_legible read -> forall t v n a d w d', name_read n -> Forall attr_read a -> holds_text d -> unmarshal_body F env ek read k t v n a d = Ok (w, d') -> holds_text d' /\ (legible env t v -> legible env t w /\ solid w).
Proof.
  intros read k R t v n a d w d' N A D H. unfold unmarshal_body in H.
  assert (SIMPLE : (do r <- content_loop k (skip_child k) v [] [] d ; let '(_, data, _, _, d') := r in do x <- copy_value F t data ; Ok (x, d')) = Ok (w, d') -> holds_text d' /\ (legible env t v -> legible env t w /\ solid w)).
  { intros X. destruct (content_loop k (skip_child k) v [] [] d) as [((((v', dt), cm), d1), d2)| | |] eqn:C; try discriminate. cbn [bind] in X. apply (content_legible (fun _ => True)) in C; [|apply skip_legible|constructor|exact D]. destruct C as (C1 & C2 & _).
    destruct (copy_value F t dt) as [x| | |] eqn:CV; try discriminate. injection X as <- <-. split; [exact C2|]. intros _. exact (copy_legible _ env _ _ _ C1 CV). }
  destruct t as [| | | | | | | |t|s| |]; try exact (SIMPLE H); try discriminate.
  - destruct v as [| | | | | |l| | |]; try discriminate. destruct (read t (zero_of env ek t) n a d) as [(x, d'')| | |] eqn:E; try discriminate. injection H as <- <-. destruct (R _ _ _ _ _ _ _ N A D E) as [D2 L]. split; [exact D2|]. intros P. destruct (L (legible_zero env ek t)) as [L1 L2]. apply legible_snoc; assumption.
  - destruct (type_info ek env s) as [ti| | |] eqn:TI; try discriminate.
    match type of H with bind ?c _ = _ => destruct c as [v1| | |] eqn:E1 end; try discriminate. cbn [bind] in H.
    assert (P1 : legible env (TStruct s) v -> legible env (TStruct s) v1).
    { intros P. destruct (ti_xmlname ti) as [x|]; [|injection E1 as <-; exact P]. match type of E1 with (if ?c then _ else _) = _ => destruct c; [discriminate|] end.
      match type of E1 with bind ?c _ = _ => destruct c as [(w', [])| | |] eqn:E end; try discriminate. injection E1 as <-. destruct (update_legible _ _ _ _ _ _ _ _ E) as [_ U]. apply U; [|exact P].
      intros fd u u' D' L X. injection X as <-. destruct (fd_type fd) eqn:T; try exact L. right. exact N. }
    destruct (set_attrs F env ek ti s v1 a) as [v2| | |] eqn:E2; try discriminate. cbn [bind] in H. assert (P2 : legible env (TStruct s) v -> legible env (TStruct s) v2) by (intros P; exact (set_attrs_legible _ _ _ _ _ A (P1 P) E2)). clear E1 E2 P1.
    destruct (touch env ek s _ v2) as [v3| | |] eqn:E3; try discriminate. cbn [bind] in H. destruct (touch env ek s _ v3) as [v4| | |] eqn:E4; try discriminate. cbn [bind] in H. destruct (touch env ek s _ v4) as [v5| | |] eqn:E5; try discriminate. cbn [bind] in H. destruct (touch env ek s _ v5) as [v6| | |] eqn:E6; try discriminate. cbn [bind] in H.
    assert (P6 : legible env (TStruct s) v -> legible env (TStruct s) v6) by (intros P; exact (touch_legible _ _ _ _ E6 (touch_legible _ _ _ _ E5 (touch_legible _ _ _ _ E4 (touch_legible _ _ _ _ E3 (P2 P)))))). clear E3 E4 E5 E6 P2.
    match type of H with bind ?c _ = _ => destruct c as [((((v7, dt), cm), d1), d2)| | |] eqn:E7 end; try discriminate. cbn [bind] in H. apply (content_legible (legible env (TStruct s))) in E7; [|clear H|constructor|exact D].
    2: { intros vv n1 a1 d1' w1 d2' N1 A1 D1 X. destruct (path_child env ek _ k read s (ti_fields ti) [] vv n1 a1 d1') as [[[y1 y2]|]| | |] eqn:PC; try discriminate; cbn [bind] in X.
      - injection X as -> ->. exact (path_legible _ _ _ _ R _ _ _ _ _ _ _ _ N1 A1 D1 PC).
      - destruct (first_mode is_any (ti_fields ti)); [|exact (skip_legible _ k _ _ _ _ _ _ N1 A1 D1 X)]. exact (update_reads _ _ _ _ _ _ _ _ _ R N1 A1 D1 X). }
    destruct E7 as (X7 & D7 & P7).
    match type of H with bind ?c _ = _ => destruct c as [v8| | |] eqn:E8 end; try discriminate. cbn [bind] in H.
    assert (P8 : legible env (TStruct s) v7 -> legible env (TStruct s) v8).
    { intros P. destruct (first_mode is_data (ti_fields ti)); [|injection E8 as <-; exact P]. match type of E8 with bind ?c _ = _ => destruct c as [(w', [])| | |] eqn:E end; try discriminate. injection E8 as <-.
      destruct (update_legible _ _ _ _ _ _ _ _ E) as [_ U]. apply U; [|exact P]. intros fd u u' D' L X. unfold with_unit in X. destruct (copy_value F (fd_type fd) dt) eqn:CV; try discriminate. injection X as <-. right. exact (proj1 (copy_legible _ env _ _ _ X7 CV)). }
    match type of H with bind ?c _ = _ => destruct c as [v9| | |] eqn:E9 end; try discriminate. cbn [bind] in H.
    assert (P9 : legible env (TStruct s) v8 -> legible env (TStruct s) v9).
    { intros P. destruct (first_mode is_comment (ti_fields ti)) as [f|] eqn:FM; [|injection E9 as <-; exact P]. match type of E9 with bind ?c _ = _ => destruct c as [(w', [])| | |] eqn:E end; try discriminate. injection E9 as <-.
      destruct (update_legible _ _ _ _ _ _ _ _ E) as [_ U]. apply U; [|exact P]. intros fd u u' D' L X. left. apply first_mode_in in FM. destruct FM as [FM1 FM2]. rewrite (field_flags _ _ _ _ _ _ TI FM1 D') in FM2. unfold unchecked. rewrite FM2. apply orb_true_r. }
    match type of H with bind ?c _ = _ => destruct c as [va| | |] eqn:EA end; try discriminate. injection H as <- <-. split; [exact D7|]. intros P.
    assert (PA : legible env (TStruct s) v9 -> legible env (TStruct s) va).
    { clear P. intros P. destruct (first_mode is_inner (ti_fields ti)) as [f|] eqn:FM; [|injection EA as <-; exact P]. match type of EA with bind ?c _ = _ => destruct c as [(w', [])| | |] eqn:E end; try discriminate. injection EA as <-.
      destruct (update_legible _ _ _ _ _ _ _ _ E) as [_ U]. apply U; [|exact P]. intros fd u u' D' L X. left. apply first_mode_in in FM. destruct FM as [FM1 FM2]. rewrite (field_flags _ _ _ _ _ _ TI FM1 D') in FM2. unfold unchecked. rewrite FM2. reflexivity. }
    assert (L : legible env (TStruct s) va) by (apply PA, P9, P8, P7, P6; exact P). split; [exact L|exact (struct_solid _ _ L)].
  - destruct (content_loop k (skip_child k) (VName n) [] [] d) as [((((v', dt), cm), d1), d2)| | |] eqn:C; try discriminate. apply (content_legible (fun _ => True)) in C; [|apply skip_legible|constructor|exact D]. destruct C as (_ & C2 & _). injection H as <- <-. split; [exact C2|]. intros _. split; [exact N|split; discriminate].
Qed.
Lemma unmarshal_legible : forall r k, reader_legible (unmarshal F env ek r k).
Proof.
  induction r as [|r IH]; intros k t v n a d w d' N A D H; [discriminate|]. cbn [unmarshal] in H. destruct t; try exact (body_legible _ _ (IH k) _ _ _ _ _ _ _ N A D H).
  match type of H with bind ?c _ = _ => destruct c as [(w', d'')| | |] eqn:E end; try discriminate. injection H as <- <-. destruct (body_legible _ _ (IH k) _ _ _ _ _ _ _ N A D E) as [D2 L]. split; [exact D2|]. intros P.
  destruct L as [L [S1 S2]]; [destruct v; try apply legible_zero; exact (proj2 P)|]. split; [split; assumption|split; discriminate].
Qed.
Lemma decode_legible : forall k t v inp w, legible env t v -> decode F env ek k t v inp = Ok w -> legible env t w.
Proof.
  intros k t v inp w P H. unfold decode in H. generalize dependent max_depth. intros M H.
  destruct (find_start k (new_decoder inp)) as [((n, a), d)| | |] eqn:FS; try discriminate. cbn [bind] in H.
  destruct (unmarshal F env ek M k t v n a d) as [(w', d')| | |] eqn:E; try discriminate. injection H as <-.
  assert (S : name_read n /\ Forall attr_read a /\ holds_text d).
  { clear E w' d' M P v t. generalize (new_holds inp). revert FS. generalize (new_decoder inp). induction k as [|k IH]; intros d0 FS D; [discriminate|]. cbn [find_start] in FS.
    destruct (next_token d0) as [t d'|e d'|] eqn:N; try discriminate. destruct (next_read _ _ _ D N) as [T D']. destruct t; try exact (IH _ FS D'). injection FS as <- <- <-. destruct T as [T1 T2]. auto. }
  destruct S as (S1 & S2 & S3). destruct (unmarshal_legible _ _ _ _ _ _ _ _ _ S1 S2 S3 E) as [_ L]. exact (proj1 (L P)).
Qed.
End Reading.
