(** Claims about the decoder reading its input byte by byte, with every option (xml/xml.go:142-1277). *)
From Coq Require Import String.
From Coq Require Import ZArith List Bool Lia.
From Coq Require Import ZifyBool ZifyNat.
From Verif Require Import Base Utf8 NameTables Lexer Decoder ByteDecoder ByteRuns ByteLoud ByteSim ByteToken BytePlace ByteScope ByteLoose ByteEnd.
Import ListNotations.
Open Scope Z_scope.

(** The options of a new decoder. The second one reads leniently. *)
Definition std : cfg := mkcfg true [] beq (fun _ => None) None [].
Definition lax : cfg := mkcfg false [] beq (fun _ => None) None [].
Definition text (s : bytes) : bdec := new_bdec (mksrc s FEof).

(** *** C61: InputOffset and InputPos *)

(** The bytes before the place a decoder reports. *)
Definition consumed (r : source) (d : bdec) : bytes := firstn (Z.to_nat (input_offset (b_lex d))) (s_bytes r).

Theorem C61_places : forall r d k, after r d -> allowed k d ->
  exists t e d', perform k d = Some ((t, e), d') /\
    input_offset (b_lex d) <= input_offset (b_lex d') <= Z.of_nat (length (s_bytes r)) /\
    s_bytes r = consumed r d' ++ view (b_lex d') /\
    (e = None -> input_pos (b_lex d') = (line_of (consumed r d'), column_of (consumed r d'))) /\
    (forall msg n, e = Some (LSyntax msg n) -> n = line_of (consumed r d')) /\
    (forall m, e = Some (LRead (FFail m)) -> s_end r = FFail m /\ consumed r d' = s_bytes r).
Proof.
  intros r d k A K. destruct (after_steady r d A) as [o S].
  destruct (perform_reads _ _ _ k d K S) as (t & e & d' & E & S' & O & P & _ & _ & L & F).
  pose proof (place _ _ _ _ S') as (B & T & LN & PS). exists t, e, d'. split; [exact E|]. split; [lia|]. split; [exact T|]. split; [auto|].
  split; [intros msg n X; rewrite (L _ _ X); exact LN|]. intros m X. destruct (F m X) as [F1 F2]. split; [exact F1|].
  unfold consumed. rewrite F2, app_nil_r in T. symmetry. exact T.
Qed.
Print Assumptions C61_places.

(** What the two counts mean. *)
Lemma C61_line : forall p, line_of p = 1 + Z.of_nat (count_occ Z.eq_dec p 10).
Proof.
  induction p as [|b p IH]; [reflexivity|]. cbn [line_of count_occ]. rewrite IH. destruct (Z.eq_dec b 10); destruct (b =? 10) eqn:B; lia.
Qed.
Lemma C61_column : forall p q, ~ In 10 q -> column_of q = 1 + Z.of_nat (length q) /\ column_of (p ++ 10 :: q) = 1 + Z.of_nat (length q).
Proof.
  assert (H : forall q c, ~ In 10 q -> col_from c q = c + Z.of_nat (length q)).
  { induction q as [|b q IH]; intros c N; cbn [col_from length]; [lia|]. destruct (b =? 10) eqn:B; [exfalso; apply N; left; lia|].
    rewrite IH; [lia|]. intros X. apply N. right. exact X. }
  intros p q N. unfold column_of. split; [apply H; exact N|]. rewrite col_app. cbn [col_from]. apply H. exact N.
Qed.

Definition places (n : nat) (c : cfg) (d : bdec) : list (Z * (Z * Z)) :=
  (fix go (n : nat) (d : bdec) := match n with
   | O => []
   | S n => match Token c d with Some (_, d') => (input_offset (b_lex d'), input_pos (b_lex d')) :: go n d' | None => [] end
   end) n d.
Definition nl := [10].
Example C61_example :
  places 6 std (text (str "<a>" ++ nl ++ str "<b x='1'" ++ nl ++ str "/>t" ++ nl ++ str "</a>"))
  = [(3, (1, 4)); (4, (2, 1)); (15, (3, 3)); (15, (3, 3)); (17, (4, 1)); (21, (4, 5))].
Proof. vm_compute. reflexivity. Qed.

(** Behind an error the column can be wrong: the decoder put a line end back, but still counts columns from the line
    behind it. Here the place is (1, 3), and InputPos says (1, 0). *)
Theorem C61_refuted : exists T d e, Token std (text T) = Some ((None, Some e), d) /\
  input_pos (b_lex d) <> (line_of (consumed (mksrc T FEof) d), column_of (consumed (mksrc T FEof) d)) /\ input_pos (b_lex d) = (1, 0).
Proof.
  exists (str "<1" ++ nl ++ str ">"). destruct (Token std (text (str "<1" ++ nl ++ str ">"))) as [[[t e] d]|] eqn:E; [|vm_compute in E; discriminate].
  vm_compute in E. inversion E; subst. do 2 eexists. split; [reflexivity|]. split; [vm_compute; discriminate | reflexivity].
Qed.
Print Assumptions C61_refuted.

(** *** C62: readers that fail *)

(** What a client sees of some calls: results, offsets and positions. *)
Fixpoint session (ks : list call) (d : bdec) : option (list ((option token * option lerr) * (Z * (Z * Z)))) :=
  match ks with
  | [] => Some []
  | k :: ks =>
      match perform k d with
      | None => None
      | Some (x, d') => option_map (cons (x, (input_offset (b_lex d'), input_pos (b_lex d')))) (session ks d')
      end
  end.
(** The reader's error in place of each error that reports the end of the input. *)
Definition reported (m : bytes) (e : lerr) : lerr :=
  match e with
  | LRead _ => LRead (FFail m)
  | LSyntax t n => if beq t (str "unexpected EOF") || beq t (str "unexpected EOF in CDATA section") then LRead (FFail m) else e
  | LOther _ => e
  end.
Lemma perform_swap : forall m k d, no_charset k -> no_eof (b_stk d) -> perform k (swap_dec m d) = option_map (swap_res m) (perform k d).
Proof. intros m [c|c] d NC NE; simpl in *; [apply token_swap | apply raw_swap]; auto. Qed.
Theorem C62_reader_error : forall T m ks, (forall k, In k ks -> no_charset k) ->
  session ks (new_bdec (mksrc T (FFail m))) =
  option_map (map (fun x => ((fst (fst x), option_map (reported m) (snd (fst x))), snd x))) (session ks (new_bdec (mksrc T FEof))).
Proof.
  intros T m ks NC. rewrite <- (new_swap m T FEof). assert (NE : no_eof (b_stk (new_bdec (mksrc T FEof)))) by (intros []).
  revert NE. generalize (new_bdec (mksrc T FEof)). induction ks as [|k ks IH]; intros d NE; [reflexivity|]. cbn [session].
  rewrite perform_swap by (auto; apply NC; left; reflexivity). destruct (perform k d) as [[[t e] d']|] eqn:E; [|reflexivity].
  assert (NE' : no_eof (b_stk d')) by (destruct k; [eapply token_no_eof; eauto | eapply rawtoken_no_eof; eauto]).
  cbn [option_map swap_res fst snd]. rewrite (IH (fun k H => NC k (or_intror H)) d' NE'). destruct (session ks d'); [|reflexivity].
  cbn [option_map map fst snd]. do 3 f_equal. destruct e as [[[]|t' n|]|]; reflexivity.
Qed.
Print Assumptions C62_reader_error.
Example C62_example :
  let calls := [CToken std; CToken std; CToken std] in
  option_map (map fst) (session calls (new_bdec (mksrc (str "<a>x<![CDATA[y") (FFail (str "broken pipe"))))) =
    Some [(Some (TStart (mkname [] (str "a")) []), None); (Some (TChar (str "x")), None); (None, Some (LRead (FFail (str "broken pipe"))))] /\
  option_map (map fst) (session calls (new_bdec (mksrc (str "<a>x<![CDATA[y") FEof))) =
    Some [(Some (TStart (mkname [] (str "a")) []), None); (Some (TChar (str "x")), None);
          (None, Some (LSyntax (str "unexpected EOF in CDATA section") 1))].
Proof. vm_compute. split; reflexivity. Qed.

(** *** C63: inner XML *)

Theorem C63_inner : forall r d k n a d1 d2, after r d -> allowed k d -> perform k d = Some ((Some (TStart n a), None), d1) ->
  let '(i, s) := begin_save (b_lex d1) in
  later (with_lex s d1) d2 ->
  exists j s', saved_offset (b_lex d2) = Some j /\
    end_save i j (b_lex d2) = Some (between (s_bytes r) (input_offset (b_lex d1)) (input_offset (b_lex d2)), s').
Proof.
  intros r d k n a d1 d2 A K E. destruct (after_steady r d A) as [o S].
  destruct (perform_reads _ _ _ k d K S) as (t & e & d' & E' & S' & _ & _ & N & _). rewrite E in E'. inversion E'; subst.
  pose proof (inner _ _ _ d' d2 S' (N eq_refl)) as I. destruct (begin_save (b_lex d')) as [i s]. exact I.
Qed.
Print Assumptions C63_inner.
(** The capture of an element inside that of another one. *)
Definition run (n : nat) (d : bdec) : bdec :=
  (fix go (n : nat) (d : bdec) := match n with O => d | S n => match Token std d with Some (_, d') => go n d' | None => d end end) n d.
Example C63_example :
  let d1 := run 1 (text (str "<a> <b q='1'>x</b><!--c--></a>")) in
  let '(i1, s1) := begin_save (b_lex d1) in
  let d2 := run 2 (with_lex s1 d1) in
  let '(i2, s2) := begin_save (b_lex d2) in
  let d3 := run 1 (with_lex s2 d2) in
  let d4 := run 2 d3 in
  (match saved_offset (b_lex d3) with Some j => option_map fst (end_save i2 j (b_lex d3)) | None => None end) = Some (str "x") /\
  (match saved_offset (b_lex d4) with Some j => option_map fst (end_save i1 j (b_lex d4)) | None => None end) = Some (str " <b q='1'>x</b><!--c-->").
Proof. vm_compute. split; reflexivity. Qed.

(** *** C64: lenient decoders *)

Theorem C64_lenient : forall c r ts d, c_strict c = true -> got_tokens c (new_bdec r) ts d -> got_tokens (lenient c) (new_bdec r) ts d.
Proof.
  intros c r ts d ST G. cut (got_tokens (lenient c) (new_bdec r) ts d /\ b_tok d = None); [tauto|].
  induction G as [|ts d1 t d2 G [IH TK] E]; [split; [constructor | reflexivity]|].
  destruct (token_agree c d1 t d2 ST TK E) as [E2 TK2]. split; [econstructor; eauto | exact TK2].
Qed.
Print Assumptions C64_lenient.

(** Each end closes the innermost open element: by its local name, or by its whole name. *)
Fixpoint balanced (key : name -> bytes * bytes) (open : list (bytes * bytes)) (ts : list (option token)) : Prop :=
  match ts with
  | [] => True
  | Some (TStart n _) :: ts => balanced key (key n :: open) ts
  | Some (TEnd n) :: ts => match open with o :: open => key n = o /\ balanced key open ts | [] => False end
  | _ :: ts => balanced key open ts
  end.
Definition by_local (n : name) : bytes * bytes := ([], local n).
Definition by_name (n : name) : bytes * bytes := (space n, local n).

(** The names given for the open elements, from the stack; [m] the bindings at that place. *)
Fixpoint levels (c : cfg) (stk : list bent) (m : nsmap) (os : list name) : Prop :=
  match stk with
  | [] => os = []
  | BStart n :: stk => match os with o :: os => o = translate_b c m n true /\ levels c stk m os | [] => False end
  | BNs p u ok :: stk => levels c stk (if ok then ns_set m p u else ns_del m p) os
  | BEof :: stk => levels c stk m os
  end.
Lemma translate_ext : forall c m m' n b, (forall p, m p = m' p) -> translate_b c m n b = translate_b c m' n b.
Proof. intros c m m' n b H. unfold translate_b. rewrite !H. reflexivity. Qed.
Lemma levels_ext : forall c stk m m' os, (forall p, m p = m' p) -> levels c stk m os -> levels c stk m' os.
Proof.
  intros c. induction stk as [|[n|p u ok|] stk IH]; intros m m' os H L; cbn [levels] in *; auto.
  - destruct os as [|o os]; [contradiction|]. destruct L as [-> L]. split; [apply translate_ext; exact H | eauto].
  - eapply IH; [|exact L]. intros q. destruct ok; unfold ns_set, ns_del; rewrite H; reflexivity.
  - eauto.
Qed.
Lemma undo_levels : forall c stk m os, levels c stk m os -> levels c (fst (undo_b stk m)) (snd (undo_b stk m)) os.
Proof. intros c. induction stk as [|[n|p u ok|] stk IH]; intros m os L; simpl; auto. Qed.
Lemma beq_true : forall a b, beq a b = true -> a = b. Proof. intros a b H. apply beq_eq. exact H. Qed.
Lemma push_levels : forall c p v stk m os, levels c stk m os -> levels c (fst (push_ns p v (stk, m))) (snd (push_ns p v (stk, m))) os.
Proof.
  intros c p v stk m os L. simpl. destruct (m p) as [u|] eqn:E; cbn [levels]; (eapply levels_ext; [|exact L]); intros q; unfold ns_set, ns_del;
  destruct (beq q p) eqn:B; auto; apply beq_true in B; subst; auto.
Qed.
Lemma declare_levels : forall c a stk m os, levels c stk m os ->
  levels c (fst (fst (declare_b a (stk, m)))) (snd (fst (declare_b a (stk, m)))) os.
Proof.
  intros c. induction a as [|[n v] a IH]; intros stk m os L; cbn [declare_b]; [exact L|].
  destruct (beq (space n) xmlnsPrefix && beq v []); [exact L|]. destruct (beq (space n) xmlnsPrefix && beq (local n) []); [exact L|].
  cbv zeta. destruct (beq (space n) xmlnsPrefix), (beq (space n) [] && beq (local n) xmlnsPrefix);
    repeat match goal with |- context [push_ns ?p ?v (?s, ?m)] =>
      let H := fresh in pose proof (push_levels c p v s m) as H; destruct (push_ns p v (s, m)) as [? ?]; cbn [fst snd] in H end; apply IH; auto.
Qed.
Lemma rawb_rest : forall c d t d', raw_b c d = Some (t, d') -> b_stk d' = b_stk d /\ b_ns d' = b_ns d /\ b_tok d' = b_tok d /\ b_depth d' = b_depth d.
Proof.
  intros c d t d' E. unfold raw_b in E. destruct (b_err d); [inversion E; auto|]. destruct (b_close d); [inversion E; auto|].
  destruct (raw_token_b c (b_lex d)) as [[[[? ?]|] ?]|]; inversion E; auto.
Qed.
(** In strict mode Token passes the token of rawToken on, and nothing waits. *)
Lemma strict_token : forall c d t d', c_strict c = true -> b_tok d = None -> Token c d = Some ((t, None), d') ->
  exists t0 d0, finish c t0 d0 = ((t, None), d') /\ b_stk d0 = b_stk d /\ b_ns d0 = b_ns d /\ b_tok d0 = None /\ b_depth d0 = b_depth d.
Proof.
  intros c d t d' ST TK E. unfold Token, auto in E. rewrite TK, ST in E.
  assert (M : match raw_b c d with
              | Some (t0, d0) => match t0, b_err d0 with None, Some e => False | _, _ => finish c t0 d0 = ((t, None), d') end
              | None => False end).
  { destruct (b_stk d) as [|[n|p u ok|] stk]; try discriminate;
    (destruct (raw_b c d) as [[[t0|] d0]|]; [inversion E; reflexivity | | discriminate]; destruct (b_err d0); inversion E; reflexivity). }
  destruct (raw_b c d) as [[t0 d0]|] eqn:R; [|contradiction]. destruct (rawb_rest _ _ _ _ R) as (R1 & R2 & R3 & R4).
  exists t0, d0. rewrite R1, R2, R3, R4. split; [|auto]. destruct t0; [exact M|]. destruct (b_err d0); [contradiction | exact M].
Qed.

Definition open_after (key : name -> bytes * bytes) (o : list (bytes * bytes)) (t : option token) : list (bytes * bytes) :=
  match t with Some (TStart n _) => key n :: o | Some (TEnd _) => tl o | _ => o end.
Lemma balanced_app : forall key ts open t, balanced key open (ts ++ [t]) <->
  balanced key open ts /\ balanced key (fold_left (open_after key) ts open) [t].
Proof.
  intros key. induction ts as [|[[n a|n| | | |]|] ts IH]; intros open t; cbn [app balanced fold_left]; try apply IH; try tauto.
  destruct open as [|o open]; [tauto|]. cbn [tl]. specialize (IH open t). tauto.
Qed.
Lemma finish_levels : forall c t0 d0 t d' os, c_strict c = true -> finish c t0 d0 = ((t, None), d') -> levels c (b_stk d0) (b_ns d0) os ->
  balanced by_name (map by_name os) [t] /\ exists os', levels c (b_stk d') (b_ns d') os' /\ map by_name os' = open_after by_name (map by_name os) t.
Proof.
  intros c t0 d0 t d' os ST F L.
  destruct t0 as [[n a|n| | | |]|]; cbn [finish] in F; try (inversion F; subst t d'; split; [exact I | exists os; split; [exact L | reflexivity]]).
  - pose proof (declare_levels c a _ _ _ L) as L2. destruct (declare_b a (b_stk d0, b_ns d0)) as [[stk m] [e|]]; [discriminate|].
    cbn [fst snd] in L2. inversion F; subst t d'. split; [exact I|]. exists (translate_b c m n true :: os). split; [|reflexivity].
    simpl. split; [reflexivity | exact L2].
  - unfold pop_b in F. destruct (b_stk d0) as [|[s|p u ok|] stk]; try discriminate F. rewrite ST in F. cbn [negb] in F.
    destruct (beq (local s) (local n)) eqn:B1; [|discriminate F]. destruct (beq (space s) (space n)) eqn:B2; [|discriminate F]. cbn [negb] in F.
    apply beq_true in B1. apply beq_true in B2. assert (s = n) by (destruct s, n; simpl in *; congruence). subst s.
    cbn [levels] in L. destruct os as [|o os]; [contradiction|]. destruct L as [-> L]. apply undo_levels in L.
    cbn [b_ns with_stk] in F. destruct (undo_b stk (b_ns d0)) as [stk' m']. inversion F; subst t d'.
    split; [split; [reflexivity | exact I]|]. exists os. split; [exact L | reflexivity].
Qed.
Theorem C64_strict_balanced : forall c r ts d, c_strict c = true -> got_tokens c (new_bdec r) ts d -> balanced by_name [] ts.
Proof.
  intros c r ts d ST G.
  cut (balanced by_name [] ts /\ b_tok d = None /\ exists os, levels c (b_stk d) (b_ns d) os /\
       map by_name os = fold_left (open_after by_name) ts []); [tauto|].
  induction G as [|ts d1 t d2 G (B & TK & os & L & M) E]; [split; [exact I|]; split; [reflexivity|]; exists []; split; reflexivity|].
  destruct (token_agree c d1 t d2 ST TK E) as [_ TK2]. destruct (strict_token c d1 t d2 ST TK E) as (t0 & d0 & F & S0 & N0 & _).
  rewrite <- S0, <- N0 in L. destruct (finish_levels c t0 d0 t d2 os ST F L) as (B2 & os' & L2 & M2).
  rewrite balanced_app, fold_left_app, <- M. cbn [fold_left]. split; [split; assumption|]. split; [exact TK2|]. exists os'. split; assumption.
Qed.
Print Assumptions C64_strict_balanced.

(** With any options the ends have the local names of the starts. *)
Fixpoint opened (stk : list bent) : list bytes :=
  match stk with [] => [] | BStart n :: stk => local n :: opened stk | _ :: stk => opened stk end.
Lemma opened_undo : forall stk m, opened (fst (undo_b stk m)) = opened stk.
Proof. induction stk as [|[n|p u ok|] stk IH]; intros m; simpl; auto. Qed.
Lemma opened_declare : forall a stk m, opened (fst (fst (declare_b a (stk, m)))) = opened stk.
Proof.
  assert (P : forall p v stk m, opened (fst (push_ns p v (stk, m))) = opened stk) by (intros; simpl; destruct (m p); reflexivity).
  induction a as [|[n v] a IH]; intros stk m; cbn [declare_b]; [reflexivity|].
  destruct (beq (space n) xmlnsPrefix && beq v []); [reflexivity|]. destruct (beq (space n) xmlnsPrefix && beq (local n) []); [reflexivity|].
  cbv zeta. destruct (beq (space n) xmlnsPrefix), (beq (space n) [] && beq (local n) xmlnsPrefix);
    repeat match goal with |- context [push_ns ?p ?v (?s, ?m)] =>
      let H := fresh in pose proof (P p v s m) as H; destruct (push_ns p v (s, m)) as [? ?]; cbn [fst] in H end; rewrite IH; congruence.
Qed.
Lemma translate_local : forall c m n b, local (translate_b c m n b) = local n.
Proof.
  intros c m n b. unfold translate_b. destruct (beq (space n) xmlnsPrefix); [reflexivity|]. destruct (beq (space n) [] && negb b); [reflexivity|].
  destruct (beq (space n) xmlPrefix); [destruct (m _); [reflexivity|]; destruct (beq _ _); reflexivity|].
  destruct (beq (space n) [] && beq (local n) xmlnsPrefix); [reflexivity|]. destruct (m (space n)); [reflexivity|]. destruct (beq (space n) []); reflexivity.
Qed.
Lemma finish_opened : forall c t0 d0 t d', finish c t0 d0 = ((t, None), d') ->
  match t with
  | Some (TStart n _) => opened (b_stk d') = local n :: opened (b_stk d0)
  | Some (TEnd n) => opened (b_stk d0) = local n :: opened (b_stk d')
  | _ => opened (b_stk d') = opened (b_stk d0)
  end.
Proof.
  intros c t0 d0 t d' F. destruct t0 as [[n a|n| | | |]|]; cbn [finish] in F; try (inversion F; subst; reflexivity).
  - pose proof (opened_declare a (b_stk d0) (b_ns d0)) as O. destruct (declare_b a (b_stk d0, b_ns d0)) as [[stk m] [e|]]; [discriminate|].
    inversion F; subst t d'. cbn [fst b_stk with_stk opened] in *. rewrite O, translate_local. reflexivity.
  - unfold pop_b in F. destruct (b_stk d0) as [|[s|p u ok|] stk]; try discriminate F.
    destruct (beq (local s) (local n)) eqn:B1; cbn [negb] in F.
    + destruct (beq (space s) (space n)); [|discriminate F]. cbn [negb b_ns with_stk] in F. pose proof (opened_undo stk (b_ns d0)) as O.
      destruct (undo_b stk (b_ns d0)) as [stk' m']. inversion F; subst t d'. cbn [fst b_stk with_stk opened] in *. rewrite O, translate_local.
      apply beq_true in B1. rewrite B1. reflexivity.
    + destruct (c_strict c); cbn [negb] in F; [discriminate F|]. inversion F; subst t d'. reflexivity.
Qed.
Lemma token_opened : forall c d t d', Token c d = Some ((t, None), d') ->
  match t with
  | Some (TStart n _) => opened (b_stk d') = local n :: opened (b_stk d)
  | Some (TEnd n) => opened (b_stk d) = local n :: opened (b_stk d')
  | _ => opened (b_stk d') = opened (b_stk d)
  end.
Proof.
  intros c d t d' E.
  assert (AUTO : forall t0 d0, (let '(t', d'') := auto c t0 d0 in Some (finish c t' d'')) = Some ((t, None), d') -> b_stk d0 = b_stk d ->
    match t with
    | Some (TStart n _) => opened (b_stk d') = local n :: opened (b_stk d)
    | Some (TEnd n) => opened (b_stk d) = local n :: opened (b_stk d')
    | _ => opened (b_stk d') = opened (b_stk d)
    end).
  { intros t0 d0 F S. pose proof (auto_stk c t0 d0) as A. destruct (auto c t0 d0) as [t' d'']. cbn [snd] in A. rewrite S in A. rewrite <- A. apply (finish_opened c t'). congruence. }
  unfold Token in E.
  assert (MAIN : match b_tok d with
      | Some t => let '(t', d') := auto c (Some t) (with_tok None d) in Some (finish c t' d')
      | None =>
          match raw_b c d with
          | None => None
          | Some (t, d') =>
              match t, b_err d' with
              | None, Some e =>
                  Some ((None, Some match e, b_stk d' with
                                    | LRead FEof, _ :: _ => LSyntax (str "unexpected EOF") (l_line (b_lex d'))
                                    | _, _ => e
                                    end), d')
              | _, _ => let '(t', d'') := auto c t d' in Some (finish c t' d'')
              end
          end
      end = Some ((t, None), d')) by (destruct (b_stk d) as [|[n|p u ok|] stk]; [exact E | exact E | exact E | discriminate E]).
  clear E. destruct (b_tok d) as [t0|]; [eapply AUTO; [exact MAIN | reflexivity]|].
  destruct (raw_b c d) as [[t0 d0]|] eqn:R; [|discriminate]. apply rawb_rest in R. destruct R as [R _].
  destruct t0 as [t0|]; [eapply AUTO; [exact MAIN | exact R]|]. destruct (b_err d0); [discriminate | eapply AUTO; [exact MAIN | exact R]].
Qed.
Theorem C64_balanced : forall c r ts d, got_tokens c (new_bdec r) ts d -> balanced by_local [] ts.
Proof.
  intros c r ts d G.
  cut (balanced by_local [] ts /\
       map (pair []) (opened (b_stk d)) = fold_left (open_after by_local) ts []); [tauto|].
  induction G as [|ts d1 t d2 G (B & M) E]; [split; [exact I | reflexivity]|].
  rewrite balanced_app, fold_left_app, <- M. cbn [fold_left]. apply token_opened in E.
  destruct t as [[n a|n| | | |]|]; rewrite ?E; cbn [map balanced tl open_after]; unfold by_local; auto.
Qed.
Print Assumptions C64_balanced.
Definition tokens (n : nat) (c : cfg) (d : bdec) : list (option token * option lerr) :=
  (fix go (n : nat) (d : bdec) := match n with O => [] | S n => match Token c d with Some (x, d') => x :: go n d' | None => [] end end) n d.
Lemma got_cons : forall c ts d t d1 d2, Token c d = Some ((t, None), d1) -> got_tokens c d1 ts d2 -> got_tokens c d (t :: ts) d2.
Proof.
  intros c ts d t d1 d2 E G. induction G as [|ts d2 t' d3 G IH E2].
  - change [t] with ([] ++ [t]). eapply got_more; [constructor | exact E].
  - change (t :: ts ++ [t']) with ((t :: ts) ++ [t']). eapply got_more; eauto.
Qed.
Lemma tokens_got : forall c ts d, tokens (length ts) c d = map (fun t => (t, None)) ts -> exists d', got_tokens c d ts d'.
Proof.
  intros c. induction ts as [|t ts IH]; intros d E; [exists d; constructor|]. unfold tokens in E. cbn [length map] in E.
  destruct (Token c d) as [[[t' e] d1]|] eqn:T; [|discriminate]. injection E as -> -> E. destruct (IH d1 E) as [d2 G]. exists d2.
  eapply got_cons; eauto.
Qed.
Definition nm (u l : string) : name := mkname (str u) (str l).
(** Not with their namespaces: the invented end has the prefix of the start tag as its namespace. *)
Theorem C64_refuted : exists T ts d, got_tokens lax (text T) ts d /\ ~ balanced by_name [] ts.
Proof.
  exists (str "<p:a xmlns:p='u'><p:b></p:a>").
  set (ts := [Some (TStart (nm "u" "a") [mkattr (mkname xmlnsURL (str "p")) (str "u")]); Some (TStart (nm "u" "b") []); Some (TEnd (nm "p" "b")); Some (TEnd (nm "u" "a"))]).
  destruct (tokens_got lax ts (text (str "<p:a xmlns:p='u'><p:b></p:a>"))) as [d G]; [vm_compute; reflexivity|].
  exists ts, d. split; [exact G|]. vm_compute. intros [H _]. discriminate H.
Qed.
Print Assumptions C64_refuted.
(** An element without its end tag that declares a namespace is not closed: the outer end tag is an error. *)
Example C64_declaring :
  tokens 4 lax (text (str "<a><b xmlns='u'></a>")) =
  [(Some (TStart (nm "" "a") []), None); (Some (TStart (nm "u" "b") [mkattr (nm "" "xmlns") (str "u")]), None);
   (Some (TEnd (nm "" "b")), None); (None, Some (LSyntax (str "unexpected end element") 1))].
Proof. vm_compute. reflexivity. Qed.
(** The byte behind an attribute without a value is dropped, here the > of the start tag. *)
Example C64_no_value :
  tokens 1 lax (text (str "<a b></a>")) = [(None, Some (LSyntax (str "expected attribute name in element") 1))] /\
  tokens 2 lax (text (str "<a b>>x</a>")) =
    [(Some (TStart (nm "" "a") [mkattr (nm "" "b") (str "b")]), None); (Some (TChar (str "x")), None)].
Proof. vm_compute. split; reflexivity. Qed.
(** AutoClose and an end tag left out. *)
Definition html : cfg := mkcfg false [str "br"] beq (fun s => if beq s (str "nbsp") then Some (str "_") else None) None [].
Example C64_example :
  tokens 9 html (text (str "<p>a<br>&nbsp;&b;<i>c</p>")) =
  [(Some (TStart (nm "" "p") []), None); (Some (TChar (str "a")), None); (Some (TStart (nm "" "br") []), None);
   (Some (TEnd (nm "" "br")), None); (Some (TChar (str "_&b;")), None); (Some (TStart (nm "" "i") []), None);
   (Some (TChar (str "c")), None); (Some (TEnd (nm "" "i")), None); (Some (TEnd (nm "" "p")), None)].
Proof. vm_compute. reflexivity. Qed.

(** *** C65: the decoder an UnmarshalXML method gets *)

Lemma depth_kept : forall c d t d', c_strict c = true -> b_tok d = None -> Token c d = Some ((t, None), d') -> b_depth d' = b_depth d.
Proof.
  intros c d t d' ST TK E. destruct (strict_token c d t d' ST TK E) as (t0 & d0 & F & _ & _ & _ & D). rewrite <- D.
  destruct t0 as [[n a|n| | | |]|]; cbn [finish] in F; try (inversion F; reflexivity).
  - destruct (declare_b a (b_stk d0, b_ns d0)) as [[stk m] [e|]]; [discriminate | inversion F; reflexivity].
  - unfold pop_b in F. rewrite ST in F. cbn [negb] in F. destruct (b_stk d0) as [|[s|p u ok|] stk]; try discriminate F.
    destruct (beq (local s) (local n)); [|discriminate F]. destruct (beq (space s) (space n)); [|discriminate F]. cbn [negb b_ns with_stk] in F.
    destruct (undo_b stk (b_ns d0)) as [stk' m']. inversion F; reflexivity.
Qed.
Lemma inside_depth : forall h d x, inside h d x -> b_depth x = b_depth d + 1.
Proof. intros h d x [hi n nss lo S S' F NS LO R]. rewrite R. reflexivity. Qed.
Lemma start_open : forall c d n a d1, c_strict c = true -> b_tok d = None -> Token c d = Some ((Some (TStart n a), None), d1) ->
  exists m l, b_stk d1 = BStart m :: l.
Proof.
  intros c d n a d1 ST TK E. destruct (strict_token c d _ d1 ST TK E) as (t0 & d0 & F & _).
  destruct t0 as [[n0 a0|n0| | | |]|]; cbn [finish] in F; try discriminate F.
  - destruct (declare_b a0 (b_stk d0, b_ns d0)) as [[stk m] [e|]]; [discriminate | inversion F; subst]. do 2 eexists. reflexivity.
  - destruct (pop_b c n0 d0) as [[m|] d'']; inversion F.
Qed.
Lemma got_depth : forall c d ts d', c_strict c = true -> b_tok d = None -> got_tokens c d ts d' -> b_depth d' = b_depth d /\ b_tok d' = None.
Proof.
  intros c d ts d' ST TK G. induction G as [|ts d1 t d2 G [D T] E]; [auto|]. destruct (token_agree c d1 t d2 ST T E) as [_ T2].
  split; [rewrite (depth_kept c d1 t d2 ST T E); exact D | exact T2].
Qed.
(** Behind a start tag the method sees the same tokens, and RawToken fails. A return before the end is noticed. Behind the
    end of the element there is io.EOF, and the decoder continues as if there had been no method. *)
Theorem C65_scope : forall c d n a d1, c_strict c = true -> b_tok d = None -> 0 <= b_depth d ->
  Token c d = Some ((Some (TStart n a), None), d1) ->
  exists x1, enter_scope d1 = Some x1 /\
  forall ts h d2, got_tokens c d1 ts d2 -> depth_of 0 ts = Some h ->
    exists x2, got_tokens c x1 ts x2 /\
      RawToken c x2 = Some ((None, Some errRawToken), x2) /\
      fst (leave_scope x2) = false /\
      (forall e d3, Token c d2 = Some ((None, Some e), d3) -> exists x3, Token c x2 = Some ((None, Some e), x3)) /\
      (forall m d3, h = 0%nat -> Token c d2 = Some ((Some (TEnd m), None), d3) ->
         exists x3, Token c x2 = Some ((Some (TEnd m), None), x3) /\
           Token c x3 = Some ((None, Some (LRead FEof)), x3) /\ leave_scope x3 = (true, d3)).
Proof.
  intros c d n a d1 ST TK DP E. destruct (start_open c d n a d1 ST TK E) as (m & l & S).
  destruct (enter_inside d1 m l S) as (x1 & EN & I). exists x1. split; [exact EN|]. intros ts h d2 G D.
  destruct (token_agree c d _ d1 ST TK E) as [_ TK1]. destruct (tokens_inside c 0 d1 x1 ts d2 ST TK1 I G h D) as (x2 & G2 & I2 & TK2).
  exists x2. split; [exact G2|]. split.
  { unfold RawToken. rewrite (inside_depth _ _ _ I2). destruct (got_depth c d1 ts d2 ST TK1 G) as [D2 _]. rewrite D2, (depth_kept c d _ d1 ST TK E).
    assert (X : (0 <? b_depth d + 1) = true) by lia. rewrite X. reflexivity. }
  split; [eapply inside_leave; exact I2|]. pose proof (token_inside c h d2 x2 ST TK2 I2) as T.
  split; [intros e d3 X; rewrite X in T; destruct T as (x3 & X3 & _); exists x3; exact X3|].
  intros m0 d3 -> X. rewrite X in T. destruct T as (x3 & X3 & _ & K). specialize (K eq_refl). cbn [more] in K. exists x3.
  split; [exact X3|]. apply closed_end. exact K.
Qed.
Print Assumptions C65_scope.
Example C65_example :
  let d1 := run 2 (text (str "<a xmlns='u'><b xmlns='v'><c/>t</b><d/></a>")) in
  match enter_scope d1 with
  | None => False
  | Some x1 =>
      map fst (tokens 6 std x1) = [Some (TStart (nm "v" "c") []); Some (TEnd (nm "v" "c")); Some (TChar (str "t")); Some (TEnd (nm "v" "b")); None; None] /\
      map snd (tokens 6 std x1) = [None; None; None; None; Some (LRead FEof); Some (LRead FEof)] /\
      fst (leave_scope (run 3 x1)) = false /\ fst (leave_scope (run 4 x1)) = true /\
      map fst (tokens 2 std (snd (leave_scope (run 4 x1)))) = [Some (TStart (nm "u" "d") []); Some (TEnd (nm "u" "d"))]
  end.
Proof. vm_compute. repeat split. Qed.

(** *** C66: what tokens depend on *)

(** The tokens of Decoder.v, which has neither a buffer nor a byte put back nor a table of names. *)
Fixpoint reference (n : nat) (d : dstate) : list (token + derr) :=
  match n with
  | O => []
  | S n => match next_token d with
           | TokOk t d' => inl t :: reference n d'
           | TokErr e d' => inr e :: reference n d'
           | TokFuel => []
           end
  end.
(** The same token, with nil for text of length 0 where a > was found; or the same error. *)
Definition same_result (fe : rfail) (R : token + derr) (x : option token * option lerr) : Prop :=
  match R with
  | inl t => x = (Some t, None) \/ x = (None, None) /\ t = TChar []
  | inr e => exists line, x = (None, Some (low_err fe e line))
  end.
Theorem C66_reference : forall c r n, usual c ->
  length (tokens n c (new_bdec r)) = n /\ Forall2 (same_result (s_end r)) (reference n (new_decoder (s_bytes r))) (tokens n c (new_bdec r)).
Proof.
  intros c r n U. pose proof (new_like r) as K. revert K. generalize (new_decoder (s_bytes r)) (new_bdec r).
  induction n as [|n IH]; intros d x K; [split; [reflexivity | constructor]|].
  pose proof (token_like c (s_end r) d x U K) as T. unfold same_token in T. unfold tokens. fold tokens. cbn [reference].
  destruct (next_token d) as [t d'|e d'|]; [| |contradiction].
  - destruct T as (x' & M & K'). destruct (IH d' x' K') as [LN F]. destruct M as [M|[M Z]]; rewrite M; (split; [simpl; f_equal; exact LN|]); constructor; try exact F; simpl; auto.
  - destruct T as (x' & M & K'). destruct (IH d' x' K') as [LN F]. rewrite M. split; [simpl; f_equal; exact LN|]. constructor; [simpl; eauto | exact F].
Qed.
Print Assumptions C66_reference.
Example C66_example : reference 4 (new_decoder (str "<a>x</b>")) =
  [inl (TStart (nm "" "a") []); inl (TChar (str "x")); inr (ESyntax (str "element closed by another")); inr (ESyntax (str "element closed by another"))].
Proof. vm_compute. reflexivity. Qed.
