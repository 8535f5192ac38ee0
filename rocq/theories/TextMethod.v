(** Theorems C80: values with an UnmarshalText method get the text of their element (xml/read.go:230-255). *)
From Coq Require Import String.
From Coq Require Import ZArith List Bool Lia.
From Coq Require Import ZifyBool ZifyNat.
From Verif Require Import Base Utf8 Lexer Escape EscapeSpec Decoder DecoderSpec DecoderProofs GoType TypeInfo Simple Marshal Unmarshal PropertiesDecoder CdataProofs PropertiesNamespace Printer Writer PropertiesWriter EncoderSpec TagText NsSpec NsProofs NsHistory NsTags Plan PlanText RoundTripRoot Methods.
From Verif Require Import RoundTripTest ReadText PropertiesReadText.
Import ListNotations.
Local Open Scope nat_scope.

(** ** Model *)
(** xml/read.go:235-253 the loop of unmarshalTextInterface, with a budget of tokens; [depth] is one less than in the
    code, where the loop ends at zero.  The result is what UnmarshalText is called with. *)
Fixpoint text_loop (k : nat) (depth : nat) (buf : bytes) (d : dstate) : outcome derr (bytes * dstate) :=
  match k with
  | O => OutOfFuel
  | S k =>
      match next_token d with
      | TokFuel => OutOfFuel
      | TokErr e _ => Err e
      | TokOk t d' =>
          match t with
          | TChar s => text_loop k depth (match depth with O => buf ++ s | S _ => buf end) d'
          | TStart _ _ => text_loop k (S depth) buf d'
          | TEnd _ => match depth with O => Ok (buf, d') | S p => text_loop k p buf d' end
          | _ => text_loop k depth buf d'
          end
      end
  end.

(** ** Specification *)
(** The character data of a sequence of tokens that is in none of its elements. *)
Fixpoint own_text (depth : nat) (ts : list token) : bytes :=
  match ts with
  | [] => []
  | TChar s :: ts => match depth with O => s ++ own_text O ts | S _ => own_text depth ts end
  | TStart _ _ :: ts => own_text (S depth) ts
  | TEnd _ :: ts => own_text (pred depth) ts
  | _ :: ts => own_text depth ts
  end.

(** ** Proofs *)
Lemma text_sound : forall k depth buf d s d', text_loop k depth buf d = Ok (s, d') ->
  exists body n d1, calls d body d1 /\ next_token d1 = TokOk (TEnd n) d' /\ depth_after depth body = Some O /\ s = buf ++ own_text depth body.
Proof.
  induction k as [|k IH]; intros depth buf d s d' H; [discriminate|]. cbn [text_loop] in H. destruct (next_token d) as [t d1|e d1|] eqn:E; try discriminate.
  assert (K : forall dp b, text_loop k dp b d1 = Ok (s, d') -> depth_after depth [t] = Some dp -> (forall ts, b ++ own_text dp ts = buf ++ own_text depth (t :: ts)) ->
    exists body n d0, calls d body d0 /\ next_token d0 = TokOk (TEnd n) d' /\ depth_after depth body = Some O /\ s = buf ++ own_text depth body).
  { intros dp b Hs D T. destruct (IH _ _ _ _ _ Hs) as (body & n & d2 & C & N & DA & ES). exists (t :: body), n, d2. split; [econstructor; eauto|]. split; [exact N|]. split; [|rewrite ES; apply T].
    destruct t; cbn in *; try congruence. destruct depth; [discriminate|]. congruence. }
  destruct t as [n a|n|c| | |]; try (apply (K _ _ H); [reflexivity|reflexivity]).
  - destruct depth as [|p]; [|apply (K _ _ H); reflexivity]. injection H as <- <-. exists [], n, d. split; [constructor|]. split; [exact E|]. split; [reflexivity|]. cbn. now rewrite app_nil_r.
  - apply (K _ _ H); [reflexivity|]. intro ts. destruct depth; cbn; [now rewrite app_assoc|reflexivity].
Qed.
Lemma text_complete : forall d body d1, calls d body d1 -> forall n d' k depth buf, next_token d1 = TokOk (TEnd n) d' -> depth_after depth body = Some O ->
  length body < k -> text_loop k depth buf d = Ok (buf ++ own_text depth body, d').
Proof.
  induction 1 as [d|d t d1 ts d2 H C IH]; intros n d' k depth buf N D L.
  - destruct k; [cbn in L; lia|]. cbn [text_loop]. rewrite N. injection D as ->. cbn. now rewrite app_nil_r.
  - destruct k; [cbn in L; lia|]. cbn in L. cbn [text_loop]. rewrite H. destruct t; cbn in D; try (rewrite (IH n d'); [reflexivity|assumption|assumption|lia]).
    + destruct depth; [discriminate|]. rewrite (IH n d'); [reflexivity|assumption|assumption|lia].
    + rewrite (IH n d'); [|assumption|assumption|lia]. destruct depth; cbn; [now rewrite app_assoc|reflexivity].
Qed.

(** C80. Within an element, UnmarshalText is called exactly if the element ends, with the character data of the element that is
    in none of its children, in order; afterwards the decoder is just behind the end of the element. *)
Theorem C80_exact : forall inp ts d m open s d', calls (new_decoder inp) ts d -> nest [] ts = Some (m :: open) ->
  ((exists k, text_loop k 0 [] d = Ok (s, d')) <->
   (exists body d1, calls d body d1 /\ nest [] body = Some [] /\ next_token d1 = TokOk (TEnd m) d' /\ s = own_text 0 body)).
Proof.
  intros inp ts d m open s d' C N. split.
  - intros (k & H). destruct (text_sound _ _ _ _ _ _ H) as (body & n & d1 & C1 & T & D & ES). cbn [app] in ES.
    assert (SK : exists k, skip_loop k 0 d = Ok d') by (exists (S (length body)); eapply skip_complete; eauto).
    destruct (calls_rel _ _ _ C) as (o & R & N'). rewrite N in N'. injection N' as N'. exists body, d1. split; [exact C1|].
    destruct (calls_interp _ _ _ C1 _ R) as (ws & o1 & _ & I & R1). destruct (interp_depth_nest _ _ _ _ I [] o eq_refl D) as (k0 & B & ->). cbn in B.
    split; [exact B|]. split; [|exact ES]. pose proof (balanced_same _ _ _ _ R C1 B) as R1'. destruct (next_ok _ _ _ _ R1' T) as (w & o2 & _ & I2 & _).
    specialize (I2 [] [] o2 (I_nil _)). apply interp_nest in I2. rewrite <- N' in I2. cbn in I2. destruct (name_eqb m n) eqn:Q; [|discriminate]. apply name_eqb_true in Q. congruence.
  - intros (body & d1 & C1 & B & T & ->). exists (S (length body)). rewrite (text_complete _ _ _ C1 m d' _ 0 []); [reflexivity|exact T|apply (balanced_depth body [] [] B)|lia].
Qed.
Print Assumptions C80_exact.
(** C80. The only errors are those of Token. *)
Theorem C80_errors : forall k depth buf d e, text_loop k depth buf d = Err e -> exists ts d1 d2, calls d ts d1 /\ next_token d1 = TokErr e d2.
Proof.
  induction k as [|k IH]; intros depth buf d e H; [discriminate|]. cbn [text_loop] in H. destruct (next_token d) as [t d1|e' d1|] eqn:E; try discriminate.
  - assert (K : forall dp b, text_loop k dp b d1 = Err e -> exists ts d0 d2, calls d ts d0 /\ next_token d0 = TokErr e d2).
    { intros dp b Hs. destruct (IH _ _ _ _ Hs) as (ts & d0 & d2 & C & T). exists (t :: ts), d0, d2. split; [econstructor; eauto|exact T]. }
    destruct t; try (eapply K; exact H). destruct depth; [discriminate|]. eapply K; exact H.
  - injection H as ->. exists [], d, d1. split; [constructor|exact E].
Qed.
Print Assumptions C80_errors.

(** *** What a string gets *)
Lemma own_skip : forall body depth n rest, depth_after depth body = Some O -> own_text (S depth) (body ++ TEnd n :: rest) = own_text 0 rest.
Proof.
  induction body as [|t body IH]; intros depth n rest D; [injection D as ->; reflexivity|]. cbn [app]. destruct t; cbn in D; cbn [own_text]; try (apply IH; exact D). destruct depth; [discriminate|]. cbn [pred]. apply IH. exact D.
Qed.
Lemma depth_skip : forall body depth n rest, depth_after depth body = Some O -> depth_after (S depth) (body ++ TEnd n :: rest) = depth_after 0 rest.
Proof.
  induction body as [|t body IH]; intros depth n rest D; [injection D as ->; reflexivity|]. cbn [app]. destruct t; cbn in D; cbn [depth_after]; try (apply IH; exact D). destruct depth; [discriminate|]. apply IH. exact D.
Qed.
Lemma content_text : forall k j v data comment d r, content_loop k (skip_child j) v data comment d = Ok r ->
  exists body n s, calls d body (snd (fst r)) /\ next_token (snd (fst r)) = TokOk (TEnd n) (snd r) /\ depth_after 0 body = Some O /\ snd (fst (fst (fst r))) = s /\ s = data ++ own_text 0 body.
Proof.
  induction k as [|k IH]; intros j v data comment d r H; [discriminate|]. cbn [content_loop] in H. destruct (next_token d) as [t d1|e d1|] eqn:E; try discriminate.
  destruct t as [n a|n|c|c|c1 c2|c].
  - unfold skip_child, skip in H. destruct (skip_loop j 0 d1) as [d2| | |] eqn:SK; try discriminate H. cbn [bind] in H. destruct (skip_sound _ _ _ _ SK) as (b1 & n1 & d3 & C1 & T1 & D1). destruct (IH _ _ _ _ _ _ H) as (b2 & n2 & s & C2 & T2 & D2 & ES & E2).
    exists (TStart n a :: b1 ++ TEnd n1 :: b2), n2, s. split; [econstructor; [exact E|]; eapply DecoderProofs.calls_app; [exact C1|]; econstructor; [exact T1|exact C2]|]. split; [exact T2|]. cbn [depth_after own_text]. rewrite (depth_skip _ _ _ _ D1), (own_skip _ _ _ _ D1). auto.
  - injection H as <-. exists [], n, data. cbn. split; [constructor|]. split; [exact E|]. split; [reflexivity|]. split; [reflexivity|now rewrite app_nil_r].
  - destruct (IH _ _ _ _ _ _ H) as (b2 & n2 & s & C2 & T2 & D2 & ES & E2). exists (TChar c :: b2), n2, s. split; [econstructor; eauto|]. split; [exact T2|]. split; [exact D2|]. split; [exact ES|]. rewrite E2. cbn. now rewrite app_assoc.
  - destruct (IH _ _ _ _ _ _ H) as (b2 & n2 & s & C2 & T2 & D2 & ES & E2). eexists (_ :: b2), n2, s. split; [econstructor; eauto|]. auto.
  - destruct (IH _ _ _ _ _ _ H) as (b2 & n2 & s & C2 & T2 & D2 & ES & E2). eexists (_ :: b2), n2, s. split; [econstructor; eauto|]. auto.
  - destruct (IH _ _ _ _ _ _ H) as (b2 & n2 & s & C2 & T2 & D2 & ES & E2). eexists (_ :: b2), n2, s. split; [econstructor; eauto|]. auto.
Qed.
Lemma skip_more : forall k j depth d d', skip_loop k depth d = Ok d' -> k <= j -> skip_loop j depth d = Ok d'.
Proof.
  induction k as [|k IH]; intros j depth d d' H L; [discriminate|]. destruct j as [|j]; [lia|]. cbn [skip_loop] in *. destruct (next_token d) as [t d1| |]; try discriminate H. destruct t; try (apply IH; [exact H|lia]). destruct depth; [exact H|apply IH; [exact H|lia]].
Qed.
Lemma text_deep : forall k depth buf d r, text_loop k (S depth) buf d = Ok r -> exists d2 k', skip_loop k depth d = Ok d2 /\ text_loop k' 0 buf d2 = Ok r /\ k' < k.
Proof.
  induction k as [|k IH]; intros depth buf d r H; [discriminate|]. cbn [text_loop skip_loop] in *. destruct (next_token d) as [t d1| |]; try discriminate H.
  assert (K : forall dp, text_loop k (S dp) buf d1 = Ok r -> exists d2 k', skip_loop k dp d1 = Ok d2 /\ text_loop k' 0 buf d2 = Ok r /\ k' < S k). { intros dp HH. destruct (IH _ _ _ _ HH) as (d2 & k' & A & B & L). exists d2, k'. split; [exact A|]. split; [exact B|lia]. }
  destruct t; try (apply K; exact H). destruct depth; [exists d1, k; auto|apply K; exact H].
Qed.
Lemma text_content : forall k buf d s d', text_loop k 0 buf d = Ok (s, d') -> forall k' j v comment, k <= k' -> k <= j -> exists comment' d1, content_loop k' (skip_child j) v buf comment d = Ok (v, s, comment', d1, d').
Proof.
  induction k as [k IH] using lt_wf_ind. intros buf d s d' H k' j v comment L1 L2. destruct k as [|k]; [discriminate|]. destruct k' as [|k']; [lia|]. cbn [text_loop content_loop] in *. destruct (next_token d) as [t d1| |]; try discriminate H.
  destruct t as [n a|n|c|c| |]; try (apply (IH k); [lia|exact H|lia|lia]).
  - destruct (text_deep _ _ _ _ _ H) as (d2 & k2 & SK & T & L). unfold skip_child at 1, skip. rewrite (skip_more _ j _ _ _ SK) by lia. cbn [bind]. apply (IH k2); [lia|exact T|lia|lia].
  - injection H as <- <-. eexists _, _. reflexivity.
Qed.
(** C80. UnmarshalText gets what a string gets that the element is read into, and the decoder goes on at the same place. *)
Theorem C80_string : forall F ek env v n a d x d',
  (exists k, text_loop k 0 [] d = Ok (x, d')) <-> (exists r k, unmarshal F ek env r k TString v n a d = Ok (VStr x, d')).
Proof.
  intros F ek env v n a d x d'. split.
  - intros (k & H). exists 1, k. cbn [unmarshal unmarshal_body]. destruct (text_content _ _ _ _ _ H k k v [] (le_n _) (le_n _)) as (c & d1 & E). rewrite E. reflexivity.
  - intros (r & k & H). destruct r as [|r]; [discriminate H|]. cbn [unmarshal unmarshal_body] in H. destruct (content_loop k (skip_child k) v [] [] d) as [[[[[w' data] comment] d1] d2]| | |] eqn:E; try discriminate H. cbn in H. injection H as <- <-.
    destruct (content_text _ _ _ _ _ _ _ E) as (body & m & x & C & TE & D & E1 & E2). cbn in E1, C, TE. subst data. exists (S (length body)). rewrite (text_complete _ _ _ C m d2 _ 0 []); [now rewrite E2|exact TE|exact D|lia].
Qed.
Print Assumptions C80_string.
Lemma own_xml : forall ts depth, Forall token_read ts -> xml_text (own_text depth ts).
Proof.
  induction ts as [|t ts IH]; intros depth H; [constructor|]. inversion H as [|? ? T TS]; subst. destruct t; cbn [own_text]; try (apply IH; exact TS). destruct depth; [apply xml_text_app; [exact T|apply IH; exact TS]|apply IH; exact TS].
Qed.
(** So it is XML text, whatever the input. *)
Theorem C80_legible : forall inp ts d k s d', calls (new_decoder inp) ts d -> text_loop k 0 [] d = Ok (s, d') -> xml_text s.
Proof.
  intros inp ts d k s d' C H. destruct (text_sound _ _ _ _ _ _ H) as (body & n & d1 & C1 & _ & _ & ->). cbn [app]. apply own_xml.
  pose proof (C77_tokens inp _ _ (DecoderProofs.calls_app _ _ _ C _ _ C1)) as T. apply Forall_app in T. apply T.
Qed.
Print Assumptions C80_legible.

(** *** Round trip *)
(** Unmarshal into a value with an UnmarshalText method (read.go:137-161, 325-341, 376-385): what the method is called with. *)
Definition decode_text (k : nat) (inp : bytes) : outcome uerr bytes :=
  do (n, a, d) <- find_start k (new_decoder inp) ;
  match text_loop k 0 [] d with Ok (s, _) => Ok s | Err e => Err (UTok e) | Panic => Panic | OutOfFuel => OutOfFuel end.
(** C80. The text that a MarshalText method returned is the one that UnmarshalText gets. *)
Theorem C80_round : forall n l x indent header, white indent -> simple l -> l <> str "xmlns" -> (n = mkname [] l \/ exists u, ordinary u /\ n = mkname u l) -> xml_text x ->
  let m := plain_program (mktext n [] (Some x)) in
  result m indent = Ok tt /\ decode_text (enough (document m indent header)) (document m indent header) = Ok x.
Proof.
  intros n l x indent header LI SL NX NM X m. set (pfx := fun _ : bytes => @nil Z). set (p := PElem n l [] true [PText (EText false) x]).
  assert (P2 : fits pfx None p). { destruct NM as [-> |(u & O & ->)]; [apply (Fi_none pfx None []); auto; [split; [intros ? []|intros ? ? []]|repeat constructor; exact X]|apply Fi_ns; auto; [intros v []|repeat constructor; exact X]]. }
  set (s0 := mkp 0 indent [] 0 false false []). assert (RD : ready pfx true None s0 []).
  { split; [cbn; lia|]. split; [constructor|]. split; [split; [split; [discriminate|]; split; [intros y []|split; discriminate]|intros ? ? ? ? []]|]. split; [constructor|exact LI]. }
  destruct (play_runs pfx true p None s0 [] P2 RD) as (cs & s' & nds & ps & ts & E & EL & _ & _ & CT & FP & FD & IT & DR & SP & _).
  assert (ME : m s0 = (cs, s', Ok tt)). { rewrite <- E. unfold m, p. cbn [plain_program play]. apply bind_cong; [reflexivity|]. intros _ s. apply bind_cong; [|reflexivity]. intro s1. unfold mbind, mret, emit. rewrite app_nil_r. reflexivity. }
  unfold result, document. fold s0. rewrite ME. cbn [fst snd]. split; [reflexivity|]. rewrite CT. destruct (header_ok header) as (H1 & H2 & H3 & H4 & H5). rewrite <- H4. rewrite <- concat_app, <- map_app. set (all := header_pieces header ++ ps). set (inp := concat (map fst all)).
  inversion DR as [|? nd ? ? DR1 DR2]; subst. inversion DR2; subst. inversion DR1 as [|? us ? ? ? ? ? mm b c' _ _ _ _ _ _ DC]; subst. inversion DC as [|? nd' ? ? DT DN]; subst. inversion DN; subst. inversion DT; subst.
  inversion SP as [| |w ? ? ? ? w' cts rest ts' LW LW' TW SC SR]; subst. inversion SR; subst. rewrite (TW eq_refl) in *. inversion SC as [|? ? ts0 SC0|]; subst. inversion SC0; subst. cbn [app] in *.
  assert (WR : written (d_inp (new_decoder inp)) (d_close (new_decoder inp)) (merge [] (map snd all)) [] None). { cbn [d_inp d_close new_decoder]. apply (pieces_read all [] []); [apply Forall_app; auto|apply chars_nil]. }
  set (ht := map snd (header_pieces header)) in *.
  assert (IA : interp [] (map snd all) (ht ++ [TChar w; TStart mm b; TChar x; TChar []; TEnd mm]) []) by (unfold all; rewrite map_app; eapply interp_app; [exact H5|exact IT]).
  assert (DA : Forall decls_ok (merge [] (map snd all))) by (apply merge_decls; unfold all; rewrite map_app; apply Forall_app; auto).
  destruct (read_all (merge [] (map snd all)) (new_decoder inp) [] [] None (merge [] (ht ++ [TChar w; TStart mm b; TChar x; TChar []; TEnd mm])) [] (rel_new _) WR) as (d & C & D1 & D2 & _); [apply interp_merge; exact IA|exact DA|].
  destruct (merge_front (ht ++ [TChar w]) [] (TStart mm b) [TChar x; TChar []; TEnd mm]) as (hd & NH & ME2); [apply Forall_app; split; [exact H3|repeat constructor]|reflexivity|].
  change [TChar w; TStart mm b; TChar x; TChar []; TEnd mm] with ([TChar w] ++ TStart mm b :: [TChar x; TChar []; TEnd mm]) in C. rewrite app_assoc, ME2 in C.
  assert (LB : length (hd ++ TStart mm b :: merge [] [TChar x; TChar []; TEnd mm]) < enough inp).
  { destruct (calls_bound _ _ _ C) as [B|(_ & _ & (y & B))]; [|rewrite D1 in B; discriminate]. unfold left_to_read in B. cbn [d_inp d_close new_decoder] in B. unfold enough. lia. }
  rewrite app_length in LB. cbn [length] in LB. unfold decode_text. destruct (find_calls hd (enough inp) (new_decoder inp) mm b _ d NH C ltac:(lia)) as (d1 & FS & C1). change (concat (map fst (header_pieces header ++ ps))) with inp. rewrite FS. cbn [bind].
  set (body := match x with [] => [] | _ => [TChar x] end). assert (MB : merge [] [TChar x; TChar []; TEnd mm] = body ++ [TEnd mm]) by (cbn [merge app]; unfold body; rewrite app_nil_r; destruct x; reflexivity).
  rewrite MB in *. destruct (calls_split _ _ _ _ C1) as (d2 & C2 & C3). inversion C3 as [|? ? d3 ? ? NT C4]; subst. inversion C4; subst.
  rewrite (text_complete _ _ _ C2 mm d _ 0 []); [|exact NT|unfold body; destruct x; reflexivity|rewrite app_length in LB; lia]. unfold body. destruct x; [reflexivity|]. cbn. now rewrite app_nil_r.
Qed.
Print Assumptions C80_round.
Example C80_ex : decode_text 40 (str "<t>a<!-- c -->b<u>no<t>no</t></u>&lt;d<?p ?></t>") = Ok (str "ab<d") /\
  (exists e, decode_text 40 (str "<t>a<u></t>") = Err e) /\
  let x := str "a<b" ++ [10; 13; 9]%Z ++ str "c" in
  decode_text 140 (document (plain_program (mktext (mkname (str "urn:x") (str "t")) [] (Some x))) (str " ") true) = Ok x.
Proof. split; [vm_compute; reflexivity|]. split; [eexists; vm_compute; reflexivity|vm_compute; reflexivity]. Qed.
