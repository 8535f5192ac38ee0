(** Property C50: the inner XML of extension elements. *)
From Coq Require Import String.
From Coq Require Import ZArith List Bool Lia.
From Coq Require Import ZifyBool ZifyNat ZifyN.
From Verif Require Import Base Utf8 Lexer LexerProofs LexerLocal Escape Decoder DecoderSpec DecoderProofs Printer PrinterProofs NsTags GoType Schema TypeInfo Simple Marshal Unmarshal UnmarshalProofs Io PropertiesDocument RawContent.
Import ListNotations.
Open Scope Z_scope.

(** An extension element: its name, its attributes and the XML inside. *)
Definition EXT : bytes := str "ExtType".
Definition ext (n : name) (l : list gval) (raw : bytes) : gval := VRec [VName n; VList l; VStr raw].
(** The decoder [d] has just read the start tag of an element of a document. *)
Definition started (inp : bytes) (n : name) (a : list attr) (d : dstate) : Prop :=
  exists ts d0, calls (new_decoder inp) ts d0 /\ next_token d0 = TokOk (TStart n a) d.

Definition ext_info : tinfo := match type_info embed_depth mpd_types EXT with Ok ti => ti | _ => empty_info end.
Lemma ext_info_ok : type_info embed_depth mpd_types EXT = Ok ext_info.
Proof. vm_compute. reflexivity. Qed.

(** *** Reading *)
Lemma content_skip : forall k child, (forall v n a d, child v n a d = skip_child k v n a d) -> forall j v data com d v' data' com' d1 d2, content_loop j child v data com d = Ok (v', data', com', d1, d2) ->
  v' = v /\ exists ts n, calls d ts d1 /\ depth_after 0 ts = Some O /\ next_token d1 = TokOk (TEnd n) d2.
Proof.
  intros k child CH. induction j as [|j IH]; intros v data com d v' data' com' d1 d2 H; [discriminate|]. cbn [content_loop] in H.
  destruct (next_token d) as [t d0|e d0|] eqn:N; try discriminate.
  assert (K : forall data com, content_loop j child v data com d0 = Ok (v', data', com', d1, d2) -> (forall dp, depth_after dp [t] = Some dp) ->
    v' = v /\ exists ts n, calls d ts d1 /\ depth_after 0 ts = Some O /\ next_token d1 = TokOk (TEnd n) d2).
  { intros dt cm E D. destruct (IH _ _ _ _ _ _ _ _ _ E) as (-> & ts & n & C & DA & NT). split; auto. exists (t :: ts), n. split; [econstructor; eauto|]. split; auto. change (t :: ts) with ([t] ++ ts). rewrite (depth_after_app _ _ _ _ (D O)). exact DA. }
  destruct t as [n a|n|s|s|tg s|s]; try (eapply K; [exact H|reflexivity]).
  - rewrite CH in H. unfold skip_child, skip in H. destruct (skip_loop k 0 d0) as [d3|e| |] eqn:SK; cbn [bind] in H; try discriminate.
    destruct (skip_sound _ _ _ _ SK) as (body & m & d4 & C & NT & DA). destruct (IH _ _ _ _ _ _ _ _ _ H) as (-> & ts & n' & C' & DA' & NT'). split; auto.
    exists (TStart n a :: body ++ TEnd m :: ts), n'. split; [econstructor; [exact N|]; eapply calls_app; [exact C|]; econstructor; eauto|]. split; auto.
    cbn [depth_after]. apply depth_after_up in DA. rewrite (depth_after_app _ _ _ _ DA). exact DA'.
  - injection H as <- <- <- <- <-. split; auto. exists [], n. split; [constructor|]. auto.
Qed.
Lemma split_depth : forall ts x, depth_after (S x) ts = Some O -> exists a n b, ts = a ++ TEnd n :: b /\ depth_after 0 a = Some O /\ depth_after x b = Some O.
Proof.
  assert (G : forall ts x y, depth_after (y + S x) ts = Some O -> exists a n b, ts = a ++ TEnd n :: b /\ depth_after y a = Some O /\ depth_after x b = Some O).
  { induction ts as [|t ts IH]; intros x y D; [cbn in D; injection D; lia|]. destruct t as [n a|n|s|s|tg s|s].
    - cbn [depth_after] in D. destruct (IH x (S y) D) as (a0 & m & b & -> & D1 & D2). exists (TStart n a :: a0), m, b. auto.
    - destruct y as [|y].
      + exists [], n, ts. cbn in D. auto.
      + cbn in D. destruct (IH x y D) as (a0 & m & b & -> & D1 & D2). exists (TEnd n :: a0), m, b. auto.
    - destruct (IH x y D) as (a0 & m & b & -> & D1 & D2). exists (TChar s :: a0), m, b. auto.
    - destruct (IH x y D) as (a0 & m & b & -> & D1 & D2). exists (TComment s :: a0), m, b. auto.
    - destruct (IH x y D) as (a0 & m & b & -> & D1 & D2). exists (TProc tg s :: a0), m, b. auto.
    - destruct (IH x y D) as (a0 & m & b & -> & D1 & D2). exists (TDirective s :: a0), m, b. auto. }
  intros ts x D. exact (G ts x O D).
Qed.
Lemma calls_inv : forall a d b d', calls d (a ++ b) d' -> exists d1, calls d a d1 /\ calls d1 b d'.
Proof.
  induction a as [|t a IH]; intros d b d' H; [exists d; split; [constructor|auto]|]. cbn [app] in H. inversion H; subst. destruct (IH _ _ _ H5) as (d2 & A & B). exists d2. split; auto. econstructor; eauto.
Qed.
Lemma content_complete : forall k child, (forall v n a d, child v n a d = skip_child k v n a d) -> forall j ts v data com d d1 n d2, calls d ts d1 -> depth_after 0 ts = Some O -> next_token d1 = TokOk (TEnd n) d2 ->
  (length ts < j)%nat -> (length ts < k)%nat -> exists data' com', content_loop j child v data com d = Ok (v, data', com', d1, d2).
Proof.
  intros k child CH. induction j as [|j IH]; intros ts v data com d d1 n d2 C D N L LK; [lia|]. cbn [content_loop]. destruct ts as [|t ts].
  - inversion C; subst. rewrite N. eauto.
  - inversion C as [|? ? d3 ? ? N3 C3]; subst. rewrite N3. cbn [length] in L, LK. destruct t as [m a|m|s|s|tg s|s]; cbn [depth_after] in D; try discriminate; try (eapply IH; eauto; lia).
    destruct (split_depth _ _ D) as (ts1 & m' & ts2 & -> & D1 & D2). destruct (calls_inv _ _ _ _ C3) as (d4 & C4 & C5). inversion C5 as [|? ? d5 ? ? N5 C6]; subst. rewrite app_length in L, LK. cbn [length] in L, LK.
    rewrite CH. unfold skip_child, skip. rewrite (skip_complete _ _ _ C4 m' d5 k O N5 D1) by lia. cbn [bind]. eapply IH; eauto; lia.
Qed.
Lemma ext_attrs : forall F a m l x, set_attrs F mpd_types embed_depth ext_info EXT (ext m l x) a = Ok (ext m (l ++ map VAttr a) x).
Proof.
  intros F. induction a as [|b a IH]; intros m l x; cbn [set_attrs map]; [rewrite app_nil_r; reflexivity|].
  assert (A : attr_field ext_info (aname b) = ti_anyattr ext_info) by (destruct (aname b); vm_compute; reflexivity). rewrite A.
  assert (exists f, ti_anyattr ext_info = Some f /\ fi_idx f = [1%nat]) as (f & -> & ->) by (eexists; split; vm_compute; reflexivity).
  change (update_at embed_depth mpd_types EXT [1%nat] (ext m l x) (fun t w => with_unit (unmarshal_attr F mpd_types embed_depth t w b))) with (Ok (ext m (l ++ [VAttr b]) x, tt) : outcome uerr (gval * unit)).
  cbn [bind]. rewrite IH, <- app_assoc. reflexivity.
Qed.
(** What reading an extension element does. *)
Definition ext_child (F : floats) (r k : nat) : child_fun := fun v n a d =>
  do x <- path_child mpd_types embed_depth (path_bound (ti_fields ext_info)) k (unmarshal F mpd_types embed_depth r k) EXT (ti_fields ext_info) [] v n a d ;
  match x with Some y => Ok y | None => skip_child k v n a d end.
Lemma ext_child_skips : forall F r k v n a d, ext_child F r k v n a d = skip_child k v n a d.
Proof. intros. unfold ext_child. change (path_bound (ti_fields ext_info)) with 1%nat. reflexivity. Qed.
Lemma ext_unmarshal : forall F r k m l x n a d, unmarshal F mpd_types embed_depth (S r) k (TStruct EXT) (ext m l x) n a d =
  do y <- content_loop k (ext_child F r k) (ext n (l ++ map VAttr a) x) [] [] d ;
  let '(v, _, _, d1, d2) := y in
  do (v', _) <- update_at embed_depth mpd_types EXT [2%nat] v (fun t w => Ok (match t with TString => VStr (firstn (length (d_inp d) - length (d_inp d1)) (d_inp d)) | _ => w end, tt)) ; Ok (v', d2).
Proof.
  intros F r k m l x n a d. cbn [unmarshal]. unfold unmarshal_body. rewrite ext_info_ok.
  assert (exists f, ti_xmlname ext_info = Some f /\ fi_idx f = [0%nat] /\ fi_name f = [] /\ fi_xmlns f = []) as (f & -> & -> & -> & ->) by (eexists; repeat split; vm_compute; reflexivity).
  cbn [beq negb andb orb].
  change (update_at embed_depth mpd_types EXT [0%nat] (ext m l x) (fun (t : gtype) (w : gval) => Ok (match t with TName => VName n | _ => w end, tt))) with (Ok (ext n l x, tt) : outcome uerr (gval * unit)).
  cbn [bind]. rewrite ext_attrs. cbn [bind].
  change (first_mode is_data (ti_fields ext_info)) with (@None finfo). change (first_mode is_comment (ti_fields ext_info)) with (@None finfo). change (first_mode is_any (ti_fields ext_info)) with (@None finfo).
  assert (exists g, first_mode is_inner (ti_fields ext_info) = Some g /\ fi_idx g = [2%nat]) as (g & -> & G) by (eexists; split; vm_compute; reflexivity).
  cbn [touch bind]. rewrite G.
  change (update_at embed_depth mpd_types EXT [2%nat] (ext n (l ++ map VAttr a) x) (fun (_ : gtype) (w : gval) => Ok (w, tt))) with (Ok (ext n (l ++ map VAttr a) x, tt) : outcome uerr (gval * unit)).
  cbn [bind]. fold (ext_child F r k). destruct (content_loop k (ext_child F r k) (ext n (l ++ map VAttr a) x) [] [] d) as [[[[[v dt] cm] d1] d2]|e| |]; cbn [bind]; auto.
  destruct (update_at embed_depth mpd_types EXT [2%nat] v _) as [[v' u]|e| |]; reflexivity.
Qed.
Lemma ext_set : forall n l x raw, update_at embed_depth mpd_types EXT [2%nat] (ext n l x) (fun t w => Ok (match t with TString => VStr raw | _ => w end, tt)) = (Ok (ext n l raw, tt) : outcome uerr (gval * unit)).
Proof. reflexivity. Qed.
Lemma taken : forall raw (t : bytes), firstn (length (raw ++ t) - length t) (raw ++ t) = raw.
Proof. intros. rewrite app_length. replace (length raw + length t - length t)%nat with (length raw) by lia. rewrite firstn_app, Nat.sub_diag, firstn_all. cbn. apply app_nil_r. Qed.

(** A start tag has been read from the input up to its ">". *)
Lemma attrs_take : forall k acc inp a rest, attrs_loop k acc inp = ROk a rest -> exists w, inp = w ++ str ">" ++ rest.
Proof.
  change (str ">") with [62]. induction k as [|k IH]; intros acc inp a rest H; [discriminate|]. cbn [attrs_loop] in H. destruct (skip_space_local inp) as (w1 & E1 & _). destruct (skip_space inp) as [|b t]; [discriminate|]. subst inp. destruct (b =? 47).
  { destruct t as [|c t']; [discriminate|]. destruct (c =? 62) eqn:C; [|discriminate]. injection H as <- <-. exists (w1 ++ [b]). replace c with 62 by lia. rewrite <- app_assoc. reflexivity. }
  destruct (b =? 62) eqn:B. { injection H as <- <-. exists w1. replace b with 62 by lia. reflexivity. }
  destruct (get_nsname (b :: t)) as [[n r]|[e|]] eqn:G; try discriminate. destruct (get_nsname_local _ _ _ G) as (w2 & _ & -> & _). destruct (skip_space_local r) as (w3 & -> & _). destruct (skip_space r) as [|c r']; [discriminate|].
  destruct (c =? 61); [|discriminate]. cbn [negb] in H. destruct (skip_space_local r') as (w4 & -> & _). destruct (attrval (skip_space r')) as [v r''|e|] eqn:V; try discriminate. destruct (attrval_local _ _ _ V) as (w5 & _ & -> & _).
  destruct (IH _ _ _ _ H) as (w6 & ->). exists (w1 ++ w2 ++ w3 ++ [c] ++ w4 ++ w5 ++ w6). rewrite <- !app_assoc. reflexivity.
Qed.
Lemma raw_cases : forall inp t c rest, raw_token inp = ROk (t, c) rest ->
  match t with
  | TStart n a => (exists w, inp = [60] ++ w ++ [62] ++ rest) /\ (c = None \/ c = Some n)
  | TEnd _ => (exists w, inp = [60] ++ w) /\ c = None
  | _ => c = None
  end.
Proof.
  intros inp t c rest E. unfold raw_token, plain_tok in E. destruct inp as [|b i]; [discriminate|]. destruct (b =? 60) eqn:B; cbn [negb] in E.
  2: { destruct (Lexer.text None false (b :: i)); try discriminate. injection E as <- <- <-. auto. }
  replace b with 60 by lia. clear b B. destruct i as [|c0 t']; [discriminate|]. destruct (c0 =? 47) eqn:C.
  { destruct (get_nsname t') as [[m r]|[e|]] eqn:G; try discriminate. destruct (skip_space r) as [|x r']; [discriminate|]. destruct (x =? 62); [|discriminate]. injection E as <- <- <-. split; [exists (c0 :: t'); reflexivity|auto]. }
  destruct (c0 =? 63). { destruct (get_name t') as [[m r]|[e|]]; try discriminate. destruct (pi_loop 0 [] (skip_space r)); try discriminate. destruct (if beq m _ then _ else _); try discriminate. injection E as <- <- <-. auto. }
  destruct (c0 =? 33).
  { destruct t' as [|d t'']; [discriminate|]. destruct (d =? 45).
    { destruct t'' as [|e t3]; [discriminate|]. destruct (e =? 45); [|discriminate]. destruct (comment_loop 0 0 [] t3); try discriminate. injection E as <- <- <-. auto. }
    destruct (d =? 91). { destruct (expect (str "CDATA[") t'') as [u r|e|]; try discriminate. destruct (Lexer.text None true r); try discriminate. injection E as <- <- <-. auto. }
    destruct (directive_loop _ _ _ _ _ _); try discriminate. injection E as <- <- <-. auto. }
  destruct (get_nsname (c0 :: t')) as [[m r]|[e|]] eqn:G; try discriminate. destruct (get_nsname_local _ _ _ G) as (w1 & _ & -> & _). destruct (attrs_loop (S (length r)) [] r) as [[a' em] r'|e|] eqn:A; try discriminate.
  destruct (attrs_take _ _ _ _ _ A) as (w2 & ->). injection E as <- <- <-. split; [exists (w1 ++ w2); cbn [app]; rewrite <- app_assoc; reflexivity|]. destruct em; auto.
Qed.
(** What a call of Token that succeeds did. *)
Lemma next_inv : forall d t d', next_token d = TokOk t d' ->
  match t with
  | TStart _ _ => d_close d = None /\ exists w q, d_inp d = str "<" ++ w ++ str ">" ++ d_inp d' /\ (exists tl, d_stk d' = SStart q :: tl) /\ exists b c, raw_token (d_inp d) = ROk (TStart q b, c) (d_inp d') /\ d_close d' = c
  | _ => d_close d' = None
  end /\ (d_close d <> None -> exists n, t = TEnd n).
Proof.
  intros [inp c stk m err] t d' H. unfold next_token, raw_step in H. cbn [d_err d_close d_inp d_stk d_ns] in *.
  destruct err as [[]|]; try discriminate. { destruct stk; discriminate. } destruct c as [n|].
  { cbn [d_stk d_ns d_inp d_close] in H. destruct (pop_element n stk m) as [[[n' stk'] m']|e0]; [|discriminate]. injection H as <- <-. split; [reflexivity|eauto]. }
  destruct (raw_token inp) as [[w c] rest|e|] eqn:E; [|destruct e; try discriminate; destruct stk; discriminate|discriminate]. pose proof (raw_cases _ _ _ _ E) as RC. cbn [d_stk d_ns d_inp d_close] in H.
  split; [|congruence]. destruct w as [n0 a|n0|s|s|tg s|s].
  - destruct (declare a (stk, m)) as [[stk' m']|e]; [|discriminate]. injection H as <- <-. cbn [d_inp d_stk d_close]. destruct RC as [(w & ->) _]. split; auto. exists w, n0. split; [reflexivity|]. split; eauto.
  - destruct (pop_element n0 stk m) as [[[n' stk'] m']|e]; [|discriminate]. injection H as <- <-. cbn [d_close]. tauto.
  - injection H as <- <-. auto.
  - injection H as <- <-. auto.
  - injection H as <- <-. auto.
  - injection H as <- <-. auto.
Qed.
Lemma start_takes : forall d n a d', next_token d = TokOk (TStart n a) d' -> exists w, d_inp d = str "<" ++ w ++ str ">" ++ d_inp d'.
Proof. intros d n a d' H. destruct (next_inv _ _ _ H) as ((_ & w & q & E & _) & _). eauto. Qed.
(** Only a start tag leaves an end to be delivered without reading. *)
Lemma close_after : forall ts d d', calls d ts d' -> ts <> [] -> d_close d' <> None -> exists ts' n a, ts = ts' ++ [TStart n a].
Proof.
  induction 1 as [d|d t d1 ts d' H C IH]; intros NE CL; [congruence|]. destruct ts as [|t2 ts].
  - inversion C; subst. destruct (next_inv _ _ _ H) as [D _]. destruct t as [n a|n|s|s|tg s|s]; try congruence. exists [], n, a. reflexivity.
  - destruct IH as (ts' & n & a & ->); [discriminate|auto|]. exists (t :: ts'), n, a. reflexivity.
Qed.
Lemma not_open : forall ts n a x, depth_after x (ts ++ [TStart n a]) <> Some O.
Proof. induction ts as [|t ts IH]; intros n a x; [discriminate|]. cbn [app depth_after]. destruct t; auto. destruct x; [discriminate|auto]. Qed.
(** Balanced content ends before an end tag that is written, or the element is written as one tag. *)
Lemma content_kind : forall d body d1 n d', calls d body d1 -> nest [] body = Some [] -> next_token d1 = TokOk (TEnd n) d' ->
  body = [] /\ d1 = d /\ d_inp d' = d_inp d \/ d_close d = None /\ d_close d1 = None /\ exists w, d_inp d1 = str "</" ++ w ++ str ">" ++ d_inp d'.
Proof.
  intros d body d1 n d' C B N. destruct (end_takes _ _ _ N) as [[[c E] E1]|[E (w & E1)]].
  - left. assert (body = []) as ->.
    { destruct body as [|t b] eqn:EB; auto. destruct (close_after _ _ _ C) as (ts' & n' & a' & TS); [discriminate|rewrite E; discriminate|]. exfalso. rewrite TS in B. apply (balanced_depth _ [] []) in B. exact (not_open _ _ _ _ B). }
    inversion C; subst. auto.
  - right. split; [|eauto]. inversion C; subst; auto. destruct (d_close d) eqn:CD; auto. destruct (next_inv _ _ _ H) as [_ K]. destruct K as (m & ->); [rewrite CD; discriminate|]. discriminate.
Qed.

Lemma started_rel : forall inp n a d, started inp n a d -> exists o, rel d o /\ exists open, open_names o = n :: open.
Proof.
  intros inp n a d (ts & d0 & C & N). destruct (calls_rel inp (ts ++ [TStart n a]) d) as (o & R & NE); [eapply calls_app; [exact C|]; econstructor; [exact N|constructor]|].
  destruct (calls_rel _ _ _ C) as (o0 & R0 & N0). rewrite (nest_app _ _ _ _ N0) in NE. cbn in NE. injection NE as NE. exists o. split; auto. eauto.
Qed.
Lemma inside_end : forall d o body d1 n d' m open, rel d o -> open_names o = m :: open -> calls d body d1 -> nest [] body = Some [] -> next_token d1 = TokOk (TEnd n) d' -> n = m.
Proof.
  intros d o body d1 n d' m open R O C B N. pose proof (balanced_same _ _ _ _ R C B) as R1. destruct (next_ok _ _ _ _ R1 N) as (w & o2 & _ & I2 & _).
  specialize (I2 [] [] o2 (I_nil _)). apply interp_nest in I2. rewrite O in I2. cbn in I2. destruct (name_eqb m n) eqn:Q; [|discriminate]. apply name_eqb_true in Q. auto.
Qed.

(** C50. An extension element is read exactly when its content and its end tag can be read, and then it holds its name, its
    attributes after those already there, and the bytes between its tags: [inp] is what comes before the content, which ends
    with the start tag, the content and an end tag, unless the element is written as one tag. *)
Theorem C50_read : forall F inp n a d r m l x v' d', started inp n a d ->
  (exists k, unmarshal F mpd_types embed_depth (S r) k (TStruct EXT) (ext m l x) n a d = Ok (v', d')) <->
  (exists raw body d1, v' = ext n (l ++ map VAttr a) raw /\ calls d body d1 /\ nest [] body = Some [] /\ next_token d1 = TokOk (TEnd n) d' /\ d_inp d = raw ++ d_inp d1).
Proof.
  intros F inp n a d r m l x v' d' S. destruct (started_rel _ _ _ _ S) as (o & R & open & O). split.
  - intros (k & H). rewrite ext_unmarshal in H. destruct (content_loop k _ _ _ _ d) as [[[[[v dt] cm] d1] d2]|e| |] eqn:CL; cbn [bind] in H; try discriminate.
    destruct (content_skip k _ (ext_child_skips F r k) _ _ _ _ _ _ _ _ _ _ CL) as (-> & ts & n' & C & D & N). rewrite ext_set in H. cbn [bind] in H. injection H as <- <-.
    destruct (calls_take _ _ _ C) as (raw & W). exists raw, ts, d1. rewrite W, taken. split; auto. split; auto.
    destruct (calls_interp _ _ _ C _ R) as (ws & o1 & _ & I & R1). destruct (interp_depth_nest _ _ _ _ I [] o eq_refl D) as (k0 & B & ->). cbn in B. split; auto.
    rewrite <- (inside_end _ _ _ _ _ _ _ _ R O C B N). auto.
  - intros (raw & body & d1 & -> & C & B & N & W). exists (Datatypes.S (length body)). rewrite ext_unmarshal.
    destruct (content_complete (Datatypes.S (length body)) _ (ext_child_skips F r _) (Datatypes.S (length body)) body (ext n (l ++ map VAttr a) x) [] [] d d1 n d' C) as (dt & cm & ->); auto; [apply (balanced_depth body [] [] B)|].
    cbn [bind]. rewrite ext_set. cbn [bind]. rewrite W, taken. reflexivity.
Qed.
Print Assumptions C50_read.
Theorem C50_bytes : forall inp n a d raw body d1 d', started inp n a d -> calls d body d1 -> nest [] body = Some [] -> next_token d1 = TokOk (TEnd n) d' -> d_inp d = raw ++ d_inp d1 ->
  exists before tag, inp = before ++ str "<" ++ tag ++ str ">" ++ d_inp d /\
  (raw = [] /\ body = [] /\ d_inp d' = d_inp d \/ exists w, d_inp d = raw ++ str "</" ++ w ++ str ">" ++ d_inp d').
Proof.
  intros inp n a d raw body d1 d' (ts & d0 & C0 & N0) C B N W. destruct (calls_take _ _ _ C0) as (before & W0). destruct (start_takes _ _ _ _ N0) as (tag & W1). exists before, tag. cbn [new_decoder d_inp] in W0. rewrite <- W1. split; [exact W0|].
  destruct (content_kind _ _ _ _ _ C B N) as [(-> & -> & E)|(_ & _ & w & E)]; [left|right; exists w; rewrite W, E; reflexivity].
  split; [apply (app_inv_tail (d_inp d)); auto|auto].
Qed.
Print Assumptions C50_bytes.

(** *** Reading it elsewhere *)
(** C50. What has been read as the content of an extension element is read as the content of any other one: after its start
    tag and before an end tag with its written name. *)
Theorem C50_replay : forall F inp n a d raw body d1 d' inp' ts e0 q b rest more r m l x,
  started inp n a d -> calls d body d1 -> nest [] body = Some [] -> next_token d1 = TokOk (TEnd n) d' -> d_inp d = raw ++ d_inp d1 ->
  calls (new_decoder inp') ts e0 -> d_close e0 = None -> raw_token (d_inp e0) = ROk (TStart q b, None) (raw ++ rest) -> raw_token rest = ROk (TEnd q, None) more ->
  forall n' a' e, next_token e0 = TokOk (TStart n' a') e ->
  exists k body' e1 e', calls e body' e1 /\ Forall2 alike body body' /\ d_inp e' = more /\
    unmarshal F mpd_types embed_depth (S r) k (TStruct EXT) (ext m l x) n' a' e = Ok (ext n' (l ++ map VAttr a') raw, e').
Proof.
  intros F inp n a d raw body d1 d' inp' ts e0 q b rest more r m l x S C B N W C' CL' R1 R2 n' a' e N'.
  assert (S' : started inp' n' a' e) by (exists ts, e0; auto).
  destruct (started_rel _ _ _ _ S) as (o & R & _). destruct (started_rel _ _ _ _ S') as (o' & R' & open' & O').
  destruct (next_inv _ _ _ N') as ((_ & w & q' & _ & (tl & ST) & b' & c' & RT & CE) & _). rewrite R1 in RT. injection RT as <- <- <- IE.
  assert (exists body' e1, calls e body' e1 /\ Forall2 alike body body' /\ d_inp e1 = rest /\ d_close e1 = None /\ nest [] body' = Some [] /\ rel e1 o') as (body' & e1 & CE1 & AL & IE1 & CL1 & BE & RE1).
  { destruct (content_kind _ _ _ _ _ C B N) as [(-> & -> & E)|(D & D1 & w0 & E)].
    - assert (raw = []) as -> by (apply (app_inv_tail (d_inp d)); auto). exists [], e. split; [apply Calls_nil|]. split; [constructor|]. split; [exact (eq_sym IE)|]. auto.
    - assert (FR : front rest (d_inp d1)). { pose proof (raw_cases _ _ _ _ R2) as ((u & ->) & _). rewrite E. reflexivity. }
      pose proof (balanced_depth _ _ _ B) as DP.
      destruct (calls_alike _ _ _ C e [] o o' raw rest O R R' ltac:(congruence) DP W (eq_sym IE) FR) as (ts' & e1 & x1 & X1 & X2 & X3 & X4 & X5 & X6 & X7).
      destruct x1; [|discriminate]. exists ts', e1. split; [exact X1|]. split; [exact X2|]. split; [exact X3|]. split; [congruence|]. split; [|exact X6].
      destruct (calls_interp _ _ _ X1 _ R') as (ws & o1 & _ & I & _). assert (DP' : depth_after 0 ts' = Some O).
      { clear - X2 DP. cbn [length] in DP. revert DP. generalize O at 1 3. induction X2 as [|t t' ts ts' A _ IH]; intros x H; auto. destruct t, t'; cbn in A; try contradiction; try discriminate A; cbn [depth_after] in *; auto. destruct x; [discriminate|auto]. }
      destruct (interp_depth_nest _ _ _ _ I [] o' eq_refl DP') as (k0 & B' & ->). exact B'. }
  assert (exists n2 e', next_token e1 = TokOk (TEnd n2) e' /\ d_inp e' = more) as (n2 & e' & N2 & IM).
  { assert (exists tl1, d_stk e1 = SStart q :: tl1) as (tl1 & ST1). { pose proof (r_stk _ _ R') as G. pose proof (r_stk _ _ RE1) as G1. rewrite ST in G. inversion G; subst. inversion G1; subst. eauto. }
    unfold next_token, raw_step. rewrite (r_err _ _ RE1), CL1, IE1, R2. cbn [d_stk d_ns d_inp d_close]. rewrite ST1. cbn [pop_element]. rewrite !beq_refl. cbn [negb]. destruct (undo tl1 (d_ns e1)) as [stk2 m2]. eexists _, _. split; reflexivity. }
  pose proof (inside_end _ _ _ _ _ _ _ _ R' O' CE1 BE N2) as ->.
  destruct (proj2 (C50_read F inp' n' a' e r m l x (ext n' (l ++ map VAttr a') raw) e' S')) as (k & K). { exists raw, body', e1. split; auto. split; auto. split; auto. split; auto. rewrite IE1, IE. reflexivity. }
  exists k, body', e1, e'. auto.
Qed.
Print Assumptions C50_replay.

(** *** Writing *)
Definition keeps {A} (p : M A) : Prop := forall s cs s' r, p s = (cs, s', r) -> p_indented s' = p_indented s /\ p_prefix s' = p_prefix s /\ p_indent s' = p_indent s.
Lemma keeps_bind : forall A B (p : M A) (f : A -> M B), keeps p -> (forall x, keeps (f x)) -> keeps (mbind p f).
Proof.
  intros A B p f P Q s cs s' r H. unfold mbind in H. destruct (p s) as [[c1 s1] [y|e| |]] eqn:E; try (injection H as <- <- <-; eapply P; eauto).
  destruct (f y s1) as [[c2 s2] r2] eqn:E2. injection H as <- <- <-. destruct (P _ _ _ _ E) as (A1 & A2 & A3). destruct (Q _ _ _ _ _ E2) as (B1 & B2 & B3). repeat split; congruence.
Qed.
Lemma keeps_get : keeps mget. Proof. intros s cs s' r H. injection H as <- <- <-. auto. Qed.
Lemma keeps_ret : forall A (x : A), keeps (mret x). Proof. intros A x s cs s' r H. injection H as <- <- <-. auto. Qed.
Lemma keeps_emit : forall c, keeps (emit c). Proof. intros c s cs s' r H. injection H as <- <- <-. auto. Qed.
Lemma keeps_set : forall p, keeps (set_prefix p). Proof. intros p s cs s' r H. unfold set_prefix in H. injection H as <- <- <-. destruct (p_elems s); auto. Qed.
Lemma keeps_create : forall u p, keeps (create_prefix u p).
Proof.
  intros u p s cs s' r H. unfold create_prefix, mbind, mget, mput, mret, mfuel in H. destruct (_ && _); [injection H as <- <- <-; auto|]. destruct (p_elems s) as [|e es]; [injection H as <- <- <-; auto|].
  destruct (if beq _ _ then _ else _) as [[q sq]|]; injection H as <- <- <-; auto.
Qed.
Ltac kp := repeat (first [apply keeps_get|apply keeps_ret|apply keeps_emit|apply keeps_set|apply keeps_create|apply keeps_bind; [|intro]|match goal with |- keeps (if ?b then _ else _) => destruct b | |- keeps (let '(_, _) := ?x in _) => destruct x | |- keeps (match ?x with _ => _ end) => destruct x end]).
Lemma keeps_attrs : forall a, keeps (write_attrs a).
Proof. induction a as [|x a IH]; cbn [write_attrs]; [apply keeps_ret|]. apply keeps_bind; [|auto]. unfold write_attr. kp. Qed.
Lemma mbind_split : forall A B (p : M A) (f : A -> M B) s cs s' y, mbind p f s = (cs, s', Ok y) -> exists c1 s1 x c2, p s = (c1, s1, Ok x) /\ f x s1 = (c2, s', Ok y) /\ cs = c1 ++ c2.
Proof. intros A B p f s cs s' y H. unfold mbind in H. destruct (p s) as [[c1 s1] [x|e| |]]; try discriminate. destruct (f x s1) as [[c2 s2] r2] eqn:E. injection H as <- <- ->. exists c1, s1, x, c2. auto. Qed.
Lemma start_tight : forall n a s cs s', write_start n a s = (cs, s', Ok tt) -> tight s'.
Proof.
  intros n a s cs s' H. unfold write_start in H. destruct (beq (local n) []); [discriminate|].
  apply mbind_split in H. destruct H as (c1 & s1 & x1 & k1 & _ & H & _). apply mbind_split in H. destruct H as (c2 & s2 & x2 & k2 & _ & H & _). apply mbind_split in H. destruct H as (c3 & s3 & x3 & k3 & _ & H & _).
  apply mbind_split in H. destruct H as (c4 & s4 & [] & k4 & E4 & H & _). apply indent_in in E4.
  match type of H with ?p s4 = _ => assert (K : keeps p) end. { repeat (apply keeps_bind; [|intro]); kp; apply keeps_attrs. }
  destruct (K _ _ _ _ H) as (A & B & C). destruct E4 as [T|[T1 T2]]; [left; congruence|right; split; congruence].
Qed.
Lemma end_tight : forall n s cs s', write_end n s = (cs, s', Ok tt) -> tight s -> exists e es, p_elems s = e :: es /\ concat cs = [60; 47] ++ qname e ++ [62].
Proof.
  intros n s cs s' H T. unfold write_end in H. destruct (beq (local n) []); [discriminate|]. apply mbind_split in H. destruct H as (c1 & s1 & x1 & k1 & G & H & ->). injection G as <- <- <-.
  destruct (p_elems s) as [|e es] eqn:E; [discriminate|]. exists e, es. split; auto. destruct (beq (el_name e) []); [discriminate|]. destruct (split_prefixed (local n)) as [p l].
  destruct (_ && _); [discriminate|]. destruct (negb _); [discriminate|]. destruct (negb _); [discriminate|].
  apply mbind_split in H. destruct H as (c2 & s2 & x2 & k2 & I & H & ->). pose proof (indent_out s T) as IO. rewrite I in IO. cbn [fst] in IO. subst c2. unfold mbind, emit, mget, mput in H. injection H as <- _.
  rewrite app_nil_r. cbn [app concat]. unfold qname, join_prefixed. destruct (el_prefix e) as [|c0 pr]; cbn [beq app concat]; rewrite ?app_nil_r; auto. rewrite <- !app_assoc. reflexivity.
Qed.
(** C50. An extension element is written with exactly the bytes it holds between its tags, however the document is laid out. *)
Theorem C50_write : forall F k addr n l raw fi s cs s', 0 <= p_seq s ->
  marshal_value F mpd_types embed_depth (S k) addr (TStruct EXT) (ext n l raw) fi None s = (cs, s', Ok tt) ->
  exists W q rest, concat cs = W ++ str "<" ++ q ++ rest ++ str ">" ++ raw ++ str "</" ++ q ++ str ">" /\ (rest = [] \/ exists t, rest = 32 :: t).
Proof.
  intros F k addr n l raw fi s cs s' Q H. cbn [marshal_value] in H.
  replace (match fi with Some f => g_omit (fi_flags f) && is_empty (ext n l raw) | None => false end) with false in H by (destruct fi; [cbn; rewrite andb_false_r|]; reflexivity).
  cbn [drill ext] in H. fold (ext n l raw) in H. unfold info_of in H. rewrite ext_info_ok in H.
  apply mbind_split in H. destruct H as (c1 & s1 & ti & k1 & E1 & H & ->). injection E1 as <- <- <-.
  apply mbind_split in H. destruct H as (c2 & s2 & nm & k2 & E2 & H & ->). unfold mlift in E2. destruct (start_name _ _ _ _ _ _ _) as [nm0|[]| |]; try discriminate. injection E2 as <- <- <-.
  apply mbind_split in H. destruct H as (c3 & s3 & own & k3 & E3 & H & ->). unfold mlift in E3. destruct (marshal_attrs _ _ _ _ _ _) as [own0|[]| |]; try discriminate. injection E3 as <- <- <-.
  apply mbind_split in H. destruct H as (c4 & s4 & st & k4 & E4 & H & ->). injection E4 as <- <- <-.
  apply mbind_split in H. destruct H as (c5 & s5 & [] & k5 & E5 & H & ->). apply mbind_split in H. destruct H as (c6 & s6 & [] & k6 & E6 & H & ->).
  assert (LN : local nm0 <> []). { intro L. unfold write_start in E5. rewrite (proj2 (beq_eq _ _) L) in E5. discriminate. }
  destruct (write_start_ok nm0 ([] ++ own0 ++ reset_default ext_info nm0 (p_elems s)) s Q LN) as (cs0 & s0 & e & ind & rest & W0 & ES & _ & _ & _ & CC & RR & _). rewrite E5 in W0. injection W0 as <- <-. pose proof (start_tight _ _ _ _ _ E5) as T.
  assert (c6 = [raw] /\ s6 = s5) as [-> ->]. { clear - E6. unfold marshal_struct in E6. match type of E6 with mbind ?p _ _ = _ => assert (P : p s5 = ([raw], s5, Ok [])) by reflexivity end. unfold mbind in E6. rewrite P in E6. cbn in E6. injection E6 as <- <-. auto. }
  destruct (end_tight _ _ _ _ H T) as (e' & es' & ES' & CE). rewrite ES in ES'. injection ES' as <- <-.
  exists ind, (qname e), rest. split; [|exact RR]. cbn [app]. rewrite concat_app, CC. cbn [concat app]. rewrite CE. change (str "<") with [60]. change (str ">") with [62]. change (str "</") with [60; 47]. repeat (rewrite <- app_assoc; cbn [app]). reflexivity.
Qed.
Print Assumptions C50_write.

(** An extension with an element, a comment and character data inside, read from one document and written in another place. *)
Definition sample_raw : bytes := str "<x:a b=""1""/> <!-- c --><![CDATA[d]]>".
Example C50_read_example : forall F, exists d d', started (str "<Ext k=""v"">" ++ sample_raw ++ str "</Ext>") (mkname [] (str "Ext")) [mkattr (mkname [] (str "k")) (str "v")] d /\
  unmarshal F mpd_types embed_depth 5 100 (TStruct EXT) (ext (mkname [] []) [] []) (mkname [] (str "Ext")) [mkattr (mkname [] (str "k")) (str "v")] d =
  Ok (ext (mkname [] (str "Ext")) [VAttr (mkattr (mkname [] (str "k")) (str "v"))] sample_raw, d').
Proof. intros F. eexists _, _. split; [exists [], (new_decoder (str "<Ext k=""v"">" ++ sample_raw ++ str "</Ext>")); split; [constructor|vm_compute; reflexivity]|]. vm_compute. reflexivity. Qed.
Example C50_write_example : forall F,
  let '(cs, _, r) := marshal_value F mpd_types embed_depth 5 true (TStruct EXT) (ext (mkname [] (str "Ext")) [VAttr (mkattr (mkname [] (str "k")) (str "v"))] sample_raw) None None (mkp 0 (str "  ") [] 1 false true []) in
  r = Ok tt /\ concat cs = [10; 32; 32] ++ str "<Ext k=""v"">" ++ sample_raw ++ str "</Ext>".
Proof. intros F. vm_compute. split; reflexivity. Qed.
