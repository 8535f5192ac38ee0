(** Theorems C26 to C29 and C52: UTF-8, escaping and CDATA. *)
From Coq Require Import String.
From Coq Require Import ZArith List Bool Lia.
From Verif Require Import Base Utf8 Lexer LexerProofs Escape EscapeSpec EscapeProofs CdataProofs.
Import ListNotations.
Open Scope Z_scope.

(** ** C52 *)
(** Splitting a byte string into runes loses and adds nothing. *)
Theorem C52_lossless : forall s, concat (map snd (pieces s)) = s.
Proof. exact pieces_concat. Qed.
Print Assumptions C52_lossless.

(** Every piece is the UTF-8 encoding of its rune, or one byte that starts no encoding, given as U+FFFD. *)
Theorem C52_sound : forall s, is_bytes s -> Forall (fun p => utf8 (fst p) (snd p) \/ (fst p = 65533 /\ exists b, snd p = [b] /\ 128 <= b)) (pieces s).
Proof.
  intros s B. eapply Forall_impl; [|apply pieces_kind, B]. intros [r u] [[S E]|H]; [left|right; exact H].
  apply utf8_encode. auto.
Qed.
Print Assumptions C52_sound.

(** A valid encoding decodes to its rune whatever follows, encodes back to the same bytes, and nothing
    else decodes without the one-byte error. *)
Theorem C52_exact : forall s r n, is_bytes s -> s <> [] ->
  (decode_rune s = (r, n) /\ ~ (r = 65533 /\ n = 1%nat)) <-> (exists u t, utf8 r u /\ s = u ++ t /\ n = length u).
Proof.
  intros s r n B N. split.
  - intros [D NF]. destruct (decode_sound s r n B N D NF) as [S E]. exists (firstn n s), (skipn n s).
    pose proof (decode_size s N) as [_ L]. rewrite D in L. cbn [snd] in L. repeat split.
    + now apply utf8_encode.
    + symmetry. apply firstn_skipn.
    + symmetry. now apply firstn_length_le.
  - intros (u & t & U & -> & ->). apply utf8_encode in U. destruct U as [S ->]. rewrite decode_encode by auto. split; auto.
    intros [-> L]. discriminate.
Qed.
Print Assumptions C52_exact.
Theorem C52_encode : forall r, (exists u, utf8 r u) -> utf8 r (encode_rune r).
Proof. intros r (u & U). apply utf8_encode in U. destruct U as [S ->]. now apply utf8_encode. Qed.
Print Assumptions C52_encode.
(** U+20AC in three bytes, a stray continuation byte, a surrogate in three invalid bytes. *)
Example C52_ex : pieces [226; 130; 172; 128; 237; 160; 128; 65] =
  [(8364, [226; 130; 172]); (65533, [128]); (65533, [237]); (65533, [160]); (65533, [128]); (65, [65])]
  /\ utf8 8364 [226; 130; 172].
Proof. split; [reflexivity|]. apply (U3 2 2 44); lia. Qed.

(** ** C26 *)
(** A byte string written as an attribute value is read back cleaned, up to exactly the closing quote. *)
Theorem C26_attribute : forall m s rest, is_bytes s ->
  exists t, cleaned s t /\ attrval (34 :: escape m s ++ 34 :: rest) = ROk t rest.
Proof.
  intros m s rest B. exists (clean s). split; [now apply clean_cleaned|]. unfold attrval. cbn [Z.eqb orb].
  change (34 =? 34) with true. cbn [orb]. apply text_escape_quoted; auto.
Qed.
Print Assumptions C26_attribute.
(** In particular XML text comes back unchanged. *)
Theorem C26_unchanged : forall m s rest, xml_text s -> attrval (34 :: escape m s ++ 34 :: rest) = ROk s rest.
Proof.
  intros m s rest X. destruct (C26_attribute m s rest (xml_text_bytes s X)) as (t & H & ->).
  now rewrite (cleaned_det s t H s (xml_text_cleaned s X)).
Qed.
Print Assumptions C26_unchanged.
(** The cleaned string is unique, and is XML text. *)
Theorem C26_cleaned_unique : forall s t t', cleaned s t -> cleaned s t' -> t = t'.
Proof. intros. eapply cleaned_det; eauto. Qed.
Theorem C26_cleaned_text : forall s t, is_bytes s -> cleaned s t -> xml_text t.
Proof. intros s t B H. apply cleaned_iff in H; auto. subst t. now apply clean_text. Qed.
Print Assumptions C26_cleaned_unique.
Print Assumptions C26_cleaned_text.
Example C26_ex : attrval (34 :: escape EAttr (str "a<b&""c'>" ++ [9; 10; 13; 0; 255; 226; 130; 172]) ++ str """/>")
  = ROk (str "a<b&""c'>" ++ [9; 10; 13; 239; 191; 189; 239; 191; 189; 226; 130; 172]) (str "/>").
Proof. reflexivity. Qed.

(** ** C27 *)
(** Text before a tag or the end of the input is read back cleaned, as one token. *)
Theorem C27_text : forall m s rest, is_bytes s -> s <> [] -> (rest = [] \/ exists r, rest = 60 :: r) ->
  exists t, cleaned s t /\ raw_token (escape m s ++ rest) = ROk (TChar t, None) rest.
Proof.
  intros m s rest B N R. exists (clean s). split; [now apply clean_cleaned|].
  pose proof (text_escape_plain m s rest R B) as T. pose proof (escape_no_markup m s B) as NM.
  destruct (escape m s ++ rest) as [|b t] eqn:E.
  - exfalso. apply app_eq_nil in E. destruct E as [E _].
    (* nothing but the empty string escapes to nothing *)
    rewrite escape_pieces in E. rewrite pieces_cons in E by auto. cbn [flat_map] in E. apply app_eq_nil in E. destruct E as [E _].
    unfold esc_piece in E. cbn [fst snd] in E. pose proof (decode_size s N) as [D1 D2]. destruct (esc_for m _ _) as [e|] eqn:F.
    + apply esc_for_cases in F. destruct F as [[-> _]|(_ & _ & e' & -> & _)]; discriminate.
    + apply (f_equal (@length Z)) in E. rewrite firstn_length_le in E by auto. cbn in E. lia.
  - unfold raw_token. destruct (b =? 60) eqn:B60; [|cbn [negb]; rewrite T; reflexivity].
    exfalso. assert (b = 60) by lia. subst b. destruct (escape m s) as [|b' t'] eqn:E'.
    + rewrite escape_pieces in E'. rewrite pieces_cons in E' by auto. cbn [flat_map] in E'. apply app_eq_nil in E'. destruct E' as [E' _].
      unfold esc_piece in E'. cbn [fst snd] in E'. pose proof (decode_size s N) as [D1 D2]. destruct (esc_for m _ _) as [e|] eqn:F.
      * apply esc_for_cases in F. destruct F as [[-> _]|(_ & _ & e' & -> & _)]; discriminate.
      * apply (f_equal (@length Z)) in E'. rewrite firstn_length_le in E' by auto. cbn in E'. lia.
    + cbn [app] in E. injection E as -> _. remember (60 :: t') as w eqn:W. destruct NM as [|r u s' U X NI _|e s' R' _]; [discriminate| |].
      * destruct U as [r HR| | |]; cbn [app] in W; apply (f_equal (hd 0)) in W; cbn [hd] in W; try lia. subst r. apply NI. cbn. auto.
      * destruct R'; discriminate.
Qed.
Print Assumptions C27_text.
Theorem C27_unchanged : forall m s rest, xml_text s -> s <> [] -> (rest = [] \/ exists r, rest = 60 :: r) ->
  raw_token (escape m s ++ rest) = ROk (TChar s, None) rest.
Proof.
  intros m s rest X N R. destruct (C27_text m s rest (xml_text_bytes s X) N R) as (t & H & ->).
  now rewrite (cleaned_det s t H s (xml_text_cleaned s X)).
Qed.
Print Assumptions C27_unchanged.
Example C27_ex : raw_token (escape (EText false) (str "x ]]> y" ++ [13; 10; 1]) ++ str "</p>")
  = ROk (TChar (str "x ]]> y" ++ [13; 10; 239; 191; 189]), None) (str "</p>").
Proof. reflexivity. Qed.

(** ** C28 *)
(** A string of XML characters without carriage returns, written as CDATA, is read back as successive
    character data tokens that together are the string, up to exactly the end of the last section. *)
Theorem C28_cdata : forall s rest, xml_text s -> ~ In 13 s -> exists parts, concat parts = s /\ reads_text (emit_cdata s ++ rest) parts rest.
Proof. exact read_cdata. Qed.
Print Assumptions C28_cdata.
Example C28_ex : reads_text (emit_cdata (str "a]]>]]]>b<&") ++ str "</p>") [str "a]]"; str ">]]]"; str ">b<&"] (str "</p>")
  /\ xml_text (str "a]]>]]]>b<&").
Proof.
  split.
  - eapply RT_cons; [reflexivity|]. eapply RT_cons; [reflexivity|]. eapply RT_cons; [reflexivity|]. apply RT_nil.
  - apply xml_text_ascii. cbn. repeat (apply Forall_cons; [lia|]). apply Forall_nil.
Qed.
(** Outside that range the claim is false: carriage returns become newlines ... *)
Theorem C28_cr_refuted : exists s rest, xml_text s /\ raw_token (emit_cdata s ++ rest) = ROk (TChar [97; 10; 98], None) rest /\ s <> [97; 10; 98].
Proof.
  exists [97; 13; 98], (str "</p>"). split; [|split; [reflexivity|discriminate]].
  apply xml_text_ascii. repeat (apply Forall_cons; [lia|]). apply Forall_nil.
Qed.
(** ... and bytes that are not XML text make the written section unreadable (nothing is cleaned). *)
Theorem C28_invalid_refuted : exists s rest e, is_bytes s /\ raw_token (emit_cdata s ++ rest) = RErr e.
Proof. exists [97; 0], (str "</p>"). eexists. split; [repeat constructor; lia|reflexivity]. Qed.
Print Assumptions C28_cr_refuted.
Print Assumptions C28_invalid_refuted.

(** ** C29 *)
(** Whatever bytes are escaped, the result is XML characters without <, >, & and quotes, and complete references. *)
Theorem C29_no_markup : forall m s, is_bytes s -> no_markup (escape m s).
Proof. exact escape_no_markup. Qed.
Print Assumptions C29_no_markup.
(** So neither <, > nor a quote occurs in it, and it is valid XML text. *)
Lemma reference_ascii : forall e, reference e -> Forall (fun c => 32 <= c < 128 /\ c <> 60 /\ c <> 62 /\ c <> 34 /\ c <> 39) e.
Proof.
  intros e H. destruct H as [n I|ds N F|ds N F].
  - repeat (destruct I as [<-|I]; [repeat (apply Forall_cons; [lia|]); apply Forall_nil|]). destruct I.
  - apply Forall_cons; [lia|]. apply Forall_cons; [lia|]. apply Forall_app. split.
    + eapply Forall_impl; [|exact F]. cbn. intros. lia.
    + apply Forall_cons; [lia|apply Forall_nil].
  - apply Forall_cons; [lia|]. apply Forall_cons; [lia|]. apply Forall_cons; [lia|]. apply Forall_app. split.
    + eapply Forall_impl; [|exact F]. cbn. intros. lia.
    + apply Forall_cons; [lia|apply Forall_nil].
Qed.
Theorem C29_safe_bytes : forall m s, is_bytes s -> xml_text (escape m s) /\ ~ In 60 (escape m s) /\ ~ In 62 (escape m s) /\ ~ In 34 (escape m s) /\ ~ In 39 (escape m s).
Proof.
  intros m s B. pose proof (escape_no_markup m s B) as H. induction H as [|r u t U X N H (I1 & I2 & I3 & I4 & I5)|e t R H (I1 & I2 & I3 & I4 & I5)].
  - split; [constructor|]. cbn. tauto.
  - split; [now apply X_cons with r|]. rewrite !in_app_iff.
    assert (P : forall c, In c [60; 62; 34; 39] -> ~ In c u).
    { intros c C I. assert (0 <= c < 128) by (cbn in C; lia). destruct U; cbn [In] in I; try lia.
      destruct I as [<-|[]]. apply N. cbn in *. tauto. }
    repeat split; intros [I|I]; try contradiction; revert I; apply P; cbn; auto.
  - pose proof (reference_ascii e R) as A. split.
    + apply xml_text_app; auto. apply xml_text_ascii. eapply Forall_impl; [|exact A]. cbn. intros. lia.
    + rewrite Forall_forall in A. rewrite !in_app_iff. repeat split; intros [I|I]; try contradiction; apply A in I; lia.
Qed.
Print Assumptions C29_safe_bytes.
Example C29_ex : escape EAttr (str """><script>&#34;") = str "&#34;&gt;&lt;script&gt;&amp;#34;".
Proof. reflexivity. Qed.
