(** Properties C33, C48, C49: EncodeToken, Flush and Close, and reading back directives, comments and processing
    instructions. *)
From Coq Require Import String.
From Coq Require Import ZArith List Bool Lia ZifyBool ZifyNat.
From Verif Require Import Base Utf8 Lexer Escape Decoder Printer Writer WriterProofs PrinterProofs NameProofs EncoderSpec EncoderProofs DirectiveProofs.
Import ListNotations.
Open Scope Z_scope.

(** ** C33 *)
(** C33. After any calls on an encoder, with any indentation, the accepted calls are balanced: each accepted end
    tag closes the innermost open element, written with the very name the start tag was written with, and
    refused calls add nothing to the text.  Close succeeds iff nothing is open. *)
Theorem C33_balanced : forall o h e, willing o -> history o h e -> exists os, balanced h os /\ (snd (enc_close o e) = Done <-> os = []).
Proof.
  intros o h e W H. destruct (history_inv o h e W H) as [os (B & F2 & (FC & FE & FB) & T & Q)]. exists os. split; auto.
  unfold enc_close. rewrite FC. cbn [snd]. rewrite flush_willing by auto.
  inversion F2; subst; split; intro; try discriminate; auto; exfalso; congruence.
Qed.
Print Assumptions C33_balanced.
(** The list of open elements is determined by the calls. *)
Theorem C33_open_unique : forall h os os', balanced h os -> balanced h os' -> map o_name os = map o_name os'.
Proof.
  intros h os os' B. revert os'. induction B; intros os2 B2; inversion B2 as [E|? ? ? ? ? ? ? ? ? E|? ? ? ? ? ? ? ? E|? ? ? ? E|? ? ? ? ? ? ? E]; clear B2; subst;
    try (symmetry in E; apply app_eq_nil in E; destruct E; discriminate); try (apply app_eq_nil in E; destruct E; discriminate);
    try (apply app_inj_tail in E; destruct E as [<- E]; injection E; intros; subst); auto; try discriminate;
    try (exfalso; match goal with X : forall n a, TStart ?p ?q <> TStart n a |- _ => apply (X p q); reflexivity | X : forall n, TEnd ?p <> TEnd n |- _ => apply (X p); reflexivity end).
  - cbn. f_equal. auto.
  - match goal with X : balanced ?k (mkopened _ _ :: os2), Y : forall z, balanced ?k z -> _ |- _ => specialize (Y _ X); cbn in Y; injection Y; auto end.
Qed.
Print Assumptions C33_open_unique.
(** C33. Which start tags are accepted: those with a name. *)
Theorem C33_start : forall o h e n a, willing o -> history o h e -> exists e' r, enc_token o (TStart n a) e = Some (e', r) /\ (r = Done <-> local n <> []).
Proof.
  intros o h e n a W H. destruct (history_inv o h e W H) as [os (B & F2 & F & T & Q)].
  destruct (token_step o (TStart n a) e W F T Q) as (e1 & r1 & R1 & F1 & T1 & P1 & X1 & D1). exists e1, r1. split; auto. rewrite D1. cbn [encode_token].
  destruct (beq (local n) []) eqn:L.
  - unfold write_start. rewrite L. cbn. apply beq_eq in L. split; [intros [x X]; discriminate|congruence].
  - apply beq_neq in L. destruct (write_start_ok n a (en_p e) Q L) as (cs & s' & el & ind & rest & E & _). rewrite E. split; auto. exists tt. reflexivity.
Qed.
Print Assumptions C33_start.
(** C33. Which end tags are accepted: with nothing open, or another name than the innermost open element's, none;
    one without a prefix always; the very name the element was started with, if its prefix may be declared. *)
Theorem C33_end : forall o h e, willing o -> history o h e -> exists os, balanced h os /\ forall n, exists e' r, enc_token o (TEnd n) e = Some (e', r) /\
  (r = Done -> exists m q os' ind, os = mkopened m q :: os' /\ same_name n m /\ total e' = total e ++ ind ++ [60; 47] ++ q ++ [62]) /\
  (r <> Done -> total e' = total e) /\
  (forall m q os', os = mkopened m q :: os' -> same_name n m -> local n <> [] -> (forall p l, ~ prefixed (local n) p l) -> r = Done) /\
  (forall q os', os = mkopened n q :: os' -> (forall p l, prefixed (local n) p l -> usable p) -> r = Done).
Proof.
  intros o h e W H. destruct (history_inv o h e W H) as [os (B & F2 & F & T & Q)]. exists os. split; auto. intro n.
  destruct (token_step o (TEnd n) e W F T Q) as (e1 & r1 & R1 & F1 & T1 & P1 & X1 & D1). exists e1, r1. split; auto. cbn [encode_token] in *.
  assert (CASES : (exists el es, p_elems (en_p e) = el :: es /\ el_name el <> [] /\ local n <> [] /\ end_matches n el) \/ (exists m, write_end n (en_p e) = ([], en_p e, Err (EncErr m)))).
  { destruct (p_elems (en_p e)) as [|el es] eqn:EL; [right; apply write_end_refused; congruence|].
    assert (DB : forall a b : bytes, {a = b} + {a <> b}) by (apply bytes_dec).
    assert (DM : {end_matches n el} + {~ end_matches n el}).
    { unfold end_matches. destruct (DB (snd (split_prefixed (local n))) (el_name el)); [|right; tauto]. destruct (DB (space n) (el_ns el)); [|right; tauto].
      destruct (DB (fst (split_prefixed (local n))) []); [left; tauto|]. destruct (DB (el_prefix el) []); [left; tauto|]. destruct (DB (fst (split_prefixed (local n))) (el_prefix el)); [left; tauto|right; tauto]. }
    destruct (DB (el_name el) []); [|destruct (DB (local n) []); [|destruct DM; [left; exists el, es; auto|]]];
      right; apply write_end_refused; intros el2 es2 E2; rewrite EL in E2; injection E2 as <- <-; tauto. }
  destruct CASES as [(el & es & EL & O1 & O2 & O3)|[m RF]].
  - rewrite EL in F2. inversion F2 as [|op el' os1 es1 OE F2' EQ1 EQ2]; subst. destruct (write_end_ok n (en_p e) el es EL O1 O2 O3) as (cs & s' & ind & E & EL' & SQ & C). rewrite E in *. cbn [fst snd] in *.
    assert (DN : r1 = Done) by (apply D1; eauto). split; [|split; [congruence|split; auto]]. intros _. destruct op as [m q]. exists m, q, os1, ind. split; auto.
    destruct OE as (OA & OB & OC & OD & _). cbn in *. destruct O3 as (X & Y & _). split; [apply same_name_split; split; congruence|]. rewrite X1, C, OC. reflexivity.
  - rewrite RF in *. cbn [fst snd concat] in *. assert (DN : r1 <> Done) by (intros ->; destruct D1 as [D1 _]; destruct (D1 eq_refl); discriminate).
    split; [congruence|]. split; [intros _; rewrite X1, app_nil_r; auto|].
    assert (NOT : forall el es, p_elems (en_p e) = el :: es -> ~ (el_name el <> [] /\ local n <> [] /\ end_matches n el)).
    { intros el es EL (O1 & O2 & O3). destruct (write_end_ok n (en_p e) el es EL O1 O2 O3) as (cs & s' & ind & E & _). congruence. }
    split.
    + intros m2 q os' -> S LN NP. exfalso. inversion F2 as [|op el os1 es1 (OA & OB & OC & OD & _) F2' EQ1 EQ2]; subst. apply (NOT el es1); auto. split; auto. split; auto. apply same_name_split in S. cbn in *.
      split; [destruct S; congruence|]. split; [destruct S; congruence|]. left. destruct (split_parts (local n)) as [PX|(PX & _)]; auto. exfalso. eapply NP; eauto.
    + intros q os' -> U. exfalso. inversion F2 as [|op el os1 es1 (OA & OB & OC & OD & OP) F2' EQ1 EQ2]; subst. cbn in *. apply (NOT el es1); auto. split; auto.
      split; [intro LN; rewrite LN in OB; apply OD; exact OB|]. split; auto. split; auto. destruct (split_parts (local n)) as [PX|(PX & _)]; auto. right. right. symmetry. eapply OP; eauto.
Qed.
Print Assumptions C33_end.
(** C33. After Close no call is accepted, and nothing more is written, whatever the writer does. *)
Lemma closed_writes : forall o cs e e', en_closed e = true -> p_writes o cs e = Some e' -> en_b e' = en_b e /\ en_closed e' = true /\ (cs <> [] -> en_err e' <> None).
Proof.
  induction cs as [|c cs IH]; intros e e' C H; cbn [p_writes] in H.
  - injection H as <-. split; [auto|]. split; [auto|]. intro X. congruence.
  - destruct (p_write o c e) as [e1|] eqn:E1; [|discriminate]. assert (K : en_closed e1 = true /\ en_b e1 = en_b e /\ en_err e1 <> None).
    { unfold p_write in E1. rewrite C in E1. destruct (en_err e); injection E1 as <-; cbn; split; auto; split; auto; discriminate. }
    destruct K as (K1 & K2 & K3). destruct (IH e1 e' K1 H) as (A & B & D). split; [congruence|]. split; auto. intros _. destruct cs; [injection H as <-; auto|apply D; discriminate].
Qed.
Theorem C33_closed : forall o e t e' r, enc_token o t (fst (enc_close o e)) = Some (e', r) -> r <> Done /\ en_b e' = en_b (fst (enc_close o e)).
Proof.
  intros o e t e' r H. assert (C : en_closed (fst (enc_close o e)) = true) by (unfold enc_close; destruct (en_closed e) eqn:X; auto). revert H. set (e1 := fst (enc_close o e)) in *. clearbody e1. intro H.
  unfold enc_token, run_step in H. destruct (encode_token _ t (en_p e1)) as [[cs s] res]. destruct (p_writes _ _ _) as [e2|] eqn:P; [|discriminate].
  destruct (closed_writes o (cs ++ [[]]) (mkenc s (en_b e1) (en_closed e1) (en_err e1)) e2 C P) as (A & B & D). specialize (D ltac:(intro X; apply app_eq_nil in X; destruct X; discriminate)). cbn in A.
  destruct res; try discriminate; injection H as <- <-; split; auto; try discriminate. destruct (en_err e2); congruence.
Qed.
Print Assumptions C33_closed.

Definition all_taken : writer := fun _ p => (length p, None).
Lemma all_taken_willing : willing all_taken.
Proof. intros h p. reflexivity. Qed.
Fixpoint run (o : writer) (ts : list token) (e : encoder) : option (encoder * list ended) :=
  match ts with [] => Some (e, []) | t :: ts => match enc_token o t e with None => None | Some (e, r) => match run o ts e with None => None | Some (e, rs) => Some (e, r :: rs) end end end.
Definition nm (s l : string) : name := mkname (str s) (str l).
(** Two elements, a wrong end tag between them and one end tag too many. *)
Example C33_example :
  (match run all_taken [TStart (nm "u" "p:a") []; TStart (nm "" "b") []; TEnd (nm "u" "p:a"); TEnd (nm "" "b"); TEnd (nm "u" "a"); TEnd (nm "u" "a")] (enc_indent [] (str "  ") (new_encoder new_dest)) with
   | Some (e, rs) => Some (total e, rs, snd (enc_close all_taken e)) | None => None end)
  = Some (str "<p:a xmlns:p=""u"">" ++ [10] ++ str "  <b></b>" ++ [10] ++ str "</p:a>", [Done; Done; Failed; Done; Done; Failed], Done).
Proof. vm_compute. reflexivity. Qed.
(** C33 fails for the second Close: it reports success although an element is still open. *)
Theorem C33_second_close_refuted : exists h e os, history all_taken h e /\ balanced h os /\ os <> [] /\
  snd (enc_close all_taken e) <> Done /\ snd (enc_close all_taken (fst (enc_close all_taken e))) = Done.
Proof.
  set (e0 := new_encoder new_dest). destruct (enc_token all_taken (TStart (nm "" "a") []) e0) as [[e r]|] eqn:E; [|vm_compute in E; discriminate].
  assert (r = Done) as -> by (vm_compute in E; congruence).
  exists ([] ++ [mkcall (TStart (nm "" "a") []) true (str "<a>")]), e, [mkopened (nm "" "a") (str "a")].
  split; [apply (H_token all_taken [] e0 _ e Done); [constructor; reflexivity|exact E|vm_compute in E; injection E as <-; reflexivity]|].
  split; [apply (B_start [] [] (nm "" "a") [] [] (str "a") []); [constructor|auto]|]. split; [discriminate|].
  vm_compute in E. injection E as <-. split; [vm_compute; discriminate|vm_compute; reflexivity].
Qed.
Print Assumptions C33_second_close_refuted.
(** C33 needs the condition on the prefix: one that starts with "xml" is changed, and the end tag with the name of
    the start tag is refused. *)
Theorem C33_prefix_refuted : exists n, (match run all_taken [TStart n []; TEnd n] (new_encoder new_dest) with Some (e, rs) => Some (total e, rs) | None => None end)
  = Some (str "<_xmlp:a xmlns:_xmlp=""u"">", [Done; Failed]).
Proof. exists (nm "u" "xmlp:a"). vm_compute. reflexivity. Qed.
Print Assumptions C33_prefix_refuted.

(** ** C48 *)
(** C48. EncodeToken accepts a directive iff its angle brackets are balanced outside quoted strings and comments,
    all of which end; it then writes exactly the directive between "<!" and ">". *)
Theorem C48_exact : forall o h e s, willing o -> history o h e -> exists e' r, enc_token o (TDirective s) e = Some (e', r) /\
  (r = Done <-> exists out, dir true 0 s out) /\ total e' = total e ++ (if match r with Done => true | _ => false end then [60; 33] ++ s ++ [62] else []).
Proof.
  intros o h e s W H. destruct (history_inv o h e W H) as [os (B & F2 & F & T & Q)].
  destruct (token_step o (TDirective s) e W F T Q) as (e1 & r1 & R1 & F1 & T1 & P1 & X1 & D1). exists e1, r1. split; auto. cbn [encode_token] in *.
  rewrite <- (valid_dir (length s) s (le_n _) [] 0). change (Z.of_nat 0) with 0. destruct (valid_directive [] s 0 0 false); cbn [fst snd emit mfail concat] in *.
  - assert (r1 = Done) as -> by (apply D1; exists tt; reflexivity). split; [tauto|]. rewrite X1, app_nil_r. reflexivity.
  - assert (r1 <> Done) by (intros ->; destruct D1 as [D1 _]; destruct (D1 eq_refl); discriminate). split; [split; [congruence|discriminate]|]. rewrite X1. destruct r1; auto; congruence.
Qed.
Print Assumptions C48_exact.
(** No "<!-->" or "<!--->", which the encoder takes for a comment and the decoder does not. *)
Definition no_short (s : bytes) : Prop := forall a b, s <> a ++ [60; 33; 45; 45; 62] ++ b /\ s <> a ++ [60; 33; 45; 45; 45; 62] ++ b.
Lemma no_short_app : forall x s, no_short (x ++ s) -> no_short s.
Proof. intros x s H a b. destruct (H (x ++ a) b) as [A B]. split; intros ->; [apply A|apply B]; rewrite <- app_assoc; reflexivity. Qed.
Lemma dir_long : forall d s out, dir true d s out -> no_short s -> dir false d s out.
Proof.
  induction 1 as [|d c s out O D IH|d q x s out Qq NI D IH|d s out N D IH|d s out D IH|d z s out E SH D IH|d x s out SH X D IH]; intro NS.
  - constructor.
  - apply D_byte; auto. apply IH, (no_short_app [c]); auto.
  - apply D_quoted; auto. apply IH. apply (no_short_app (q :: x ++ [q])). cbn [app]. rewrite <- app_assoc. exact NS.
  - apply D_open; auto. apply IH, (no_short_app [60]); auto.
  - apply D_close. apply IH, (no_short_app [62]); auto.
  - apply D_comment; [auto|discriminate|]. apply IH. apply (no_short_app ([60; 33; 45; 45] ++ z ++ [45; 45; 62])). rewrite <- !app_assoc. exact NS.
  - exfalso. destruct (NS [] s) as [A B]. destruct X as [-> | ->]; [apply A|apply B]; reflexivity.
Qed.
(** C48. An accepted directive with an ordinary first byte other than a hyphen and a square bracket is read back as
    one directive, in which each comment has become a space; as the same directive if it has no comment. *)
Theorem C48_reads : forall c s rest out, ordinary c -> c <> 45 -> c <> 91 -> dir true 0 (c :: s) out -> no_short (c :: s) ->
  raw_token (([60; 33] ++ (c :: s) ++ [62]) ++ rest) = ROk (TDirective out, None) rest.
Proof.
  intros c s rest out O N1 N2 D NS. apply dir_long in D; auto. destruct O as (Q & L & G).
  inversion D as [|? ? ? out' O' D'|? ? ? ? ? Q'| | | |]; subst; try (exfalso; tauto); try congruence.
  cbn [app]. rewrite <- app_assoc. cbn [app raw_token]. change (negb (60 =? 60)) with false. change (33 =? 47) with false. change (33 =? 63) with false. change (33 =? 33) with true. cbv iota.
  replace (c =? 45) with false by lia. replace (c =? 91) with false by lia.
  pose proof (directive_app (length s) 0 s out' (le_n _) D' (2 * length (s ++ 62 :: rest) + 2) [c] rest) as DA.
  change (Z.of_nat 0) with 0 in DA. rewrite DA by (rewrite app_length; cbn [length]; lia). reflexivity.
Qed.
Print Assumptions C48_reads.
Theorem C48_same : forall b d s out, dir b d s out -> (forall x y, s <> x ++ [60; 33; 45; 45] ++ y) -> out = s.
Proof.
  intros b d s out D. induction D as [|d c s out O D IH|d q x s out Qq NI D IH|d s out N D IH|d s out D IH|d z s out E SH D IH|d x s out SH X D IH]; intro NC; auto.
  - f_equal. apply IH. intros x y ->. apply (NC (c :: x) y). reflexivity.
  - do 2 f_equal. f_equal. apply IH. intros v w ->. apply (NC (q :: x ++ q :: v) w). cbn. rewrite <- app_assoc. reflexivity.
  - f_equal. apply IH. intros x y ->. apply (NC (60 :: x) y). reflexivity.
  - f_equal. apply IH. intros x y ->. apply (NC (62 :: x) y). reflexivity.
  - exfalso. apply (NC [] (z ++ [45; 45; 62] ++ s)). reflexivity.
  - exfalso. apply (NC [] (x ++ s)). reflexivity.
Qed.
Print Assumptions C48_same.
Definition doctype : bytes := str "DOCTYPE a [<!ELEMENT b '>'><!-- < ' -->]".
Lemma doctype_dir : dir true 0 doctype (str "DOCTYPE a [<!ELEMENT b '>'> ]").
Proof.
  unfold doctype. cbn. repeat (apply D_byte; [unfold ordinary, quote; lia|]). apply D_open; [intros r X; inversion X|]. repeat (apply D_byte; [unfold ordinary, quote; lia|]).
  apply (D_quoted true 1 39 [62]); [right; reflexivity|cbn; lia|]. apply D_close. apply (D_comment true 0 (str " < ' ") (str "]") (str "]")).
  - intros a b E. cbn in E. do 5 (destruct a as [|? a]; [inversion E|cbn in E; injection E as _ E]).
    destruct a as [|? a]; [cbn in E; injection E; auto|]. apply (f_equal (@length Z)) in E. cbn in E. rewrite app_length in E. cbn in E. lia.
  - intros _ r. split; intro X; inversion X.
  - cbn. apply D_byte; [unfold ordinary, quote; lia|constructor].
Qed.
Example C48_example : raw_token (([60; 33] ++ doctype ++ [62]) ++ str "<r/>") = ROk (TDirective (str "DOCTYPE a [<!ELEMENT b '>'> ]"), None) (str "<r/>").
Proof. vm_compute. reflexivity. Qed.
(** C48 fails without the conditions: these directives are accepted but not read back as one token with their
    text (a quote first, a bracket first, nothing at all, "<!-->", a hyphen or "[" first). *)
Definition accepted (s : bytes) : bool := match enc_token all_taken (TDirective s) (new_encoder new_dest) with Some (_, Done) => true | _ => false end.
Definition read_back (s : bytes) : bool := match raw_token ([60; 33] ++ s ++ [62] ++ str "<r/>") with ROk (TDirective x, None) rest => beq x s && beq rest (str "<r/>") | _ => false end.
Theorem C48_reads_refuted : forall s, In s [str """>"""; str "<a>"; []; str "a<!-->"; str "a<!--->"; str "-"; str "[a]"] -> accepted s = true /\ read_back s = false.
Proof. intros s H. cbn in H. repeat (destruct H as [<-|H]; [vm_compute; auto|]). destruct H. Qed.
Print Assumptions C48_reads_refuted.

(** ** C49 *)
(** C49. A comment is accepted iff it does not contain "-->", and is then written between "<!--" and "-->". *)
Theorem C49_comment : forall o h e s, willing o -> history o h e -> exists e' r, enc_token o (TComment s) e = Some (e', r) /\
  (r = Done <-> forall a b, s <> a ++ [45; 45; 62] ++ b) /\ total e' = total e ++ (if match r with Done => true | _ => false end then [60; 33; 45; 45] ++ s ++ [45; 45; 62] else []).
Proof.
  intros o h e s W H. destruct (history_inv o h e W H) as [os (B & F2 & F & T & Q)].
  destruct (token_step o (TComment s) e W F T Q) as (e1 & r1 & R1 & F1 & T1 & P1 & X1 & D1). exists e1, r1. split; auto. cbn [encode_token] in *. change (str "-->") with [45; 45; 62] in *.
  destruct (contains [45; 45; 62] s) eqn:C; cbn [fst snd emit mfail concat] in *.
  - assert (r1 <> Done) by (intros ->; destruct D1 as [D1 _]; destruct (D1 eq_refl); discriminate). apply contains_spec in C. destruct C as (a & b & C). split; [split; [congruence|intro X; exfalso; eapply X; eauto]|]. rewrite X1. destruct r1; auto; congruence.
  - assert (r1 = Done) as -> by (apply D1; exists tt; reflexivity). split; [split; auto; intros _ a b E|rewrite X1, app_nil_r; reflexivity].
    apply not_true_iff_false in C. apply C. apply contains_spec. eauto.
Qed.
Print Assumptions C49_comment.
(** C49. An accepted comment is read back as the same comment if it has no "--" and does not end in a hyphen; else
    reading it is an error.  It never ends early. *)
Theorem C49_comment_reads : forall s rest, (forall a b, s <> a ++ [45; 45; 62] ++ b) ->
  ((forall a b, s ++ [45] <> a ++ [45; 45] ++ b) -> raw_token (([60; 33; 45; 45] ++ s ++ [45; 45; 62]) ++ rest) = ROk (TComment s, None) rest) /\
  ((exists a b, s ++ [45] = a ++ [45; 45] ++ b) -> exists m, raw_token (([60; 33; 45; 45] ++ s ++ [45; 45; 62]) ++ rest) = RErr (ESyntax m)).
Proof.
  intros s rest N. rewrite <- !app_assoc. assert (R : raw_token ([60; 33; 45; 45] ++ s ++ [45; 45; 62] ++ rest) = plain_tok TComment (comment_loop 0 0 [] (s ++ [45; 45; 62] ++ rest))) by reflexivity.
  rewrite R. rewrite comment_app; [|lia|].
  - change (adjacent (0 :: s ++ [45])) with (match s ++ [45] with b :: _ => (0 =? 45) && (b =? 45) || adjacent (s ++ [45]) | [] => false end).
    replace (match s ++ [45] with b :: _ => (0 =? 45) && (b =? 45) || adjacent (s ++ [45]) | [] => false end) with (adjacent (s ++ [45])) by (destruct (s ++ [45]); reflexivity).
    destruct (adjacent (s ++ [45])) eqn:A; split; intro X.
    + apply adjacent_spec in A. destruct A as (a & b & A). exfalso. eapply X; eauto.
    + eexists. reflexivity.
    + reflexivity.
    + apply adjacent_spec in X. congruence.
  - apply not_true_iff_false. intro C. apply contains_spec in C. destruct C as (a & b & C). destruct a as [|x a]; [discriminate|]. injection C as _ C. apply (N a b). exact C.
Qed.
Print Assumptions C49_comment_reads.
Example C49_comment_example : raw_token (([60; 33; 45; 45] ++ str "-a -> b ->" ++ [45; 45; 62]) ++ str "<r/>") = ROk (TComment (str "-a -> b ->"), None) (str "<r/>").
Proof. vm_compute. reflexivity. Qed.
(** C49 fails for comments with "--" inside or a hyphen at the end: accepted, but unreadable. *)
Theorem C49_comment_refuted : forall s, In s [str "a--b"; str "a-"] ->
  (match enc_token all_taken (TComment s) (new_encoder new_dest) with Some (_, Done) => true | _ => false end = true) /\
  exists m, raw_token ([60; 33; 45; 45] ++ s ++ [45; 45; 62]) = RErr (ESyntax m).
Proof. intros s H. cbn in H. repeat (destruct H as [<-|H]; [split; [vm_compute; reflexivity|eexists; vm_compute; reflexivity]|]). destruct H. Qed.
Print Assumptions C49_comment_refuted.

(** C49. A processing instruction is accepted iff its target is a name, its text has no "?>", and, for the target
    "xml", nothing is buffered; it is then written with a space between the two. *)
Definition pi_text (target inst : bytes) : bytes := [60; 63] ++ target ++ (match inst with [] => [] | _ => 32 :: inst end) ++ [63; 62].
Theorem C49_instruction : forall o h e target inst, willing o -> history o h e -> exists e' r, enc_token o (TProc target inst) e = Some (e', r) /\
  (r = Done <-> is_name target = true /\ (forall a b, inst <> a ++ [63; 62] ++ b) /\ (target = str "xml" -> b_buf (en_b e) = [])) /\
  total e' = total e ++ (if match r with Done => true | _ => false end then pi_text target inst else []).
Proof.
  intros o h e target inst W H. destruct (history_inv o h e W H) as [os (B & F2 & F & T & Q)].
  destruct (token_step o (TProc target inst) e W F T Q) as (e1 & r1 & R1 & F1 & T1 & P1 & X1 & D1). exists e1, r1. split; auto. cbn [encode_token] in *. change (str "?>") with [63; 62] in *.
  assert (NO : fst (fst (encode_token (length (b_buf (en_b e))) (TProc target inst) (en_p e))) = [] -> ~ (exists x, snd (encode_token (length (b_buf (en_b e))) (TProc target inst) (en_p e)) = Ok x) ->
    ~ (is_name target = true /\ (forall a b, inst <> a ++ [63; 62] ++ b) /\ (target = str "xml" -> b_buf (en_b e) = [])) ->
    (r1 = Done <-> is_name target = true /\ (forall a b, inst <> a ++ [63; 62] ++ b) /\ (target = str "xml" -> b_buf (en_b e) = [])) /\
    total e1 = total e ++ (if match r1 with Done => true | _ => false end then pi_text target inst else [])).
  { cbn [encode_token]. change (str "?>") with [63; 62]. intros A1 A2 A3. assert (r1 <> Done) by (intro X; apply D1 in X; auto). split; [tauto|]. rewrite X1, A1. destruct r1; auto; congruence. }
  cbn [encode_token] in NO. change (str "?>") with [63; 62] in NO.
  destruct (beq target (str "xml") && negb (length (b_buf (en_b e)) =? 0)%nat) eqn:C1; cbn [fst snd emit mfail concat] in *.
  { apply NO; auto; [intros [x X]; discriminate|]. intros (_ & _ & X). apply andb_true_iff in C1. destruct C1 as [C1 C2]. apply beq_eq in C1. rewrite X in C2 by auto. discriminate. }
  destruct (is_name target) eqn:C2; cbn [negb fst snd emit mfail concat] in *; [|apply NO; auto; [intros [x X]; discriminate|intros (X & _); discriminate]].
  destruct (contains [63; 62] inst) eqn:C3; cbn [fst snd emit mfail concat] in *.
  { apply NO; auto; [intros [x X]; discriminate|]. intros (_ & X & _). apply contains_spec in C3. destruct C3 as (a & b & C3). eapply X; eauto. }
  assert (r1 = Done) as -> by (apply D1; exists tt; reflexivity). split.
  - split; auto. intros _. split; auto. split; [intros a b X; apply not_true_iff_false in C3; apply C3, contains_spec; eauto|]. intros ->. rewrite beq_refl in C1. cbn in C1. destruct (b_buf (en_b e)); auto. discriminate.
  - rewrite X1. unfold pi_text. f_equal. rewrite concat_app. cbn [concat]. rewrite app_nil_r. destruct inst; cbn [concat app]; rewrite ?app_nil_r; cbn [app]; rewrite ?app_nil_r, <- ?app_assoc; reflexivity.
Qed.
Print Assumptions C49_instruction.
(** C49. An accepted processing instruction is read back with the same target and its text without leading white
    space, unless it is an xml declaration with another version or encoding, which is an error. *)
Lemma skip_space_app : forall s c t, is_space c = false -> skip_space (s ++ c :: t) = skip_space s ++ c :: t.
Proof. induction s as [|x s IH]; intros c t H; cbn [app skip_space]; [rewrite H; reflexivity|]. destruct (is_space x); auto. Qed.
Lemma skip_space_suffix : forall s, exists x, s = x ++ skip_space s.
Proof. induction s as [|x s [y IH]]; [exists []; auto|]. cbn. destruct (is_space x); [exists (x :: y); cbn; f_equal; auto|exists []; auto]. Qed.
Theorem C49_instruction_reads : forall target inst rest, is_name target = true -> (forall a b, inst <> a ++ [63; 62] ++ b) ->
  raw_token (pi_text target inst ++ rest) =
  match (if beq target (str "xml") then xml_decl_ok (skip_space inst) else None) with
  | Some m => RErr m
  | None => ROk (TProc target (skip_space inst), None) rest
  end.
Proof.
  intros target inst rest N I. unfold pi_text. rewrite <- !app_assoc.
  assert (C : contains [63; 62] (0 :: skip_space inst) = false).
  { apply not_true_iff_false. intro C. apply contains_spec in C. destruct C as (a & b & C). destruct a as [|x a]; [discriminate|]. injection C as _ C. destruct (skip_space_suffix inst) as [y Y]. apply (I (y ++ a) b). rewrite Y, C, <- app_assoc. reflexivity. }
  assert (G : exists c t, get_name (target ++ (match inst with [] => [] | _ => 32 :: inst end) ++ [63; 62] ++ rest) = inl (target, c :: t) /\ skip_space (c :: t) = skip_space inst ++ [63; 62] ++ rest).
  { destruct inst as [|i inst].
    - exists 63, (62 :: rest). split; [apply get_name_app; auto|reflexivity].
    - exists 32, ((i :: inst) ++ [63; 62] ++ rest). split; [cbn [app]; apply (get_name_app target 32); auto|]. change (skip_space (32 :: (i :: inst) ++ [63; 62] ++ rest)) with (skip_space ((i :: inst) ++ 63 :: 62 :: rest)). rewrite skip_space_app; auto. }
  destruct G as (c & t & G1 & G2). cbn [app raw_token]. change (negb (60 =? 60)) with false. change (63 =? 47) with false. change (63 =? 63) with true. cbv iota. cbn [app] in G1. rewrite G1, G2.
  rewrite pi_app by auto. reflexivity.
Qed.
Print Assumptions C49_instruction_reads.
Example C49_instruction_example : raw_token (pi_text (str "x-style") (str "a=""?"" >?") ++ str "<r/>") = ROk (TProc (str "x-style") (str "a=""?"" >?"), None) (str "<r/>").
Proof. vm_compute. reflexivity. Qed.
(** C49 fails for text with leading white space, and for declarations of another version. *)
Theorem C49_instruction_refuted :
  raw_token (pi_text (str "p") (str " a")) = ROk (TProc (str "p") (str "a"), None) [] /\
  exists m, raw_token (pi_text (str "xml") (str "version=""1.1""")) = RErr m.
Proof. split; [vm_compute; reflexivity|eexists; vm_compute; reflexivity]. Qed.
Print Assumptions C49_instruction_refuted.
(** An xml declaration is accepted in the middle of a document after Flush, since it is only refused while bytes are
    buffered. *)
Theorem C49_declaration_refuted : exists e1 r1 e2 r2 a, enc_token all_taken (TStart (nm "" "a") a) (new_encoder new_dest) = Some (e1, r1) /\
  enc_token all_taken (TProc (str "xml") []) (fst (enc_flush all_taken e1)) = Some (e2, r2) /\ r2 = Done /\ total e2 = str "<a><?xml?>".
Proof. do 4 eexists. exists []. split; [vm_compute; reflexivity|]. split; [vm_compute; reflexivity|]. split; vm_compute; reflexivity. Qed.
Print Assumptions C49_declaration_refuted.
