(** Property C77: everything that is read is made of XML characters; and C42 for values that were read. *)
From Coq Require Import String.
From Coq Require Import ZArith List Bool Lia SpecFloat.
From Verif Require Import Base Utf8 Lexer EscapeSpec Decoder DecoderProofs DecoderSpec Printer GoType Schema TypeInfo Simple ValueSpec Marshal Unmarshal Io PropertiesDocument PropertiesUnmarshal PropertiesMarshal PropertiesWriter Writer EncoderSpec NsHistory NsSpec RoundTripSpec RoundTripTest PropertiesRoundTrip ReadText.
Import ListNotations.
Open Scope Z_scope.

(** C77. Every text, attribute value and name that Token returns is valid UTF-8, of characters that XML allows. *)
Theorem C77_tokens : forall inp ts d, calls (new_decoder inp) ts d -> Forall token_read ts.
Proof.
  intros inp ts d C. assert (G : forall d0, calls d0 ts d -> holds_text d0 -> Forall token_read ts); [|exact (G _ C (new_holds inp))].
  clear C inp. induction ts as [|t ts IH]; intros d0 C H; [constructor|]. inversion C; subst. match goal with N : next_token d0 = _ |- _ => destruct (next_read _ _ _ H N) as [T H'] end. constructor; eauto.
Qed.
Print Assumptions C77_tokens.
(** C77. So is every string in a value that was read, whatever its type, but in fields for comments and inner XML, if it was in the value
    before; no list has nil entries, no pointer leads to an empty list. *)
Theorem C77_values : forall F env ek k t v inp w, legible env t v -> decode F env ek k t v inp = Ok w -> legible env t w.
Proof. exact decode_legible. Qed.
Print Assumptions C77_values.
Theorem C77_mpd : forall F inp v, read_mpd F inp = Ok v -> legible mpd_types (TStruct MPD) v.
Proof. intros F inp v R. refine (C77_values _ _ _ _ _ _ _ _ _ R). apply legible_zero. Qed.
Print Assumptions C77_mpd.
Example C77_example : ~ legible mpd_types TString (VStr [1]) /\ ~ legible mpd_types TString (VStr [195]) /\
  (exists v, read_mpd fl1 (in_event "<!-- --> &#233;&#x1F600;") = Ok v /\ wt mpd_types (TStruct MPD) v = true) /\
  (exists e d, next_token (new_decoder [1]) = TokErr e d) /\ (exists e d, next_token (new_decoder (str "&#1;")) = TokErr e d) /\ (exists e d, next_token (new_decoder [195]) = TokErr e d) /\ (exists e d, next_token (new_decoder (str "<a b=""&#xFFFF;"">")) = TokErr e d).
Proof.
  assert (NX : forall s, forallb good_piece (pieces s) = false -> ~ xml_text s) by (intros s H X; apply CdataProofs.xml_text_good in X; congruence).
  split; [apply NX; reflexivity|]. split; [apply NX; reflexivity|]. split; [eexists; split; [vm_compute; reflexivity|vm_compute; reflexivity]|]. repeat split; do 2 eexists; vm_compute; reflexivity.
Qed.
(** It does not hold of comments and processing instructions, nor of the inner XML that has one. *)
Theorem C77_comment_refuted : forall F, next_token (new_decoder (str "<!--" ++ [1; 255] ++ str "-->")) = TokOk (TComment [1; 255]) (mkd [] None [] (fun _ => None) None) /\ ~ xml_text [1; 255] /\
  next_token (new_decoder (str "<?a " ++ [1; 255] ++ str "?>")) = TokOk (TProc (str "a") [1; 255]) (mkd [] None [] (fun _ => None) None) /\
  exists v, decode F mpd_types embed_depth 20 (TStruct (str "ExtType")) (zero_value (str "ExtType")) (str "<Ext><!--" ++ [1; 255] ++ str "--></Ext>") = Ok v /\ v = VRec [VName (mkname [] (str "Ext")); VList []; VStr (str "<!--" ++ [1; 255] ++ str "-->")].
Proof.
  intros F. split; [vm_compute; reflexivity|]. split; [intro X; apply CdataProofs.xml_text_good in X; discriminate|]. split; [vm_compute; reflexivity|]. eexists. split; [vm_compute; reflexivity|vm_compute; reflexivity].
Qed.
Print Assumptions C77_comment_refuted.

(** *** C42 for values that were read *)
(** What remains of [clean], of RoundTripSpec.v, for values that were read. *)
Section Tidy.
Variables (F : floats) (env : tenv).
Definition field_tidy (i : bool) (s : bytes) (own : option bytes) (f : fdecl) (w : gval) : Prop :=
  (fd_anon f = true -> w <> VNil) /\
  (misnamed env f = true -> absent w) /\
  (i = true -> has_text env s = true -> is_child f = true -> absent w) /\
  (w = VFloat (S754_zero true) -> g_omit (flags_of f) = false) /\
  (forall l a, w = VList l -> In (VAttr a) l -> space (aname a) = [] /\ is_name (local (aname a)) = true /\ (local (aname a) = str "xmlns" -> own = Some (avalue a)) /\
    forall g, In g (fields_of env s) -> g_attr (flags_of g) = true -> label env g <> local (aname a)).
Fixpoint tidy (i : bool) (d : option bytes) (l : bytes) (t : gtype) (v : gval) {struct v} : Prop :=
  match v with
  | VInt _ | VFloat _ => match t with TDuration | TFloat _ | TFloatInf => kept F t v | _ => True end
  | VPtr w => match t with TPtr t => tidy i d l t w | _ => True end
  | VList ws => match t with TSlice t => (fix go (ws : list gval) : Prop := match ws with [] => True | w :: ws => tidy i d l t w /\ go ws end) ws | _ => True end
  | VRec ws =>
      match t with
      | TStruct s =>
          has_raw env s = false /\
          (forall f, In f (fields_of env s) -> g_comment (flags_of f) = false) /\
          let own := option_map space (own_name (fields_of env s) ws) in
          (forall n, own_name (fields_of env s) ws = Some n -> local n = l /\ (space n <> [] /\ space n <> str "http://www.w3.org/XML/1998/namespace" /\ space n <> str "http://www.w3.org/2000/xmlns/") /\ (d = None \/ d = Some (space n))) /\
          (fix go (fs : list fdecl) (ws : list gval) {struct ws} : Prop :=
             match fs, ws with
             | f :: fs, w :: ws => (skipped f = true \/ field_tidy i s own f w /\ tidy i (match own with Some u => Some u | None => d end) (label env f) (fd_type f) w) /\ go fs ws
             | _, _ => True
             end) (fields_of env s) ws
      | _ => True
      end
  | _ => True
  end.
Lemma inner_flag : forall g, is_inner g = true -> g_innerxml g = true.
Proof. intros [] H. unfold is_inner, mode_eqb in H. cbn in *. destruct g_innerxml; [reflexivity|]. repeat rewrite ?andb_true_iff in H. intuition discriminate. Qed.
Lemma comment_flag : forall g, is_comment g = true -> g_comment g = true.
Proof. intros [] H. unfold is_comment, mode_eqb in H. cbn in *. destruct g_comment; [reflexivity|]. repeat rewrite ?andb_true_iff in H. intuition discriminate. Qed.
Lemma raw_checked : forall s f, has_raw env s = false -> (forall f, In f (fields_of env s) -> g_comment (flags_of f) = false) -> In f (fields_of env s) -> unchecked f = false.
Proof.
  intros s f R C I. unfold unchecked. apply orb_false_iff. split.
  - destruct (is_inner (flags_of f)) eqn:E; auto. apply inner_flag in E. unfold has_raw in R. assert (X : existsb (fun f => g_innerxml (flags_of f)) (fields_of env s) = true) by (apply existsb_exists; exists f; auto). congruence.
  - destruct (is_comment (flags_of f)) eqn:E; auto. apply comment_flag in E. rewrite (C f I) in E. discriminate.
Qed.
Lemma attr_in : forall t l a, legible env (TSlice t) (VList l) -> In (VAttr a) l -> attr_read a.
Proof. intros t l a L I. cbn [legible] in L. induction l as [|w l IH]; [destruct I|]. destruct L as [[_ L1] L2]. destruct I as [->|I]; [exact L1|exact (IH L2 I)]. Qed.
Lemma kept_tidy : forall i s own f w, field_tidy i s own f w -> legible env (fd_type f) w -> field_kept env i s own f w.
Proof.
  intros i s own f w (T1 & T2 & T3 & T4 & T5) L. split; [exact T1|]. split; [exact T2|]. split; [exact T3|]. split; [exact T4|]. intros l a -> I. destruct (T5 l a eq_refl I) as (A1 & A2 & A3 & A4).
  assert (R : attr_read a). { destruct (fd_type f) eqn:T; try contradiction L. exact (attr_in _ _ _ L I). } destruct R as [(_ & _ & R1) R2]. split; [exact A1|]. split; [split; [exact A2|exact R1]|]. split; [exact R2|]. split; [exact A3|exact A4].
Qed.
Lemma tidy_clean : forall v i d l t, tidy i d l t v -> legible env t v -> clean F env i d l t v.
Proof.
  fix IH 1. intros v i d l t T L. destruct v as [x|b|z|f| |w|ws|ws|n|a]; try exact T; try exact L.
  - cbn [tidy legible clean] in *. destruct L as [L1 L2]. split; [exact L1|]. destruct t; try contradiction. exact (IH _ _ _ _ _ T L2).
  - cbn [tidy legible clean] in *. destruct t as [| | | | | | | |t| | |]; try contradiction. induction ws as [|w ws IHw]; [exact I|]. destruct T as [T1 T2]. destruct L as [[L1 L2] L3]. split; [split; [exact L1|exact (IH _ _ _ _ _ T1 L2)]|exact (IHw T2 L3)].
  - cbn [tidy legible clean] in *. destruct t as [| | | | | | | | |s| |]; try contradiction. destruct T as (T1 & TC & T2 & T3). cbv zeta in *. split; [exact T1|].
    assert (UN : forall f, In f (fields_of env s) -> unchecked f = false) by (intros f IN; exact (raw_checked s f T1 TC IN)). clear TC.
    assert (OW : forall n, own_name (fields_of env s) ws = Some n -> xml_text (space n)).
    { clear T2 T3 IH. revert ws L UN. generalize (fields_of env s). induction l0 as [|f fs IHf]; intros [|w ws] L UN n O; try discriminate. cbn [own_name] in O. destruct L as [L1 L2]. destruct (names_itself f).
      - destruct w; try discriminate. injection O as ->. destruct L1 as [L1|L1]; [rewrite (UN f (or_introl eq_refl)) in L1; discriminate|]. apply L1.
      - exact (IHf _ L2 (fun g G => UN g (or_intror G)) _ O). }
    split; [intros n O; destruct (T2 n O) as (A & (B1 & B2 & B3) & C); split; [exact A|]; split; [|exact C]; split; [exact B1|split; [exact B2|split; [exact B3|exact (OW n O)]]]|].
    clear T1 T2 OW. revert T3 L UN. generalize (option_map space (own_name (fields_of env s) ws)). intro own. generalize (match own with Some u => Some u | None => d end). intro d1. generalize (fields_of env s). induction ws as [|w ws IHw]; intros [|f fs] T3 L UN; try exact I.
    destruct T3 as [T3 T4]. destruct L as [L1 L2]. split; [|exact (IHw _ T4 L2 (fun g G => UN g (or_intror G)))]. destruct T3 as [T3|[T3 T5]]; [left; exact T3|right]. destruct L1 as [L1|L1]; [rewrite (UN f (or_introl eq_refl)) in L1; discriminate|]. split; [exact (kept_tidy _ _ _ _ _ T3 L1)|exact (IH _ _ _ _ _ T5 L1)].
Qed.
End Tidy.
(** C42. Every document: what is read from it is written and read back, if it is tidy. *)
Theorem C42_read : forall F inp v indent header, white indent -> read_mpd F inp = Ok v -> tidy F mpd_types (indented indent) None [] (TStruct MPD) v ->
  let doc := document (program F MPD v) indent header in
  result (program F MPD v) indent = Ok tt /\ exists v', read_mpd F doc = Ok v' /\ same mpd_types (TStruct MPD) v v'.
Proof.
  intros F inp v indent header W R T. pose proof (C59_mpd F inp) as WT. rewrite R in WT. destruct WT as [WT _]. apply C42_mpd; auto. apply tidy_clean; [exact T|]. exact (C77_mpd F inp v R).
Qed.
Print Assumptions C42_read.
Lemma clean_tidy : forall F env, (forall s f, In f (fields_of env s) -> g_comment (flags_of f) = false) -> forall v i d l t, clean F env i d l t v -> tidy F env i d l t v.
Proof.
  intros F env NC. fix IH 1. intros v i d l t C. destruct v as [x|b|z|f| |w|ws|ws|n|a]; try exact C; try exact I.
  - cbn [tidy clean] in *. destruct t; try exact I. destruct C as [_ C]. exact (IH _ _ _ _ _ C).
  - cbn [tidy clean] in *. destruct t as [| | | | | | | |t| | |]; try exact I. induction ws as [|w ws IHw]; [exact I|]. destruct C as [[_ C1] C2]. split; [exact (IH _ _ _ _ _ C1)|exact (IHw C2)].
  - cbn [tidy clean] in *. destruct t as [| | | | | | | | |s| |]; try exact I. destruct C as (C1 & C2 & C3). cbv zeta in *. split; [exact C1|]. split; [intros f IN; exact (NC s f IN)|]. split.
    + intros n O. destruct (C2 n O) as (A & (B1 & B2 & B3 & _) & C). auto.
    + clear C1 C2. revert C3. generalize (option_map space (own_name (fields_of env s) ws)). intro own. generalize (match own with Some u => Some u | None => d end). intro d1. generalize (fields_of env s). induction ws as [|w ws IHw]; intros [|f fs] C3; try exact I.
      destruct C3 as [C3 C4]. split; [|exact (IHw _ C4)]. destruct C3 as [C3|[(K1 & K2 & K3 & K4 & K5) C5]]; [left; exact C3|right]. split; [|exact (IH _ _ _ _ _ C5)]. split; [exact K1|]. split; [exact K2|]. split; [exact K3|]. split; [exact K4|]. intros l0 a E IN. destruct (K5 l0 a E IN) as (A1 & [A2 _] & _ & A4 & A5). auto.
Qed.
Example C42_read_example : let inp := text fl1 sample (str " ") in exists v, read_mpd fl1 inp = Ok v /\ tidy fl1 mpd_types true None [] (TStruct MPD) v.
Proof.
  assert (NC : forall s f, In f (fields_of mpd_types s) -> g_comment (flags_of f) = false).
  { assert (H : forallb (fun d => forallb (fun f => negb (g_comment (flags_of f))) (sd_fields d)) mpd_types = true) by (vm_compute; reflexivity). rewrite forallb_forall in H. intros s f I. unfold fields_of in I. destruct (lookup mpd_types s) as [d|] eqn:E; [|destruct I].
    assert (ID : In d mpd_types). { revert E. generalize mpd_types. induction t as [|x t IH]; intro E; [discriminate|]. cbn [lookup] in E. destruct (beq (sd_name x) s); [injection E as <-; left; reflexivity|right; exact (IH E)]. }
    specialize (H d ID). rewrite forallb_forall in H. specialize (H f I). apply negb_true_iff in H. exact H. }
  eexists. split; [vm_compute; reflexivity|]. apply (clean_tidy _ _ NC). apply cleanb_ok. vm_compute. reflexivity.
Qed.
