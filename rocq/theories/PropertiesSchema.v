(** Properties C41 and C46: the struct tags of package mpd. *)
From Coq Require Import String.
From Coq Require Import ZArith List Bool Lia ZifyBool ZifyNat.
From Verif Require Import Base Utf8 Lexer Escape Decoder Printer GoType Schema TypeInfo TypeInfoSpec Simple Marshal Unmarshal Io ValueSpec.
Import ListNotations.
Open Scope Z_scope.

Definition info (s : bytes) : outcome terr tinfo := type_info embed_depth mpd_types s.

(** *** C46 *)
Definition xlink : bytes := str "http://www.w3.org/1999/xlink".
Definition starts_with (p s : bytes) : bool := beq (firstn (length p) s) p.
Fixpoint no_attr_type (t : gtype) : bool := match t with TPtr t | TSlice t => no_attr_type t | TAttr => false | _ => true end.
Lemma each_name : forall (P : attr -> Prop) f l r, (forall v x, f v = Ok x -> Forall P x) -> each f l = Ok r -> Forall P r.
Proof.
  induction l as [|v l IH]; intros r H E; cbn in E; [injection E as <-; constructor|].
  destruct (f v) as [a| | |] eqn:A; try discriminate. cbn [bind] in E. destruct (each f l) as [b| | |]; try discriminate. cbn [bind] in E. injection E as <-.
  apply Forall_app. split; [eapply H; eauto|eauto].
Qed.
Lemma text_name : forall F nm t v l, no_attr_type t = true ->
  match t, v with TAttr, VAttr a => Ok [a] | _, _ => match simple_text F t v with Some s => Ok [mkattr nm s] | None => unsupported end end = Ok l ->
  Forall (fun a => aname a = nm) l.
Proof.
  intros F nm t v l N H.
  assert (E : match simple_text F t v with Some s => Ok [mkattr nm s] | None => unsupported end = Ok l) by (destruct t, v; try exact H; discriminate).
  destruct (simple_text F t v); [injection E as <-; repeat constructor|discriminate].
Qed.
Lemma method_name : forall F nm t v l, (do s <- method_text F t v ; Ok (if beq (local nm) [] then [] else [mkattr nm s])) = Ok l -> Forall (fun a => aname a = nm) l.
Proof.
  intros F nm t v l H. destruct (method_text F t v); try discriminate. cbn [bind] in H. injection H as <-. destruct (beq (local nm) []); repeat constructor.
Qed.
(** Whatever the value: an attribute made from a field has the name that the field's tag says. *)
Lemma marshal_attr_name : forall F t nm addr v l, no_attr_type t = true -> marshal_attr F nm addr t v = Ok l -> Forall (fun a => aname a = nm) l.
Proof.
  intros F t. induction t; intros nm addr v l N H; cbn [marshal_attr] in H.
  all: try (cbn [has_method andb] in H; match type of N with no_attr_type ?t = _ => exact (text_name F nm t v l N H) end).
  - destruct addr; cbn [has_method andb] in H; [exact (method_name F nm _ v l H)|exact (text_name F nm _ v l N H)].
  - destruct addr; cbn [has_method andb] in H; [exact (method_name F nm _ v l H)|exact (text_name F nm _ v l N H)].
  - destruct v; try discriminate; [injection H as <-; constructor|]. destruct (has_method t) eqn:M; [exact (method_name F nm _ v l H)|].
    destruct t; try (match type of N with no_attr_type (TPtr ?t) = _ => exact (text_name F nm t v l N H) end).
    destruct v; try discriminate. exact (IHt nm true (VList _) l N H).
  - destruct v; try discriminate. eapply each_name; [|exact H]. intros w x X. exact (IHt nm true w x N X).
Qed.

(** The xlink fields whose tags lack the namespace. *)
Definition without_space (s n : bytes) : Prop :=
  (s = str "AdaptationSetType" /\ In n [str "XlinkHref"; str "XlinkActuate"; str "XlinkType"; str "XlinkShow"]) \/ (s = str "SegmentListType" /\ n = str "XlinkShow").
Definition without_space_b (s n : bytes) : bool :=
  beq s (str "AdaptationSetType") && existsb (beq n) [str "XlinkHref"; str "XlinkActuate"; str "XlinkType"; str "XlinkShow"] || beq s (str "SegmentListType") && beq n (str "XlinkShow").
Lemma without_space_dec : forall s n, without_space_b s n = true -> without_space s n.
Proof.
  intros s n H. unfold without_space_b in H. apply orb_true_iff in H as [H|H]; apply andb_true_iff in H as (A & B); apply beq_eq in A.
  - left. split; [exact A|]. apply existsb_exists in B as (x & I & E). apply beq_eq in E. subst x. exact I.
  - right. apply beq_eq in B. auto.
Qed.
Definition all_fields (p : bytes -> tinfo -> finfo -> fdecl -> bool) : bool :=
  forallb (fun d => match info (sd_name d) with
                    | Ok ti => forallb (fun f => match decl_at mpd_types (sd_name d) (fi_idx f) with Some fd => p (sd_name d) ti f fd | None => false end) (ti_fields ti)
                    | _ => false
                    end) mpd_types.
Lemma all_fields_ok : forall p, all_fields p = true -> forall d ti f, In d mpd_types -> info (sd_name d) = Ok ti -> In f (ti_fields ti) ->
  exists fd, decl_at mpd_types (sd_name d) (fi_idx f) = Some fd /\ p (sd_name d) ti f fd = true.
Proof.
  intros p H d ti f Hd Hi Hf. unfold all_fields in H. rewrite forallb_forall in H. specialize (H d Hd). rewrite Hi in H. rewrite forallb_forall in H. specialize (H f Hf).
  destruct (decl_at mpd_types (sd_name d) (fi_idx f)) as [fd|]; [|discriminate]. eauto.
Qed.
Definition xlink_ok (s : bytes) (ti : tinfo) (f : finfo) (fd : fdecl) : bool :=
  negb (starts_with (str "Xlink") (fd_name fd)) || without_space_b s (fd_name fd) ||
  mode_eqb (fi_flags f) m_attr && beq (fi_xmlns f) xlink && beq (fi_prefix f) (str "xlink") && no_attr_type (fd_type fd).
Lemma xlink_all : all_fields xlink_ok = true.
Proof. vm_compute. reflexivity. Qed.
(** C46. Every field whose name starts with Xlink, with the exceptions listed, is an attribute of the xlink namespace, with prefix
    xlink, whatever its value. *)
Theorem C46_xlink : forall d ti f fd, In d mpd_types -> info (sd_name d) = Ok ti -> In f (ti_fields ti) ->
  decl_at mpd_types (sd_name d) (fi_idx f) = Some fd -> starts_with (str "Xlink") (fd_name fd) = true -> ~ without_space (sd_name d) (fd_name fd) ->
  kind f = (false, true, false, false, false, false, false) /\
  forall F addr v l, marshal_attr F (field_name f) addr (fd_type fd) v = Ok l ->
    Forall (fun a => aname a = mkname xlink (str "xlink:" ++ fi_name f)) l.
Proof.
  intros d ti f fd Hd Hi Hf D S N. destruct (all_fields_ok _ xlink_all d ti f Hd Hi Hf) as (fd' & D' & P). rewrite D in D'. injection D' as <-.
  unfold xlink_ok in P. rewrite S in P. cbn [negb orb] in P. apply orb_true_iff in P as [P|P]; [destruct (N (without_space_dec _ _ P))|].
  apply andb_true_iff in P as (P & T). apply andb_true_iff in P as (P & X). apply andb_true_iff in P as (P & Y). apply beq_eq in X, Y.
  split.
  - unfold mode_eqb in P. rewrite !andb_true_iff, !eqb_true_iff in P. destruct P as ((((((P1 & P2) & P3) & P4) & P5) & P6) & P7). unfold kind. rewrite P1, P2, P3, P4, P5, P6, P7. reflexivity.
  - intros F addr v l E. eapply Forall_impl; [|exact (marshal_attr_name _ _ _ _ _ _ T E)]. intros a ->. unfold field_name. rewrite X, Y. reflexivity.
Qed.
Print Assumptions C46_xlink.
Example C46_example : exists ti f fd, info (str "Period") = Ok ti /\ In f (ti_fields ti) /\ decl_at mpd_types (str "Period") (fi_idx f) = Some fd /\ fd_name fd = str "XlinkHref" /\
  marshal_attr (mkfl (fun _ _ => []) (fun _ => []) (fun _ _ => None) (fun _ => 0)) (field_name f) true (fd_type fd) (VStr (str "u")) = Ok [mkattr (mkname xlink (str "xlink:href")) (str "u")].
Proof. do 3 eexists. split; [vm_compute; reflexivity|]. split; [left; reflexivity|]. split; [vm_compute; reflexivity|]. split; reflexivity. Qed.

(** *** C41 *)
(** The element fields whose items insist on another name. *)
Definition misnamed (n : bytes) : Prop := In n [str "GroupLabel"; str "InitializationGroup"; str "InitializationPresentation"; str "QualityLatency"].
(** A child element is stored in the first element field with its name, if that has its namespace or none. *)
Definition fit_element (m : name) (f : finfo) : Prop := g_element (fi_flags f) = true /\ (fi_xmlns f = [] \/ fi_xmlns f = space m) /\ fi_name f = local m.
Definition takes (fs : list finfo) (m : name) (f : finfo) : Prop := exists a b, fs = a ++ f :: b /\ fit_element m f /\ forall g, In g a -> ~ fit_element m g.
(** An item of this type can be read from an element of this name. *)
Definition accepts (t : gtype) (m : name) : Prop :=
  match t with
  | TStruct s => exists ti, info s = Ok ti /\ match ti_xmlname ti with Some x => (fi_name x = [] \/ fi_name x = local m) /\ (fi_xmlns x = [] \/ fi_xmlns x = space m) | None => True end
  | _ => True
  end.
(** Names an element can have when it is read, if it is written for a field: the field's name; in the field's namespace, or if
    that is empty, in the one around it. *)
Definition read_name (f : finfo) (m : name) : Prop := local m = fi_name f /\ (fi_xmlns f = [] \/ space m = fi_xmlns f).

Lemma find_path_takes : forall fs m f, Forall flat fs -> takes fs m f <-> find_path fs [] m = Field f.
Proof.
  induction fs as [|g fs IH]; intros m f Hfl.
  - split; [intros (a & b & E & _); destruct a; discriminate|discriminate].
  - inversion Hfl as [|? ? Fg Ffs]; subst. cbn [find_path]. unfold flat in Fg. rewrite Fg.
    assert (Dec : (negb (g_element (fi_flags g)) || negb (is_pre [] []) || negb (beq (fi_xmlns g) []) && negb (beq (fi_xmlns g) (space m)) = false /\ beq (fi_name g) (local m) = true) <-> fit_element m g).
    { unfold fit_element. cbn [is_pre negb]. rewrite orb_false_r, orb_false_iff, negb_false_iff, andb_false_iff, !negb_false_iff. split.
      - intros ((A & [B|B]) & C); apply beq_eq in B; apply beq_eq in C; auto.
      - intros (A & [B|B] & C); rewrite B, C, !beq_refl; auto. }
    destruct (negb (g_element (fi_flags g)) || negb (is_pre [] []) || negb (beq (fi_xmlns g) []) && negb (beq (fi_xmlns g) (space m))) eqn:C1.
    + rewrite <- (IH m f Ffs). split.
      * intros (a & b & E & Q & R). destruct a as [|x a]; injection E as -> ->.
        -- apply Dec in Q as (Q & _). discriminate.
        -- exists a, b. split; [reflexivity|]. split; [exact Q|]. intros y Hy. apply R. right; exact Hy.
      * intros (a & b & -> & Q & R). exists (g :: a), b. split; [reflexivity|]. split; [exact Q|]. intros y [<-|Hy]; [|auto]. intros X. apply Dec in X as (X & _). discriminate.
    + cbn [length Nat.eqb]. destruct (beq (fi_name g) (local m)) eqn:C2.
      * pose proof (proj1 Dec (conj eq_refl eq_refl)) as Q. split.
        -- intros (a & b & E & Qf & R). destruct a as [|x a]; injection E as -> ->; [reflexivity|]. destruct (R x (or_introl eq_refl)). exact Q.
        -- intros [= ->]. exists [], fs. split; [reflexivity|]. split; [exact Q|]. intros ? [].
      * rewrite <- (IH m f Ffs). split.
        -- intros (a & b & E & Q & R). destruct a as [|x a]; injection E as -> ->.
           ++ apply Dec in Q as (_ & Q). discriminate.
           ++ exists a, b. split; [reflexivity|]. split; [exact Q|]. intros y Hy. apply R. right; exact Hy.
        -- intros (a & b & -> & Q & R). exists (g :: a), b. split; [reflexivity|]. split; [exact Q|]. intros y [<-|Hy]; [|auto]. intros X. apply Dec in X as (_ & X). discriminate.
Qed.

(** What [accepts] says: any other element is refused with an error, whatever the content. *)
Lemma refused : forall F r k s v m a d, r <> O -> ~ accepts (TStruct s) m -> info s <> OutOfFuel ->
  exists e, unmarshal F mpd_types embed_depth r k (TStruct s) v m a d = Err e \/ unmarshal F mpd_types embed_depth r k (TStruct s) v m a d = Panic.
Proof.
  intros F r k s v m a d R N O. destruct r as [|r]; [contradiction|]. cbn [unmarshal unmarshal_body]. unfold accepts, info in *.
  destruct (type_info embed_depth mpd_types s) as [ti|e| |]; [|eauto|exists UType; right; reflexivity|contradiction].
  destruct (ti_xmlname ti) as [x|] eqn:X; [|destruct N; exists ti; rewrite X; auto].
  destruct (negb (beq (fi_name x) []) && negb (beq (fi_name x) (local m)) || negb (beq (fi_xmlns x) []) && negb (beq (fi_xmlns x) (space m))) eqn:C; [cbn [bind]; eauto|].
  destruct N. exists ti. rewrite X. split; [reflexivity|]. apply orb_false_iff in C as (C1 & C2). rewrite andb_false_iff, !negb_false_iff in C1, C2.
  split; [destruct C1 as [C1|C1]|destruct C2 as [C2|C2]]; match goal with C : beq _ _ = true |- _ => apply beq_eq in C; rewrite C; auto end.
Qed.

(** The check done on every field. *)
Definition misnamed_b (n : bytes) : bool := existsb (beq n) [str "GroupLabel"; str "InitializationGroup"; str "InitializationPresentation"; str "QualityLatency"].
Lemma misnamed_dec : forall n, misnamed_b n = true <-> misnamed n.
Proof.
  intros n. unfold misnamed_b, misnamed. rewrite existsb_exists. split; [intros (x & I & E); apply beq_eq in E; subst; exact I|intros I; exists n; split; [exact I|apply beq_refl]].
Qed.
Definition same_names (f g : finfo) : bool := g_element (fi_flags g) && beq (fi_name f) (fi_name g).
Definition is_nil (s : bytes) : bool := beq s [].
(** The item's XMLName has no name and no namespace, or the same as the field. *)
Definition item_ok (f : finfo) (t : gtype) : bool :=
  match t with
  | TStruct s' => match info s' with
                  | Ok ti' => match ti_xmlname ti' with
                              | Some x => is_nil (fi_xmlns x) && is_nil (fi_name x) || beq (fi_name x) (fi_name f) && beq (fi_xmlns x) (fi_xmlns f) && beq (fi_prefix x) (fi_prefix f)
                              | None => true
                              end
                  | _ => false
                  end
  | TName | TAttr | TPtr _ | TSlice _ => false
  | _ => true
  end.
Definition item_bad (f : finfo) (t : gtype) : bool :=
  match t with
  | TStruct s' => match info s' with Ok ti' => match ti_xmlname ti' with Some x => negb (is_nil (fi_name x)) && negb (beq (fi_name x) (fi_name f)) | None => false end | _ => false end
  | _ => false
  end.
Definition element_ok (s : bytes) (ti : tinfo) (f : finfo) (fd : fdecl) : bool :=
  forallb (fun g => (length (fi_parents g) =? 0)%nat) (ti_fields ti) &&
  (negb (g_element (fi_flags f)) ||
   (length (filter (same_names f) (ti_fields ti)) =? 1)%nat && negb (is_nil (fi_name f)) &&
   if misnamed_b (fi_name f) then item_bad f (item (fd_type fd)) else item_ok f (item (fd_type fd))).
Lemma element_all : all_fields element_ok = true.
Proof. vm_compute. reflexivity. Qed.

Lemma one_of_list : forall (p : finfo -> bool) l f g, length (filter p l) = 1%nat -> In f l -> In g l -> p f = true -> p g = true -> f = g.
Proof.
  intros p l f g L If Ig Pf Pg. assert (A : In f (filter p l)) by (apply filter_In; auto). assert (B : In g (filter p l)) by (apply filter_In; auto).
  destruct (filter p l) as [|x [|y r]]; cbn in L; try lia. destruct A as [<-|[]]; destruct B as [<-|[]]; reflexivity.
Qed.
Lemma first_in : forall l (f : finfo), (forall x y : finfo, {x = y} + {x <> y}) -> In f l -> exists a b, l = a ++ f :: b /\ ~ In f a.
Proof.
  induction l as [|x l IH]; intros f D H; [contradiction|]. destruct (D x f) as [->|N]; [exists [], l; auto|].
  destruct H as [->|H]; [contradiction|]. destruct (IH f D H) as (a & b & -> & Na). exists (x :: a), b. split; [reflexivity|]. intros [?|?]; auto.
Qed.
Lemma finfo_dec : forall x y : finfo, {x = y} + {x <> y}.
Proof.
  assert (D : forall x y : fflags, {x = y} + {x <> y}) by (decide equality; apply bool_dec).
  decide equality; try apply D; try apply bytes_dec; try (apply list_eq_dec; first [apply bytes_dec|apply Nat.eq_dec]).
Qed.
Lemma element_facts : forall d ti f fd, In d mpd_types -> info (sd_name d) = Ok ti -> In f (ti_fields ti) ->
  decl_at mpd_types (sd_name d) (fi_idx f) = Some fd -> g_element (fi_flags f) = true ->
  Forall flat (ti_fields ti) /\ length (filter (same_names f) (ti_fields ti)) = 1%nat /\ fi_name f <> [] /\
  (if misnamed_b (fi_name f) then item_bad f (item (fd_type fd)) else item_ok f (item (fd_type fd))) = true.
Proof.
  intros d ti f fd Hd Hi Hf D E. destruct (all_fields_ok _ element_all d ti f Hd Hi Hf) as (fd' & D' & P). rewrite D in D'. injection D' as <-.
  unfold element_ok in P. rewrite E in P. cbn [negb orb] in P. apply andb_true_iff in P as (P1 & P). apply andb_true_iff in P as (P & P4). apply andb_true_iff in P as (P2 & P3).
  split; [|split; [apply Nat.eqb_eq; exact P2|split; [|exact P4]]].
  - apply Forall_forall. intros g G. rewrite forallb_forall in P1. specialize (P1 g G). unfold flat. destruct (fi_parents g); [reflexivity|discriminate].
  - intros N. rewrite N in P3. discriminate.
Qed.

(** C41, reading. For every element field of every type, outside the four: an element with the name written for the field is
    stored in that field, and an item of the field's type accepts it. *)
Theorem C41_read : forall d ti f fd m, In d mpd_types -> info (sd_name d) = Ok ti -> In f (ti_fields ti) ->
  decl_at mpd_types (sd_name d) (fi_idx f) = Some fd -> g_element (fi_flags f) = true -> ~ misnamed (fi_name f) -> read_name f m ->
  takes (ti_fields ti) m f /\ accepts (item (fd_type fd)) m.
Proof.
  intros d ti f fd m Hd Hi Hf D E N (R1 & R2). destruct (element_facts d ti f fd Hd Hi Hf D E) as (FL & U & NE & P). split.
  - destruct (first_in _ f finfo_dec Hf) as (a & b & L & Na). exists a, b. split; [exact L|].
    assert (Q : fit_element m f) by (split; [exact E|]; split; [destruct R2 as [R2|R2]; auto|symmetry; exact R1]). split; [exact Q|].
    intros g Hg (G1 & G2 & G3). apply Na. replace f with g; [exact Hg|]. apply (one_of_list (same_names f) (ti_fields ti)); [exact U| |exact Hf| |].
    + rewrite L. apply in_or_app. left; exact Hg.
    + unfold same_names. rewrite G1, G3, <- R1. apply beq_refl.
    + unfold same_names. rewrite E. apply beq_refl.
  - destruct (misnamed_b (fi_name f)) eqn:M; [destruct N; apply misnamed_dec; exact M|]. unfold item_ok in P. unfold accepts. destruct (item (fd_type fd)); auto.
    destruct (info s) as [ti'| | |]; try discriminate. exists ti'. split; [reflexivity|]. destruct (ti_xmlname ti') as [x|]; auto.
    apply orb_true_iff in P as [P|P].
    + apply andb_true_iff in P as (A & B). apply beq_eq in A, B. auto.
    + rewrite !andb_true_iff in P. destruct P as ((A & B) & C). apply beq_eq in A, B, C. rewrite A, B. split; [auto|]. destruct R2 as [->| ->]; auto.
Qed.
Print Assumptions C41_read.
(** What being taken means: that field is given the element to read, and nothing else happens. *)
Theorem C41_stored : forall d ti f m, In d mpd_types -> info (sd_name d) = Ok ti -> takes (ti_fields ti) m f ->
  forall q k read v a x, path_child mpd_types embed_depth (S q) k read (sd_name d) (ti_fields ti) [] v m a x =
    (do (v', x') <- update_at embed_depth mpd_types (sd_name d) (fi_idx f) v (fun t w => read t w m a x) ; Ok (Some (v', x'))).
Proof.
  intros d ti f m Hd Hi T q k read v a x. assert (FL : Forall flat (ti_fields ti)).
  { destruct T as (p & b & L & (E & _) & _). assert (Hf : In f (ti_fields ti)) by (rewrite L; apply in_elt).
    destruct (all_fields_ok _ element_all d ti f Hd Hi Hf) as (fd & D & _). exact (proj1 (element_facts d ti f fd Hd Hi Hf D E)). }
  cbn [path_child]. apply (find_path_takes _ _ _ FL) in T. rewrite T. reflexivity.
Qed.
Print Assumptions C41_stored.
(** C41, writing. The name written for an item is the one of the field's tag, unless the item's XMLName has no name in its tag
    (the SCTE-35 types) and its value has one. *)
Theorem C41_written : forall d ti f fd ti' w addr n, In d mpd_types -> info (sd_name d) = Ok ti -> In f (ti_fields ti) ->
  decl_at mpd_types (sd_name d) (fi_idx f) = Some fd -> g_element (fi_flags f) = true -> ~ misnamed (fi_name f) ->
  info_of mpd_types embed_depth (item (fd_type fd)) = Ok ti' ->
  start_name mpd_types ti' (item (fd_type fd)) w addr (Some f) None = Ok n ->
  n = field_name f \/
  exists s x ad, item (fd_type fd) = TStruct s /\ ti_xmlname ti' = Some x /\ fi_name x = [] /\ @field_at eerr mpd_types s (fi_idx x) w addr = Ok (Some (TName, VName n, ad)) /\ local n <> [].
Proof.
  intros d ti f fd ti' w addr n Hd Hi Hf D E N I H. destruct (element_facts d ti f fd Hd Hi Hf D E) as (FL & U & NE & P).
  assert (NF : beq (local (field_name f)) [] = false).
  { apply beq_neq. unfold field_name, join_prefixed. cbn [local]. destruct (fi_prefix f); [exact NE|discriminate]. }
  assert (Z : beq (local (mkname [] [])) [] = true) by reflexivity.
  destruct (misnamed_b (fi_name f)) eqn:M; [destruct N; apply misnamed_dec; exact M|].
  unfold start_name in H. destruct (ti_xmlname ti') as [x|] eqn:X.
  2: { cbn [bind] in H. rewrite Z, NF in H. injection H as <-. auto. }
  destruct (negb (beq (fi_name x) [])) eqn:Y.
  - cbn [bind] in H. destruct (item (fd_type fd)) as [| | | | | | | | |s| |] eqn:T; try (cbn in I; injection I as <-; discriminate). cbn [info_of] in I. unfold item_ok, info in P. rewrite I, X in P.
    apply orb_true_iff in P as [P|P]; [apply andb_true_iff in P as (_ & P); unfold is_nil in P; rewrite P in Y; discriminate|].
    rewrite !andb_true_iff in P. destruct P as ((A & B) & C). apply beq_eq in A, B, C.
    assert (Q : field_name x = field_name f) by (unfold field_name; rewrite A, B, C; reflexivity). rewrite Q, NF, NF in H. injection H as <-. auto.
  - apply negb_false_iff in Y. apply beq_eq in Y. destruct (item (fd_type fd)) as [| | | | | | | | |s| |] eqn:T; try (cbn in I; injection I as <-; discriminate).
    destruct (@field_at eerr mpd_types s (fi_idx x) w addr) as [[((t, v), ad)|]| | |] eqn:A; try discriminate. cbn [bind] in H.
    destruct t; try (cbn [bind] in H; rewrite Z, NF in H; injection H as <-; auto; fail).
    destruct v; try (cbn [bind] in H; rewrite Z, NF in H; injection H as <-; auto; fail).
    destruct (beq (local n0) []) eqn:L; cbn [bind] in H; [rewrite Z, NF in H; injection H as <-; auto|]. rewrite L, L in H. injection H as <-.
    right. exists s, x, ad. repeat split; auto. apply beq_neq. exact L.
Qed.
Print Assumptions C41_written.
(** C41 is false for the four other names, in every type that has them: the items refuse every name that is written. *)
Theorem C41_misnamed_refuted : forall d ti f fd m, In d mpd_types -> info (sd_name d) = Ok ti -> In f (ti_fields ti) ->
  decl_at mpd_types (sd_name d) (fi_idx f) = Some fd -> g_element (fi_flags f) = true -> misnamed (fi_name f) -> read_name f m -> ~ accepts (item (fd_type fd)) m.
Proof.
  intros d ti f fd m Hd Hi Hf D E N (R & _). destruct (element_facts d ti f fd Hd Hi Hf D E) as (_ & _ & _ & P).
  apply misnamed_dec in N. rewrite N in P. unfold item_bad in P. unfold accepts. destruct (item (fd_type fd)); try discriminate.
  destruct (info s) as [ti'| | |]; try discriminate. intros (t & [= <-] & A). destruct (ti_xmlname ti') as [x|]; [|discriminate]. destruct A as (A & _).
  apply andb_true_iff in P as (P1 & P2). rewrite negb_true_iff in P1, P2. apply beq_neq in P1, P2. destruct A as [A|A]; [exact (P1 A)|]. rewrite R in A. exact (P2 A).
Qed.
Print Assumptions C41_misnamed_refuted.
Example C41_example : exists ti f fd, info (str "Period") = Ok ti /\ In f (ti_fields ti) /\ decl_at mpd_types (str "Period") (fi_idx f) = Some fd /\ fi_name f = str "AdaptationSet" /\
  item (fd_type fd) = TStruct (str "AdaptationSetType") /\ find_path (ti_fields ti) [] (mkname (str "urn:x") (str "AdaptationSet")) = Field f.
Proof.
  eexists. exists (match info (str "Period") with Ok ti => match find_path (ti_fields ti) [] (mkname [] (str "AdaptationSet")) with Field f => f | _ => mkfi [] [] [] [] no_flags [] end | _ => mkfi [] [] [] [] no_flags [] end). eexists.
  split; [vm_compute; reflexivity|]. split; [vm_compute; tauto|]. split; [vm_compute; reflexivity|]. split; [vm_compute; reflexivity|]. split; vm_compute; reflexivity.
Qed.
