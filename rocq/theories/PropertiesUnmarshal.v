(** Properties C38 and C59: reading never crashes, and what the limit on depth means. *)
From Coq Require Import String.
From Coq Require Import ZArith List Bool Lia ZifyBool ZifyNat.
From Verif Require Import Base Utf8 Lexer Printer Decoder DecoderSpec DecoderProofs GoType Schema TypeInfo TypeInfoSpec TypeInfoProofs Simple Unmarshal Io ValueSpec UnmarshalProofs.
Import ListNotations.
Open Scope Z_scope.

(** *** Element fields are never attributes *)
Lemma add_flag_element : forall l g, g_element g = false -> g_element (fold_left add_flag l g) = false.
Proof.
  induction l as [|x l IH]; intros g H; [exact H|]. cbn [fold_left]. apply IH. unfold add_flag.
  repeat match goal with |- context [if ?c then _ else _] => destruct c end; exact H.
Qed.
Lemma parse_tag_element_attr : forall f a b g, parse_tag f = Ok (a, b, g) -> g_element g = true -> g_attr g = false.
Proof.
  intros f a b g H E. unfold parse_tag in H. destruct (match cut 32 (fd_tag f) with Some (ns, t) => (ns, t) | None => ([], fd_tag f) end) as (ns, tag).
  assert (K : forall tg g0, match split 44 tag with
    | [] | [_] => Ok (tag, m_element)
    | tag :: toks =>
        let g := fold_left add_flag toks no_flags in
        let valid_mode :=
          if mode_eqb g no_flags then true
          else if mode_eqb g m_attr || mode_eqb g m_cdata || mode_eqb g m_chardata || mode_eqb g m_innerxml || mode_eqb g m_comment || mode_eqb g m_any || mode_eqb g m_any_attr
               then negb (beq (fd_name f) xml_name || negb (beq tag []) && negb (mode_eqb g m_attr))
               else false in
        let g := if mode_eqb g no_flags || mode_eqb g m_any then with_element g else g in
        let valid := valid_mode && negb (g_omit g && negb (g_element g || g_attr g)) in
        if valid then Ok (tag, g) else Err (InvalidTag (fd_name f))
    end = Ok (tg, g0) -> g_element g0 = true -> g_attr g0 = false).
  { intros tg g0 K E0. destruct (split 44 tag) as [|x [|y l]]; try (injection K as <- <-; reflexivity). cbv zeta in K.
    pose proof (add_flag_element (y :: l) no_flags eq_refl) as NE. destruct (fold_left add_flag (y :: l) no_flags) as [e at_ c d i m an o]. cbn in NE. subst e.
    match type of K with (if ?c then _ else _) = _ => destruct c; [|discriminate] end. injection K as <- <-.
    destruct at_, c, d, i, m, an; cbn in *; try reflexivity; discriminate. }
  match type of H with bind ?x _ = _ => destruct x as [(tg, g0)| | |] eqn:X; try discriminate end. cbn [bind] in H.
  match type of H with (if ?c then _ else _) = _ => destruct c; [discriminate|] end. injection H as <- <- <-. exact (K _ _ eq_refl E).
Qed.
Lemma own_element_attr : forall env i f fi, struct_field_info env i f = Ok fi -> g_element (fi_flags fi) = true -> g_attr (fi_flags fi) = false.
Proof.
  intros env i f fi H E. unfold struct_field_info, xmlname_info in H. destruct (parse_tag f) as [((a, b), c)| | |] eqn:P; try (destruct (beq (fd_name f) xml_name); discriminate).
  assert (fi_flags fi = c) as Q; [|rewrite Q in *; exact (parse_tag_element_attr _ _ _ _ P E)].
  destruct (beq (fd_name f) xml_name).
  - cbn [bind] in H. destruct (split_prefixed b). injection H as <-. reflexivity.
  - cbn [bind] in H. destruct (beq b []).
    + destruct (lookup_xmlname env (fd_type f)); injection H as <-; reflexivity.
    + match type of H with (if ?c then _ else _) = _ => destruct c; [discriminate|] end.
      match type of H with (let '(_, _) := ?c in _) = _ => destruct c end.
      match type of H with (if ?c then _ else _) = _ => destruct c; [discriminate|] end.
      match type of H with match ?c with _ => _ end = _ => destruct c end; [|injection H as <-; reflexivity].
      match type of H with (if ?c then _ else _) = _ => destruct c; [|discriminate] end. injection H as <-. reflexivity.
Qed.
Lemma element_not_attr : forall k env s ti f, type_info k env s = Ok ti -> In f (ti_fields ti) -> g_element (fi_flags f) = true -> g_attr (fi_flags f) = false.
Proof.
  intros k env s ti f H I E. destruct (type_info_good _ _ _ _ H) as ((P & _) & _). specialize (P f I). clear H I. induction P as [s i f fi N V X Y Z|s i f s' fi N V X P IH].
  - exact (own_element_attr _ _ _ _ Z E).
  - exact (IH E).
Qed.

(** *** The limit on depth, for all types *)
(** The same result, or a depth error. *)
Definition agree {A} (x y : outcome uerr A) : Prop := x = y \/ x = Err UDepth.
Lemma agree_refl : forall {A} (x : outcome uerr A), agree x x.
Proof. left. reflexivity. Qed.
Lemma agree_bind : forall {A B} (x y : outcome uerr A) (f g : A -> outcome uerr B), agree x y -> (forall a, agree (f a) (g a)) -> agree (bind x f) (bind y g).
Proof. intros A B x y f g [-> | ->] H; [|right; reflexivity]. destruct y; cbn [bind]; try (left; reflexivity). apply H. Qed.
Lemma content_agree : forall child child', (forall v n a d, agree (child v n a d) (child' v n a d)) -> forall j v dt c d, agree (content_loop j child v dt c d) (content_loop j child' v dt c d).
Proof.
  intros child child' H. induction j as [|j IH]; intros v dt c d; [apply agree_refl|]. cbn [content_loop]. destruct (next_token d) as [t d'|e d'|]; try apply agree_refl.
  destruct t; try apply IH; try apply agree_refl. apply agree_bind; [apply H|]. intros (v', d''). apply IH.
Qed.
Lemma update_agree : forall ek env {A} (f g : gtype -> gval -> outcome uerr (gval * A)), (forall t v, agree (f t v) (g t v)) -> forall idx s v, agree (update_at ek env s idx v f) (update_at ek env s idx v g).
Proof.
  intros ek env A f g H. induction idx as [|x rest IH]; intros s v; [apply agree_refl|]. cbn [update_at]. destruct v; try apply agree_refl.
  destruct (nth_error (fields_of env s) x) as [fd|]; [|apply agree_refl]. destruct (nth_error l x) as [w|]; [|apply agree_refl].
  apply agree_bind; [|intros; apply agree_refl]. destruct rest as [|y rest]; [apply H|].
  destruct (fd_type fd) as [| | | | | | |t| |s'| |]; try apply agree_refl; [|apply IH]. destruct t as [| | | | | | | | |s'| |]; try apply agree_refl.
  destruct w; try apply agree_refl; (apply agree_bind; [apply IH|intros; apply agree_refl]).
Qed.
Definition reader_agree (f g : reader) : Prop := forall t v n a d, agree (f t v n a d) (g t v n a d).
Lemma path_agree : forall ek env k f g, reader_agree f g -> forall q s fs ps v n a d, agree (path_child env ek q k f s fs ps v n a d) (path_child env ek q k g s fs ps v n a d).
Proof.
  intros ek env k f g H. induction q as [|q IH]; intros s fs ps v n a d; [apply agree_refl|]. cbn [path_child]. destruct (find_path fs ps n); try apply agree_refl.
  - apply agree_bind; [apply update_agree; intros; apply H|intros; apply agree_refl].
  - apply agree_bind; [|intros; apply agree_refl]. apply content_agree. intros. apply agree_bind; [apply IH|intros; apply agree_refl].
Qed.
Lemma body_agree : forall F ek env k f g, reader_agree f g -> forall t v n a d, agree (unmarshal_body F env ek f k t v n a d) (unmarshal_body F env ek g k t v n a d).
Proof.
  intros F ek env k f g H t v n a d. destruct t; try apply agree_refl.
  - destruct v; try apply agree_refl. cbn [unmarshal_body]. apply agree_bind; [apply H|intros; apply agree_refl].
  - cbn [unmarshal_body]. destruct (type_info ek env s) as [ti| | |]; try apply agree_refl. cbv zeta.
    do 6 (apply agree_bind; [apply agree_refl|intros ?]). apply agree_bind; [|intros; apply agree_refl]. apply content_agree. intros. apply agree_bind; [apply path_agree; exact H|].
    intros [y|]; [apply agree_refl|]. destruct (first_mode is_any (ti_fields ti)); [|apply agree_refl]. apply update_agree. intros. apply H.
Qed.
(** C38. The limit never changes what is read: with a lower limit the result is the same or the depth error. *)
Theorem C38_limit : forall F env ek k r r' t v n a d, (r <= r')%nat ->
  unmarshal F env ek r k t v n a d = unmarshal F env ek r' k t v n a d \/ unmarshal F env ek r k t v n a d = Err UDepth.
Proof.
  intros F env ek k. induction r as [|r IH]; intros r' t v n a d L; [right; reflexivity|]. destruct r' as [|r']; [lia|]. cbn [unmarshal].
  assert (H : reader_agree (unmarshal F env ek r k) (unmarshal F env ek r' k)) by (intros ? ? ? ? ?; apply IH; lia).
  destruct t; try (apply body_agree; exact H). apply agree_bind; [apply body_agree; exact H|intros; apply agree_refl].
Qed.
Print Assumptions C38_limit.
(** C38. A depth error comes only from a document that has elements nested that deep: with [m] elements open inside the one
    being read, and fields of at most [W] layers (one, and one for each slice). *)
Theorem C38_shallow : forall F env ek W k r t v n a d, env_ok ek env -> layered ek env W -> element_readable t = true -> wt env t v = true -> (left_to_read d < k)%nat ->
  unmarshal F env ek r k t v n a d = Err UDepth ->
  exists m ts d1, calls d ts d1 /\ depth_after 0 ts = Some m /\ (r < layers t + W * m)%nat.
Proof.
  intros F env ek W k r t v n a d EO LY ER Hv L H.
  pose proof (unmarshal_post F env ek EO W (fun _ => O) (fun s ti f A B C => element_not_attr _ _ _ _ _ A B C) r k t v n a d ER Hv L) as P. rewrite H in P.
  destruct (P eq_refl) as (m & ts & d1 & A & B & C & _). exists m, ts, d1. auto.
Qed.
Print Assumptions C38_shallow.
(** C38. Types that are not recursive never run into the limit: what is needed is fixed by the types. *)
Theorem C38_ranked : forall F env ek rk k r t v n a d, env_ok ek env -> ranked ek env rk -> element_readable t = true -> wt env t v = true -> (left_to_read d < k)%nat ->
  (needs rk t <= r)%nat -> unmarshal F env ek r k t v n a d = unmarshal F env ek (needs rk t) k t v n a d /\ unmarshal F env ek r k t v n a d <> Err UDepth.
Proof.
  intros F env ek rk k r t v n a d EO RK ER Hv L N.
  assert (K : forall r, (needs rk t <= r)%nat -> unmarshal F env ek r k t v n a d <> Err UDepth).
  { intros r0 N0 H. pose proof (unmarshal_post F env ek EO 1 rk (fun s ti f A B C => element_not_attr _ _ _ _ _ A B C) r0 k t v n a d ER Hv L) as P. rewrite H in P.
    destruct (P eq_refl) as (m & ts & d1 & A & B & _ & C). specialize (C RK). lia. }
  split; [|apply K; exact N]. destruct (C38_limit F env ek k _ _ t v n a d N) as [E|E]; [symmetry; exact E|]. destruct (K _ (le_n _) E).
Qed.
Print Assumptions C38_ranked.

(** *** A recursive type *)
Definition rec_env : tenv := [mksd (str "T") [mkfd (str "R") false (str "R") (TPtr (TStruct (str "T")))]].
Definition start_R : token := TStart (mkname [] (str "R")) [].
Lemma rec_body : forall F k (read : reader) v n a d d', (1 <= k)%nat -> next_token d = TokOk start_R d' -> wt rec_env (TStruct (str "T")) v = true ->
  (forall w, wt rec_env (TPtr (TStruct (str "T"))) w = true -> read (TPtr (TStruct (str "T"))) w (mkname [] (str "R")) [] d' = Err UDepth) ->
  unmarshal_body F rec_env 3 read k (TStruct (str "T")) v n a d = Err UDepth.
Proof.
  intros F k read v n a d d' K N Hv H. apply wt_rec in Hv as (l & -> & Fl). change (fields_of rec_env (str "T")) with [mkfd (str "R") false (str "R") (TPtr (TStruct (str "T")))] in Fl.
  inversion Fl as [|? w ? ? Hw F2]; subst. inversion F2; subst. cbn [fd_type] in Hw. specialize (H w Hw).
  assert (TI : type_info 3 rec_env (str "T") = Ok (finish None [mkfi [0%nat] [] (str "R") [] m_element []])) by reflexivity.
  cbn [unmarshal_body]. rewrite TI. cbn [ti_xmlname finish bind].
  assert (SA : forall al, set_attrs F rec_env 3 (finish None [mkfi [0%nat] [] (str "R") [] m_element []]) (str "T") (VRec [w]) al = Ok (VRec [w])).
  { induction al as [|x al IH]; [reflexivity|]. cbn [set_attrs]. exact IH. }
  rewrite SA. cbn [bind]. cbn [finish ti_fields first_mode find is_data is_comment is_any is_inner]. cbn -[content_loop next_token path_child str].
  destruct k as [|k]; [lia|]. cbn [content_loop]. rewrite N. unfold start_R.
  assert (PC : path_child rec_env 3 1 (S k) read (str "T") [mkfi [0%nat] [] (str "R") [] m_element []] [] (VRec [w]) (mkname [] (str "R")) [] d' = Err UDepth).
  { cbn [path_child]. change (find_path [mkfi [0%nat] [] (str "R") [] m_element []] [] (mkname [] (str "R"))) with (Field (mkfi [0%nat] [] (str "R") [] m_element [])). cbn [fi_idx].
    cbn [update_at]. change (nth_error (fields_of rec_env (str "T")) 0) with (Some (mkfd (str "R") false (str "R") (TPtr (TStruct (str "T"))))). cbn [nth_error fd_type]. rewrite H. reflexivity. }
  change (path_bound [mkfi [0%nat] [] (str "R") [] m_element []]) with 1%nat. rewrite PC. reflexivity.
Qed.
(** C38. Deeper documents are rejected: for a type that contains itself, [r] nested elements are too many for a limit of [r]. *)
Theorem C38_deep : forall F k r v n a d d', (1 <= k)%nat -> wt rec_env (TStruct (str "T")) v = true -> calls d (repeat start_R r) d' ->
  unmarshal F rec_env 3 r k (TStruct (str "T")) v n a d = Err UDepth.
Proof.
  intros F k r v n a d d' K Hv C.
  enough (H : unmarshal F rec_env 3 r k (TStruct (str "T")) v n a d = Err UDepth /\ forall w, wt rec_env (TPtr (TStruct (str "T"))) w = true -> unmarshal F rec_env 3 r k (TPtr (TStruct (str "T"))) w n a d = Err UDepth) by apply H.
  revert v n a d Hv C. induction r as [|r IH]; intros v n a d Hv C; [split; reflexivity|]. cbn [repeat] in C. inversion C as [|? ? d1 ? ? N C1]; subst.
  assert (B : forall v, wt rec_env (TStruct (str "T")) v = true -> unmarshal_body F rec_env 3 (unmarshal F rec_env 3 r k) k (TStruct (str "T")) v n a d = Err UDepth).
  { intros u Hu. apply (rec_body F k _ u n a d d1 K N Hu). exact (proj2 (IH v (mkname [] (str "R")) [] d1 Hv C1)). }
  split; [exact (B v Hv)|]. intros w Hw. cbn [unmarshal]. rewrite B; [reflexivity|]. destruct w; try reflexivity; exact Hw.
Qed.
Print Assumptions C38_deep.
(** Such documents: nothing but start tags. *)
Definition nested (r : nat) : bytes := concat (repeat (str "<R>") r).
Lemma nested_step : forall rest stk, next_token (mkd (60 :: 82 :: 62 :: rest) None stk (fun _ => None) None) = TokOk start_R (mkd rest None (SStart (mkname [] (str "R")) :: stk) (fun _ => None) None).
Proof. intros. reflexivity. Qed.
Lemma nested_calls : forall r rest stk, exists d', calls (mkd (nested r ++ rest) None stk (fun _ => None) None) (repeat start_R r) d'.
Proof.
  induction r as [|r IH]; intros rest stk; [eexists; apply Calls_nil|]. destruct (IH rest (SStart (mkname [] (str "R")) :: stk)) as (d' & H).
  exists d'. cbn [repeat]. eapply Calls_tok; [|exact H]. apply nested_step.
Qed.
(** C38. For documents of any contents after 10001 start tags. *)
Theorem C38_deep_document : forall F k rest, (1 <= k)%nat -> decode F rec_env 3 k (TStruct (str "T")) (zero 3 rec_env (TStruct (str "T"))) (nested (S max_depth) ++ rest) = Err UDepth.
Proof.
  intros F [|k] rest K; [lia|]. unfold decode. change (nested (S max_depth) ++ rest) with (60 :: 82 :: 62 :: (nested max_depth ++ rest)).
  cbn [find_start]. unfold new_decoder. rewrite nested_step. unfold start_R. cbn [bind].
  destruct (nested_calls max_depth rest [SStart (mkname [] (str "R"))]) as (d' & C).
  rewrite (C38_deep F (S k) max_depth (zero 3 rec_env (TStruct (str "T"))) (mkname [] (str "R")) [] _ d' ltac:(lia) eq_refl C). reflexivity.
Qed.
Print Assumptions C38_deep_document.

(** *** The struct types of package mpd *)
Definition struct_ok (env : tenv) (ek : nat) (s : bytes) : bool :=
  wt env (TStruct s) (zero ek env (TStruct s)) &&
  match type_info ek env s with
  | Ok ti =>
      match ti_xmlname ti with None => true | Some x => match decl_at env s (fi_idx x) with Some _ => true | None => false end end &&
      forallb (fun f => match decl_at env s (fi_idx f) with Some fd => readable (fi_flags f) (fd_type fd) | None => true end) (ti_fields ti)
  | Err _ => true
  | _ => false
  end.
Lemma declared : forall env s, (exists d, In d env /\ sd_name d = s) \/ fields_of env s = [].
Proof.
  intros env s. unfold fields_of. destruct (lookup env s) as [d|] eqn:E; [|right; reflexivity].
  left. exists d. induction env as [|e env IH]; [discriminate|]. cbn [lookup] in E. destruct (beq (sd_name e) s) eqn:B.
  - injection E as <-. apply beq_eq in B. split; [left; reflexivity|exact B].
  - destruct (IH E). split; [right|]; assumption.
Qed.
Lemma undeclared_info : forall ek env s, fields_of env s = [] -> type_info (S ek) env s = Ok (finish None []).
Proof. intros ek env s H. cbn [type_info]. rewrite H. reflexivity. Qed.
Lemma env_check : forall ek env, forallb (fun d => struct_ok env (S ek) (sd_name d)) env = true -> env_ok (S ek) env.
Proof.
  intros ek env H. rewrite forallb_forall in H.
  assert (K : forall s, struct_ok env (S ek) s = true).
  { intros s. destruct (declared env s) as [(d & I & <-)|U]; [exact (H d I)|]. unfold struct_ok. rewrite (undeclared_info _ _ _ U). cbn [zero]. rewrite U. cbn. rewrite U. reflexivity. }
  clear H. split; intros s; specialize (K s); unfold struct_ok in K; apply andb_true_iff in K as (A & B); [exact A|destruct (type_info (S ek) env s); eauto; discriminate| |].
  - intros ti x TI X. rewrite TI, X in B. apply andb_true_iff in B as (B & _). destruct (decl_at env s (fi_idx x)); discriminate.
  - intros ti f fd TI I D. rewrite TI in B. apply andb_true_iff in B as (_ & B). rewrite forallb_forall in B. specialize (B f I). rewrite D in B. exact B.
Qed.
Lemma mpd_env_ok : env_ok embed_depth mpd_types.
Proof. apply env_check. vm_compute. reflexivity. Qed.
(** How many levels of elements there can be below each struct: the numbers are what makes [ranked] hold. *)
Definition look (tab : list (bytes * nat)) (s : bytes) : nat := match find (fun e => beq (fst e) s) tab with Some e => snd e | None => O end.
Definition rank_step (tab : list (bytes * nat)) : list (bytes * nat) :=
  map (fun d => (sd_name d,
         match type_info embed_depth mpd_types (sd_name d) with
         | Ok ti => fold_right (fun f m => if element_like f then match decl_at mpd_types (sd_name d) (fi_idx f) with Some fd => Nat.max (needs (look tab) (fd_type fd)) m | None => m end else m) O (ti_fields ti)
         | _ => O
         end)) mpd_types.
Definition mpd_ranks : list (bytes * nat) := Eval vm_compute in Nat.iter 20 rank_step [].
Definition mpd_rank : bytes -> nat := look mpd_ranks.
Definition rank_ok (s : bytes) : bool :=
  match type_info embed_depth mpd_types s with
  | Ok ti => forallb (fun f => negb (element_like f) || match decl_at mpd_types s (fi_idx f) with Some fd => (needs mpd_rank (fd_type fd) <=? mpd_rank s)%nat | None => true end) (ti_fields ti)
  | _ => true
  end.
Lemma mpd_ranked : ranked embed_depth mpd_types mpd_rank.
Proof.
  assert (H : forallb (fun d => rank_ok (sd_name d)) mpd_types = true) by (vm_compute; reflexivity). rewrite forallb_forall in H.
  intros s ti f fd TI I E D. destruct (declared mpd_types s) as [(d & Id & <-)|U].
  - specialize (H d Id). unfold rank_ok in H. rewrite TI in H. rewrite forallb_forall in H. specialize (H f I). rewrite E, D in H. cbn [negb orb] in H. apply Nat.leb_le. exact H.
  - unfold embed_depth in TI. rewrite (undeclared_info _ _ _ U) in TI. injection TI as <-. destruct I.
Qed.
(** C38. Reading into any struct of package mpd, for every document: a limit of 23 is as good as any higher one, and the limit is
    never met. *)
Theorem C38_mpd : forall F k r s v n a d, wt mpd_types (TStruct s) v = true -> (left_to_read d < k)%nat -> (23 <= r)%nat ->
  unmarshal F mpd_types embed_depth r k (TStruct s) v n a d = unmarshal F mpd_types embed_depth 23 k (TStruct s) v n a d /\
  unmarshal F mpd_types embed_depth r k (TStruct s) v n a d <> Err UDepth.
Proof.
  intros F k r s v n a d Hv L R.
  assert (N : (needs mpd_rank (TStruct s) <= 23)%nat).
  { cbn [needs]. unfold mpd_rank, look. destruct (find (fun e => beq (fst e) s) mpd_ranks) as [e|] eqn:E; [|lia]. apply find_some in E as (I & _).
    assert (Q : forallb (fun e => (snd e <=? 22)%nat) mpd_ranks = true) by (vm_compute; reflexivity). rewrite forallb_forall in Q. specialize (Q e I). apply Nat.leb_le in Q. lia. }
  destruct (C38_ranked F mpd_types embed_depth mpd_rank k r (TStruct s) v n a d mpd_env_ok mpd_ranked eq_refl Hv L ltac:(lia)) as (A & B).
  destruct (C38_ranked F mpd_types embed_depth mpd_rank k 23 (TStruct s) v n a d mpd_env_ok mpd_ranked eq_refl Hv L ltac:(lia)) as (C & _). split; [congruence|exact B].
Qed.
Print Assumptions C38_mpd.

(** *** C59 *)
Definition not_start (t : token) : Prop := match t with TStart _ _ => False | _ => True end.
(** The element that a document is about: the first one. *)
Definition first_element (inp : bytes) (n : name) (a : list attr) (d : dstate) : Prop :=
  exists ts d0, calls (new_decoder inp) ts d0 /\ Forall not_start ts /\ next_token d0 = TokOk (TStart n a) d.
Lemma find_start_post : forall k d, (left_to_read d < k)%nat ->
  match find_start k d with
  | Ok (n, a, d') => (left_to_read d' < k)%nat /\ exists ts d0, calls d ts d0 /\ Forall not_start ts /\ next_token d0 = TokOk (TStart n a) d'
  | Err e => e <> UDepth
  | Panic => False
  | OutOfFuel => stuck d
  end.
Proof.
  induction k as [|k IH]; intros d L; [lia|]. cbn [find_start]. destruct (next_token d) as [t d1|e d1|] eqn:N; [|discriminate|destruct (next_nofuel d N)].
  destruct (next_progress d t d1 N) as [P|(P & -> & ->)].
  - assert (Q : match find_start k d1 with
      | Ok (n, a, d') => (left_to_read d' < S k)%nat /\ (not_start t -> exists ts d0, calls d ts d0 /\ Forall not_start ts /\ next_token d0 = TokOk (TStart n a) d')
      | Err e => e <> UDepth | Panic => False | OutOfFuel => stuck d end).
    { specialize (IH d1 ltac:(lia)). destruct (find_start k d1) as [((n, a), d')|e| |]; try exact IH.
      - destruct IH as (A & ts & d0 & C & D & E). split; [lia|]. intros NS. exists (t :: ts), d0. split; [econstructor; eassumption|]. split; [constructor; assumption|exact E].
      - destruct IH as (ts & d0 & C & D). exists (t :: ts), d0. split; [econstructor; eassumption|exact D]. }
    destruct t; try (destruct (find_start k d1) as [((n0, a0), d')|e| |]; try exact Q; destruct Q as (A & B); split; [exact A|exact (B I)]).
    split; [lia|]. exists [], d. split; [constructor|]. split; [constructor|exact N].
  - destruct (find_start k d) as [((n0, a0), d')|e| |] eqn:E; try (exists [], d; split; [constructor|exact P]).
    all: exfalso; clear - N E; induction k as [|k IHk]; [discriminate|]; cbn [find_start] in E; rewrite N in E; exact (IHk E).
Qed.
(** What reading a document into a value of a struct type gives, for all documents: a value of the type, made from the first element,
    of which nothing more is read; or an error; never a crash. *)
Theorem C59_read : forall F env ek s v inp, env_ok ek env -> wt env (TStruct s) v = true ->
  match decode F env ek (enough inp) (TStruct s) v inp with
  | Ok w => wt env (TStruct s) w = true /\ exists n a d d', first_element inp n a d /\ rest_of d d'
  | Err _ => True
  | Panic => False
  | OutOfFuel => stuck (new_decoder inp)
  end.
Proof.
  intros F env ek s v inp EO Hv. unfold decode.
  assert (L : (left_to_read (new_decoder inp) < enough inp)%nat) by (unfold left_to_read, enough; cbn; lia).
  pose proof (find_start_post (enough inp) (new_decoder inp) L) as FS. destruct (find_start (enough inp) (new_decoder inp)) as [((n, a), d)|e| |]; cbn [bind]; auto.
  destruct FS as (L1 & FE).
  pose proof (unmarshal_post F env ek EO 1 (fun _ => O) (fun s ti f A B C => element_not_attr _ _ _ _ _ A B C) max_depth (enough inp) (TStruct s) v n a d eq_refl Hv L1) as P.
  destruct (unmarshal F env ek max_depth (enough inp) (TStruct s) v n a d) as [(w, d')|e| |]; cbn [bind]; cbn [post] in P; auto.
  - destruct P as (A & B). split; [exact A|]. exists n, a, d, d'. split; [exact FE|exact B].
  - destruct FE as (ts & d0 & C & _ & N). destruct P as (ts' & d1 & C' & Q). exists (ts ++ TStart n a :: ts'), d1. split; [|exact Q]. eapply calls_app; [exact C|]. econstructor; eassumption.
Qed.
Print Assumptions C59_read.
(** C59. MPDFromBytes, for all byte strings: an MPD, or an error (never about depth), and no crash; it goes on for ever only if there is
    a '>' in the text of the document that is not escaped. *)
Theorem C59_mpd : forall F inp,
  match read_mpd F inp with
  | Ok v => wt mpd_types (TStruct (str "MPD")) v = true /\ exists n a d d', first_element inp n a d /\ local n = str "MPD" /\ rest_of d d'
  | Err e => e <> UDepth
  | Panic => False
  | OutOfFuel => stuck (new_decoder inp)
  end.
Proof.
  intros F inp. assert (Hv : wt mpd_types (TStruct (str "MPD")) (zero_of mpd_types embed_depth (TStruct (str "MPD"))) = true) by apply mpd_env_ok.
  pose proof (C59_read F mpd_types embed_depth (str "MPD") _ inp mpd_env_ok Hv) as P. unfold read_mpd, mpd_from_bytes.
  generalize dependent (zero_of mpd_types embed_depth (TStruct (str "MPD"))). intros v Hv P.
  assert (M23 : (23 <= max_depth)%nat) by (apply Nat.leb_le; vm_compute; reflexivity).
  destruct (decode F mpd_types embed_depth (enough inp) (TStruct (str "MPD")) v inp) as [w|e| |] eqn:D; auto; unfold decode in D; revert D M23; generalize max_depth; intros M D M23.
  - destruct P as (A & _). split; [exact A|]. assert (L : (left_to_read (new_decoder inp) < enough inp)%nat) by (unfold left_to_read, enough; cbn; lia).
    pose proof (find_start_post (enough inp) (new_decoder inp) L) as FS. destruct (find_start (enough inp) (new_decoder inp)) as [((n, a), d)|e| |]; try discriminate. destruct FS as (L1 & FE). cbn [bind] in D.
    pose proof (unmarshal_post F mpd_types embed_depth mpd_env_ok 1 (fun _ => O) (fun s ti f A B C => element_not_attr _ _ _ _ _ A B C) M (enough inp) (TStruct (str "MPD")) v n a d eq_refl Hv L1) as Q.
    destruct (unmarshal F mpd_types embed_depth M (enough inp) (TStruct (str "MPD")) v n a d) as [(w', d')|e| |] eqn:U; try discriminate. destruct Q as (_ & Q).
    exists n, a, d, d'. split; [exact FE|]. split; [|exact Q].
    destruct M as [|r]; [lia|]. cbn [unmarshal unmarshal_body] in U.
    assert (TI : exists ti x, type_info embed_depth mpd_types (str "MPD") = Ok ti /\ ti_xmlname ti = Some x /\ fi_name x = str "MPD") by (do 2 eexists; split; [vm_compute; reflexivity|split; reflexivity]).
    destruct TI as (ti & x & TI & X & NX). rewrite TI, X, NX in U. destruct (beq (str "MPD") (local n)) eqn:E; [apply beq_eq in E; congruence|].
    change (negb (beq (str "MPD") [])) with true in U. cbn [negb andb orb bind] in U. discriminate U.
  - assert (L : (left_to_read (new_decoder inp) < enough inp)%nat) by (unfold left_to_read, enough; cbn; lia).
    pose proof (find_start_post (enough inp) (new_decoder inp) L) as FS. destruct (find_start (enough inp) (new_decoder inp)) as [((n, a), d)|e'| |]; try discriminate; cbn [bind] in D.
    + destruct FS as (L1 & _). intros ->. destruct (unmarshal F mpd_types embed_depth M (enough inp) (TStruct (str "MPD")) v n a d) as [(w, d')|e| |] eqn:U; try discriminate. injection D as ->.
      refine (proj2 (C38_mpd F (enough inp) M (str "MPD") v n a d Hv L1 _) U). exact M23.
    + injection D as <-. exact FS.
Qed.
Print Assumptions C59_mpd.

(** *** Documents on which reading goes on for ever *)
Lemma stray_next : forall d, stray d -> next_token d = TokOk (TChar []) d.
Proof. intros [inp c stk m err] (E & C & s & I). cbn in E, C, I. subst. reflexivity. Qed.
Lemma content_endless : forall child k v dt cm d, stray d -> content_loop k child v dt cm d = OutOfFuel.
Proof. induction k as [|k IH]; intros v dt cm d S; [reflexivity|]. cbn [content_loop]. rewrite (stray_next d S). apply IH. exact S. Qed.
(** C59. A '>' in the text of an element is allowed by XML if it does not follow "]]", but reading it never ends: no number of tokens
    is enough. *)
Theorem C59_endless_refuted : forall F k rest, decode F mpd_types embed_depth k (TStruct (str "MPD")) (zero_value (str "MPD")) (str "<MPD>1>0" ++ rest) = OutOfFuel.
Proof.
  intros F [|k] rest; [reflexivity|]. unfold decode. cbn [find_start].
  assert (N : next_token (new_decoder (str "<MPD>1>0" ++ rest)) = TokOk (TStart (mkname [] (str "MPD")) []) (mkd (str "1>0" ++ rest) None [SStart (mkname [] (str "MPD"))] (fun _ => None) None)) by reflexivity.
  rewrite N. cbn [bind]. clear N. replace max_depth with (S (pred max_depth)) by reflexivity. generalize (pred max_depth). intros r. cbn [unmarshal unmarshal_body].
  assert (TI : exists ti x l, type_info embed_depth mpd_types (str "MPD") = Ok ti /\ ti_xmlname ti = Some x /\ fi_name x = str "MPD" /\ fi_xmlns x = [] /\ fi_idx x = [0%nat] /\
    first_mode is_data (ti_fields ti) = None /\ first_mode is_comment (ti_fields ti) = None /\ first_mode is_any (ti_fields ti) = None /\ first_mode is_inner (ti_fields ti) = None /\
    zero_value (str "MPD") = VRec (VName (mkname [] []) :: l)) by (do 3 eexists; split; [vm_compute; reflexivity|repeat (split; [reflexivity|]); vm_compute; reflexivity]).
  destruct TI as (ti & x & l & TI & X & NX & SX & IX & M1 & M2 & M3 & M4 & ->). rewrite TI, X, NX, SX, IX. cbn [local space]. rewrite beq_refl. cbn [negb andb orb beq]. rewrite andb_false_r.
  cbn [update_at]. change (nth_error (fields_of mpd_types (str "MPD")) 0) with (Some (mkfd (str "XMLName") false (str "MPD") TName)). cbn [nth_error fd_type bind set_attrs]. rewrite M1, M2, M3, M4. cbn [touch bind].
  cbn [orb bind]. match goal with |- context [content_loop (S k) ?c ?v ?a ?b ?d] => assert (E : content_loop (S k) c v a b d = OutOfFuel) end; [|rewrite E; reflexivity].
  cbn [content_loop].
  assert (N : forall stk m, next_token (mkd (str "1>0" ++ rest) None stk m None) = TokOk (TChar (str "1")) (mkd (str ">0" ++ rest) None stk m None)) by reflexivity.
  rewrite N. apply content_endless. split; [reflexivity|]. split; [reflexivity|]. eexists. reflexivity.
Qed.
Print Assumptions C59_endless_refuted.
(** Text fields of slice types, which package mpd does not have, crash: the condition in [env_ok] is needed. *)
Definition slice_env : tenv := [mksd (str "T") [mkfd (str "R") false (str ",chardata") (TSlice TString)]].
Theorem C59_slice_refuted : forall F, decode F slice_env 3 20 (TStruct (str "T")) (zero 3 slice_env (TStruct (str "T"))) (str "<T>x</T>") = Panic.
Proof. intros F. vm_compute. reflexivity. Qed.
Print Assumptions C59_slice_refuted.

(** ... nor for a comment field that is a slice of strings, with or without a comment in the document, ... *)
Definition comment_env : tenv := [mksd (str "T") [mkfd (str "R") false (str ",comment") (TSlice TString)]].
Theorem C59_comment_refuted : forall F, decode F comment_env 3 20 (TStruct (str "T")) (zero 3 comment_env (TStruct (str "T"))) (str "<T></T>") = Panic /\
  decode F comment_env 3 20 (TStruct (str "T")) (zero 3 comment_env (TStruct (str "T"))) (str "<T><!--x--></T>") = Panic.
Proof. intros F. split; vm_compute; reflexivity. Qed.
Print Assumptions C59_comment_refuted.
(** ... nor for an attribute that is a pointer to a pointer to a duration, unless the inner pointer is set. *)
Definition double_env : tenv := [mksd (str "T") [mkfd (str "R") false (str "r,attr") (TPtr (TPtr TDuration))]].
Theorem C59_double_refuted : forall F, decode F double_env 3 20 (TStruct (str "T")) (zero 3 double_env (TStruct (str "T"))) (str "<T r=""PT1S""></T>") = Panic /\
  decode F double_env 3 20 (TStruct (str "T")) (VRec [VPtr (VPtr (VInt 0))]) (str "<T r=""PT1S""></T>") = Ok (VRec [VPtr (VPtr (VInt 1000000000))]) /\
  exists e, decode F double_env 3 20 (TStruct (str "T")) (zero 3 double_env (TStruct (str "T"))) (str "<T r=""1""></T>") = Err e.
Proof. intros F. split; [vm_compute; reflexivity|]. split; [vm_compute; reflexivity|]. eexists. vm_compute. reflexivity. Qed.
Print Assumptions C59_double_refuted.

Definition fl0 : floats := mkfl (fun _ _ => []) (fun _ => []) (fun _ _ => None) (fun _ => 0).
Example C59_example : exists v, read_mpd fl0 (str "<?xml version=""1.0""?><MPD id=""a""><Period id=""p""/></MPD> rest") = Ok v /\ wt mpd_types (TStruct (str "MPD")) v = true /\ v <> zero_value (str "MPD").
Proof. eexists. split; [vm_compute; reflexivity|]. split; [vm_compute; reflexivity|]. vm_compute. discriminate. Qed.
Example C59_error_example : exists e, read_mpd fl0 (str "<MPD><Period></MPD>") = Err e.
Proof. eexists. vm_compute. reflexivity. Qed.
(** A limit of 3 is enough for one element in another and too low for three. *)
Example C38_example : (exists v d, unmarshal fl0 rec_env 3 3 20 (TStruct (str "T")) (zero 3 rec_env (TStruct (str "T"))) (mkname [] (str "T")) [] (mkd (str "<R/></T>") None [SStart (mkname [] (str "T"))] (fun _ => None) None) = Ok (v, d)) /\
  unmarshal fl0 rec_env 3 3 20 (TStruct (str "T")) (zero 3 rec_env (TStruct (str "T"))) (mkname [] (str "T")) [] (mkd (str "<R><R><R/></R></R></T>") None [SStart (mkname [] (str "T"))] (fun _ => None) None) = Err UDepth.
Proof. split; [do 2 eexists; vm_compute; reflexivity|vm_compute; reflexivity]. Qed.
