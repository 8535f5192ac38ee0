(** The elements and texts that marshalling writes for a value, and that it writes exactly these. *)
From Coq Require Import String.
From Coq Require Import ZArith List Bool Lia.
From Verif Require Import Base Utf8 Lexer Escape Printer GoType TypeInfo Simple Marshal Unmarshal MarshalProofs.
Import ListNotations.
Open Scope Z_scope.

(** A text, or an element: the name given to the encoder, its local part, its attributes, whether the struct it comes from has
    a field for text, and its content. *)
Inductive plan := PText (m : emode) (s : bytes) | PElem (n : name) (l : bytes) (a : list attr) (tx : bool) (c : list plan).
Fixpoint play (p : plan) : M unit :=
  match p with
  | PText m s => emit (esc_writes m s)
  | PElem n l a tx c => mdo_ write_start n a ; mdo_ (fix plays (c : list plan) : M unit := match c with [] => mret tt | p :: c => mdo_ play p ; plays c end) c ; write_end n
  end.
Fixpoint plays (c : list plan) : M unit := match c with [] => mret tt | p :: c => mdo_ play p ; plays c end.

Section Plan.
Variables (F : floats) (env : tenv) (ek : nat).
Fixpoint gather {A} (f : gval -> outcome eerr (list A)) (l : list gval) : outcome eerr (list A) :=
  match l with [] => Ok [] | v :: l => do a <- f v ; do b <- gather f l ; Ok (a ++ b) end.
Fixpoint plan_fields (value : gtype -> gval -> finfo -> outcome eerr (list plan)) (s : bytes) (fs : list finfo) (v : gval) : outcome eerr (list plan) :=
  match fs with
  | [] => Ok []
  | f :: fs =>
      if g_attr (fi_flags f) then plan_fields value s fs v
      else
        do x <- field_at env s (fi_idx f) v true ;
        match x with
        | None => plan_fields value s fs v
        | Some (t, w, _) =>
            do p <- match fi_parents f with
                    | [] => if mode_eqb (fi_flags f) m_chardata then Ok [PText (EText false) (chardata_text F t w)]
                            else if mode_eqb (fi_flags f) m_element then value t w f else OutOfFuel
                    | _ => OutOfFuel
                    end ;
            do q <- plan_fields value s fs v ; Ok (p ++ q)
        end
  end.
Definition takes_text (ti : tinfo) : bool := match first_mode is_data (ti_fields ti) with Some _ => true | None => false end.
(** A dynamic element name without namespace, which may need a reset of the default namespace, is left out. *)
Definition bare (ti : tinfo) (n : name) : bool := match ti_xmlname ti with Some x => beq (space n) [] && beq (fi_xmlns x) [] && beq (fi_name x) [] | None => false end.
Fixpoint plan_value (k : nat) (t : gtype) (v : gval) (fi : option finfo) : outcome eerr (list plan) :=
  match k with
  | O => OutOfFuel
  | S k =>
      if match fi with Some f => g_omit (fi_flags f) && is_empty v | None => false end then Ok []
      else
        match drill t v true with
        | None => Ok []
        | Some (t, v, _) =>
            match t, v with
            | TSlice t', VList l => gather (fun w => plan_value k t' w fi) l
            | TSlice _, _ => Panic
            | TAttr, _ => OutOfFuel
            | TName, _ => OutOfFuel
            | TStruct s, _ =>
                match type_info ek env s with
                | Ok ti =>
                    do n <- start_name env ti t v true fi None ;
                    if bare ti n then OutOfFuel
                    else
                      do a <- marshal_attrs F env s (ti_fields ti) v true ;
                      do c <- plan_fields (fun t w f => plan_value k t w (Some f)) s (ti_fields ti) v ;
                      Ok [PElem n (snd (split_prefixed (local n))) a (takes_text ti) c]
                | _ => OutOfFuel
                end
            | _, _ =>
                do n <- start_name env empty_info t v true fi None ;
                match simple_text F t v with Some s => Ok [PElem n (snd (split_prefixed (local n))) [] true [PText EAttr s]] | None => unsupported end
            end
        end
  end.

Lemma bind_assoc : forall {A B C} (m : M A) (f : A -> M B) (g : B -> M C) s, mbind (mbind m f) g s = mbind m (fun x => mbind (f x) g) s.
Proof.
  intros. unfold mbind. destruct (m s) as [[c1 s1] [x|e| |]]; auto. destruct (f x s1) as [[c2 s2] [y|e| |]]; auto. destruct (g y s2) as [[c3 s3] r]. rewrite app_assoc. reflexivity.
Qed.
Lemma bind_cong : forall {A B} (m m' : M A) (f f' : A -> M B) s, (forall s, m s = m' s) -> (forall x s, f x s = f' x s) -> mbind m f s = mbind m' f' s.
Proof. intros A B m m' f f' s H H'. unfold mbind. rewrite H. destruct (m' s) as [[c1 s1] [x|e| |]]; auto. rewrite H'. reflexivity. Qed.
Lemma bind_unit : forall (m : M unit) s, mbind m (fun _ => mret tt) s = m s.
Proof. intros m s. unfold mbind, mret. destruct (m s) as [[c1 s1] [[]|e| |]]; auto. rewrite app_nil_r. reflexivity. Qed.
Lemma bind_get : forall {A} (f : pstate -> M A) s, mbind mget f s = f s s.
Proof. intros. unfold mbind, mget. destruct (f s s) as [[? ?] ?]. reflexivity. Qed.
Lemma plays_app : forall a b s, plays (a ++ b) s = mbind (plays a) (fun _ => plays b) s.
Proof.
  induction a as [|p a IH]; intros b s; cbn [app plays]; [rewrite ret_bind; reflexivity|]. rewrite bind_assoc. apply bind_cong; auto.
Qed.
Lemma plays_one : forall p s, plays [p] s = play p s.
Proof. intros. cbn [plays]. apply bind_unit. Qed.
Lemma play_elem : forall n l a tx c s, play (PElem n l a tx c) s = mbind (write_start n a) (fun _ => mbind (plays c) (fun _ => write_end n)) s.
Proof.
  intros. reflexivity.
Qed.
Lemma gather_plays : forall (f : gval -> outcome eerr (list plan)) (g : gval -> M unit) l ps,
  (forall v p, In v l -> f v = Ok p -> forall s, g v s = plays p s) -> gather f l = Ok ps -> forall s, each_value g l s = plays ps s.
Proof.
  induction l as [|v l IH]; intros ps H E s; cbn [gather] in E; [injection E as <-; reflexivity|].
  destruct (f v) as [a| | |] eqn:A; try discriminate. cbn [bind] in E. destruct (gather f l) as [b| | |] eqn:B; try discriminate. cbn [bind] in E. injection E as <-.
  cbn [each_value]. rewrite plays_app. apply bind_cong; [eapply H; eauto; left; auto|]. intros _ s'. apply IH; auto. intros w p I. apply H. right. auto.
Qed.
Lemma field_at_true : forall idx s v t w ad, @field_at eerr env s idx v true = Ok (Some (t, w, ad)) -> ad = true.
Proof.
  induction idx as [|x rest IH]; intros s v t w ad H; cbn [field_at] in H; [destruct v; discriminate|]. destruct v; try discriminate.
  destruct (nth_error (fields_of env s) x) as [f|]; [|discriminate]. destruct (nth_error l x) as [u|]; [|discriminate]. destruct rest as [|y rest]; [injection H; auto|].
  destruct (fd_type f) as [| | | | | | |t'| |s'| |]; try discriminate; [|eapply IH; eauto]. destruct t'; try discriminate. destruct u; try discriminate. eapply IH; eauto.
Qed.
Lemma drill_true : forall t v t' v' ad, drill t v true = Some (t', v', ad) -> ad = true.
Proof. induction t; intros v t' v' ad H; cbn [drill] in H; try (injection H; auto; fail). destruct v; try discriminate. eapply IHt; eauto. Qed.
Lemma fields_plays : forall value (pv : gtype -> gval -> finfo -> outcome eerr (list plan)) s fs v ps,
  (forall t w f p, pv t w f = Ok p -> forall st, value true t w f st = plays p st) ->
  plan_fields pv s fs v = Ok ps -> forall (A : Type) (g : list bytes -> M A) st, mbind (struct_fields F env value s fs v true []) g st = mbind (plays ps) (fun _ => g []) st.
Proof.
  intros value pv s. induction fs as [|f fs IH]; intros v ps H E A g st; cbn [plan_fields struct_fields] in *.
  - injection E as <-. cbn [plays]. rewrite !ret_bind. reflexivity.
  - destruct (g_attr (fi_flags f)); [apply IH; auto|]. destruct (field_at env s (fi_idx f) v true) as [[[[t w] ad]|]| | |] eqn:FA; cbn [bind] in E; try discriminate.
    2: { cbn [mlift]. rewrite bind_assoc, ret_bind. apply IH; auto. }
    pose proof (field_at_true _ _ _ _ _ _ FA); subst ad. destruct (fi_parents f) eqn:FP; [|discriminate]. cbn [mlift]. rewrite bind_assoc, ret_bind.
    destruct (plan_fields pv s fs v) as [q| | |] eqn:Q; cbn [bind] in E.
    2,3,4: (destruct (if mode_eqb (fi_flags f) m_chardata then _ else _); cbn [bind] in E; discriminate).
    assert (STEP : forall (m : M (list bytes)) p, (forall (g' : list bytes -> M A) st', mbind m g' st' = mbind (plays p) (fun _ => g' []) st') -> ps = p ++ q ->
       mbind (mbind m (fun stack => struct_fields F env value s fs v true stack)) g st = mbind (plays ps) (fun _ => g []) st).
    { intros m p HM ->. rewrite bind_assoc, HM. rewrite (bind_cong (plays (p ++ q)) (mbind (plays p) (fun _ => plays q)) _ (fun _ => g []) st (plays_app p q)) by auto.
      rewrite bind_assoc. apply bind_cong; auto. }
    destruct (mode_eqb (fi_flags f) m_chardata) eqn:M1.
    + cbn [orb]. cbn [bind] in E. injection E as E. apply (STEP _ [PText (EText false) (chardata_text F t w)]); [|symmetry; exact E]. intros g' st'. rewrite bind_assoc, trim_none.
      replace (mode_eqb (fi_flags f) m_cdata) with false. 2: { destruct (fi_flags f) as [[] [] [] [] [] [] [] []]; try reflexivity; discriminate. }
      rewrite bind_assoc. cbn [plays play]. rewrite bind_assoc. apply bind_cong; auto.
    + destruct (mode_eqb (fi_flags f) m_element) eqn:M2; [|discriminate]. destruct (pv t w f) as [p| | |] eqn:PV; cbn [bind] in E; try discriminate. injection E as E.
      eapply STEP; [|symmetry; exact E]. intros g' st'.
      replace (mode_eqb (fi_flags f) m_cdata) with false. 2: { destruct (fi_flags f) as [[] [] [] [] [] [] [] []]; try reflexivity; discriminate. }
      replace (mode_eqb (fi_flags f) m_comment) with false. 2: { destruct (fi_flags f) as [[] [] [] [] [] [] [] []]; try reflexivity; discriminate. }
      replace (mode_eqb (fi_flags f) m_innerxml) with false. 2: { destruct (fi_flags f) as [[] [] [] [] [] [] [] []]; try reflexivity; discriminate. }
      cbn [orb]. rewrite bind_assoc, trim_none, bind_assoc. cbn [length Nat.ltb Nat.leb andb]. rewrite ret_bind, bind_assoc. apply bind_cong; [intro; eapply H; eauto|]. intros [] s2. rewrite ret_bind. reflexivity.
Qed.
(** Marshalling carries out the plan. *)
Lemma plan_plays : forall k t v fi ps, plan_value k t v fi = Ok ps -> forall s, marshal_value F env ek k true t v fi None s = plays ps s.
Proof.
  induction k as [|k IH]; intros t v fi ps E s; cbn [plan_value] in E; [discriminate|]. cbn [marshal_value].
  destruct (match fi with Some f => g_omit (fi_flags f) && is_empty v | None => false end); [injection E as <-; reflexivity|].
  destruct (drill t v true) as [[[t' v'] ad]|] eqn:D; [|injection E as <-; reflexivity]. pose proof (drill_true _ _ _ _ _ D); subst ad. clear D t v. rename t' into t, v' into v.
  assert (SIMPLE : forall ps, (do n <- start_name env empty_info t v true fi None ; match simple_text F t v with Some s => Ok [PElem n (snd (split_prefixed (local n))) [] true [PText EAttr s]] | None => unsupported end) = Ok ps ->
     (forall z, t <> TStruct z) -> t <> TName ->
     mbind (mret empty_info) (fun ti => mbind (mlift (start_name env ti t v true fi None)) (fun n => mbind (mlift (Ok [])) (fun own => mbind mget (fun st =>
       mbind (write_start n ([] ++ own ++ reset_default ti n (p_elems st))) (fun _ => mbind (match simple_text F t v with Some s => emit (esc_writes EAttr s) | None => mlift unsupported end) (fun _ => write_end n)))))) s = plays ps s).
  { clear E ps. intros ps E NS NN. rewrite ret_bind. destruct (start_name env empty_info t v true fi None) as [n| | |]; cbn [bind] in E; try discriminate. cbn [mlift]. rewrite !ret_bind.
    destruct (simple_text F t v) as [x|]; [|discriminate]. injection E as <-. rewrite plays_one, play_elem. rewrite bind_get. cbn [reset_default empty_info finish ti_xmlname app].
    apply bind_cong; auto. intros _ s2. apply bind_cong; auto. intro s3. rewrite plays_one. reflexivity. }
  destruct t; try (apply SIMPLE; [exact E|discriminate|discriminate]).
  - destruct v; try discriminate. eapply gather_plays; [|exact E]. cbn. intros w p _ PW s'. apply IH; auto.
  - cbn [info_of]. destruct (type_info ek env s0) as [ti| | |] eqn:TI; try (destruct v; discriminate). rewrite ret_bind.
    assert (E' : (do n <- start_name env ti (TStruct s0) v true fi None ; if bare ti n then OutOfFuel else
                      do a <- marshal_attrs F env s0 (ti_fields ti) v true ;
                      do c <- plan_fields (fun t w f => plan_value k t w (Some f)) s0 (ti_fields ti) v ;
                      Ok [PElem n (snd (split_prefixed (local n))) a (takes_text ti) c]) = Ok ps) by (destruct v; exact E). clear E.
    destruct (start_name env ti (TStruct s0) v true fi None) as [n| | |]; cbn [bind] in E'; try discriminate. destruct (bare ti n) eqn:BR; [discriminate|].
    destruct (marshal_attrs F env s0 (ti_fields ti) v true) as [a| | |]; cbn [bind] in E'; try discriminate.
    destruct (plan_fields _ s0 (ti_fields ti) v) as [c| | |] eqn:PF; cbn [bind] in E'; try discriminate. injection E' as <-.
    cbn [mlift]. rewrite !ret_bind, plays_one, play_elem. rewrite bind_get.
    replace (reset_default ti n (p_elems s)) with (@nil attr). 2: { unfold reset_default, bare in *. destruct (ti_xmlname ti); auto. destruct (p_elems s); auto. rewrite BR. reflexivity. }
    cbn [app]. rewrite app_nil_r.
    apply bind_cong; auto. intros _ s2. apply bind_cong; auto. intro s3. unfold marshal_struct.
    rewrite (fields_plays _ _ _ _ _ _ (fun t w f p HP => IH t w (Some f) p HP) PF). cbn [rev close_all]. change (ignore (mret tt)) with (mret tt). apply bind_unit.
  - destruct v; discriminate.
  - destruct v; discriminate.
Qed.
End Plan.
