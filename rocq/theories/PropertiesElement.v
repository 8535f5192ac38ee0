(** Property C56: the attributes given to EncodeElement. *)
From Coq Require Import String.
From Coq Require Import ZArith List Bool Lia ZifyBool ZifyNat.
From Verif Require Import Base Utf8 Lexer Escape Decoder Printer PrinterProofs GoType Schema TypeInfo Simple Marshal Unmarshal Io.
Import ListNotations.
Open Scope Z_scope.

Lemma bind_ok : forall A B (p : M A) (f : A -> M B) s cs s' y, mbind p f s = (cs, s', Ok y) -> exists c1 s1 x c2, p s = (c1, s1, Ok x) /\ f x s1 = (c2, s', Ok y) /\ cs = c1 ++ c2.
Proof. intros A B p f s cs s' y H. unfold mbind in H. destruct (p s) as [[c1 s1] [x|e| |]]; try discriminate. destruct (f x s1) as [[c2 s2] r2] eqn:E. injection H as <- <- ->. exists c1, s1, x, c2. auto. Qed.

Lemma ret_bind : forall A B (x : A) (f : A -> M B) s, mbind (mret x) f s = f x s.
Proof. intros. unfold mbind, mret. destruct (f x s) as [[c s2] r]. reflexivity. Qed.

(** The start tag is written first, with the attributes [given] before those of the value. *)
Lemma element_first : forall F env ek k addr s v n a cap st cs st' ti,
  type_info ek env s = Ok ti ->
  marshal_value F env ek (S k) addr (TStruct s) v None (Some (n, a, cap)) st = (cs, st', Ok tt) ->
  exists own, marshal_attrs F env s (ti_fields ti) v addr = Ok own /\
    exists c1 s1 c2, write_start n ((if (cap <? ti_nattrs ti)%nat then [] else a) ++ own ++ reset_default ti n (p_elems st)) st = (c1, s1, Ok tt) /\ cs = c1 ++ c2.
Proof.
  intros F env ek k addr s v n a cap st cs st' ti TI H. cbn [marshal_value] in H. destruct (beq (local n) []) eqn:L; [discriminate|]. cbn [drill] in H. unfold info_of in H. rewrite TI in H.
  apply bind_ok in H. destruct H as (c1 & s1 & t1 & k1 & E & H & ->). injection E as <- <- <-.
  apply bind_ok in H. destruct H as (c1 & s1 & n1 & k2 & E & H & ->). unfold start_name in E. cbn [bind] in E. rewrite L in E. rewrite ?L in E. injection E as <- <- <-.
  apply bind_ok in H. destruct H as (c1 & s1 & own & k3 & E & H & ->). unfold mlift in E. destruct (marshal_attrs _ _ _ _ _ _) as [own0|[]| |] eqn:MA; try discriminate. injection E as <- <- <-.
  apply bind_ok in H. destruct H as (c1 & s1 & t2 & k4 & E & H & ->). injection E as <- <- <-.
  apply bind_ok in H. destruct H as (c1 & s1 & [] & k5 & E & H & ->). exists own0. split; auto. exists c1, s1, k5. split; [exact E|reflexivity].
Qed.

(** C56. If the copied slice has room for as many attributes as the type has, EncodeElement starts with the start tag that EncodeToken
    writes for the given name with the given attributes, then those of the value; which these are depends on neither. *)
Theorem C56_kept : forall F env ek k addr s v n st ti, type_info ek env s = Ok ti ->
  exists own, forall a cap cs st', (ti_nattrs ti <= cap)%nat ->
    marshal_value F env ek (S k) addr (TStruct s) v None (Some (n, a, cap)) st = (cs, st', Ok tt) ->
    forall b, exists c1 s1 c2, encode_token b (TStart n (a ++ own)) st = (c1, s1, Ok tt) /\ cs = c1 ++ c2.
Proof.
  intros F env ek k addr s v n st ti TI.
  exists (match marshal_attrs F env s (ti_fields ti) v addr with Ok own => own | _ => [] end ++ reset_default ti n (p_elems st)).
  intros a cap cs st' C H b. destruct (element_first _ _ _ _ _ _ _ _ _ _ _ _ _ _ TI H) as (own & MA & c1 & s1 & c2 & W & E). rewrite MA.
  replace (cap <? ti_nattrs ti)%nat with false in W by lia. exists c1, s1, c2. auto.
Qed.
Print Assumptions C56_kept.
(** With less room the attributes given are lost: the call does what it does when none are given. *)
Theorem C56_lost : forall F env ek k addr s v n a cap cap' ti, type_info ek env s = Ok ti -> (cap < ti_nattrs ti)%nat ->
  forall st, marshal_value F env ek k addr (TStruct s) v None (Some (n, a, cap)) st = marshal_value F env ek k addr (TStruct s) v None (Some (n, [], cap')) st.
Proof.
  intros F env ek k addr s v n a cap cap' ti TI C st. destruct k; [reflexivity|]. cbn [marshal_value]. destruct (beq (local n) []); [reflexivity|]. cbn [drill]. unfold info_of. rewrite TI.
  rewrite !ret_bind. replace (cap <? ti_nattrs ti)%nat with true by lia.
  replace (if (cap' <? ti_nattrs ti)%nat then @nil attr else []) with (@nil attr) by (destruct (cap' <? ti_nattrs ti)%nat; reflexivity). reflexivity.
Qed.
Print Assumptions C56_lost.

(** "The attributes given to EncodeElement are written" is false: one attribute, copied to a slice of capacity 1, and the
    type S of segment timelines, which has more attributes. *)
Definition seg : gval := zero embed_depth mpd_types (TStruct (str "S")).
Definition given : list attr := [mkattr (mkname [] (str "id")) (str "1")].
Theorem C56_refuted : forall F, exists s cs st', marshal_value F mpd_types embed_depth 3 true (TStruct s) seg None (Some (mkname [] (str "S"), given, length given)) new_printer = (cs, st', Ok tt) /\
  concat cs = str "<S></S>" /\
  exists cs2 st2, marshal_value F mpd_types embed_depth 3 true (TStruct s) seg None (Some (mkname [] (str "S"), given, 16%nat)) new_printer = (cs2, st2, Ok tt) /\ concat cs2 = str "<S id=""1""></S>".
Proof. intro F. exists (str "S"). eexists _, _. split; [vm_compute; reflexivity|]. split; [vm_compute; reflexivity|]. eexists _, _. split; vm_compute; reflexivity. Qed.
Print Assumptions C56_refuted.
Example C56_example : exists ti, type_info embed_depth mpd_types (str "S") = Ok ti /\ (1 < ti_nattrs ti <= 16)%nat.
Proof. eexists. split; [vm_compute; reflexivity|]. vm_compute. lia. Qed.
