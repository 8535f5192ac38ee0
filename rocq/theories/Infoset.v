(** Two documents with the same elements, attributes and text are read as the same value, however they are written down. *)
From Coq Require Import String.
From Coq Require Import ZArith List Bool Lia Permutation.
From Verif Require Import Base Lexer Decoder DecoderSpec DecoderProofs GoType TypeInfo Simple Unmarshal UnmarshalProofs RoundTripBody Hidden.
Import ListNotations.
Open Scope Z_scope.

(** *** What is claimed *)
(** Tokens without comments, processing instructions and directives; text in one piece. *)
Definition text_of (acc : bytes) : list token := match acc with [] => [] | _ => [TChar acc] end.
Fixpoint norm (acc : bytes) (ts : list token) : list token :=
  match ts with
  | [] => text_of acc
  | TChar s :: ts => norm (acc ++ s) ts
  | TStart n a :: ts => text_of acc ++ TStart n a :: norm [] ts
  | TEnd n :: ts => text_of acc ++ TEnd n :: norm [] ts
  | _ :: ts => norm acc ts
  end.
(** The tokens of an input, up to the error at its end. *)
Definition ends (x : derr) (d : dstate) (ts : list token) : Prop := exists d' d'', calls d ts d' /\ next_token d' = TokErr x d''.
(** What is said about a field of two values: that the contents are the same in turn, that they are lists in any order, or nothing. *)
Inductive care := Exact | Mixed | Free.
Definition care_eqb (a b : care) : bool := match a, b with Exact, Exact | Mixed, Mixed | Free, Free => true | _, _ => false end.
Definition mixed (v w : gval) : Prop := v = w \/ exists l l', v = VList l /\ w = VList l' /\ Permutation l l'.
(** The same value, up to what [kind] says about the fields of structs. *)
Inductive near (env : tenv) (kind : fdecl -> care) : gtype -> gval -> gval -> Prop :=
| N_refl t v : near env kind t v v
| N_ptr t v w : near env kind t v w -> near env kind (TPtr t) (VPtr v) (VPtr w)
| N_list t l l' : Forall2 (near env kind t) l l' -> near env kind (TSlice t) (VList l) (VList l')
| N_rec s l l' : length l = length l' ->
    (forall i v w, nth_error l i = Some v -> nth_error l' i = Some w -> nth_error (fields_of env s) i = None /\ v = w \/
      exists f, nth_error (fields_of env s) i = Some f /\ (kind f = Free \/ (kind f = Mixed /\ mixed v w) \/ (kind f = Exact /\ near env kind (fd_type f) v w))) ->
    near env kind (TStruct s) (VRec l) (VRec l').
Definition cares (env : tenv) (kind : fdecl -> care) (c : care) (t : gtype) (v w : gval) : Prop := match c with Exact => near env kind t v w | Mixed => mixed v w | Free => True end.
(** Lists in any order are those of attributes. *)
Definition fits (c : care) (t : gtype) : bool := match c, t with Mixed, TSlice TAttr => true | Mixed, _ => false | _, _ => true end.
(** The fields on the way to a field are compared; the field itself is of the kind given. *)
Fixpoint way (env : tenv) (kind : fdecl -> care) (last : care) (s : bytes) (idx : list nat) : bool :=
  match idx with
  | [] => false
  | i :: rest =>
      match nth_error (fields_of env s) i with
      | None => false
      | Some f =>
          match rest with
          | [] => care_eqb (kind f) last && fits last (fd_type f)
          | _ => care_eqb (kind f) Exact && match fd_type f with TStruct s' | TPtr (TStruct s') => way env kind last s' rest | _ => false end
          end
      end
  end.
(** The type of a field. *)
Fixpoint target (env : tenv) (s : bytes) (idx : list nat) : option gtype :=
  match idx with
  | [] => None
  | i :: rest =>
      match nth_error (fields_of env s) i with
      | None => None
      | Some f => match rest with [] => Some (fd_type f) | _ => match fd_type f with TStruct s' | TPtr (TStruct s') => target env s' rest | _ => None end end
      end
  end.
(** Tokens that are alike: the same, but for attributes that are related by [AL]. *)
Definition like (AL : list attr -> list attr -> Prop) (t t' : token) : Prop := t = t' \/ exists n a a', t = TStart n a /\ t' = TStart n a' /\ AL a a'.
(** Results that agree: values that are related, or failure for both; if [st], with the same error. *)
Definition agrees (st : bool) {A B} (R : A -> B -> Prop) (x : outcome uerr A) (y : outcome uerr B) : Prop :=
  match x, y with
  | Ok a, Ok b => R a b
  | Ok _, _ | _, Ok _ => False
  | Err e, Err e' => st = true -> e = e'
  | Panic, Panic => True
  | OutOfFuel, OutOfFuel => True
  | _, _ => st = false
  end.
Lemma agrees_bind : forall st {A B C D} (R : A -> B -> Prop) (S : C -> D -> Prop) x y f g, agrees st R x y -> (forall a b, R a b -> agrees st S (f a) (g b)) -> agrees st S (bind x f) (bind y g).
Proof. intros st A B C D R S [a|e| |] [b|e'| |] f g H K; cbn in *; try contradiction; auto. Qed.
Lemma agrees_impl : forall st {A B} (R S : A -> B -> Prop) x y, agrees st R x y -> (forall a b, R a b -> S a b) -> agrees st S x y.
Proof. intros st A B R S [a|e| |] [b|e'| |] H K; cbn in *; auto. Qed.
Lemma agrees_refl : forall st {A} (R : A -> A -> Prop) x, (forall a, R a a) -> agrees st R x x.
Proof. intros st A R [a|e| |] H; cbn; auto. Qed.

(** *** Tokens *)
Definition minor (t : token) : Prop := match t with TStart _ _ | TEnd _ => False | _ => True end.
Definition major (ts : list token) : Prop := match ts with [] => True | t :: _ => ~ minor t end.
Fixpoint chars_of (ts : list token) : bytes := match ts with [] => [] | TChar s :: ts => s ++ chars_of ts | _ :: ts => chars_of ts end.
Fixpoint comments_of (ts : list token) : bytes := match ts with [] => [] | TComment s :: ts => s ++ comments_of ts | _ :: ts => comments_of ts end.
Lemma split_minor : forall ts, exists p us, ts = p ++ us /\ Forall minor p /\ major us.
Proof.
  induction ts as [|t ts IH]; [exists [], []; cbn; auto|]. destruct IH as (p & us & -> & P & U).
  destruct t as [n a|n|s|s|n s|s]; try (eexists (_ :: p), us; cbn [app]; split; [reflexivity|]; split; [constructor; [exact I|exact P]|exact U]).
  - exists [], (TStart n a :: p ++ us). split; [reflexivity|]. split; [constructor|]. intros [].
  - exists [], (TEnd n :: p ++ us). split; [reflexivity|]. split; [constructor|]. intros [].
Qed.
Lemma norm_minor : forall p us acc, Forall minor p -> norm acc (p ++ us) = norm (acc ++ chars_of p) us.
Proof.
  induction p as [|t p IH]; intros us acc F; [cbn; rewrite app_nil_r; reflexivity|]. inversion F; subst. cbn [app norm chars_of]. destruct t; try contradiction; rewrite IH by auto; rewrite ?app_assoc; reflexivity.
Qed.
Lemma norm_major : forall us acc, major us -> norm acc us = text_of acc ++ norm [] us.
Proof. intros [|t us] acc M; [cbn; rewrite app_nil_r; reflexivity|]. cbn in M. destruct t; cbn [norm]; try reflexivity; destruct (M I). Qed.
Lemma norm_split : forall AL p us p' us', Forall minor p -> major us -> Forall minor p' -> major us' -> Forall2 (like AL) (norm [] (p ++ us)) (norm [] (p' ++ us')) -> chars_of p = chars_of p' /\ Forall2 (like AL) (norm [] us) (norm [] us').
Proof.
  intros AL p us p' us' P U P' U' E. rewrite !norm_minor, !app_nil_l in E by auto. rewrite (norm_major us), (norm_major us') in E by auto.
  assert (H : forall us, major us -> match norm [] us with [] => True | t :: _ => ~ minor t end) by (intros [|t vs] M; [exact I|]; cbn in M; destruct t; cbn; auto; destruct (M I)).
  assert (G : forall s t, like AL (TChar s) t \/ like AL t (TChar s) -> t = TChar s) by (intros s t [[X|(n & a & a' & X & Y & _)]|[X|(n & a & a' & X & Y & _)]]; congruence).
  pose proof (H us U) as H1. pose proof (H us' U') as H2. destruct (chars_of p) as [|c x], (chars_of p') as [|c' x']; cbn [text_of app] in E; auto.
  - inversion E as [|t ? l ? L E' X]; subst. rewrite <- X in H1. rewrite (G _ _ (or_intror L)) in H1. destruct (H1 I).
  - inversion E as [|? t ? l L E' X Y]; subst. rewrite <- Y in H2. rewrite (G _ _ (or_introl L)) in H2. destruct (H2 I).
  - inversion E as [|? ? ? ? L E']; subst. pose proof (G _ _ (or_introl L)) as X. injection X as <- <-. auto.
Qed.
Lemma norm_heads : forall (AL : list attr -> list attr -> Prop) us us', (forall a, AL a a) -> major us -> major us' -> Forall2 (like AL) (norm [] us) (norm [] us') ->
  us = [] /\ us' = [] \/ (exists n a a' vs vs', us = TStart n a :: vs /\ us' = TStart n a' :: vs' /\ AL a a' /\ Forall2 (like AL) (norm [] vs) (norm [] vs')) \/ exists n vs vs', us = TEnd n :: vs /\ us' = TEnd n :: vs' /\ Forall2 (like AL) (norm [] vs) (norm [] vs').
Proof.
  intros AL [|t us] [|t' us'] RF U U' E; [auto|exfalso; cbn in U'; destruct t'; try (inversion E; fail); exact (U' I)|exfalso; cbn in U; destruct t; try (inversion E; fail); exact (U I)|].
  cbn in U, U'. destruct t as [n a|n|s|s|n s|s]; try (exfalso; exact (U I)); destruct t' as [n' a'|n'|s'|s'|n' s'|s']; try (exfalso; exact (U' I)); cbn in E; inversion E as [|? ? ? ? L E']; subst; right; destruct L as [L|(m & b & b' & L & L' & LA)]; try discriminate.
  - injection L as <- <-. left. do 5 eexists. eauto.
  - injection L as -> ->. injection L' as -> ->. left. do 5 eexists. eauto.
  - injection L as <-. right. eauto 8.
Qed.
Lemma calls_minor : forall p us d d', calls d (p ++ us) d' -> exists d1, calls d p d1 /\ calls d1 us d'.
Proof.
  induction p as [|t p IH]; intros us d d' C; [exists d; split; [constructor|exact C]|]. inversion C as [|? ? d0 ? ? N C']; subst. destruct (IH _ _ _ C') as (d1 & A & B). exists d1. split; [econstructor; eassumption|exact B].
Qed.
Lemma content_minor : forall p d d1, calls d p d1 -> Forall minor p -> forall j c v da co, content_loop (length p + j) c v da co d = content_loop j c v (da ++ chars_of p) (co ++ comments_of p) d1.
Proof.
  induction 1 as [d|d t d1 ts d' N C IH]; intros F j c v da co; [cbn; rewrite !app_nil_r; reflexivity|]. inversion F; subst. cbn [length Nat.add content_loop]. rewrite N. destruct t; try contradiction; rewrite IH by auto; cbn [chars_of comments_of]; rewrite ?app_assoc; reflexivity.
Qed.
Lemma skip_minor : forall p d d1, calls d p d1 -> Forall minor p -> forall j dp, skip_loop (length p + j) dp d = skip_loop j dp d1.
Proof. induction 1 as [d|d t d1 ts d' N C IH]; intros F j dp; [reflexivity|]. inversion F; subst. cbn [length Nat.add skip_loop]. rewrite N. destruct t; try contradiction; apply IH; auto. Qed.
Lemma start_minor : forall p d d1, calls d p d1 -> Forall minor p -> forall j, find_start (length p + j) d = find_start j d1.
Proof. induction 1 as [d|d t d1 ts d' N C IH]; intros F j; [reflexivity|]. inversion F; subst. cbn [length Nat.add find_start]. rewrite N. destruct t; try contradiction; apply IH; auto. Qed.

(** *** Two decoders side by side *)
Section Same.
Variables (F : floats) (env : tenv) (ek : nat) (x : derr) (st : bool) (AL : list attr -> list attr -> Prop).
Hypothesis AL_refl : forall a, AL a a.
(** The same is left to read, in at most so many tokens. *)
Definition level (n1 n2 : nat) (d e : dstate) : Prop := exists ts us, ends x d ts /\ ends x e us /\ Forall2 (like AL) (norm [] ts) (norm [] us) /\ (length ts <= n1)%nat /\ (length us <= n2)%nat.
Lemma level_mono : forall n1 n2 m1 m2 d e, level n1 n2 d e -> (n1 <= m1)%nat -> (n2 <= m2)%nat -> level m1 m2 d e.
Proof. intros n1 n2 m1 m2 d e (ts & us & A & B & C & D & E) L1 L2. exists ts, us. repeat split; auto; lia. Qed.
(** The next start or end tag, or the end. *)
Lemma level_next : forall n1 n2 d e, level n1 n2 d e -> exists p q d1 e1, Forall minor p /\ Forall minor q /\ calls d p d1 /\ calls e q e1 /\ chars_of p = chars_of q /\ (length p <= n1)%nat /\ (length q <= n2)%nat /\
  ((exists d2 e2, next_token d1 = TokErr x d2 /\ next_token e1 = TokErr x e2) \/
   (exists n a a' d2 e2 m1 m2, AL a a' /\ next_token d1 = TokOk (TStart n a) d2 /\ next_token e1 = TokOk (TStart n a') e2 /\ level m1 m2 d2 e2 /\ (length p + S m1 <= n1)%nat /\ (length q + S m2 <= n2)%nat) \/
   exists n d2 e2 m1 m2, next_token d1 = TokOk (TEnd n) d2 /\ next_token e1 = TokOk (TEnd n) e2 /\ level m1 m2 d2 e2 /\ (length p + S m1 <= n1)%nat /\ (length q + S m2 <= n2)%nat).
Proof.
  clear F env ek. intros n1 n2 d e (ts & us & (d' & dx & C & X) & (e' & ex & C' & X') & E & L1 & L2). destruct (split_minor ts) as (p & ts' & -> & P & M). destruct (split_minor us) as (q & us' & -> & Q & M').
  destruct (norm_split _ _ _ _ _ P M Q M' E) as (CE & NE). destruct (calls_minor _ _ _ _ C) as (d1 & A1 & A2). destruct (calls_minor _ _ _ _ C') as (e1 & B1 & B2). rewrite app_length in L1, L2.
  exists p, q, d1, e1. split; [auto|]. split; [auto|]. split; [auto|]. split; [auto|]. split; [auto|]. split; [lia|]. split; [lia|].
  destruct (norm_heads _ _ _ AL_refl M M' NE) as [(-> & ->)|[(n & a & a' & vs & vs' & -> & -> & LA & E2)|(n & vs & vs' & -> & -> & E2)]].
  - left. inversion A2; subst. inversion B2; subst. eauto.
  - right. left. inversion A2 as [|? ? d2 ? ? N2 D2]; subst. inversion B2 as [|? ? e2 ? ? N3 D3]; subst. cbn [length] in *. exists n, a, a', d2, e2, (length vs), (length vs'). split; [auto|]. split; [auto|]. split; [auto|]. split; [|lia].
    exists vs, vs'. split; [exists d', dx; auto|]. split; [exists e', ex; auto|]. auto.
  - right. right. inversion A2 as [|? ? d2 ? ? N2 D2]; subst. inversion B2 as [|? ? e2 ? ? N3 D3]; subst. cbn [length] in *. exists n, d2, e2, (length vs), (length vs'). split; [auto|]. split; [auto|]. split; [|lia].
    exists vs, vs'. split; [exists d', dx; auto|]. split; [exists e', ex; auto|]. auto.
Qed.
Lemma skip_level : forall n1 n2 d e dp j j', level n1 n2 d e -> (n1 < j)%nat -> (n2 < j')%nat ->
  match skip_loop j dp d, skip_loop j' dp e with Ok d', Ok e' => level n1 n2 d' e' | Err a, Err b => a = b | _, _ => False end.
Proof.
  clear F env ek. induction n1 as [n1 IH] using (well_founded_induction lt_wf). intros n2 d e dp j j' LV J J'. destruct (level_next _ _ _ _ LV) as (p & q & d1 & e1 & P & Q & C & C' & _ & L1 & L2 & D).
  replace j with (length p + (j - length p))%nat by lia. replace j' with (length q + (j' - length q))%nat by lia. rewrite (skip_minor _ _ _ C P), (skip_minor _ _ _ C' Q).
  assert (Z1 : exists i, (j - length p)%nat = S i) by (exists (j - length p - 1)%nat; lia). assert (Z2 : exists i, (j' - length q)%nat = S i) by (exists (j' - length q - 1)%nat; lia). destruct Z1 as (i & Z1), Z2 as (i' & Z2). rewrite Z1, Z2. cbn [skip_loop].
  assert (K : forall m1 m2 d2 e2 dp', level m1 m2 d2 e2 -> (length p + S m1 <= n1)%nat -> (length q + S m2 <= n2)%nat -> match skip_loop i dp' d2, skip_loop i' dp' e2 with Ok d', Ok e' => level n1 n2 d' e' | Err a, Err b => a = b | _, _ => False end).
  { intros m1 m2 d2 e2 dp' LV' M1 M2. assert (S : (m1 < n1)%nat) by lia. specialize (IH m1 S m2 d2 e2 dp' i i' LV' ltac:(lia) ltac:(lia)). destruct (skip_loop i dp' d2), (skip_loop i' dp' e2); auto. eapply level_mono; [exact IH|lia|lia]. }
  destruct D as [(d2 & e2 & N & N')|[(n & a & a' & d2 & e2 & m1 & m2 & LA & N & N' & LV' & M1 & M2)|(n & d2 & e2 & m1 & m2 & N & N' & LV' & M1 & M2)]]; rewrite N, N'; [reflexivity|eapply K; eauto|]. destruct dp; [|eapply K; eauto]. eapply level_mono; [exact LV'|lia|lia].
Qed.
Lemma start_level : forall n1 n2 d e j j', level n1 n2 d e -> (n1 < j)%nat -> (n2 < j')%nat ->
  agrees st (fun '(n, a, d') '(m, b, e') => n = m /\ AL a b /\ level n1 n2 d' e') (find_start j d) (find_start j' e).
Proof.
  clear F env ek. induction n1 as [n1 IH] using (well_founded_induction lt_wf). intros n2 d e j j' LV J J'. destruct (level_next _ _ _ _ LV) as (p & q & d1 & e1 & P & Q & C & C' & _ & L1 & L2 & D).
  replace j with (length p + (j - length p))%nat by lia. replace j' with (length q + (j' - length q))%nat by lia. rewrite (start_minor _ _ _ C P), (start_minor _ _ _ C' Q).
  assert (Z1 : exists i, (j - length p)%nat = S i) by (exists (j - length p - 1)%nat; lia). assert (Z2 : exists i, (j' - length q)%nat = S i) by (exists (j' - length q - 1)%nat; lia). destruct Z1 as (i & Z1), Z2 as (i' & Z2). rewrite Z1, Z2. cbn [find_start].
  destruct D as [(d2 & e2 & N & N')|[(n & a & a' & d2 & e2 & m1 & m2 & LA & N & N' & LV' & M1 & M2)|(n & d2 & e2 & m1 & m2 & N & N' & LV' & M1 & M2)]]; rewrite N, N'; [cbn; auto|cbn; split; [reflexivity|]; split; [exact LA|]; eapply level_mono; [exact LV'|lia|lia]|].
  assert (S : (m1 < n1)%nat) by lia. eapply agrees_impl; [exact (IH m1 S m2 d2 e2 i i' LV' ltac:(lia) ltac:(lia))|]. intros ((n0, a0), d0) ((n3, a3), d3) (A & B & E). split; [auto|]. split; [auto|]. eapply level_mono; [exact E|lia|lia].
Qed.
Variables (N1 N2 k k' : nat).
Hypotheses (K1 : (N1 < k)%nat) (K2 : (N2 < k')%nat).
Definition both (Q : gval -> gval -> Prop) (n1 n2 : nat) (y z : gval * dstate) : Prop := Q (fst y) (fst z) /\ level n1 n2 (snd y) (snd z).
Definition child_same (Q : gval -> gval -> Prop) (c c' : child_fun) : Prop := forall n1 n2 v w n a a' d e, (n1 <= N1)%nat -> (n2 <= N2)%nat -> AL a a' -> Q v w -> level n1 n2 d e -> agrees st (both Q n1 n2) (c v n a d) (c' w n a' e).
Lemma content_level : forall Q c c', child_same Q c c' -> forall n1 n2 v w da co co' d e j j', (n1 <= N1)%nat -> (n2 <= N2)%nat -> Q v w -> level n1 n2 d e -> (n1 < j)%nat -> (n2 < j')%nat ->
  agrees st (fun '(v, da, _, _, d) '(w, da', _, _, e) => Q v w /\ da = da' /\ level n1 n2 d e) (content_loop j c v da co d) (content_loop j' c' w da co' e).
Proof.
  clear F env ek K1 K2. intros Q c c' CS. induction n1 as [n1 IH] using (well_founded_induction lt_wf). intros n2 v w da co co' d e j j' B1 B2 QV LV J J'. destruct (level_next _ _ _ _ LV) as (p & q & d1 & e1 & P & P' & C & C' & CH & L1 & L2 & D).
  replace j with (length p + (j - length p))%nat by lia. replace j' with (length q + (j' - length q))%nat by lia. rewrite (content_minor _ _ _ C P), (content_minor _ _ _ C' P'), CH.
  assert (Z1 : exists i, (j - length p)%nat = S i) by (exists (j - length p - 1)%nat; lia). assert (Z2 : exists i, (j' - length q)%nat = S i) by (exists (j' - length q - 1)%nat; lia). destruct Z1 as (i & Z1), Z2 as (i' & Z2). rewrite Z1, Z2. cbn [content_loop].
  destruct D as [(d2 & e2 & N & N')|[(n & a & a' & d2 & e2 & m1 & m2 & LA & N & N' & LV' & M1 & M2)|(n & d2 & e2 & m1 & m2 & N & N' & LV' & M1 & M2)]]; rewrite N, N'; [cbn; auto| |].
  - eapply agrees_bind; [exact (CS m1 m2 v w n a a' d2 e2 ltac:(lia) ltac:(lia) LA QV LV')|]. intros (v', d3) (w', e3) (Q' & LV3). cbn [fst snd] in Q', LV3. assert (S : (m1 < n1)%nat) by lia.
    eapply agrees_impl; [exact (IH m1 S m2 v' w' _ _ _ d3 e3 i i' ltac:(lia) ltac:(lia) Q' LV3 ltac:(lia) ltac:(lia))|]. intros ((((u1, u2), u3), u4), u5) ((((z1, z2), z3), z4), z5) (X1 & X2 & X3). split; [auto|]. split; [auto|]. eapply level_mono; [exact X3|lia|lia].
  - cbn. split; [auto|]. split; [auto|]. eapply level_mono; [exact LV'|lia|lia].
Qed.
Lemma skip_same : forall Q, child_same Q (skip_child k) (skip_child k').
Proof.
  intros Q n1 n2 v w n a a' d e B1 B2 LA QV LV. unfold skip_child, skip. pose proof (skip_level n1 n2 d e 0 k k' LV ltac:(lia) ltac:(lia)) as S. destruct (skip_loop k 0 d), (skip_loop k' 0 e); try contradiction; cbn; [split; assumption|congruence].
Qed.

(** *** Values side by side *)
Variable kind : fdecl -> care.
Notation near := (near env kind).
Notation way := (way env kind).
Notation cares := (cares env kind).
Lemma mixed_refl : forall v, mixed v v.
Proof. left. reflexivity. Qed.
Lemma cares_refl : forall c t v, cares c t v v.
Proof. intros [] t v; cbn; [apply N_refl|apply mixed_refl|exact I]. Qed.
Lemma cares_field : forall f v w, cares (kind f) (fd_type f) v w <-> kind f = Free \/ (kind f = Mixed /\ mixed v w) \/ (kind f = Exact /\ near (fd_type f) v w).
Proof. clear. intros f v w. destruct (kind f) eqn:K; cbn; split; intuition congruence. Qed.
Lemma near_rec_inv : forall s l w, near (TStruct s) (VRec l) w -> exists l', w = VRec l' /\ length l = length l' /\
  forall i v w, nth_error l i = Some v -> nth_error l' i = Some w -> nth_error (fields_of env s) i = None /\ v = w \/ exists f, nth_error (fields_of env s) i = Some f /\ cares (kind f) (fd_type f) v w.
Proof.
  clear. intros s l w H. inversion H as [| | |? ? ? L G]; subst.
  - exists l. split; [reflexivity|]. split; [reflexivity|]. intros i v w A B. assert (v = w) by congruence. subst. destruct (nth_error (fields_of env s) i) as [f|]; [right; exists f; split; [reflexivity|apply cares_refl]|left; auto].
  - exists l'. split; [reflexivity|]. split; [exact L|]. intros i v w A B. destruct (G i v w A B) as [X|(f & NF & X)]; [left; exact X|]. right. exists f. split; [exact NF|apply cares_field; exact X].
Qed.
Lemma near_ptr_inv : forall t v w, near (TPtr t) v w -> v = w \/ exists v' w', v = VPtr v' /\ w = VPtr w' /\ near t v' w'.
Proof. clear. intros t v w H. inversion H; subst; eauto 6. Qed.
Lemma near_list_inv : forall t v w, near (TSlice t) v w -> v = w \/ exists l l', v = VList l /\ w = VList l' /\ Forall2 (near t) l l'.
Proof. clear. intros t v w H. inversion H; subst; eauto 6. Qed.
Lemma near_snoc : forall t l l' y z, near (TSlice t) (VList l) (VList l') -> near t y z -> near (TSlice t) (VList (l ++ [y])) (VList (l' ++ [z])).
Proof.
  clear. intros t l l' y z H Y. apply N_list. apply Forall2_app; [|constructor; [exact Y|constructor]]. inversion H; subst; [|assumption]. clear. induction l' as [|u l IH]; constructor; auto. apply N_refl.
Qed.
Lemma near_set : forall s i l l' f v w, length l = length l' -> (forall i v w, nth_error l i = Some v -> nth_error l' i = Some w -> nth_error (fields_of env s) i = None /\ v = w \/ exists f, nth_error (fields_of env s) i = Some f /\ cares (kind f) (fd_type f) v w) ->
  nth_error (fields_of env s) i = Some f -> nth_error l i <> None -> cares (kind f) (fd_type f) v w -> near (TStruct s) (VRec (firstn i l ++ v :: skipn (S i) l)) (VRec (firstn i l' ++ w :: skipn (S i) l')).
Proof.
  clear. intros s i l l' f v w L H NF NL K. apply nth_error_Some in NL. apply N_rec.
  - rewrite !app_length. cbn [length]. rewrite !firstn_length, !skipn_length. lia.
  - intros j a b A B. assert (FL : length (firstn i l) = i) by (rewrite firstn_length; lia). assert (FL' : length (firstn i l') = i) by (rewrite firstn_length; lia).
    assert (P : forall (m : list gval) z, length (firstn i m) = i -> nth_error (firstn i m ++ z :: skipn (S i) m) j = if (j <? i)%nat then nth_error m j else if (j =? i)%nat then Some z else nth_error m j).
    { clear. revert i. induction j as [|j IH]; intros [|i] [|u m] z E; try discriminate; try reflexivity; cbn [firstn app nth_error] in *.
      - destruct j; reflexivity.
      - cbn [length] in E. injection E as E. exact (IH i m z E). }
    rewrite (P _ _ FL) in A. rewrite (P _ _ FL') in B. assert (G : forall a b, nth_error l j = Some a -> nth_error l' j = Some b -> nth_error (fields_of env s) j = None /\ a = b \/ exists f, nth_error (fields_of env s) j = Some f /\ (kind f = Free \/ (kind f = Mixed /\ mixed a b) \/ (kind f = Exact /\ near (fd_type f) a b))).
    { intros a0 b0 A0 B0. destruct (H j a0 b0 A0 B0) as [X|(g & NG & X)]; [left; exact X|]. right. exists g. split; [exact NG|apply cares_field; exact X]. }
    destruct (j <? i)%nat; [eauto|]. destruct (j =? i)%nat eqn:JI; [|eauto]. apply Nat.eqb_eq in JI. subst j. injection A as <-. injection B as <-. right. exists f. split; [assumption|apply cares_field; assumption].
Qed.
Lemma update_near : forall A B (R : A -> B -> Prop) last (f : gtype -> gval -> outcome uerr (gval * A)) (g : gtype -> gval -> outcome uerr (gval * B)),
  forall idx s, (forall t v w, target env s idx = Some t -> fits last t = true -> cares last t v w -> agrees st (fun y z => cares last t (fst y) (fst z) /\ R (snd y) (snd z)) (f t v) (g t w)) ->
  forall v w, way last s idx = true -> near (TStruct s) v w -> agrees st (fun y z => near (TStruct s) (fst y) (fst z) /\ R (snd y) (snd z)) (update_at ek env s idx v f) (update_at ek env s idx w g).
Proof.
  clear F AL AL_refl K1 K2. intros A B R last f g. induction idx as [|i rest IH]; intros s H v w W N; [discriminate|]. cbn [update_at Infoset.way target] in *. destruct v as [| | | | | | |l| |]; try (inversion N; subst; exact I).
  destruct (near_rec_inv _ _ _ N) as (l' & -> & LN & FN). destruct (nth_error (fields_of env s) i) as [fd|] eqn:NF; [|discriminate].
  destruct (nth_error l i) as [y|] eqn:NL.
  2: { assert (NL' : nth_error l' i = None) by (apply nth_error_None; apply nth_error_None in NL; lia). rewrite NL'. exact I. }
  destruct (nth_error l' i) as [z|] eqn:NL'; [|exfalso; apply nth_error_None in NL'; assert (X : nth_error l i <> None) by congruence; apply nth_error_Some in X; lia].
  destruct (FN i y z NL NL') as [(? & _)|(fd' & NF' & YZ)]; [congruence|]. assert (fd' = fd) by congruence. subst fd'. clear NF'.
  assert (CE : forall a b, care_eqb a b = true -> a = b) by (intros [] []; (reflexivity || discriminate)).
  eapply agrees_bind with (R := fun p q => cares (kind fd) (fd_type fd) (fst p) (fst q) /\ R (snd p) (snd q)).
  - destruct rest as [|j rest].
    + apply andb_true_iff in W as (W & FT). apply CE in W. rewrite W in *. exact (H _ _ _ eq_refl FT YZ).
    + apply andb_true_iff in W as (W1 & W2). apply CE in W1. rewrite W1 in *. destruct (fd_type fd) as [| | | | | | |t| |s'| |]; try discriminate.
      * destruct t as [| | | | | | | | |s'| |]; try discriminate. specialize (IH s' H). assert (G : forall a b, near (TStruct s') a b -> agrees st (fun p q => cares Exact (TPtr (TStruct s')) (fst p) (fst q) /\ R (snd p) (snd q))
          (do (u', a0) <- update_at ek env s' (j :: rest) a f ; Ok (VPtr u', a0)) (do (u', a0) <- update_at ek env s' (j :: rest) b g ; Ok (VPtr u', a0))).
        { intros a b AB. eapply agrees_bind; [exact (IH a b W2 AB)|]. intros (p1, p2) (q1, q2) (X1 & X2). cbn in *. split; [apply N_ptr; exact X1|exact X2]. }
        destruct (near_ptr_inv _ _ _ YZ) as [<-|(a & b & -> & -> & AB)]; [|exact (G a b AB)]. destruct y; try exact I; apply G; apply N_refl.
      * exact (IH s' H y z W2 YZ).
  - intros (p1, p2) (q1, q2) (X1 & X2). cbn in *. split; [|exact X2]. eapply near_set; eauto. congruence.
Qed.
Lemma attr_near : forall t v w a, near t v w -> agrees st (near t) (unmarshal_attr F env ek t v a) (unmarshal_attr F env ek t w a).
Proof.
  clear K1 K2. assert (RF : forall t (y : outcome uerr gval), agrees st (near t) y y) by (intros; apply agrees_refl; intros; apply N_refl).
  induction t; intros v w a N; cbn [unmarshal_attr has_method]; try apply RF.
  - destruct (near_ptr_inv _ _ _ N) as [<-|(v' & w' & -> & -> & N')]; [apply RF|]. destruct (has_method t); [apply RF|]. destruct t as [| | | | | | |t|t| | |]; try apply RF.
    + destruct (has_method t); [|apply RF]. destruct (method_value F t (avalue a)); try exact I; cbn; [|reflexivity]. destruct (near_ptr_inv _ _ _ N') as [<-|(? & ? & -> & -> & ?)]; [|apply N_refl]. destruct v'; try exact I. apply N_refl.
    + destruct (near_list_inv _ _ _ N') as [<-|(l & l' & -> & -> & _)]; [apply RF|]. destruct (unmarshal_attr F env ek t (zero_of env ek t) a); try exact I; cbn; [|reflexivity]. apply N_ptr, near_snoc; [exact N'|apply N_refl].
  - destruct (near_list_inv _ _ _ N) as [<-|(l & l' & -> & -> & _)]; [apply RF|]. destruct (unmarshal_attr F env ek t (zero_of env ek t) a); try exact I; cbn; [|reflexivity]. apply near_snoc; [exact N|apply N_refl].
Qed.
Lemma attr_mixed : forall t v w a, mixed v w -> agrees st mixed (unmarshal_attr F env ek t v a) (unmarshal_attr F env ek t w a).
Proof.
  clear K1 K2 AL_refl. intros t v w a [->|(l & l' & -> & -> & P)]; [apply agrees_refl; apply mixed_refl|]. assert (RF : forall (y : outcome uerr gval), agrees st mixed y y) by (intros; apply agrees_refl; apply mixed_refl).
  destruct t; cbn [unmarshal_attr]; try apply RF. destruct (unmarshal_attr F env ek t (zero_of env ek t) a); cbn; auto. right. do 2 eexists. split; [reflexivity|]. split; [reflexivity|]. apply Permutation_app_tail. exact P.
Qed.
(** Fields with the text of the document as it stands, or with comments, are left out; for those that take all other attributes, [am] says how. *)
Variable am : care.
Hypothesis AM : am <> Free.
Definition apart (g : fflags) : care := if is_inner g || is_comment g then Free else if mode_eqb g m_any_attr then am else Exact.
Hypothesis WAY : forall s ti, type_info ek env s = Ok ti ->
  forallb (fun f => way (apart (fi_flags f)) s (fi_idx f)) (ti_fields ti) = true /\
  forallb (fun f => way Exact s (fi_idx f)) (map snd (ti_attrs ti) ++ match ti_xmlname ti with Some x => [x] | None => [] end) = true /\
  forallb (fun f => way am s (fi_idx f)) (match ti_anyattr ti with Some x => [x] | None => [] end) = true.
Lemma way_field : forall s ti f b, type_info ek env s = Ok ti -> In f (ti_fields ti) -> apart (fi_flags f) = b -> way b s (fi_idx f) = true.
Proof. intros s ti f b TI I <-. destruct (WAY s ti TI) as (H & _). rewrite forallb_forall in H. exact (H f I). Qed.
(** A change that keeps values near keeps the value near. *)
Lemma put_near : forall last (f g : gtype -> gval -> outcome uerr (gval * unit)) idx s v w, way last s idx = true -> near (TStruct s) v w -> (forall t v w, cares last t v w -> agrees st (fun y z => cares last t (fst y) (fst z)) (f t v) (g t w)) ->
  agrees st (near (TStruct s)) (do (v', _) <- update_at ek env s idx v f ; Ok v') (do (v', _) <- update_at ek env s idx w g ; Ok v').
Proof.
  intros last f g idx s v w W N H. eapply agrees_bind.
  - apply (update_near unit unit (fun _ _ => True) last f g); [|exact W|exact N]. intros t a b _ _ AB. eapply agrees_impl; [exact (H t a b AB)|]. auto.
  - intros (y, u) (z, u') (Y & _). exact Y.
Qed.
Lemma attr_way : forall s ti n f, type_info ek env s = Ok ti -> attr_field ti n = Some f -> exists c, c <> Free /\ way c s (fi_idx f) = true.
Proof.
  intros s ti n f TI AF. destruct (WAY s ti TI) as (_ & H1 & H2). rewrite forallb_forall in H1, H2. apply attr_used in AF. apply in_app_or in AF as [I|I]; [exists Exact; split; [discriminate|]; apply H1; apply in_or_app; left; exact I|].
  apply in_app_or in I as [I|I]; [exists am; split; [exact AM|]; apply H2; exact I|]. exists Exact. split; [discriminate|]. apply H1. apply in_or_app. right. exact I.
Qed.
Lemma set_attr_near : forall ti s, type_info ek env s = Ok ti -> forall n f a v w, attr_field ti n = Some f -> near (TStruct s) v w -> agrees st (fun y z => near (TStruct s) (fst y) (fst z) /\ True)
  (update_at ek env s (fi_idx f) v (fun t w => with_unit (unmarshal_attr F env ek t w a))) (update_at ek env s (fi_idx f) w (fun t w => with_unit (unmarshal_attr F env ek t w a))).
Proof.
  intros ti s TI n f a v w AF N. destruct (attr_way s ti n f TI AF) as (c & NF & W). apply (update_near unit unit (fun _ _ => True) c); [|exact W|exact N].
  intros t y z _ _ YZ. unfold with_unit. destruct c; [| |contradiction]; (eapply agrees_bind; [first [exact (attr_near t y z a YZ)|exact (attr_mixed t y z a YZ)]|]; intros y' z' Q; cbn; auto).
Qed.
Lemma set_attrs_near : forall ti s, type_info ek env s = Ok ti -> forall al v w, near (TStruct s) v w -> agrees st (near (TStruct s)) (set_attrs F env ek ti s v al) (set_attrs F env ek ti s w al).
Proof.
  intros ti s TI. induction al as [|a al IH]; intros v w N; [exact N|]. cbn [set_attrs]. destruct (attr_field ti (aname a)) as [f|] eqn:AF; [|exact (IH _ _ N)].
  eapply agrees_bind; [exact (set_attr_near ti s TI _ f a v w AF N)|]. intros (y, u) (z, u') Q. exact (IH y z (proj1 Q)).
Qed.
Lemma touch_near : forall s ti p v w, type_info ek env s = Ok ti -> near (TStruct s) v w -> agrees st (near (TStruct s)) (touch env ek s (first_mode p (ti_fields ti)) v) (touch env ek s (first_mode p (ti_fields ti)) w).
Proof.
  intros s ti p v w TI N. destruct (first_mode p (ti_fields ti)) as [f|] eqn:FM; [|exact N]. cbn [touch]. apply (put_near (apart (fi_flags f))); [|exact N|cbn; auto]. eapply way_field; [exact TI|eapply mode_field; eauto|reflexivity].
Qed.
Hypothesis SETA : forall ti s, type_info ek env s = Ok ti -> forall a a' v w, AL a a' -> near (TStruct s) v w -> agrees st (near (TStruct s)) (set_attrs F env ek ti s v a) (set_attrs F env ek ti s w a').
Definition reader_same (r r' : reader) : Prop := forall t n1 n2 v w n a a' d e, (n1 <= N1)%nat -> (n2 <= N2)%nat -> AL a a' -> near t v w -> level n1 n2 d e -> agrees st (both (near t) n1 n2) (r t v n a d) (r' t w n a' e).
Lemma read_at_same : forall r r', reader_same r r' -> forall idx s, way Exact s idx = true -> child_same (near (TStruct s)) (fun v n a d => update_at ek env s idx v (fun t w => r t w n a d)) (fun v n a d => update_at ek env s idx v (fun t w => r' t w n a d)).
Proof.
  intros r r' R idx s W n1 n2 v w n a a' d e B1 B2 LA N LV. apply (update_near dstate dstate (level n1 n2) Exact); [|exact W|exact N]. intros t y z _ _ YZ. eapply agrees_impl; [exact (R t n1 n2 y z n a a' d e B1 B2 LA YZ LV)|]. intros p q (X1 & X2). auto.
Qed.
Lemma element_not_apart : forall f, g_element f = true -> apart f = Exact.
Proof. intros [[] ? ? ? ? ? ? ?] H; [reflexivity|discriminate]. Qed.

Lemma path_same : forall r r' s ti, type_info ek env s = Ok ti -> reader_same r r' -> forall q ps n1 n2 v w n a a' d e, (n1 <= N1)%nat -> (n2 <= N2)%nat -> AL a a' -> near (TStruct s) v w -> level n1 n2 d e ->
  agrees st (fun y z => match y, z with Some y, Some z => both (near (TStruct s)) n1 n2 y z | None, None => True | _, _ => False end) (path_child env ek q k r s (ti_fields ti) ps v n a d) (path_child env ek q k' r' s (ti_fields ti) ps w n a' e).
Proof.
  intros r r' s ti TI R. induction q as [|q IH]; intros ps n1 n2 v w n a a' d e B1 B2 LA N LV; [exact I|]. cbn [path_child]. destruct (find_path (ti_fields ti) ps n) as [f|ps'|] eqn:FP; [| |exact I].
  - apply find_path_in in FP. eapply agrees_bind; [apply (read_at_same r r' R (fi_idx f) s); try eassumption; eapply way_field; [exact TI|tauto|apply element_not_apart; tauto]|]. intros (y, d1) (z, e1) Q. exact Q.
  - eapply agrees_bind; [eapply content_level with (Q := near (TStruct s)); try eassumption; try lia|].
    + intros m1 m2 y z m b b' d1 e1 B1' B2' LA' YZ LV'. eapply agrees_bind; [exact (IH ps' m1 m2 y z m b b' d1 e1 B1' B2' LA' YZ LV')|]. intros [p|] [p'|] Q; try contradiction; [exact Q|]. apply skip_same; assumption.
    + intros ((((u1, u2), u3), u4), u5) ((((z1, z2), z3), z4), z5) (X1 & _ & X3). split; assumption.
Qed.
Lemma any_not_apart : forall f, is_any f = true -> apart f = Exact.
Proof. intros [[] [] [] [] [] [] [] []] H; try discriminate; reflexivity. Qed.
Lemma data_not_apart : forall f, is_data f = true -> apart f = Exact.
Proof. intros [[] [] [] [] [] [] [] []] H; try discriminate; reflexivity. Qed.
Lemma mode_holds : forall p fs f, first_mode p fs = Some f -> p (fi_flags f) = true.
Proof. intros p fs f H. unfold first_mode in H. apply find_some in H. tauto. Qed.
Lemma body_same : forall r r', reader_same r r' -> reader_same (unmarshal_body F env ek r k) (unmarshal_body F env ek r' k').
Proof.
  intros r r' R t n1 n2 v w n a a' d e B1 B2 LA N LV.
  assert (PL : forall u, agrees st (fun '(_, da, _, _, d) '(_, da', _, _, e) => da = da' /\ level n1 n2 d e) (content_loop k (skip_child k) (fst u) [] [] d) (content_loop k' (skip_child k') (snd u) [] [] e)).
  { intros (u, u'). eapply agrees_impl; [eapply content_level with (Q := fun _ _ => True) (v := u) (w := u'); [apply skip_same|exact B1|exact B2|exact I|exact LV|lia|lia]|]. intros ((((u1, u2), u3), u4), u5) ((((z1, z2), z3), z4), z5) (_ & X). exact X. }
  assert (SM : forall t, agrees st (both (near t) n1 n2)
     (do r <- content_loop k (skip_child k) v [] [] d ; let '(_, data, _, _, d') := r in do x <- copy_value F t data ; Ok (x, d'))
     (do r <- content_loop k' (skip_child k') w [] [] e ; let '(_, data, _, _, d') := r in do x <- copy_value F t data ; Ok (x, d'))).
  { intros t0. eapply agrees_bind; [exact (PL (v, w))|]. intros ((((u1, u2), u3), u4), u5) ((((z1, z2), z3), z4), z5) (-> & X). destruct (copy_value F t0 z2); try exact I; cbn; [|reflexivity]. split; [apply N_refl|exact X]. }
  destruct t as [| | | | | | |t|t|s| |]; cbn [unmarshal_body]; try apply SM; try solve [cbn; auto].
  - destruct (near_list_inv _ _ _ N) as [<-|(l & l' & -> & -> & _)].
    + destruct v as [| | | | | |l| | |]; try exact I. eapply agrees_bind; [exact (R t n1 n2 _ _ n a a' d e B1 B2 LA (N_refl _ _ _ _) LV)|]. intros (y, d1) (z, e1) (X1 & X2). split; [apply near_snoc; [apply N_refl|exact X1]|exact X2].
    + eapply agrees_bind; [exact (R t n1 n2 _ _ n a a' d e B1 B2 LA (N_refl _ _ _ _) LV)|]. intros (y, d1) (z, e1) (X1 & X2). split; [apply near_snoc; [exact N|exact X1]|exact X2].
  - destruct (type_info ek env s) as [ti| | |] eqn:TI; try exact I; [|cbn; auto].
    eapply agrees_bind with (R := near (TStruct s)).
    { destruct (ti_xmlname ti) as [f|] eqn:XN; [|exact N]. match goal with |- context [if ?b then _ else _] => destruct b end; [cbn; auto|]. apply (put_near Exact); [|exact N|].
      - destruct (WAY s ti TI) as (_ & H & _). rewrite forallb_forall in H. apply H. rewrite XN. apply in_or_app. right. left. reflexivity.
      - intros t y z YZ. cbn in *. destruct t; try exact YZ. apply N_refl. }
    clear v w N PL SM. intros v w N. eapply agrees_bind; [exact (SETA ti s TI a a' v w LA N)|]. clear v w N. intros v w N.
    eapply agrees_bind; [exact (touch_near s ti is_data v w TI N)|]. clear v w N. intros v w N. eapply agrees_bind; [exact (touch_near s ti is_comment v w TI N)|]. clear v w N. intros v w N.
    eapply agrees_bind; [exact (touch_near s ti is_any v w TI N)|]. clear v w N. intros v w N. eapply agrees_bind; [exact (touch_near s ti is_inner v w TI N)|]. clear v w N. intros v w N.
    eapply agrees_bind; [eapply content_level with (Q := near (TStruct s)) (n1 := n1) (n2 := n2); try eassumption; try lia|].
    { intros m1 m2 y z m b b' d1 e1 B1' B2' LA' YZ LV'. eapply agrees_bind; [exact (path_same r r' s ti TI R _ _ m1 m2 y z m b b' d1 e1 B1' B2' LA' YZ LV')|]. intros [p|] [p'|] Q; try contradiction; [exact Q|].
      destruct (first_mode is_any (ti_fields ti)) as [f|] eqn:FM; [|apply skip_same; assumption]. apply (read_at_same r r' R (fi_idx f) s); try assumption. eapply way_field; [exact TI|eapply mode_field; eauto|apply any_not_apart; eapply mode_holds; eauto]. }
    clear v w N. intros ((((v, da), c1), d1), d2) ((((w, da'), c2), e1), e2) (N & <- & LV2).
    eapply agrees_bind with (R := near (TStruct s)).
    { destruct (first_mode is_data (ti_fields ti)) as [f|] eqn:FM; [|exact N]. apply (put_near Exact); [eapply way_field; [exact TI|eapply mode_field; eauto|apply data_not_apart; eapply mode_holds; eauto]|exact N|].
      intros t y z _. destruct (copy_value F t da); cbn; auto. apply N_refl. }
    clear v w N. intros v w N. eapply agrees_bind with (R := near (TStruct s)).
    { destruct (first_mode is_comment (ti_fields ti)) as [f|] eqn:FM; [|exact N]. apply (put_near Free); [eapply way_field; [exact TI|eapply mode_field; eauto|]|exact N|].
      - unfold apart. rewrite (mode_holds _ _ _ FM). rewrite orb_true_r. reflexivity.
      - intros t y z _. destruct t; cbn; auto. }
    clear v w N. intros v w N. eapply agrees_bind with (R := near (TStruct s)).
    { destruct (first_mode is_inner (ti_fields ti)) as [f|] eqn:FM; [|exact N]. apply (put_near Free); [eapply way_field; [exact TI|eapply mode_field; eauto|]|exact N|].
      - unfold apart. rewrite (mode_holds _ _ _ FM). reflexivity.
      - intros t y z _. cbn. auto. }
    clear v w N. intros v w N. split; assumption.
  - eapply agrees_bind; [exact (PL (VName n, VName n))|]. intros ((((u1, u2), u3), u4), u5) ((((z1, z2), z3), z4), z5) (_ & X). split; [apply N_refl|exact X].
Qed.
Lemma unmarshal_same : forall r, reader_same (unmarshal F env ek r k) (unmarshal F env ek r k').
Proof.
  induction r as [|r IH]; intros t n1 n2 v w n a a' d e B1 B2 LA N LV; [cbn; auto|]. pose proof (body_same _ _ IH) as B. cbn [unmarshal]. destruct t as [| | | | | | |t|t|s| |]; try exact (B _ n1 n2 v w n a a' d e B1 B2 LA N LV).
  assert (G : forall y z, near t y z -> agrees st (both (near (TPtr t)) n1 n2) (do (w', d') <- unmarshal_body F env ek (unmarshal F env ek r k) k t y n a d; Ok (VPtr w', d')) (do (w', d') <- unmarshal_body F env ek (unmarshal F env ek r k') k' t z n a' e; Ok (VPtr w', d'))).
  { intros y z YZ. eapply agrees_bind; [exact (B t n1 n2 y z n a a' d e B1 B2 LA YZ LV)|]. intros (p, d1) (q, e1) (X1 & X2). split; [apply N_ptr; exact X1|exact X2]. }
  destruct (near_ptr_inv _ _ _ N) as [<-|(y & z & -> & -> & YZ)]; apply G; [apply N_refl|exact YZ].
Qed.
Lemma decode_same : forall t v w inp inp', near t v w -> level N1 N2 (new_decoder inp) (new_decoder inp') -> agrees st (near t) (decode F env ek k t v inp) (decode F env ek k' t w inp').
Proof.
  intros t v w inp inp' N LV. unfold decode. eapply agrees_bind; [exact (start_level N1 N2 _ _ k k' LV K1 K2)|]. intros ((n, a), d) ((n', a'), e) (<- & LA & LV').
  eapply agrees_bind; [exact (unmarshal_same max_depth t N1 N2 v w n a a' d e (le_n _) (le_n _) LA N LV')|]. intros (y, d1) (z, e1) (Q & _). exact Q.
Qed.
End Same.

(** Without loose fields, near values are equal. *)
Lemma nth_ext_eq : forall (l l' : list gval), length l = length l' -> (forall i v w, nth_error l i = Some v -> nth_error l' i = Some w -> v = w) -> l = l'.
Proof.
  induction l as [|v l IH]; intros [|w l'] L H; try discriminate; [reflexivity|]. injection L as L. f_equal; [exact (H O v w eq_refl eq_refl)|]. apply IH; [exact L|]. intros i a b A B. exact (H (S i) a b A B).
Qed.
Lemma near_strict : forall env v t w, near env (fun _ => Exact) t v w -> v = w.
Proof.
  intros env. fix IH 1. intros [| | | | |v|l|l| |] t w H; inversion H as [|? ? ? H1|? ? l' H1|s0 ? l' L H1]; subst; try reflexivity.
  - f_equal. exact (IH v _ _ H1).
  - f_equal. clear H. revert l' H1. induction l as [|a l IHl]; intros l' H1; inversion H1; subst; [reflexivity|]. f_equal; [eapply IH; eassumption|apply IHl; assumption].
  - assert (G : forall i v, nth_error l i = Some v -> forall t w, near env (fun _ => Exact) t v w -> v = w).
    { clear - IH. induction l as [|a l IHl]; intros [|i] v A; try discriminate; cbn in A; [injection A as <-; exact (IH a)|exact (IHl i v A)]. }
    f_equal. apply nth_ext_eq; [exact L|]. intros i v w A B. destruct (H1 i v w A B) as [(_ & E)|(f & _ & [?|[(? & _)|(_ & N)]])]; [exact E|discriminate|discriminate|]. exact (G i v A _ _ N).
Qed.
