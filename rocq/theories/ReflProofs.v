(** Invariants of the registry model: every execution is a sequence of primitive changes, and those keep the
    registry well formed. *)
From Coq Require Import List Bool Arith String Ascii Lia.
From Verif Require Import Util RegistryModel RegistryProofs ListsModel ListsSpec ListsProofs StringsModel StringsSpec StringsProofs ReflModel ReflSpec.
Import ListNotations.
Local Open Scope list_scope.

(** ** Programs *)

Lemma all_prog_cons f c p : all_prog f (c :: p) = all_cmd f c && all_prog f p.
Proof. reflexivity. Qed.

Lemma forallb_impl {A} (f g : A -> bool) l : Forall (fun x => f x = true -> g x = true) l ->
  forallb f l = true -> forallb g l = true.
Proof.
  induction 1 as [|x l Hx Hl IH]; cbn; [auto|]. rewrite !andb_true_iff. intros [H1 H2]. auto.
Qed.

(** Induction over nested programs. *)
Section CmdInd.
  Variable P : cmd -> Prop.
  Hypothesis HL : forall p, Forall P p -> P (KLazy p).
  Hypothesis HU : forall b p, Forall P p -> P (KUse b p).
  Hypothesis HE : forall a c vs, Forall (Forall P) vs -> P (KEach a c vs).
  Hypothesis HA : forall a vs, Forall (Forall P) vs -> P (KEachAttr a vs).
  Hypothesis HM : forall a vs, Forall (Forall P) vs -> P (KEachElem a vs).
  Hypothesis HO : forall c, match c with KLazy _ | KUse _ _ | KEach _ _ _ | KEachAttr _ _ | KEachElem _ _ => False | _ => True end -> P c.
  Fixpoint cmd_ind' (c : cmd) : P c :=
    let all := fix all (p : list cmd) : Forall P p :=
      match p with [] => Forall_nil _ | c :: p' => Forall_cons c (cmd_ind' c) (all p') end in
    let alls := fix alls (l : list (list cmd)) : Forall (Forall P) l :=
      match l with [] => Forall_nil _ | p :: l' => Forall_cons p (all p) (alls l') end in
    match c with
    | KLazy p => HL p (all p)
    | KUse b p => HU b p (all p)
    | KEach a k vs => HE a k vs (alls vs)
    | KEachAttr a vs => HA a vs (alls vs)
    | KEachElem a vs => HM a vs (alls vs)
    | c => HO c I
    end.
End CmdInd.

Lemma soft_tame c : all_cmd soft_cmd c = true -> all_cmd tame_cmd c = true.
Proof.
  induction c as [p IH|b p IH|a k vs IH|a vs IH|a vs IH|c Hc] using cmd_ind'; intro H.
  - cbn [all_cmd] in *. apply andb_true_iff in H as [_ H]. apply andb_true_iff. split; [exact H|].
    exact (forallb_impl _ _ _ IH H).
  - cbn [all_cmd] in *. apply andb_true_iff in H as [_ H]. apply andb_true_iff. split; [reflexivity|].
    exact (forallb_impl _ _ _ IH H).
  - cbn [all_cmd] in *. apply andb_true_iff in H as [_ H]. apply andb_true_iff. split; [exact H|].
    refine (forallb_impl _ _ _ _ H). eapply Forall_impl; [|exact IH]. cbn. intros p Hp. apply forallb_impl. exact Hp.
  - cbn [all_cmd] in *. apply andb_true_iff in H as [H0 H]. apply andb_true_iff. split; [exact H0|].
    refine (forallb_impl _ _ _ _ H). eapply Forall_impl; [|exact IH]. cbn. intros p Hp. apply forallb_impl. exact Hp.
  - cbn [all_cmd] in *. apply andb_true_iff in H as [H0 H]. apply andb_true_iff. split; [exact H0|].
    refine (forallb_impl _ _ _ _ H). eapply Forall_impl; [|exact IH]. cbn. intros p Hp. apply forallb_impl. exact Hp.
  - destruct c; try reflexivity; destruct Hc.
Qed.
Lemma soft_tame_prog p : all_prog soft_cmd p = true -> all_prog tame_cmd p = true.
Proof. apply forallb_impl. apply Forall_forall. intros c _. apply soft_tame. Qed.

(** ** Access *)

Lemma nth_replace {A} (l : list A) a x i :
  nth_error (replace a x l) i = if i =? a then option_map (fun _ => x) (nth_error l a) else nth_error l i.
Proof.
  revert a i. induction l as [|y l IH]; intros [|a] [|i]; cbn; try reflexivity.
  - destruct (i =? a); reflexivity.
  - apply IH.
Qed.
Lemma replace_length {A} a (x : A) l : List.length (replace a x l) = List.length l.
Proof. revert a. induction l as [|y l IH]; intros [|a]; cbn; auto. Qed.

Lemma get_upd w a f x : get (upd w a f) x = if x =? a then option_map f (get w a) else get w x.
Proof.
  unfold upd. destruct (get w a) as [it|] eqn:E.
  - unfold put, get at 1. cbn. rewrite nth_replace. unfold get in E. rewrite E. reflexivity.
  - destruct (x =? a) eqn:Ex; [|reflexivity]. apply Nat.eqb_eq in Ex. subst. exact E.
Qed.
Lemma upd_class w a f : w_class (upd w a f) = w_class w.
Proof. unfold upd. destruct (get w a); reflexivity. Qed.
Lemma upd_held w a f : w_held (upd w a f) = w_held w.
Proof. unfold upd. destruct (get w a); reflexivity. Qed.
Lemma upd_relock w a f : w_relock (upd w a f) = w_relock w.
Proof. unfold upd. destruct (get w a); reflexivity. Qed.
Lemma upd_length w a f : List.length (w_items (upd w a f)) = List.length (w_items w).
Proof. unfold upd. destruct (get w a); [apply replace_length|reflexivity]. Qed.
Lemma class_of_upd w a f t : class_of (upd w a f) t = class_of w t.
Proof. unfold class_of. rewrite upd_class. reflexivity. Qed.
Lemma get_lt w a it : get w a = Some it -> a < List.length (w_items w).
Proof. intro H. apply nth_error_Some. unfold get in H. congruence. Qed.

Lemma cat_eqb_eq a b : cat_eqb a b = true <-> a = b.
Proof. destruct a, b; cbn; split; congruence. Qed.
Lemma cat_eqb_refl a : cat_eqb a a = true.
Proof. destruct a; reflexivity. Qed.

(** The registry with a new item listed in its owner. *)
Definition with_new (w : world) (o : nat) (it : item) (l : milist) : world :=
  upd (World (w_items w ++ [it]) (w_class w) (w_held w) (w_relock w)) o (set_list (i_cat it) l).

Lemma get_app w it c h r x : get (World (w_items w ++ [it]) c h r) x =
  if x =? List.length (w_items w) then Some it else get w x.
Proof.
  unfold get. cbn. destruct (x =? List.length (w_items w)) eqn:E.
  - apply Nat.eqb_eq in E. subst. apply nth_last.
  - apply Nat.eqb_neq in E. destruct (Nat.lt_ge_cases x (List.length (w_items w))) as [H|H].
    + apply nth_error_app1. exact H.
    + rewrite (proj2 (nth_error_None _ x)), (proj2 (nth_error_None _ x)); [reflexivity|lia|].
      rewrite app_length. cbn. lia.
Qed.

Lemma get_with_new w o it l ow x : get w o = Some ow ->
  get (with_new w o it l) x =
  if x =? List.length (w_items w) then Some it
  else if x =? o then Some (set_list (i_cat it) l ow) else get w x.
Proof.
  intro Ho. unfold with_new. rewrite get_upd, !get_app. pose proof (get_lt _ _ _ Ho).
  destruct (x =? o) eqn:E.
  - apply Nat.eqb_eq in E. subst x.
    assert (E2 : (o =? List.length (w_items w)) = false) by (apply Nat.eqb_neq; lia). rewrite E2, Ho. reflexivity.
  - reflexivity.
Qed.
Lemma with_new_class w o it l t : class_of (with_new w o it l) t = class_of w t.
Proof. unfold with_new. rewrite class_of_upd. reflexivity. Qed.

Section Flags.
  (** What is assumed of programs: [sf]: containers are named; [df]: deferred definitions and visitors are
      soft. *)
  Variables sf df : bool.
  (** Which base class declarations compile. *)
  Variable okbase : nat -> nat -> bool.

  Definition def_ok (p : prog) : Prop :=
    (sf = true -> all_prog named_cmd p = true) /\ (df = true -> all_prog soft_cmd p = true).

  (** ** Primitive changes *)
  Inductive prim (w : world) : world -> Prop :=
  | PNew o ow c n t inv l : get w o = Some ow -> is_container (i_cat ow) = true -> c <> Class ->
      ml_add (names (World (w_items w ++ [fresh c n (Some o) t inv]) (w_class w) (w_held w) (w_relock w)))
             (i_list ow c) (Some (List.length (w_items w))) = (l, true) ->
      prim w (with_new w o (fresh c n (Some o) t inv) l)
  | PClass o ow n t inv l : get w o = Some ow -> is_container (i_cat ow) = true -> class_of w t = None ->
      ml_add (names (World (w_items w ++ [fresh Class n (Some o) t inv]) (w_class w) (w_held w) (w_relock w)))
             (i_list ow Class) (Some (List.length (w_items w))) = (l, true) ->
      prim w (let w2 := with_new w o (fresh Class n (Some o) t inv) l in
              World (w_items w2) (w_class w2 ++ [(t, List.length (w_items w))]) (w_held w2) (w_relock w2))
  | PAttr a it n v l : get w a = Some it -> nv_set (i_attrs it) n v = Some l ->
      prim w (upd w a (set_attrs l))
  | PElem a it n v l : get w a = Some it -> i_cat it = Enum -> nv_set (i_elems it) n v = Some l ->
      prim w (upd w a (set_elems l))
  | PLink a it t f b : get w a = Some it -> i_cat it = Class -> class_of w t = Some b ->
      ~ In t (map fst (i_bases it)) -> okbase (i_type it) t = true ->
      prim w (upd (upd w a (set_bases (i_bases it ++ [(t, f)]))) b
                  (fun bt => set_derived (i_derived bt ++ [i_type it]) bt))
  | PDef a it p : get w a = Some it -> is_container (i_cat it) = true -> i_def it = None -> def_ok p ->
      prim w (upd w a (accept_def p))
  | PBegin a it p : get w a = Some it -> i_def it = Some p -> i_lock it = false -> prim w (upd w a begin_def)
  | PEnd a it : get w a = Some it -> i_lock it = true -> prim w (upd w a end_def)
  | PLocks h r : prim w (World (w_items w) (w_class w) h r).

  Inductive steps : world -> world -> Prop :=
  | SRefl w : steps w w
  | SStep w w1 w2 : steps w w1 -> prim w1 w2 -> steps w w2.
  Lemma steps_trans w1 w2 w3 : steps w1 w2 -> steps w2 w3 -> steps w1 w3.
  Proof. intros H1 H2. induction H2 as [|w w1' w2 Hs IH Hp]; [exact H1|]. econstructor; [apply IH; exact H1|exact Hp]. Qed.
  Lemma steps_one w w' : prim w w' -> steps w w'.
  Proof. intro H. econstructor; [constructor|exact H]. Qed.

  (** ** Well-formed registries *)

  Definition b2n (b : bool) : nat := if b then 1 else 0.

  Record local (it : item) : Prop := {
    l_bases : NoDup (map fst (i_bases it));
    l_derived : NoDup (i_derived it);
    l_attrs : nv_ok (i_attrs it);
    l_elems : nv_ok (i_elems it);
    l_begun : i_begun it = i_done it + b2n (i_lock it);
    l_set : i_set it = i_begun it + match i_def it with Some _ => b2n (negb (i_lock it)) | None => 0 end;
    l_lock : i_lock it = true -> i_def it <> None;
    l_def : forall p, i_def it = Some p -> is_container (i_cat it) = true /\ def_ok p;
    l_base_class : i_bases it <> [] -> i_cat it = Class;
    l_derived_class : i_derived it <> [] -> i_cat it = Class;
    l_ok : forall t, In t (map fst (i_bases it)) -> okbase (i_type it) t = true }.

  Record WF (w : world) : Prop := {
    wf_local : forall a it, get w a = Some it -> local it;
    wf_global : exists it, get w 0 = Some it /\ i_cat it = Namespace /\ i_owner it = None;
    wf_owner : forall a it, get w a = Some it -> a <> 0 ->
      exists o ow, i_owner it = Some o /\ o < a /\ get w o = Some ow /\ is_container (i_cat ow) = true /\
                   In a (ml_items (i_list ow (i_cat it)));
    wf_names : forall a it c, get w a = Some it -> ml_ok (names w) (i_list it c);
    wf_list : forall a it c x, get w a = Some it -> In x (ml_items (i_list it c)) ->
      exists xt, get w x = Some xt /\ i_cat xt = c /\ i_owner xt = Some a;
    wf_class1 : forall t a, class_of w t = Some a -> exists it, get w a = Some it /\ i_cat it = Class /\ i_type it = t;
    wf_class2 : forall a it, get w a = Some it -> i_cat it = Class -> class_of w (i_type it) = Some a;
    wf_mirror : forall a it b bt, get w a = Some it -> get w b = Some bt -> i_cat it = Class -> i_cat bt = Class ->
      (In (i_type bt) (map fst (i_bases it)) <-> In (i_type it) (i_derived bt));
    wf_base : forall a it t, get w a = Some it -> In t (map fst (i_bases it)) -> class_of w t <> None;
    wf_derived : forall a it t, get w a = Some it -> In t (i_derived it) -> class_of w t <> None }.

  Lemma ml_ok_ext (nm nm' : addr -> string) l : (forall x, In x (ml_items l) -> nm x = nm' x) -> ml_ok nm l -> ml_ok nm' l.
  Proof.
    intros H [H1 H2]. assert (HM : map nm (ml_items l) = map nm' (ml_items l)) by (apply map_ext_in; exact H).
    split; [|rewrite <- HM; exact H2]. rewrite H1. clear H1 H2 HM. revert H. generalize (ml_items l) 0.
    induction l0 as [|x l0 IH]; intros n H; cbn; [reflexivity|]. f_equal.
    - rewrite (H x); [reflexivity|left; reflexivity].
    - apply IH. intros y Hy. apply H. right. exact Hy.
  Qed.

  (** Changes that touch none of identity, lists, bases and derived. *)
  Definition keeps (f : item -> item) : Prop := forall it,
    i_cat (f it) = i_cat it /\ i_name (f it) = i_name it /\ i_owner (f it) = i_owner it /\
    i_type (f it) = i_type it /\ i_list (f it) = i_list it /\ i_bases (f it) = i_bases it /\
    i_derived (f it) = i_derived it.

  Lemma upd_cases w a f x it' : get (upd w a f) x = Some it' ->
    exists it, get w x = Some it /\ ((x <> a /\ it' = it) \/ (x = a /\ it' = f it)).
  Proof.
    rewrite get_upd. destruct (x =? a) eqn:E.
    - apply Nat.eqb_eq in E. subst. destruct (get w a) as [it|]; cbn; [|discriminate].
      intros [= <-]. exists it. auto.
    - apply Nat.eqb_neq in E. intro H. exists it'. auto.
  Qed.

  Lemma names_upd w a f x : (forall it, i_name (f it) = i_name it) -> names (upd w a f) x = names w x.
  Proof.
    intro H. unfold names. rewrite get_upd. destruct (x =? a) eqn:E; [|reflexivity].
    apply Nat.eqb_eq in E. subst. destruct (get w a); cbn; [apply H|reflexivity].
  Qed.

  Lemma upd_back w a f x it : get w x = Some it ->
    exists it', get (upd w a f) x = Some it' /\ (it' = it \/ (x = a /\ it' = f it)).
  Proof.
    intro H. rewrite get_upd. destruct (x =? a) eqn:E; [|eauto].
    apply Nat.eqb_eq in E. subst. rewrite H. cbn. eauto.
  Qed.

  Lemma wf_keeps w a f : WF w -> keeps f -> (forall it, get w a = Some it -> local (f it)) -> WF (upd w a f).
  Proof.
    intros HW HK HL.
    assert (HB : forall x it', get (upd w a f) x = Some it' -> exists it, get w x = Some it /\
      i_cat it' = i_cat it /\ i_owner it' = i_owner it /\ i_type it' = i_type it /\
      i_list it' = i_list it /\ i_bases it' = i_bases it /\ i_derived it' = i_derived it).
    { intros x it' H. apply upd_cases in H as (it & Hg & [[_ ->]|[_ ->]]); exists it; [repeat split; auto|].
      destruct (HK it) as (? & ? & ? & ? & ? & ? & ?). repeat split; auto. }
    assert (HF : forall x it, get w x = Some it -> exists it', get (upd w a f) x = Some it' /\
      i_cat it' = i_cat it /\ i_owner it' = i_owner it /\ i_type it' = i_type it /\
      i_list it' = i_list it /\ i_bases it' = i_bases it /\ i_derived it' = i_derived it).
    { intros x it H. destruct (upd_back w a f x it H) as (it' & Hg & [->|[_ ->]]).
      - exists it. repeat split; auto.
      - exists (f it). destruct (HK it) as (? & ? & ? & ? & ? & ? & ?). repeat split; auto. }
    constructor.
    - intros x it' H. apply upd_cases in H as (it & Hg & [[_ ->]|[-> ->]]); [eapply wf_local; eauto|eauto].
    - destruct (wf_global w HW) as (it & Hg & Hc & Ho). destruct (HF _ _ Hg) as (it' & Hg' & E1 & E2 & _).
      exists it'. repeat split; congruence.
    - intros x it' H Hx. destruct (HB _ _ H) as (it & Hg & E1 & E2 & _).
      destruct (wf_owner w HW x it Hg Hx) as (o & ow & Ho & Hlt & Hgo & Hco & Hin).
      destruct (HF _ _ Hgo) as (ow' & Hgo' & E1' & _ & _ & E4' & _).
      exists o, ow'. repeat split; congruence.
    - intros x it' c H. destruct (HB _ _ H) as (it & Hg & E1 & E2 & E3 & E4 & _). rewrite E4.
      eapply ml_ok_ext; [|eapply (wf_names w HW); eauto]. intros y _. symmetry. apply names_upd.
      intro i. apply HK.
    - intros x it' c y H Hin. destruct (HB _ _ H) as (it & Hg & E1 & E2 & E3 & E4 & _). rewrite E4 in Hin.
      destruct (wf_list w HW x it c y Hg Hin) as (yt & Hy & Hc & Ho). destruct (HF _ _ Hy) as (yt' & Hy' & F1 & F2 & _).
      exists yt'. repeat split; congruence.
    - intros t x H. rewrite class_of_upd in H. destruct (wf_class1 w HW t x H) as (it & Hg & Hc & Ht).
      destruct (HF _ _ Hg) as (it' & Hg' & F1 & F2 & F3 & _). exists it'. repeat split; congruence.
    - intros x it' H Hc. rewrite class_of_upd. destruct (HB _ _ H) as (it & Hg & E1 & E2 & E3 & _).
      rewrite E3. eapply wf_class2; eauto. congruence.
    - intros x it' y yt' Hx Hy Hcx Hcy. destruct (HB _ _ Hx) as (it & Hgx & E1 & E2 & E3 & E4 & E5 & E6).
      destruct (HB _ _ Hy) as (yt & Hgy & F1 & F2 & F3 & F4 & F5 & F6). rewrite E3, E5, F3, F6.
      eapply wf_mirror; eauto; congruence.
    - intros x it' t H Hin. rewrite class_of_upd. destruct (HB _ _ H) as (it & Hg & E1 & E2 & E3 & E4 & E5 & E6).
      rewrite E5 in Hin. eapply wf_base; eauto.
    - intros x it' t H Hin. rewrite class_of_upd. destruct (HB _ _ H) as (it & Hg & E1 & E2 & E3 & E4 & E5 & E6).
      rewrite E6 in Hin. eapply wf_derived; eauto.
  Qed.

  Lemma wf_locks w h r : WF w -> WF (World (w_items w) (w_class w) h r).
  Proof. intros [H1 H2 H3 H4 H5 H6 H7 H8 H9 H10]. constructor; assumption. Qed.

  (** *** A new item *)

  Lemma local_fresh c n o t inv : local (fresh c n o t inv).
  Proof.
    constructor; cbn; try apply nv0_ok; try constructor; try congruence; try tauto.
  Qed.

  Lemma names_app w it c h r x : x <> List.length (w_items w) -> names (World (w_items w ++ [it]) c h r) x = names w x.
  Proof. intro H. unfold names. rewrite get_app. apply Nat.eqb_neq in H. rewrite H. reflexivity. Qed.

  Lemma add_result w o ow c n t inv l : WF w -> get w o = Some ow ->
    ml_add (names (World (w_items w ++ [fresh c n (Some o) t inv]) (w_class w) (w_held w) (w_relock w)))
           (i_list ow c) (Some (List.length (w_items w))) = (l, true) ->
    let nm := names (World (w_items w ++ [fresh c n (Some o) t inv]) (w_class w) (w_held w) (w_relock w)) in
    ml_items l = ml_items (i_list ow c) ++ [List.length (w_items w)] /\ ml_ok nm l /\
    (forall x, In x (ml_items (i_list ow c)) -> names w x <> n).
  Proof.
    intros HW Ho H nm. fold nm in H. set (id := List.length (w_items w)) in *.
    assert (Hlt : forall x, In x (ml_items (i_list ow c)) -> x <> id).
    { intros x Hx. destruct (wf_list w HW o ow c x Ho Hx) as (xt & Hg & _). apply get_lt in Hg. unfold id. lia. }
    assert (HO : ml_ok nm (i_list ow c)).
    { eapply ml_ok_ext; [|eapply (wf_names w HW); eauto]. intros x Hx. symmetry. apply names_app. apply Hlt. exact Hx. }
    assert (Hid : nm id = n).
    { unfold nm, names. rewrite get_app. unfold id. rewrite Nat.eqb_refl. reflexivity. }
    destruct HO as [HN HD]. rewrite (ml_add_char nm _ _ HN) in H.
    match type of H with context [in_dec ?a ?b ?c] => destruct (in_dec a b c) as [Hi|Hi] end; [discriminate|].
    injection H as <-. cbn. split; [reflexivity|]. split.
    - split; [reflexivity|]. cbn. rewrite map_app. cbn. apply NoDup_snoc; assumption.
    - intros x Hx E. apply Hi. rewrite Hid. apply in_map_iff. exists x. split; [|exact Hx].
      unfold nm. rewrite names_app; [exact E|]. apply Hlt. exact Hx.
  Qed.

  (** Everything but the class table after a new item of any category. *)
  Lemma wf_new_gen w o ow c n t inv l :
    WF w -> get w o = Some ow -> is_container (i_cat ow) = true ->
    ml_add (names (World (w_items w ++ [fresh c n (Some o) t inv]) (w_class w) (w_held w) (w_relock w)))
           (i_list ow c) (Some (List.length (w_items w))) = (l, true) ->
    let w' := with_new w o (fresh c n (Some o) t inv) l in
    let id := List.length (w_items w) in
    (forall a it, get w' a = Some it -> local it) /\
    (exists it, get w' 0 = Some it /\ i_cat it = Namespace /\ i_owner it = None) /\
    (forall a it, get w' a = Some it -> a <> 0 ->
      exists o ow, i_owner it = Some o /\ o < a /\ get w' o = Some ow /\ is_container (i_cat ow) = true /\
                   In a (ml_items (i_list ow (i_cat it)))) /\
    (forall a it c, get w' a = Some it -> ml_ok (names w') (i_list it c)) /\
    (forall a it c x, get w' a = Some it -> In x (ml_items (i_list it c)) ->
      exists xt, get w' x = Some xt /\ i_cat xt = c /\ i_owner xt = Some a) /\
    (forall a it', get w' a = Some it' -> (a = id /\ it' = fresh c n (Some o) t inv) \/
       (a <> id /\ exists it, get w a = Some it /\ i_cat it' = i_cat it /\ i_type it' = i_type it /\
          i_bases it' = i_bases it /\ i_derived it' = i_derived it)) /\
    (forall a it, get w a = Some it -> a <> id /\ exists it', get w' a = Some it' /\
       i_cat it' = i_cat it /\ i_type it' = i_type it /\ i_bases it' = i_bases it /\ i_derived it' = i_derived it).
  Proof.
    intros HW Ho Hoc Hadd w' id.
    destruct (add_result w o ow c n t inv l HW Ho Hadd) as (Hit & Hok & Hnew).
    fold id in Hit. pose proof (get_lt _ _ _ Ho) as Holt. fold id in Holt.
    set (it0 := fresh c n (Some o) t inv) in *.
    assert (HG : forall x, get w' x = if x =? id then Some it0 else if x =? o then Some (set_list c l ow) else get w x).
    { intro x. unfold w'. rewrite (get_with_new w o it0 l ow x Ho). reflexivity. }
    assert (Hid : get w' id = Some it0) by (rewrite HG, Nat.eqb_refl; reflexivity).
    assert (Hnone : forall x xt, get w x = Some xt -> x <> id).
    { intros x xt H E. subst. apply get_lt in H. unfold id in H. lia. }
    assert (HF : forall x xt, get w x = Some xt -> exists xt', get w' x = Some xt' /\ i_cat xt' = i_cat xt /\
      i_name xt' = i_name xt /\ i_owner xt' = i_owner xt /\ i_type xt' = i_type xt /\ i_bases xt' = i_bases xt /\
      i_derived xt' = i_derived xt /\
      (forall c' y, In y (ml_items (i_list xt c')) -> In y (ml_items (i_list xt' c')))).
    { intros x xt H. rewrite HG. pose proof (Hnone x xt H) as Hx. apply Nat.eqb_neq in Hx. rewrite Hx.
      destruct (x =? o) eqn:E.
      - apply Nat.eqb_eq in E. subst x. rewrite H in Ho. injection Ho as ->. exists (set_list c l ow).
        repeat split. intros c' y Hy. cbn. destruct (cat_eqb c c') eqn:Ec; [|exact Hy].
        apply cat_eqb_eq in Ec. subst c'. rewrite Hit. apply in_or_app. left. exact Hy.
      - exists xt. repeat split; auto. }
    assert (HB : forall x xt', get w' x = Some xt' -> (x = id /\ xt' = it0) \/ (x <> id /\ exists xt, get w x = Some xt /\
      ((x <> o /\ xt' = xt) \/ (x = o /\ xt = ow /\ xt' = set_list c l ow)))).
    { intros x xt'. rewrite HG. destruct (x =? id) eqn:E1.
      - apply Nat.eqb_eq in E1. intros [= <-]. left. auto.
      - apply Nat.eqb_neq in E1. destruct (x =? o) eqn:E2.
        + apply Nat.eqb_eq in E2. subst. intros [= <-]. right. split; [exact E1|]. exists ow. auto.
        + apply Nat.eqb_neq in E2. intro H. right. split; [exact E1|]. exists xt'. auto. }
    assert (HNM : forall x, names w' x = names (World (w_items w ++ [it0]) (w_class w) (w_held w) (w_relock w)) x).
    { intro x. unfold w', with_new. apply names_upd. reflexivity. }
    split; [|split; [|split; [|split; [|split; [|split]]]]].
    - intros a it H. destruct (HB a it H) as [[-> ->]|(_ & xt & Hg & [[_ ->]|(-> & -> & ->)])].
      + apply local_fresh.
      + eapply wf_local; eauto.
      + pose proof (wf_local w HW _ _ Hg) as [L1 L2 L3 L4 L5 L6 L7 L8 L9 L10 L11]. constructor; assumption.
    - destruct (wf_global w HW) as (it & Hg & Hc & Hw0). destruct (HF _ _ Hg) as (it' & Hg' & E1 & E2 & E3 & _).
      exists it'. repeat split; congruence.
    - intros a it H Ha. destruct (HB a it H) as [[-> ->]|(Hne & xt & Hg & HX)].
      + exists o, (set_list c l ow). split; [reflexivity|]. split; [exact Holt|]. split.
        * rewrite HG. assert (E : (o =? id) = false) by (apply Nat.eqb_neq; lia). rewrite E, Nat.eqb_refl. reflexivity.
        * split; [exact Hoc|]. cbn. rewrite cat_eqb_refl, Hit. apply in_or_app. right. left. reflexivity.
      + destruct (wf_owner w HW a xt Hg Ha) as (o' & ow' & Hw' & Hlt & Hgo & Hco & Hin).
        destruct (HF _ _ Hgo) as (ow2 & Hg2 & F1 & F2 & F3 & F4 & F5 & F6 & F7).
        assert (E : i_owner it = i_owner xt /\ i_cat it = i_cat xt) by (destruct HX as [[_ ->]|(-> & -> & ->)]; auto).
        destruct E as [E1 E2]. exists o', ow2. rewrite E1, E2. repeat split; auto. congruence.
    - intros a it c' H. destruct (HB a it H) as [[-> ->]|(Hne & xt & Hg & HX)]; [apply ml0_ok|].
      assert (HOLD : ml_ok (names w') (i_list xt c')).
      { eapply ml_ok_ext; [|eapply (wf_names w HW); eauto]. intros x Hx.
        destruct (wf_list w HW a xt c' x Hg Hx) as (xt2 & Hx2 & _). rewrite HNM. symmetry. apply names_app.
        eapply Hnone; eassumption. }
      destruct HX as [[_ ->]|(-> & -> & ->)]; [exact HOLD|]. cbn.
      destruct (cat_eqb c c') eqn:Ec; [|exact HOLD]. eapply ml_ok_ext; [|exact Hok]. intros x _. symmetry. apply HNM.
    - intros a it c' x H Hin. destruct (HB a it H) as [[-> ->]|(Hne & xt & Hg & HX)]; [destruct Hin|].
      assert (HOLD : forall y, In y (ml_items (i_list xt c')) ->
        exists xt0, get w' y = Some xt0 /\ i_cat xt0 = c' /\ i_owner xt0 = Some a).
      { intros y Hy. destruct (wf_list w HW a xt c' y Hg Hy) as (yt & Hgy & Hcy & Hoy).
        destruct (HF _ _ Hgy) as (yt' & Hgy' & F1 & F2 & F3 & _). exists yt'. repeat split; congruence. }
      destruct HX as [[_ ->]|(-> & -> & ->)]; [apply HOLD; exact Hin|]. cbn in Hin.
      destruct (cat_eqb c c') eqn:Ec; [|apply HOLD; exact Hin]. apply cat_eqb_eq in Ec. subst c'.
      rewrite Hit in Hin. apply in_app_iff in Hin as [Hin|[<-|[]]]; [apply HOLD; exact Hin|].
      exists it0. repeat split. exact Hid.
    - intros a it H. destruct (HB a it H) as [?|(Hne & xt & Hg & HX)]; [left; assumption|right].
      split; [exact Hne|]. exists xt. split; [exact Hg|]. destruct HX as [[_ ->]|(-> & -> & ->)]; repeat split.
    - intros a it H. split; [eapply Hnone; eauto|]. destruct (HF _ _ H) as (it' & Hg' & F1 & F2 & F3 & F4 & F5 & F6 & _).
      exists it'. repeat split; auto.
  Qed.

  Lemma wf_new w o ow c n t inv l :
    WF w -> get w o = Some ow -> is_container (i_cat ow) = true -> c <> Class ->
    ml_add (names (World (w_items w ++ [fresh c n (Some o) t inv]) (w_class w) (w_held w) (w_relock w)))
           (i_list ow c) (Some (List.length (w_items w))) = (l, true) ->
    WF (with_new w o (fresh c n (Some o) t inv) l).
  Proof.
    intros HW Ho Hoc Hc Hadd.
    destruct (wf_new_gen w o ow c n t inv l HW Ho Hoc Hadd) as (G1 & G2 & G3 & G4 & G5 & HB & HF).
    constructor; try assumption.
    - intros t' a H. rewrite with_new_class in H. destruct (wf_class1 w HW t' a H) as (it & Hg & Hci & Ht).
      destruct (HF _ _ Hg) as (_ & it' & Hg' & E1 & E2 & _). exists it'. repeat split; congruence.
    - intros a it' H Hci. rewrite with_new_class. destruct (HB _ _ H) as [[_ ->]|(_ & it & Hg & E1 & E2 & _)]; [cbn in Hci; congruence|].
      rewrite E2. eapply wf_class2; eauto. congruence.
    - intros a it' b bt' Ha Hb Hca Hcb.
      destruct (HB _ _ Ha) as [[_ ->]|(_ & it & Hga & E1 & E2 & E3 & E4)]; [cbn in Hca; congruence|].
      destruct (HB _ _ Hb) as [[_ ->]|(_ & bt & Hgb & F1 & F2 & F3 & F4)]; [cbn in Hcb; congruence|].
      rewrite E2, E3, F2, F4. eapply wf_mirror; eauto; congruence.
    - intros a it' t' H Hin. rewrite with_new_class. destruct (HB _ _ H) as [[_ ->]|(_ & it & Hg & E1 & E2 & E3 & E4)]; [destruct Hin|].
      rewrite E3 in Hin. eapply wf_base; eauto.
    - intros a it' t' H Hin. rewrite with_new_class. destruct (HB _ _ H) as [[_ ->]|(_ & it & Hg & E1 & E2 & E3 & E4)]; [destruct Hin|].
      rewrite E4 in Hin. eapply wf_derived; eauto.
  Qed.

  Lemma assoc_app_nat {V} (l1 l2 : list (nat * V)) n :
    assoc Nat.eqb n (l1 ++ l2) = match assoc Nat.eqb n l1 with Some v => Some v | None => assoc Nat.eqb n l2 end.
  Proof. induction l1 as [|[m v] l1 IH]; cbn; [reflexivity|]. destruct (n =? m); auto. Qed.

  Definition add_class (w : world) (t a : nat) : world :=
    World (w_items w) (w_class w ++ [(t, a)]) (w_held w) (w_relock w).

  Lemma class_of_add w t a t' : class_of (add_class w t a) t' =
    match class_of w t' with Some x => Some x | None => if t' =? t then Some a else None end.
  Proof. unfold class_of, add_class. cbn. rewrite assoc_app_nat. reflexivity. Qed.

  Lemma wf_newclass w o ow n t inv l :
    WF w -> get w o = Some ow -> is_container (i_cat ow) = true -> class_of w t = None ->
    ml_add (names (World (w_items w ++ [fresh Class n (Some o) t inv]) (w_class w) (w_held w) (w_relock w)))
           (i_list ow Class) (Some (List.length (w_items w))) = (l, true) ->
    WF (add_class (with_new w o (fresh Class n (Some o) t inv) l) t (List.length (w_items w))).
  Proof.
    intros HW Ho Hoc Ht0 Hadd.
    destruct (wf_new_gen w o ow Class n t inv l HW Ho Hoc Hadd) as (G1 & G2 & G3 & G4 & G5 & HB & HF).
    set (w1 := with_new w o (fresh Class n (Some o) t inv) l) in *. set (id := List.length (w_items w)) in *.
    assert (HGA : forall x, get (add_class w1 t id) x = get w1 x) by reflexivity.
    assert (HCO : forall t', class_of (add_class w1 t id) t' =
      match class_of w t' with Some x => Some x | None => if t' =? t then Some id else None end).
    { intro t'. rewrite class_of_add. unfold w1. rewrite with_new_class. reflexivity. }
    assert (HOLDT : forall a it, get w a = Some it -> i_cat it = Class -> i_type it <> t).
    { intros a it H Hc E. pose proof (wf_class2 w HW a it H Hc). congruence. }
    constructor; try assumption.
    - intros t' a H. rewrite HCO in H. destruct (class_of w t') as [x|] eqn:E.
      + injection H as ->. destruct (wf_class1 w HW t' a E) as (it & Hg & Hci & Ht).
        destruct (HF _ _ Hg) as (_ & it' & Hg' & E1 & E2 & _). exists it'. repeat split; [exact Hg'|congruence|congruence].
      + destruct (t' =? t) eqn:Et; [|discriminate]. apply Nat.eqb_eq in Et. subst t'. injection H as <-.
        exists (fresh Class n (Some o) t inv). split; [|split; reflexivity]. rewrite HGA. unfold w1.
        rewrite (get_with_new w o _ l ow _ Ho). fold id. rewrite Nat.eqb_refl. reflexivity.
    - intros a it' H Hci. rewrite HCO. destruct (HB _ _ H) as [[-> ->]|(_ & it & Hg & E1 & E2 & _)].
      + cbn. rewrite Ht0, Nat.eqb_refl. reflexivity.
      + rewrite E2. rewrite (wf_class2 w HW a it Hg) by congruence. reflexivity.
    - intros a it' b bt' Ha Hb Hca Hcb.
      destruct (HB _ _ Ha) as [[-> ->]|(_ & it & Hga & E1 & E2 & E3 & E4)];
        destruct (HB _ _ Hb) as [[-> ->]|(_ & bt & Hgb & F1 & F2 & F3 & F4)].
      + cbn. tauto.
      + cbn. rewrite F4. split; [tauto|]. intro Hin. apply (wf_derived w HW b bt t Hgb) in Hin. contradiction.
      + cbn. rewrite E3. split; [|tauto]. intro Hin. apply (wf_base w HW a it t Hga) in Hin. contradiction.
      + rewrite E2, E3, F2, F4. eapply wf_mirror; eauto; congruence.
    - intros a it' t' H Hin. rewrite HCO. destruct (HB _ _ H) as [[_ ->]|(_ & it & Hg & E1 & E2 & E3 & E4)]; [destruct Hin|].
      rewrite E3 in Hin. apply (wf_base w HW a it t' Hg) in Hin. destruct (class_of w t'); congruence.
    - intros a it' t' H Hin. rewrite HCO. destruct (HB _ _ H) as [[_ ->]|(_ & it & Hg & E1 & E2 & E3 & E4)]; [destruct Hin|].
      rewrite E4 in Hin. apply (wf_derived w HW a it t' Hg) in Hin. destruct (class_of w t'); congruence.
  Qed.

  (** *** A new base *)

  Definition link (w : world) (a : nat) (it : item) (t f b : nat) : world :=
    upd (upd w a (set_bases (i_bases it ++ [(t, f)]))) b (fun bt => set_derived (i_derived bt ++ [i_type it]) bt).

  Lemma get_link w a it t f b x : get w a = Some it -> get (link w a it t f b) x =
    option_map (fun xt =>
      let xt1 := if x =? a then set_bases (i_bases it ++ [(t, f)]) xt else xt in
      if x =? b then set_derived (i_derived xt1 ++ [i_type it]) xt1 else xt1) (get w x).
  Proof.
    intro Ha. unfold link. rewrite !get_upd. destruct (x =? b) eqn:Eb.
    - apply Nat.eqb_eq in Eb. subst b. destruct (x =? a) eqn:Ea.
      + apply Nat.eqb_eq in Ea. subst. destruct (get w a); reflexivity.
      + destruct (get w x); reflexivity.
    - destruct (x =? a) eqn:Ea.
      + apply Nat.eqb_eq in Ea. subst. destruct (get w a); reflexivity.
      + destruct (get w x); reflexivity.
  Qed.

  Lemma wf_link w a it t f b :
    WF w -> get w a = Some it -> i_cat it = Class -> class_of w t = Some b -> ~ In t (map fst (i_bases it)) ->
    okbase (i_type it) t = true -> WF (link w a it t f b).
  Proof.
    intros HW Ha Hca Hb Hni Hok.
    destruct (wf_class1 w HW t b Hb) as (bt & Hgb & Hcb & Htb).
    assert (Hnd : ~ In (i_type it) (i_derived bt)).
    { intro H. apply Hni. rewrite <- Htb. apply (wf_mirror w HW a it b bt); auto. }
    assert (HB : forall x xt', get (link w a it t f b) x = Some xt' -> exists xt, get w x = Some xt /\
      i_cat xt' = i_cat xt /\ i_name xt' = i_name xt /\ i_owner xt' = i_owner xt /\ i_type xt' = i_type xt /\ i_list xt' = i_list xt /\
      i_bases xt' = (if x =? a then i_bases xt ++ [(t, f)] else i_bases xt) /\
      i_derived xt' = (if x =? b then i_derived xt ++ [i_type it] else i_derived xt) /\
      i_attrs xt' = i_attrs xt /\ i_elems xt' = i_elems xt /\ i_def xt' = i_def xt /\ i_lock xt' = i_lock xt /\
      i_set xt' = i_set xt /\ i_begun xt' = i_begun xt /\ i_done xt' = i_done xt).
    { intros x xt' H. rewrite (get_link w a it t f b x Ha) in H. destruct (get w x) as [xt|] eqn:Ex; [|discriminate].
      exists xt. split; [reflexivity|]. cbn in H. injection H as <-.
      destruct (x =? a) eqn:E1; destruct (x =? b); cbn; repeat split;
        apply Nat.eqb_eq in E1; subst; congruence. }
    assert (HF : forall x xt, get w x = Some xt -> exists xt', get (link w a it t f b) x = Some xt' /\
      i_cat xt' = i_cat xt /\ i_name xt' = i_name xt /\ i_owner xt' = i_owner xt /\ i_type xt' = i_type xt /\ i_list xt' = i_list xt).
    { intros x xt H. rewrite (get_link w a it t f b x Ha), H. cbn. eexists. split; [reflexivity|].
      destruct (x =? a), (x =? b); cbn; auto. }
    assert (HC : forall t', class_of (link w a it t f b) t' = class_of w t').
    { intro t'. unfold link. rewrite !class_of_upd. reflexivity. }
    assert (HN : forall x, names (link w a it t f b) x = names w x).
    { intro x. unfold link. rewrite !names_upd; reflexivity. }
    constructor.
    - intros x xt' H. destruct (HB _ _ H) as (xt & Hg & E1 & E2 & E3 & E4 & E5 & E6 & E7 & E8 & E9 & E10 & E11 & E12 & E13 & E14).
      pose proof (wf_local w HW _ _ Hg) as [L1 L2 L3 L4 L5 L6 L7 L8 L9 L10 L11].
      constructor; rewrite ?E1, ?E4, ?E6, ?E7, ?E8, ?E9, ?E10, ?E11, ?E12, ?E13, ?E14; auto.
      + destruct (x =? a) eqn:Ex; [|exact L1]. apply Nat.eqb_eq in Ex. subst x. rewrite Ha in Hg. injection Hg as <-.
        rewrite map_app. apply NoDup_snoc; assumption.
      + destruct (x =? b) eqn:Ex; [|exact L2]. apply Nat.eqb_eq in Ex. subst x. rewrite Hgb in Hg. injection Hg as <-.
        apply NoDup_snoc; assumption.
      + destruct (x =? a) eqn:Ex; [|exact L9]. apply Nat.eqb_eq in Ex. subst x. intros _. congruence.
      + destruct (x =? b) eqn:Ex; [|exact L10]. apply Nat.eqb_eq in Ex. subst x. intros _. congruence.
      + intros t' Hin. destruct (x =? a) eqn:Ex; [|exact (L11 t' Hin)]. apply Nat.eqb_eq in Ex. subst x. rewrite Ha in Hg. injection Hg as <-.
        rewrite map_app, in_app_iff in Hin. destruct Hin as [Hin|[<-|[]]]; [exact (L11 t' Hin)|exact Hok].
    - destruct (wf_global w HW) as (x & Hg & Hc & Ho). destruct (HF _ _ Hg) as (x' & Hg' & E1 & E2 & E3 & _).
      exists x'. repeat split; congruence.
    - intros x xt' H Hx. destruct (HB _ _ H) as (xt & Hg & E1 & E2 & E3 & E4 & E5 & _).
      destruct (wf_owner w HW x xt Hg Hx) as (o & ow & Ho & Hlt & Hgo & Hco & Hin).
      destruct (HF _ _ Hgo) as (ow' & Hgo' & F1 & F2 & F3 & F4 & F5).
      exists o, ow'. repeat split; congruence.
    - intros x xt' c H. destruct (HB _ _ H) as (xt & Hg & E1 & E2 & E3 & E4 & E5 & _). rewrite E5.
      eapply ml_ok_ext; [|eapply (wf_names w HW); eauto]. intros y _. symmetry. apply HN.
    - intros x xt' c y H Hin. destruct (HB _ _ H) as (xt & Hg & E1 & E2 & E3 & E4 & E5 & _). rewrite E5 in Hin.
      destruct (wf_list w HW x xt c y Hg Hin) as (yt & Hy & Hc & Ho). destruct (HF _ _ Hy) as (yt' & Hy' & F1 & F2 & F3 & _).
      exists yt'. repeat split; congruence.
    - intros t' x H. rewrite HC in H. destruct (wf_class1 w HW t' x H) as (xt & Hg & Hc & Ht).
      destruct (HF _ _ Hg) as (xt' & Hg' & F1 & F2 & F3 & F4 & _). exists xt'. repeat split; congruence.
    - intros x xt' H Hc. rewrite HC. destruct (HB _ _ H) as (xt & Hg & E1 & E2 & E3 & E4 & _).
      rewrite E4. eapply wf_class2; eauto. congruence.
    - intros x xt' y yt' Hx Hy Hcx Hcy.
      destruct (HB _ _ Hx) as (xt & Hgx & E1 & E2 & E3 & E4 & E5 & E6 & E7 & _).
      destruct (HB _ _ Hy) as (yt & Hgy & F1 & F2 & F3 & F4 & F5 & F6 & F7 & _).
      rewrite E1 in Hcx. rewrite F1 in Hcy. rewrite E4, E6, F4, F7.
      pose proof (wf_mirror w HW x xt y yt Hgx Hgy Hcx Hcy) as HM.
      pose proof (wf_class2 w HW x xt Hgx Hcx) as Kx. pose proof (wf_class2 w HW y yt Hgy Hcy) as Ky.
      pose proof (wf_class2 w HW a it Ha Hca) as Ka.
      destruct (x =? a) eqn:Ex; destruct (y =? b) eqn:Ey.
      + apply Nat.eqb_eq in Ex. apply Nat.eqb_eq in Ey. subst x y. rewrite Ha in Hgx. injection Hgx as <-.
        rewrite Hgb in Hgy. injection Hgy as <-. rewrite map_app, !in_app_iff. cbn. rewrite Htb. tauto.
      + apply Nat.eqb_eq in Ex. apply Nat.eqb_neq in Ey. subst x. rewrite map_app, in_app_iff. cbn. rewrite <- HM.
        split; [|tauto]. intros [H|[H|[]]]; [exact H|]. exfalso. apply Ey. rewrite H, Ky in Hb. congruence.
      + apply Nat.eqb_neq in Ex. apply Nat.eqb_eq in Ey. subst y. rewrite in_app_iff. cbn. rewrite <- HM.
        split; [tauto|]. intros [H|[H|[]]]; [exact H|]. exfalso. apply Ex. rewrite H, Kx in Ka. congruence.
      + exact HM.
    - intros x xt' t' H Hin. rewrite HC. destruct (HB _ _ H) as (xt & Hg & E1 & E2 & E3 & E4 & E5 & E6 & E7 & _).
      rewrite E6 in Hin. destruct (x =? a) eqn:Ex; [|eapply wf_base; eauto].
      rewrite map_app, in_app_iff in Hin. cbn in Hin. destruct Hin as [Hin|[<-|[]]]; [eapply wf_base; eauto|congruence].
    - intros x xt' t' H Hin. rewrite HC. destruct (HB _ _ H) as (xt & Hg & E1 & E2 & E3 & E4 & E5 & E6 & E7 & _).
      rewrite E7 in Hin. destruct (x =? b) eqn:Ex; [|eapply wf_derived; eauto].
      rewrite in_app_iff in Hin. cbn in Hin. destruct Hin as [Hin|[<-|[]]]; [eapply wf_derived; eauto|].
      rewrite (wf_class2 w HW a it Ha Hca). congruence.
  Qed.

  Lemma prim_wf w w' : WF w -> prim w w' -> WF w'.
  Proof.
    intros HW Hp. destruct Hp as [o ow c n t inv l Ho Hoc Hc Hadd|o ow n t inv l Ho Hoc Hc Hadd|a it n v l Ha Hn|a it n v l Ha Hc Hn
      |a it t f b Ha Hc Hb Hni Hok|a it p Ha Hc Hd Hp|a it p Ha Hd Hl|a it Ha Hl|h r].
    - eapply wf_new; eassumption.
    - exact (wf_newclass w o ow n t inv l HW Ho Hoc Hc Hadd).
    - apply wf_keeps; [exact HW|intro; repeat split|]. intros it' H. rewrite Ha in H. injection H as <-.
      pose proof (wf_local w HW _ _ Ha) as [L1 L2 L3 L4 L5 L6 L7 L8 L9 L10 L11].
      constructor; try assumption. cbn. destruct (nv_set_spec (i_attrs it) n v L3) as (l' & E & Hok & _). congruence.
    - apply wf_keeps; [exact HW|intro; repeat split|]. intros it' H. rewrite Ha in H. injection H as <-.
      pose proof (wf_local w HW _ _ Ha) as [L1 L2 L3 L4 L5 L6 L7 L8 L9 L10 L11].
      constructor; try assumption. cbn. destruct (nv_set_spec (i_elems it) n v L4) as (l' & E & Hok & _). congruence.
    - exact (wf_link w a it t f b HW Ha Hc Hb Hni Hok).
    - apply wf_keeps; [exact HW|intro; repeat split|]. intros it' H. rewrite Ha in H. injection H as <-.
      pose proof (wf_local w HW _ _ Ha) as [L1 L2 L3 L4 L5 L6 L7 L8 L9 L10 L11].
      constructor; cbn; try assumption; try congruence.
      + rewrite L6, Hd. assert (i_lock it = false) by (destruct (i_lock it); [exfalso; apply L7; auto|reflexivity]).
        rewrite H. cbn. lia.
      + intros p' [= <-]. auto.
    - apply wf_keeps; [exact HW|intro; repeat split|]. intros it' H. rewrite Ha in H. injection H as <-.
      pose proof (wf_local w HW _ _ Ha) as [L1 L2 L3 L4 L5 L6 L7 L8 L9 L10 L11].
      rewrite Hl in L5. cbn in L5. rewrite Hd, Hl in L6. cbn in L6.
      constructor; cbn; try assumption; try congruence; try lia. rewrite Hd. lia.
    - apply wf_keeps; [exact HW|intro; repeat split|]. intros it' H. rewrite Ha in H. injection H as <-.
      pose proof (wf_local w HW _ _ Ha) as [L1 L2 L3 L4 L5 L6 L7 L8 L9 L10 L11].
      rewrite Hl in L5. cbn in L5. rewrite Hl in L6. cbn in L6.
      constructor; cbn; try assumption; try congruence; try lia. destruct (i_def it); lia.
    - apply wf_locks. exact HW.
  Qed.

  Lemma steps_wf w w' : WF w -> steps w w' -> WF w'.
  Proof. intros HW H. induction H as [|w w1 w2 Hs IH Hp]; [exact HW|]. eapply prim_wf; [apply IH; exact HW|exact Hp]. Qed.

  Lemma wf0 : WF world0.
  Proof.
    assert (HG : forall a it, get world0 a = Some it -> a = 0 /\ it = fresh Namespace "global" None 0 0).
    { intros [|[|a]] it H; cbn in H; [injection H as <-; auto|discriminate|discriminate]. }
    constructor.
    - intros a it H. apply HG in H as [_ ->]. apply local_fresh.
    - exists (fresh Namespace "global" None 0 0). auto.
    - intros a it H Ha. apply HG in H as [-> _]. congruence.
    - intros a it c H. apply HG in H as [_ ->]. apply ml0_ok.
    - intros a it c x H Hin. apply HG in H as [_ ->]. destruct Hin.
    - intros t a H. discriminate.
    - intros a it H Hc. apply HG in H as [_ ->]. discriminate.
    - intros a it b bt Ha Hb Hca. apply HG in Ha as [_ ->]. discriminate.
    - intros a it t H Hin. apply HG in H as [_ ->]. destruct Hin.
    - intros a it t H Hin. apply HG in H as [_ ->]. destruct Hin.
  Qed.
End Flags.
