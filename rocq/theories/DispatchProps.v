(** C54: calling methods and using properties of a variant by name. *)
From Coq Require Import NArith List Bool Arith Lia Ascii String.
From Verif Require Import TypesModel TypesSpec TypesProofs InheritModel InheritSpec InheritProofs InheritProps StringsModel StringsSpec StringsProofs.
From Verif Require Import AccModel AccSpec AccProofs AccProps CallModel CallSpec CallProofs CallProps ReturnModel ReturnSpec ReturnProofs ReturnProps.
From Verif Require Import DispatchModel DispatchSpec DispatchProofs.
Import ListNotations.
Local Open Scope list_scope.

(** variant::invoke throws runtime_error for exactly three reasons: the variant holds neither an object of a class nor a
    pointer to one; the class of the object is not registered; neither it nor any of its bases has a method of that name. *)
Theorem C54_invoke_refused : forall tr e l db k c name args,
  wf_env e -> usable (c_src c) -> no_array c -> name <> [] ->
  let r := invoke_by_name tr e l db k (Some c) name args in
  (r = Refused Not_a_class <-> ~ of_class c) /\
  (r = Refused Not_registered <-> exists d, object_class e c d /\ e_registered e d = false) /\
  (r = Refused Not_found <-> exists d, object_class e c d /\ e_registered e d = true /\
     forall b f, reach (e_graph e) d b -> ~ has_method db name b f).
Proof.
  intros tr e l db k c name args Hw Hu Hn Hne r. unfold r, invoke_by_name.
  destruct (find_member_cases e (own_method db name) (has_method db name) name c Hw (own_method_has db name) Hu Hn Hne)
    as [[H ->]|[(H & W & ->)|[(d & O & R & ->)|[(d & O & R & N & ->)|(d & b & f & O & R & F & ->)]]]]; cbn [whenRan].
  - assert (Z : forall d, ~ object_class e c d).
    { intros d [y O|P _ _]; apply H; [|exists d; auto]. inversion O; subst; eexists; eauto. }
    repeat split; try discriminate; auto; intros (d & O & _); destruct (Z d O).
  - repeat split; try discriminate; try contradiction; intros (d & O & _); destruct (object_class_not_wild e c d O W).
  - assert (Z : of_class c) by (destruct O as [y O|P _ _]; [inversion O; subst; eexists; eauto|exists d; auto]).
    repeat split; try discriminate; try contradiction; try (exists d; auto).
    intros (d' & O' & R' & _). rewrite (object_class_unique e c d' d O' O) in R'. congruence.
  - assert (Z : of_class c) by (destruct O as [y O|P _ _]; [inversion O; subst; eexists; eauto|exists d; auto]).
    repeat split; try discriminate; try contradiction; try (exists d; auto).
    intros (d' & O' & R'). rewrite (object_class_unique e c d' d O' O) in R'. congruence.
  - assert (Z : of_class c) by (destruct O as [y O|P _ _]; [inversion O; subst; eexists; eauto|exists d; auto]).
    repeat split; try discriminate; try contradiction.
    + intros (d' & O' & R'). rewrite (object_class_unique e c d' d O' O) in R'. congruence.
    + intros (d' & O' & R' & N). rewrite (object_class_unique e c d' d O' O) in N. destruct (offers_reach _ _ _ _ _ F) as [Hb Hf].
      destruct (N b f Hb Hf).
Qed.
Print Assumptions C54_invoke_refused.

(** Otherwise it invokes, on this variant and with these arguments, the method that the object's class offers: its own or,
    if it has none of that name, that of the first base that offers one. *)
Theorem C54_invoke_found : forall tr e l db k c name args d b f,
  wf_env e -> usable (c_src c) -> no_array c -> name <> [] ->
  object_class e c d -> e_registered e d = true -> offers (e_graph e) (has_method db name) d b f ->
  invoke_by_name tr e l db k (Some c) name args = Ran (invoke tr e l f ((false, Variant k (Some c)) :: args)).
Proof.
  intros tr e l db k c name args d b f Hw Hu Hn Hne O R F. unfold invoke_by_name.
  rewrite (find_offered e (own_method db name) (has_method db name) name c d b f Hw (own_method_has db name) Hu Hn Hne O R F). reflexivity.
Qed.
Print Assumptions C54_invoke_found.

(** A method that was registered in the class it is a member of, found in the class [b], is called on the object's
    sub-object of class [b], provided it is const or the object may be changed, and the arguments bind: nothing else can go
    wrong. *)
Theorem C54_called : forall tr e l db k c name args d b f m bs,
  wf_env e -> bases_registered e -> pointers_copy e -> own_members db ->
  usable (c_src c) -> no_array c -> not_null c -> one_class c (m_class m) -> name <> [] ->
  object_class e c d -> e_registered e d = true -> offers (e_graph e) (has_method db name) d b f -> f_kind f = OfClass m ->
  few_parameters f -> compiles tr (f_returns f) = true -> List.length args < 10 -> List.length args = List.length (m_params m) ->
  bound_in_order e (m_params m) (map as_argument args) bs ->
  exists x w, names e k c b x w /\ (w = true \/ m_const m = true ->
  let cl := Call (Some x) bs in
  match f_body f cl with
  | None => invoke_by_name tr e l db k (Some c) name args = Ran (Some Exception)
  | Some a => fits_type (f_returns f) a -> (forall s d, a = Refers s d -> exists x, spot_at l (map as_argument args) cl s = Done x) ->
      exists r, invoke_by_name tr e l db k (Some c) name args = Ran (Some (Done r)) /\ r_called r = Some cl
  end).
Proof.
  intros tr e l db k c name args d b f m bs Hw Hbr Hpc Hom Hu Hn Hnn Ho Hne O R F Hk Hf Hcp L Hlen Hbd.
  pose proof (C54_invoke_found tr e l db k c name args d b f Hw Hu Hn Hne O R F) as I.
  destruct (offers_reach _ _ _ _ _ F) as [Hr Hh]. destruct (has_method_in db name b f Hh) as (n & Hin). destruct (Hom b n f m Hin Hk) as [Hb <-].
  destruct (null_not_object e c d Hnn O) as (y & Oy). destruct (object_named e k c d y (b_id (m_class m)) Hw Hbr Oy R Hr) as (x & w & N).
  exists x, w. split; [exact N|]. intros Hq cl.
  assert (E1 : may_be_instance tr (false, Variant k (Some c)) = true) by reflexivity.
  assert (E2 : instance_variant (as_instance l (false, Variant k (Some c))) = (k, Some c)).
  { unfold as_instance. cbn [snd fst]. rewrite orb_false_r. reflexivity. }
  pose proof (C53_member_result tr e l f m (false, Variant k (Some c)) args bs k c x w Hw Hf Hk Hcp E1 L E2 Hb Hpc Hu Ho N Hq Hlen Hbd) as X.
  cbv zeta in X. fold cl in X. destruct (f_body f cl) as [a|].
  - intros Fa Hs. destruct (X Fa Hs) as (r & E & Hc). exists r. split; [exact (eq_trans I (f_equal Ran E))|exact Hc].
  - exact (eq_trans I (f_equal Ran X)).
Qed.
Print Assumptions C54_called.

(** Whatever method is called is called on an object that the variant names; one that is not const only if that object may
    be changed through it. *)
Theorem C54_not_on_const : forall tr e l db k c name args r cl m f d b,
  wf_env e -> no_pointer_converters e -> own_members db -> usable (c_src c) -> no_array c -> not_null c -> one_class c (m_class m) -> name <> [] ->
  object_class e c d -> e_registered e d = true -> offers (e_graph e) (has_method db name) d b f -> f_kind f = OfClass m -> few_parameters f ->
  invoke_by_name tr e l db k (Some c) name args = Ran (Some (Done r)) -> r_called r = Some cl ->
  exists x w, on cl = Some x /\ names e k c b x w /\ (m_const m = false -> w = true).
Proof.
  intros tr e l db k c name args r cl m f d b Hw Hnc Hom Hu Hn Hnn Ho Hne O R F Hk Hf H Hc.
  rewrite (C54_invoke_found tr e l db k c name args d b f Hw Hu Hn Hne O R F) in H. injection H as H.
  destruct (offers_reach _ _ _ _ _ F) as [Hr Hh]. destruct (has_method_in db name b f Hh) as (n & Hin). destruct (Hom b n f m Hin Hk) as [Hb <-].
  destruct (invoke_inv tr e l f _ r Hf H) as (g & rest & E & _ & _ & K). injection E as <- <-. rewrite Hk in K.
  unfold as_instance in K. cbn [snd fst instance_variant] in K. rewrite orb_false_r in K.
  destruct K as ([x|] & M & K); [|subst r; discriminate]. destruct K as (c' & On & _ & D).
  rewrite (proj1 (deliver_inv _ _ _ _ _ _ D)) in Hc. injection Hc as ->.
  destruct (member_object_names e k (Some c) m x Hw Hb Hnc) as (c0 & w & E & N & W); [intros c1 E1; injection E1 as <-; auto|exact M|].
  injection E as <-. exists x, w. auto.
Qed.
Print Assumptions C54_not_on_const.

(** set_property and get_property refuse for the same three reasons; a refused set changes nothing. *)
Theorem C54_property_refused : forall e read db c name a m,
  wf_env e -> usable (c_src c) -> no_array c -> name <> [] ->
  let s := set_by_name e read db (Some c) name a m in
  let g := get_by_name e db (Some c) name m in
  (forall w, snd s = Refused w <-> g = Refused w) /\ (forall w, g = Refused w -> fst s = m) /\
  (g = Refused Not_a_class <-> ~ of_class c) /\
  (g = Refused Not_registered <-> exists d, object_class e c d /\ e_registered e d = false) /\
  (g = Refused Not_found <-> exists d, object_class e c d /\ e_registered e d = true /\
     forall b p, reach (e_graph e) d b -> ~ has_property db name b p).
Proof.
  intros e read db c name a m Hw Hu Hn Hne s g. unfold s, g, set_by_name, get_by_name.
  destruct (find_member_cases e (own_property db name) (has_property db name) name c Hw (own_property_has db name) Hu Hn Hne)
    as [[H ->]|[(H & W & ->)|[(d & O & R & ->)|[(d & O & R & N & ->)|(d & b & f & O & R & F & ->)]]]]; cbn [whenRan fst snd].
  - assert (Z : forall d, ~ object_class e c d).
    { intros d [y O|P _ _]; apply H; [|exists d; auto]. inversion O; subst; eexists; eauto. }
    repeat split; try discriminate; auto; try (intros (d & O & _); destruct (Z d O)); intros [= <-]; reflexivity.
  - repeat split; try discriminate; try contradiction; try (intros (d & O & _); destruct (object_class_not_wild e c d O W)).
  - assert (Z : of_class c) by (destruct O as [y O|P _ _]; [inversion O; subst; eexists; eauto|exists d; auto]).
    repeat split; try discriminate; try contradiction; try (exists d; auto); try congruence.
    intros (d' & O' & R' & _). rewrite (object_class_unique e c d' d O' O) in R'. congruence.
  - assert (Z : of_class c) by (destruct O as [y O|P _ _]; [inversion O; subst; eexists; eauto|exists d; auto]).
    repeat split; try discriminate; try contradiction; try (exists d; auto); try congruence.
    intros (d' & O' & R'). rewrite (object_class_unique e c d' d O' O) in R'. congruence.
  - assert (Z : of_class c) by (destruct O as [y O|P _ _]; [inversion O; subst; eexists; eauto|exists d; auto]).
    destruct (property_set e read f (Some (ByVariant false (Some c))) a m) as [m' o]. cbn [fst snd].
    repeat split; try discriminate; try contradiction.
    + intros (d' & O' & R'). rewrite (object_class_unique e c d' d O' O) in R'. congruence.
    + intros (d' & O' & R' & N). rewrite (object_class_unique e c d' d O' O) in N. destruct (offers_reach _ _ _ _ _ F) as [Hb Hf].
      destruct (N b f Hb Hf).
Qed.
Print Assumptions C54_property_refused.

(** A data member, registered in the class it is a member of and found in the class [b], is the one of the object's
    sub-object of class [b]: get_property refers to it, through every variant that names the same sub-object, *)
Theorem C54_get : forall e db c name m d k b off T,
  wf_env e -> bases_registered e -> pointers_copy e -> own_fields db ->
  usable (c_src c) -> no_array c -> not_null c -> one_class c b -> name <> [] ->
  object_class e c d -> e_registered e d = true -> offers (e_graph e) (has_property db name) d k (Data b off T) ->
  exists x w, names e false c k x w /\ get_by_name e db (Some c) name m = Ran (Done (Reference (x + off))).
Proof.
  intros e db c name m d k b off T Hw Hbr Hpc Hof Hu Hn Hnn Ho Hne O R F. unfold get_by_name.
  rewrite (find_offered e (own_property db name) (has_property db name) name c d k _ Hw (own_property_has db name) Hu Hn Hne O R F).
  destruct (offers_reach _ _ _ _ _ F) as [Hr Hh]. destruct (Hof k name b off T (has_property_in db name k _ Hh)) as [Hb <-].
  destruct (null_not_object e c d Hnn O) as (y & Oy). destruct (object_named e false c d y (b_id b) Hw Hbr Oy R Hr) as (x & w & N).
  exists x, w. split; [exact N|]. cbn [whenRan]. rewrite (field_get e b off T c m x false w); auto.
Qed.
Print Assumptions C54_get.

(** and set_property writes it, if its type and the object allow it and the value binds; then the value is read back, by
    name, through this variant and every other that names the same sub-object, and nothing else has changed. *)
Theorem C54_set : forall e read db c name a m d k b off T bd,
  wf_env e -> bases_registered e -> pointers_copy e -> own_fields db ->
  usable (c_src c) -> no_array c -> not_null c -> one_class c b -> name <> [] ->
  object_class e c d -> e_registered e d = true -> offers (e_graph e) (has_property db name) d k (Data b off T) ->
  is_const T = false -> arg_value e a (mkQ RNone T) = Got bd ->
  exists x w, names e false c k x w /\ (w = true ->
    exists m', set_by_name e read db (Some c) name a m = (m', Ran (Done tt)) /\
      m' (x + off) = read a bd /\ (forall y, y <> x + off -> m' y = m y)).
Proof.
  intros e read db c name a m d k b off T bd Hw Hbr Hpc Hof Hu Hn Hnn Ho Hne O R F HT A. unfold set_by_name.
  rewrite (find_offered e (own_property db name) (has_property db name) name c d k _ Hw (own_property_has db name) Hu Hn Hne O R F).
  destruct (offers_reach _ _ _ _ _ F) as [Hr Hh]. destruct (Hof k name b off T (has_property_in db name k _ Hh)) as [Hb <-].
  destruct (null_not_object e c d Hnn O) as (y & Oy). destruct (object_named e false c d y (b_id b) Hw Hbr Oy R Hr) as (x & w & N).
  exists x, w. split; [exact N|]. intros ->. rewrite (field_settable e read b off T c a m x bd); auto; [|eapply class_holds; eassumption].
  eexists. split; [reflexivity|]. unfold write. rewrite Nat.eqb_refl. split; [reflexivity|]. intros z Hz.
  destruct (Nat.eqb_spec z (x + off)); [contradiction|reflexivity].
Qed.
Print Assumptions C54_set.

Theorem C54_set_get : forall e read db c name a m m' d k b off T,
  wf_env e -> no_pointer_converters e -> pointers_copy e -> own_fields db ->
  usable (c_src c) -> no_array c -> not_null c -> one_class c b -> name <> [] ->
  object_class e c d -> e_registered e d = true -> offers (e_graph e) (has_property db name) d k (Data b off T) ->
  set_by_name e read db (Some c) name a m = (m', Ran (Done tt)) ->
  exists bd x, arg_value e a (mkQ RNone T) = Got bd /\ is_const T = false /\ names e false c k x true /\
    m' (x + off) = read a bd /\ (forall y, y <> x + off -> m' y = m y) /\
    forall c2 name2 d2 k2 v w, usable (c_src c2) -> no_array c2 -> one_class c2 b -> name2 <> [] ->
      object_class e c2 d2 -> e_registered e d2 = true -> offers (e_graph e) (has_property db name2) d2 k2 (Data b off T) ->
      names e v c2 k x w -> get_by_name e db (Some c2) name2 m' = Ran (Done (Reference (x + off))).
Proof.
  intros e read db c name a m m' d k b off T Hw Hnc Hpc Hof Hu Hn Hnn Ho Hne O R F H. unfold set_by_name in H.
  rewrite (find_offered e (own_property db name) (has_property db name) name c d k _ Hw (own_property_has db name) Hu Hn Hne O R F) in H.
  destruct (offers_reach _ _ _ _ _ F) as [Hr Hh]. destruct (Hof k name b off T (has_property_in db name k _ Hh)) as [Hb <-].
  destruct (property_set e read (Data b off T) (Some (ByVariant false (Some c))) a m) as [m1 o] eqn:S. injection H as -> ->.
  destruct (field_set e read b off T c a m m' Hw Hb Hnc Hu Hnn Ho (class_holds e c d Hu O) S) as (bd & x & A & N & -> & HT).
  exists bd, x. repeat (split; [solve [auto]|]). split; [unfold write; rewrite Nat.eqb_refl; reflexivity|]. split.
  - intros y Hy. unfold write. destruct (Nat.eqb_spec y (x + off)); [contradiction|reflexivity].
  - intros c2 name2 d2 k2 v w Hu2 Hn2 Ho2 Hne2 O2 R2 F2 N2. unfold get_by_name.
    rewrite (find_offered e (own_property db name2) (has_property db name2) name2 c2 d2 k2 _ Hw (own_property_has db name2) Hu2 Hn2 Hne2 O2 R2 F2).
    cbn [whenRan]. rewrite (field_get e b off T c2 _ x v w); auto.
Qed.
Print Assumptions C54_set_get.

(** A pair of member functions that keep what is set. *)
Theorem C54_accessors_partial : forall e read db c name a m m' d k g s get set q,
  wf_env e -> no_pointer_converters e -> pointers_copy e -> b_kind (m_class s) = KClass ->
  usable (c_src c) -> no_array c -> not_null c -> one_class c (m_class s) -> name <> [] ->
  object_class e c d -> e_registered e d = true -> offers (e_graph e) (has_property db name) d k (Accessors g s get set) ->
  m_class g = m_class s -> m_const g = true -> m_params g = [] -> m_params s = [q] -> (forall m x w, get (set m x w) x = w) ->
  set_by_name e read db (Some c) name a m = (m', Ran (Done tt)) ->
  exists bd, arg_value e a q = Got bd /\ get_by_name e db (Some c) name m' = Ran (Done (Value (read a bd))).
Proof.
  intros e read db c name a m m' d k g s get set q Hw Hnc Hpc Hb Hu Hn Hnn Ho Hne O R F Eg Hgc Hgp Hsp Law H. unfold set_by_name in H. unfold get_by_name.
  rewrite (find_offered e (own_property db name) (has_property db name) name c d k _ Hw (own_property_has db name) Hu Hn Hne O R F) in *.
  destruct (property_set e read (Accessors g s get set) (Some (ByVariant false (Some c))) a m) as [m1 o] eqn:S. injection H as -> ->.
  destruct (C30_accessors_set_get_partial e read g s get set (ByVariant false (Some c)) a q m m' Hw Hb Hnc Hpc) as (bd & A & G); auto.
  - cbn. intros c1 E. injection E as <-. auto.
  - cbn [instance_variant snd]. eapply class_holds; eassumption.
  - exists bd. split; [exact A|]. cbn [whenRan]. unfold property_get in *. cbn [isStatic instance_variant snd] in *. rewrite G. reflexivity.
Qed.
Print Assumptions C54_accessors_partial.

(** Properties that are variables are found, too, but neither set nor get on a variant goes on. *)
Theorem C54_static_property : forall e read db c name a m d k x T,
  wf_env e -> usable (c_src c) -> no_array c -> name <> [] ->
  object_class e c d -> e_registered e d = true -> offers (e_graph e) (has_property db name) d k (Global x T) ->
  set_by_name e read db (Some c) name a m = (m, Ran Invoke_error) /\ get_by_name e db (Some c) name m = Ran Invoke_error.
Proof.
  intros e read db c name a m d k x T Hw Hu Hn Hne O R F. unfold set_by_name, get_by_name.
  rewrite (find_offered e (own_property db name) (has_property db name) name c d k _ Hw (own_property_has db name) Hu Hn Hne O R F).
  split; reflexivity.
Qed.
Print Assumptions C54_static_property.

(** A variant that holds an object or refers to it, and one that holds a pointer to it: the same method or property is
    found, or the same refusal comes, and they name the same sub-objects. *)
Theorem C54_same_object : forall e db c1 c2 k x name,
  wf_env e -> usable (c_src c1) -> usable (c_src c2) -> no_array c1 -> no_array c2 ->
  class_type (held c1) k -> c_at c1 = x -> pointer_type (held c2) k -> c_ptr c2 = Some x ->
  find_member e (own_method db name) name (Some c1) = find_member e (own_method db name) name (Some c2) /\
  find_member e (own_property db name) name (Some c1) = find_member e (own_property db name) name (Some c2) /\
  forall k1 k2 b z w, names e k1 c1 b z w -> exists w', names e k2 c2 b z w'.
Proof.
  intros e db c1 c2 k x name Hw Hu1 Hu2 Hn1 Hn2 C1 A1 P2 A2.
  assert (X : class_of_variant e (Some c1) = class_of_variant e (Some c2)).
  { destruct (class_of_variant_cases e c1 Hu1 Hn1) as [[H _]|[(_ & (j & P & _) & _)|(d1 & _ & O1 & ->)]].
    - destruct H. exists k. auto.
    - destruct (class_not_pointer _ _ _ C1 P).
    - destruct (class_of_variant_cases e c2 Hu2 Hn2) as [[H _]|[(_ & (j & P & N & _) & _)|(d2 & _ & O2 & ->)]].
      + destruct H. exists k. auto.
      + congruence.
      + apply (same_object_class e c1 c2 k x d1 C1 A1 P2 A2) in O1. rewrite (object_class_unique e c2 d1 d2 O1 O2). reflexivity. }
  unfold find_member. rewrite X. split; [reflexivity|]. split; [reflexivity|]. intros. eapply same_names; eassumption.
Qed.
Print Assumptions C54_same_object.

(** An empty variant and an empty name: refused. *)
Theorem C54_empty : forall tr e l db k name args c d,
  invoke_by_name tr e l db k None name args = Refused Not_a_class /\
  (wf_env e -> usable (c_src c) -> no_array c -> object_class e c d -> e_registered e d = true ->
   invoke_by_name tr e l db k (Some c) [] args = Refused Not_found).
Proof.
  intros tr e l db k name args c d. split; [reflexivity|]. intros (Hc & Ha & Hr) Hu Hn O R. unfold invoke_by_name, find_member.
  destruct (class_of_variant_cases e c Hu Hn) as [[H _]|[(_ & W & _)|(d1 & _ & O1 & ->)]].
  - destruct H. destruct O as [y O|P _ _]; [inversion O; subst; eexists; eauto|exists d; auto].
  - destruct (object_class_not_wild e c d O W).
  - rewrite (object_class_unique e c d1 d O1 O), R. cbn [whenRan is_empty]. specialize (Hr d R).
    rewrite C17_empty_query by (unfold fuel; lia). reflexivity.
Qed.
Print Assumptions C54_empty.

(** Defined but for a null pointer to a class with classInfo, and always to an end. *)
Theorem C54_defined : forall e db c name,
  wf_env e -> usable (c_src c) -> no_array c -> name <> [] ->
  find_member e (own_method db name) name (Some c) <> Endless /\
  (find_member e (own_method db name) name (Some c) = Wild <-> exists k, pointer_type (held c) k /\ c_ptr c = None /\ e_declares e k = true).
Proof.
  intros e db c name Hw Hu Hn Hne.
  destruct (find_member_cases e (own_method db name) (has_method db name) name c Hw (own_method_has db name) Hu Hn Hne)
    as [[H ->]|[(H & W & ->)|[(d & O & R & ->)|[(d & O & R & N & ->)|(d & b & f & O & R & F & ->)]]]]; (split; [discriminate|]).
  - split; [discriminate|]. intros (k & P & _). destruct H. exists k. auto.
  - split; [intros _; exact W|reflexivity].
  - split; [discriminate|]. intro W. destruct (object_class_not_wild e c d O W).
  - split; [discriminate|]. intro W. destruct (object_class_not_wild e c d O W).
  - split; [discriminate|]. intro W. destruct (object_class_not_wild e c d O W).
Qed.
Print Assumptions C54_defined.

(** ** Cases *)

Definition a_getter := member_fn 0 true [] (RType (lref t_cint)) (Some (Refers (InObject 4) (of 1))).
Definition a_setter := member_fn 0 false [byval t_int] RVoid (Some Nil).
Definition db0 : classes := {|
  methods := fun k => match k with
                      | 0 => [(txt "get()", a_getter); (txt "set(int)", a_setter); (txt "own()", member_fn 0 true [] RVoid (Some Nil))]
                      | 2 => [(txt "own()", member_fn 2 true [] RVoid None); (txt "count()", static_fn [] (RType (byval t_int)) (Some (Yields (of 3))))]
                      | _ => []
                      end;
  properties := fun k => match k with
                         | 0 => [(txt "x", Data (b_class 0) 4 t_int); (txt "y", Data (b_class 0) 8 t_cint)]
                         | 2 => [(txt "y", Data (b_class 2) 12 t_int); (txt "n", Global 77 t_int)]
                         | _ => []
                         end |}.
Definition an_object := value (t_class 2) 500 [7].
Definition a_pointer := pointer (t_class 2) 900 (Some 500).

Example C54_case_invoke :
  let call k c name args := invoke_by_name some_traits world place db0 k (Some c) (txt name) args in
  (* inherited, through an object, a pointer and a const variant *)
  call false an_object "get"%string [] = Ran (Some (Done (Result (Some (Call (Some 516) [])) (Some (refer_to t_cint 520 (of 1))) true))) /\
  call false a_pointer "get()"%string [] = call false an_object "get"%string [] /\
  call true an_object "get"%string [] = call false an_object "get"%string [] /\
  call false an_object "set"%string [int_at 901 1] = Ran (Some (Done (Result (Some (Call (Some 516) [Temp Same])) None true))) /\
  call true an_object "set"%string [int_at 901 1] = Ran (Some Exception) /\
  call true a_pointer "set"%string [int_at 901 1] = call false an_object "set"%string [int_at 901 1] /\
  (* hidden *)
  call false an_object "own"%string [] = Ran (Some Exception) /\
  call false (value (t_class 1) 500 [7]) "own"%string [] = Ran (Some (Done (Result (Some (Call (Some 500) [])) None true))) /\
  (* refused *)
  call false an_object "other"%string [] = Refused Not_found /\
  call false (value (t_class 8) 500 [7]) "get"%string [] = Refused Not_registered /\
  call false (value t_int 900 [7]) "get"%string [] = Refused Not_a_class.
Proof. vm_compute. repeat split. Qed.

Example C54_case_properties :
  let get c name m := get_by_name world db0 (Some c) (txt name) m in
  let set c name a m := set_by_name world read_first db0 (Some c) (txt name) a m in
  get an_object "x"%string mem0 = Ran (Done (Reference 520)) /\ get a_pointer "x"%string mem0 = Ran (Done (Reference 520)) /\
  get an_object "y"%string mem0 = Ran (Done (Reference 512)) /\
  snd (set an_object "x"%string (an_int 3) mem0) = Ran (Done tt) /\ fst (set an_object "x"%string (an_int 3) mem0) 520 = read_first (an_int 3) (Temp Same) /\
  snd (set (value (t_class 1) 500 [7]) "y"%string (an_int 3) mem0) = Ran Invoke_error /\
  snd (set an_object "n"%string (an_int 3) mem0) = Ran Invoke_error /\ snd (set an_object "z"%string (an_int 3) mem0) = Refused Not_found.
Proof. repeat split. Qed.

Lemma world_bases : bases_registered world.
Proof.
  intros a d (l & f & Hn & Hin). destruct a as [|[|[|[|a]]]]; cbn in Hn; try (destruct a; discriminate); injection Hn as <-; cbn in Hin;
    repeat (destruct Hin as [Hin|Hin]; [injection Hin as <- _; reflexivity|]); destruct Hin.
Qed.

Example C54_case_hypotheses :
  bases_registered world /\ own_members db0 /\ own_fields db0 /\ pointers_copy world /\ no_pointer_converters world /\
  usable (c_src an_object) /\ no_array an_object /\ not_null an_object /\ one_class an_object (b_class 0) /\
  object_class world an_object 2 /\ e_registered world 2 = true /\
  offers (e_graph world) (has_method db0 (txt "get")) 2 0 a_getter /\
  offers (e_graph world) (has_property db0 (txt "x")) 2 0 (Data (b_class 0) 4 t_int) /\
  offers (e_graph world) (has_property db0 (txt "n")) 2 2 (Global 77 t_int) /\
  class_type (held an_object) 2 /\ pointer_type (held a_pointer) 2 /\ c_ptr a_pointer = Some (c_at an_object) /\ usable (c_src a_pointer).
Proof.
  assert (P : forall name p, own_property db0 name 2 = None -> own_property db0 name 0 = Some p -> offers (e_graph world) (has_property db0 name) 2 0 p).
  { intros name p H2 H0. apply own_property_has in H0. apply (OffersBase _ _ 2 [] 0 (fun x => x + 16) [] 0 p).
    - apply (proj1 (own_none _ _ (own_property_has db0 name) 2) H2).
    - reflexivity.
    - intros d' f' b m' [].
    - constructor. exact H0. }
  split; [exact world_bases|]. split.
  { intros k n f m Hin Hk. destruct k as [|[|[|k]]]; cbn in Hin; try contradiction;
      repeat (destruct Hin as [Hin|Hin]; [injection Hin as <- <-; cbn in Hk; try discriminate; injection Hk as <-; auto|]); destruct Hin. }
  split.
  { intros k n b off T Hin. destruct k as [|[|[|k]]]; cbn in Hin; try contradiction;
      repeat (destruct Hin as [Hin|Hin]; [try discriminate; injection Hin as <- <- <- <-; auto|]); destruct Hin. }
  split; [exact world_pointers_copy|]. split; [exact world_no_pointer_converters|]. split; [usable_tac|].
  split; [split; [reflexivity|discriminate]|]. split; [intros [i (c1 & v1 & u & E & _)]; discriminate|]. split.
  { intros t [E|(c1 & v1 & E)] (c2 & v2 & b & Et & _ & Hb); [|discriminate]. rewrite <- E in Et. injection Et as <- <- <-. discriminate. }
  split; [apply (ClassOfObject _ _ _ 500); eapply (ObjClass _ _ 2); [repeat eexists|apply (KnownDynamic world 2 500); reflexivity]|].
  split; [reflexivity|]. split.
  { apply (OffersBase _ _ 2 [] 0 (fun x => x + 16) [] 0 a_getter).
    - apply (proj1 (own_none _ _ (own_method_has db0 (txt "get")) 2)). reflexivity.
    - reflexivity.
    - intros d' f' b m' [].
    - constructor. apply own_method_has. reflexivity. }
  split; [apply P; reflexivity|]. split; [constructor; apply own_property_has; reflexivity|].
  split; [repeat eexists|]. split; [repeat eexists|]. split; [reflexivity|usable_tac].
Qed.

(** ** What does not hold *)

(** Registered, found, the arguments right, and yet not callable: `_method("f", &Derived::f)` where f is inherited from a
    class that is not registered. The type of `&Derived::f` is that of a member of the base. *)
Theorem C54_inherited_member_refuted : exists db f m,
  has_method db (txt "f") 1 f /\ f_kind f = OfClass m /\ m_params m = [] /\ e_registered world (b_id (m_class m)) = false /\
  object_class world (value (t_class 1) 500 [7]) 1 /\
  invoke_by_name some_traits world place db false (Some (value (t_class 1) 500 [7])) (txt "f") [] = Ran (Some Exception).
Proof.
  exists (Classes (fun k => if k =? 1 then [(txt "f()", member_fn 9 true [] RVoid (Some Nil))] else []) (fun _ => [])).
  do 2 eexists. split; [apply own_method_has; reflexivity|]. split; [reflexivity|]. split; [reflexivity|]. split; [reflexivity|].
  split; [|reflexivity]. apply (ClassOfObject _ _ _ 500). eapply (ObjClass _ _ 1); [repeat eexists|apply KnownStatic; reflexivity].
Qed.
Print Assumptions C54_inherited_member_refuted.

(** Overloads: by the bare name only the first one is tried, whatever the arguments; the second is called by its full
    signature. *)
Theorem C54_overload_refuted : exists db args r,
  invoke_by_name some_traits world place db false (Some an_object) (txt "f") args = Ran (Some Exception) /\
  invoke_by_name some_traits world place db false (Some an_object) (txt "f(B const&)") args = Ran (Some (Done r)) /\ r_called r <> None.
Proof.
  exists (Classes (fun k => if k =? 2 then [(txt "f(int)", member_fn 2 true [byval t_int] RVoid (Some Nil));
                                            (txt "f(B const&)", member_fn 2 true [lref (t_cclass 1)] RVoid (Some Nil))] else []) (fun _ => [])),
         [(false, Object (value (t_class 1) 600 [7]))].
  eexists. split; [reflexivity|]. split; [reflexivity|discriminate].
Qed.
Print Assumptions C54_overload_refuted.

(** An array of objects passes the test for classes, but the message is that its class, which is registered, is not. *)
Theorem C54_array_refuted : exists c b n, held c = TArr (TBase false false b) n /\ b_kind b = KClass /\ e_registered world (b_id b) = true /\
  holds_class (Some c) = true /\
  invoke_by_name some_traits world place db0 false (Some c) (txt "get") [] = Refused Not_registered.
Proof. exists (wrapper (TArr (t_class 0) 2%N) 500 [7; 8]), (b_class 0), 2%N. repeat split. Qed.
Print Assumptions C54_array_refuted.

(** A static method of the class is found, but gets the variant as its first argument: one without parameters cannot be
    called. *)
Theorem C54_static_refuted : exists f, has_method db0 (txt "count") 2 f /\ f_kind f = Static [] /\
  invoke_by_name some_traits world place db0 false (Some an_object) (txt "count") [] = Ran (Some Invoke_error).
Proof. eexists. split; [apply own_method_has; reflexivity|]. split; reflexivity. Qed.
Print Assumptions C54_static_refuted.

(** Even asking a null pointer for a property that does not exist is undefined if its class has classInfo. *)
Theorem C54_null_refuted : exists c, pointer_type (held c) 2 /\ usable (c_src c) /\
  get_by_name world db0 (Some c) (txt "nothing") mem0 = Wild.
Proof. exists (pointer (t_class 2) 900 None). split; [repeat eexists|]. split; [usable_tac|reflexivity]. Qed.
Print Assumptions C54_null_refuted.

(** D derives from B1 and B2, both from A, not virtually; all have classInfo. Through a pointer to the B2 of a D a method of
    A is called on the A of B1, although B2 has only one A. *)
Definition twice : env :=
  {| e_graph := [[]; [(0, fun x => x)]; [(0, fun x => x)]; [(1, fun x => x); (2, fun x => x + 32)]];
     e_registered := fun k => k <? 4; e_declares := fun _ => true;
     e_dyn := fun k x => if (k =? 2) && (x =? 532) then (3, 500) else (k, x);
     e_copies := fun _ => true; e_conv := fun _ _ => None; e_cmp := fun _ => None; e_hash := fun _ => 0 |}.

Theorem C54_other_base_refuted : exists c fs r cl,
  pointer_type (held c) 2 /\ c_ptr c = Some 532 /\ (forall gs, chain (e_graph twice) 2 0 gs -> along gs 532 = along fs 532) /\
  chain (e_graph twice) 2 0 fs /\
  invoke_by_name some_traits twice place db0 false (Some c) (txt "get") [] = Ran (Some (Done r)) /\ r_called r = Some cl /\
  on cl <> Some (along fs 532).
Proof.
  exists (pointer (t_class 2) 900 (Some 532)), [fun x => x].
  assert (Z : forall gs, chain (e_graph twice) 0 0 gs -> gs = []).
  { intros gs H. inversion H as [|a l d f b fs Hn Hin]; subst; [reflexivity|]. cbn in Hn. injection Hn as <-. destruct Hin. }
  do 2 eexists. split; [repeat eexists|]. split; [reflexivity|]. split.
  { intros gs H. inversion H as [|a l d f b fs Hn Hin Hc]; subst. cbn in Hn. injection Hn as <-. destruct Hin as [E|[]]. injection E as <- <-.
    rewrite (Z _ Hc). reflexivity. }
  split; [eapply ChStep; [reflexivity|left; reflexivity|constructor]|]. split; [vm_compute; reflexivity|]. split; [reflexivity|].
  cbn. discriminate.
Qed.
Print Assumptions C54_other_base_refuted.
