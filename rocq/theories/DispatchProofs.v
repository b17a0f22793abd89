(** Lemmas for C54. *)
From Coq Require Import NArith List Bool Arith Lia Ascii.
From Verif Require Import TypesModel TypesSpec TypesProofs InheritModel InheritSpec InheritProofs InheritProps StringsModel StringsSpec StringsProofs.
From Verif Require Import AccModel AccSpec AccProofs CallModel CallSpec CallProofs CallProps ReturnModel ReturnSpec ReturnProofs.
From Verif Require Import DispatchModel DispatchSpec.
Import ListNotations.

(** ** The class *)

Lemma base_kind_class b : kind_is KClass b = true <-> b_kind b = KClass.
Proof. unfold kind_is. destruct (base_kind_eq_dec _ _); intuition congruence. Qed.

Lemma holds_iff c : usable (c_src c) -> no_array c -> (holds_class (Some c) || holds_class_ptr (Some c) = true <-> of_class c).
Proof.
  intros Hu [Ha Hp]. split.
  - intro H. unfold holds_class, holds_class_ptr, type_id in H. rewrite (stored_held c (usable_arrays _ Hu)) in H. unfold of_class.
    destruct (held c) as [cq v b|cq v t|t n] eqn:E; [| |discriminate].
    + rewrite isClass_info, isClassPtr_info in H by (cbn; lia). cbn in H. rewrite andb_true_r, orb_false_r in H.
      apply base_kind_class in H. exists (b_id b). left. exists cq, v, b. auto.
    + rewrite isClass_info in H. cbn [is_pointer q_ty] in H. rewrite andb_false_r in H. cbn [orb] in H.
      assert (L : pointer_arity (TPtr cq v t) < 16).
      { rewrite <- E. destruct Hu as [[_ [_ L]] _]. unfold held. revert L. destruct (c_form c); cbn; [|auto].
        destruct (c_src c); cbn; auto. }
      rewrite isClassPtr_info in H by exact L. cbn [q_ty is_pointer] in H. rewrite andb_true_r in H. apply andb_true_iff in H as [H1 H2].
      destruct t as [cq' v' b|cq' v' t|t n]; [|cbn in H1; discriminate|exfalso; eapply Hp; reflexivity].
      apply base_kind_class in H2. exists (b_id b). right. exists cq, v, (TBase cq' v' b). split; [reflexivity|]. exists cq', v', b. auto.
  - intros (k & [H|H]).
    + destruct (holds_class_of c k Hu H) as [-> _]. reflexivity.
    + destruct (holds_ptr_of c k Hu H) as [-> ->]. reflexivity.
Qed.

Lemma class_not_array t k : class_type t k -> is_array t = false.
Proof. intros (c & v & b & -> & _). reflexivity. Qed.
Lemma pointer_not_array t k : pointer_type t k -> is_array t = false.
Proof. intros (c & v & u & -> & _). reflexivity. Qed.
Lemma class_not_pointer t k j : class_type t k -> ~ pointer_type t j.
Proof. intros (c & v & b & -> & _) (c' & v' & u & E & _). discriminate. Qed.
Lemma class_unique t k j : class_type t k -> class_type t j -> k = j.
Proof. intros (c & v & b & -> & _ & <-) (c' & v' & b' & E & _ & <-). injection E as _ _ <-. reflexivity. Qed.
Lemma pointer_unique t k j : pointer_type t k -> pointer_type t j -> k = j.
Proof. intros (c & v & u & -> & H) (c' & v' & u' & E & H'). injection E as _ _ <-. eapply class_unique; eassumption. Qed.

(** What class_info tells, as what the object is. *)
Lemma class_info_class e c k : usable (c_src c) -> class_type (held c) k ->
  exists d y, class_info e c = Got (Some (d, Some y)) /\ known e k (c_at c) d y.
Proof.
  intros Hu H. unfold class_info. rewrite (stored_held c (usable_arrays _ Hu)), (class_not_array _ _ H).
  rewrite (proj2 (tag_class (mkQ RNone (held c)) k) H). destruct (e_declares e k) eqn:D.
  - pose proof (KnownDynamic e k (c_at c) D) as K. destruct (e_dyn e k (c_at c)) as [d y]. exists d, y. auto.
  - exists k, (c_at c). split; [reflexivity|]. constructor. exact D.
Qed.
Lemma class_info_pointer e c k : usable (c_src c) -> pointer_type (held c) k ->
  (exists p d y, c_ptr c = Some p /\ class_info e c = Got (Some (d, Some y)) /\ known e k p d y) \/
  (c_ptr c = None /\ e_declares e k = false /\ class_info e c = Got (Some (k, None))) \/
  (c_ptr c = None /\ e_declares e k = true /\ class_info e c = Undef).
Proof.
  intros Hu H. unfold class_info. rewrite (stored_held c (usable_arrays _ Hu)), (pointer_not_array _ _ H).
  rewrite (pointer_tag (mkQ RNone (held c)) k H). destruct (c_ptr c) as [p|] eqn:P.
  - left. destruct (e_declares e k) eqn:D.
    + pose proof (KnownDynamic e k p D) as K. destruct (e_dyn e k p) as [d y]. exists p, d, y. auto.
    + exists p, k, p. split; [reflexivity|]. split; [reflexivity|]. constructor. exact D.
  - right. destruct (e_declares e k); auto.
Qed.

Lemma known_unique e k x d y d' y' : known e k x d y -> known e k x d' y' -> d = d' /\ y = y'.
Proof. intros [H|H] [H'|H']; try congruence; auto. Qed.

Lemma object_class_unique e c d d' : object_class e c d -> object_class e c d' -> d = d'.
Proof.
  intros [y O|P N D] [y' O'|P' N' D'].
  - inversion O as [k d1 y1 C K E1 E2|k p d1 y1 C Hp K E1 E2]; inversion O' as [k' d1' y1' C' K' E1' E2'|k' p' d1' y1' C' Hp' K' E1' E2']; subst.
    + rewrite (class_unique _ _ _ C' C) in K'. apply (known_unique _ _ _ _ _ _ _ K K').
    + destruct (class_not_pointer _ _ _ C C').
    + destruct (class_not_pointer _ _ _ C' C).
    + rewrite (pointer_unique _ _ _ C' C) in K'. rewrite Hp in Hp'. injection Hp' as <-. apply (known_unique _ _ _ _ _ _ _ K K').
  - inversion O; subst; [destruct (class_not_pointer _ _ _ H P')|congruence].
  - inversion O'; subst; [destruct (class_not_pointer _ _ _ H P)|congruence].
  - eapply pointer_unique; eassumption.
Qed.

Definition wild (e : env) (c : content) : Prop := exists k, pointer_type (held c) k /\ c_ptr c = None /\ e_declares e k = true.

Lemma object_class_not_wild e c d : object_class e c d -> ~ wild e c.
Proof.
  intros [y O|P N D] (k & P' & N' & D').
  - inversion O; subst; [eapply class_not_pointer; eassumption|congruence].
  - rewrite (pointer_unique _ _ _ P P') in D. congruence.
Qed.

(** The class of a variant, in full. *)
Lemma class_of_variant_cases e c : usable (c_src c) -> no_array c ->
  (~ of_class c /\ class_of_variant e (Some c) = Refused Not_a_class) \/
  (of_class c /\ wild e c /\ class_of_variant e (Some c) = Wild) \/
  (exists d, of_class c /\ object_class e c d /\
     class_of_variant e (Some c) = if e_registered e d then Ran d else Refused Not_registered).
Proof.
  intros Hu Hn. unfold class_of_variant. destruct (holds_class (Some c) || holds_class_ptr (Some c)) eqn:H.
  - apply holds_iff in H; auto. right. destruct H as (k & [C|P]).
    + right. destruct (class_info_class e c k Hu C) as (d & y & -> & K). exists d. split; [exists k; auto|]. split; [|reflexivity].
      apply (ClassOfObject _ _ _ y). eapply ObjClass; eassumption.
    + destruct (class_info_pointer e c k Hu P) as [(p & d & y & Hp & -> & K)|[(Hp & D & ->)|(Hp & D & ->)]].
      * right. exists d. split; [exists k; auto|]. split; [|reflexivity]. apply (ClassOfObject _ _ _ y). eapply ObjPointer; eassumption.
      * right. exists k. split; [exists k; auto|]. split; [|reflexivity]. apply ClassOfNull; assumption.
      * left. split; [exists k; auto|]. split; [|reflexivity]. exists k. auto.
  - left. split; [|reflexivity]. intro O. apply (holds_iff c Hu Hn) in O. congruence.
Qed.

(** ** The member *)

Section Member.
  Context {M : Type}.
  Variables (g : graph nat) (own : nat -> option M) (has : nat -> M -> Prop).
  Hypothesis own_has : forall k m, own k = Some m <-> has k m.

  Lemma own_none k : own k = None <-> forall m, ~ has k m.
  Proof.
    split.
    - intros H m Hm. apply own_has in Hm. congruence.
    - intro H. destruct (own k) as [m|] eqn:E; [|reflexivity]. apply own_has in E. destruct (H m E).
  Qed.

  Lemma finds_offers a m : finds g own a m -> exists c, offers g has a c m.
  Proof.
    induction 1 as [a m H|a l1 d f l2 m H Hn Hl Hf (c & IH)].
    - exists a. constructor. apply own_has, H.
    - exists c. eapply OffersBase; [apply own_none, H|exact Hn| |exact IH]. intros d' f' b m' Hin Hr. apply own_none. eapply Hl; eassumption.
  Qed.
  Lemma offers_finds a c m : offers g has a c m -> finds g own a m.
  Proof.
    induction 1 as [a m H|a l1 d f l2 c m H Hn Hl Ho IH].
    - constructor. apply own_has, H.
    - eapply FBase; [apply own_none, H|exact Hn| |exact IH]. intros d' f' b Hin Hr. apply own_none. intros m'. eapply Hl; eassumption.
  Qed.
End Member.

Lemma offers_reach {M} g (has : nat -> M -> Prop) a c m : offers g has a c m -> reach g a c /\ has c m.
Proof.
  induction 1 as [a m H|a l1 d f l2 c m H Hn Hl Ho [IH1 IH2]]; [split; [apply reach_refl|exact H]|].
  split; [|exact IH2]. econstructor; [|exact IH1]. exists (l1 ++ (d, f) :: l2), f. split; [exact Hn|]. apply in_or_app. right. left. reflexivity.
Qed.

Lemma own_method_has db name k f : own_method db name k = Some f <-> has_method db name k f.
Proof.
  unfold own_method, has_method. destruct (findMethod_spec fst (methods db k) name) as [(l1 & [n f'] & l2 & E & -> & A & F)|[-> F]].
  - split.
    + intro H. injection H as <-. exists l1, n, l2. auto.
    + intros (l1' & n' & l2' & E' & A' & F'). f_equal.
      assert (X : forall l1 l1' : list (text * function), l1 ++ (n, f') :: l2 = l1' ++ (n', f) :: l2' ->
        Forall (fun nf => ~ answers (fst nf) name) l1 -> Forall (fun nf => ~ answers (fst nf) name) l1' -> f' = f).
      { clear E E' F F' l1 l1'. intro l1. induction l1 as [|x l1 IH]; intros [|x' l1'] E F F'; cbn in E.
        - injection E as _ <- _. reflexivity.
        - injection E as <- _. inversion F'; subst. contradiction.
        - injection E as -> _. inversion F; subst. contradiction.
        - injection E as _ E. inversion F; inversion F'; subst. eapply IH; eassumption. }
      eapply X; [rewrite <- E; exact E'|exact F|exact F'].
  - split; [discriminate|]. intros (l1 & n & l2 & E & A & _). rewrite E in F. apply Forall_app in F as [_ F]. inversion F; subst. contradiction.
Qed.

Lemma text_eqb_eq : forall a b, text_eqb a b = true <-> a = b.
Proof.
  induction a as [|x a IH]; intros [|y b]; cbn; try (split; congruence). rewrite andb_true_iff, IH, Ascii.eqb_eq. intuition congruence.
Qed.

Lemma own_property_has db name k p : own_property db name k = Some p <-> has_property db name k p.
Proof.
  unfold own_property, has_property. induction (properties db k) as [|[n q] l IH]; cbn.
  - split; [discriminate|]. intros ([|x l1] & l2 & E & _); discriminate.
  - destruct (text_eqb n name) eqn:E.
    + apply text_eqb_eq in E as ->. split.
      * intro H. injection H as <-. exists [], l. auto.
      * intros ([|[n' q'] l1] & l2 & E & N); cbn in E; [injection E as <- <-; reflexivity|]. injection E as <- _ _. destruct N. left. reflexivity.
    + rewrite IH. split.
      * intros (l1 & l2 & -> & N). exists ((n, q) :: l1), l2. split; [reflexivity|]. cbn. intros [->|H]; [|auto].
        rewrite (proj2 (text_eqb_eq name name) eq_refl) in E. discriminate.
      * intros ([|[n' q'] l1] & l2 & El & N); cbn in El.
        -- injection El as -> _ _. rewrite (proj2 (text_eqb_eq name name) eq_refl) in E. discriminate.
        -- injection El as -> -> ->. exists l1, l2. split; [reflexivity|]. intro H. apply N. right. exact H.
Qed.

(** find_member in full. *)
Lemma find_member_cases {M} e (own : nat -> option M) has name c :
  wf_env e -> (forall k m, own k = Some m <-> has k m) -> usable (c_src c) -> no_array c -> name <> [] ->
  (~ of_class c /\ find_member e own name (Some c) = Refused Not_a_class) \/
  (of_class c /\ wild e c /\ find_member e own name (Some c) = Wild) \/
  (exists d, object_class e c d /\ e_registered e d = false /\ find_member e own name (Some c) = Refused Not_registered) \/
  (exists d, object_class e c d /\ e_registered e d = true /\ (forall b m, reach (e_graph e) d b -> ~ has b m) /\
     find_member e own name (Some c) = Refused Not_found) \/
  (exists d b m, object_class e c d /\ e_registered e d = true /\ offers (e_graph e) has d b m /\
     find_member e own name (Some c) = Ran m).
Proof.
  intros (Hc & Ha & Hr) Hh Hu Hn Hne. unfold find_member.
  destruct (class_of_variant_cases e c Hu Hn) as [[H ->]|[(H & W & ->)|(d & O & H & ->)]]; [left; auto|right; left; auto|].
  right. right. destruct (e_registered e d) eqn:R; [|left; exists d; auto]. right. cbn [whenRan].
  assert (Em : is_empty name = false) by (destruct name; [contradiction|reflexivity]). rewrite Em.
  destruct (C17_member_lookup nat M own (e_graph e) (fuel e) d Hc Ha (Hr _ R) (le_n _)) as [(m & -> & F & _)|[-> N]].
  - right. destruct (finds_offers (e_graph e) own has Hh d m F) as (b & Hb). exists d, b, m. auto.
  - left. exists d. split; [exact H|]. split; [exact R|]. split; [|reflexivity]. intros b m Hb. apply (own_none own has Hh). apply N, Hb.
Qed.

(** ** The object *)

Lemma reach_registered e d b : bases_registered e -> e_registered e d = true -> reach (e_graph e) d b -> e_registered e b = true.
Proof. intros Hb Hd H. induction H as [|x y z D R IH]; [exact Hd|]. apply IH. eapply Hb, D. Qed.

Lemma base_exists e c d y b : wf_env e -> bases_registered e -> object_of e c d y -> e_registered e d = true -> reach (e_graph e) d b ->
  exists x, base_at e c b x.
Proof.
  intros (Hc & Ha & Hr) Hb O R H.
  destruct (C15_cast_first_chain nat (e_graph e) (length (e_graph e)) d b y Hc Ha (Hr _ R) (le_n _)) as [(_ & fs & F & _)|[N _]]; [|contradiction].
  exists (along fs y), d, y, fs. split; [exact O|]. split; [exact R|]. split; [eapply reach_registered; eassumption|]. auto.
Qed.

Lemma object_named e k c d y b : wf_env e -> bases_registered e -> object_of e c d y -> e_registered e d = true -> reach (e_graph e) d b ->
  exists x w, names e k c b x w.
Proof.
  intros Hw Hb O R H. destruct (base_exists e c d y b Hw Hb O R H) as (x & B). inversion O as [i d' y' C K E1 E2|i p d' y' P Hp K E1 E2]; subst d' y'.
  - destruct (Nat.eq_dec i b) as [->|N]; [exists (c_at c)|exists x]; eexists; [apply NamesSelf; auto|eapply NamesBase; eassumption].
  - destruct (Nat.eq_dec i b) as [->|N]; [exists p|exists x]; eexists; [apply NamesPointee; auto|eapply NamesPointeeBase; eassumption].
Qed.

Lemma null_not_object e c d : not_null c -> object_class e c d -> exists y, object_of e c d y.
Proof. intros Hn [y O|P N _]; [eauto|]. destruct (Hn (ex_intro _ d P) N). Qed.

Lemma has_method_in db name k f : has_method db name k f -> exists n, In (n, f) (methods db k).
Proof. intros (l1 & n & l2 & -> & _). exists n. apply in_or_app. right. left. reflexivity. Qed.
Lemma has_property_in db name k p : has_property db name k p -> In (name, p) (properties db k).
Proof. intros (l1 & l2 & -> & _). apply in_or_app. right. left. reflexivity. Qed.

(** A value of a class and a pointer to it are known to be of the same class. *)
Lemma same_object_class e c1 c2 k x d : class_type (held c1) k -> c_at c1 = x -> pointer_type (held c2) k -> c_ptr c2 = Some x ->
  (object_class e c1 d <-> object_class e c2 d).
Proof.
  intros C1 A1 P2 A2. split; intros [y O|P N D].
  - inversion O as [i d' y' C K E1 E2|i p d' y' P Hp K E1 E2]; subst d' y'; [|destruct (class_not_pointer _ _ _ C1 P)].
    rewrite (class_unique _ _ _ C C1) in K. rewrite A1 in K. apply (ClassOfObject _ _ _ y). eapply ObjPointer; eassumption.
  - destruct (class_not_pointer _ _ _ C1 P).
  - inversion O as [i d' y' C K E1 E2|i p d' y' P Hp K E1 E2]; subst d' y'; [destruct (class_not_pointer _ _ _ C P2)|].
    rewrite (pointer_unique _ _ _ P P2) in K. rewrite A2 in Hp. injection Hp as <-. apply (ClassOfObject _ _ _ y). subst x. eapply ObjClass; eassumption.
  - congruence.
Qed.
Lemma same_object e c1 c2 k x d y : class_type (held c1) k -> c_at c1 = x -> pointer_type (held c2) k -> c_ptr c2 = Some x ->
  (object_of e c1 d y <-> object_of e c2 d y).
Proof.
  intros C1 A1 P2 A2. split; intro O; inversion O as [i d' y' C K E1 E2|i p d' y' P Hp K E1 E2]; subst d' y'.
  - rewrite (class_unique _ _ _ C C1) in K. rewrite A1 in K. eapply ObjPointer; eassumption.
  - destruct (class_not_pointer _ _ _ C1 P).
  - destruct (class_not_pointer _ _ _ C P2).
  - rewrite (pointer_unique _ _ _ P P2) in K. rewrite A2 in Hp. injection Hp as <-. subst x. eapply ObjClass; eassumption.
Qed.
Lemma same_names e k1 k2 c1 c2 i x b z w : class_type (held c1) i -> c_at c1 = x -> pointer_type (held c2) i -> c_ptr c2 = Some x ->
  names e k1 c1 b z w -> exists w', names e k2 c2 b z w'.
Proof.
  intros C1 A1 P2 A2 N. inversion N as [H A E|j H Hne B E|H A E|j H Hne B E]; subst.
  - pose proof (class_unique _ _ _ C1 H) as E. subst b. eexists. apply NamesPointee; [exact P2|exact A2].
  - eexists. eapply (NamesPointeeBase _ _ _ _ _ i); [exact P2|rewrite <- (class_unique _ _ _ H C1); exact Hne|].
    destruct B as (d & y & fs & O & R). exists d, y, fs. split; [|exact R]. apply (same_object e c1 c2 i (c_at c1) d y); auto.
  - destruct (class_not_pointer _ _ _ C1 H).
  - destruct (class_not_pointer _ _ _ C1 H).
Qed.

(** ** Fields *)

Lemma field_set e read b off T c a m m' : wf_env e -> b_kind b = KClass -> no_pointer_converters e -> usable (c_src c) -> not_null c -> one_class c b ->
  holds_class (Some c) || holds_class_ptr (Some c) = true ->
  property_set e read (Data b off T) (Some (ByVariant false (Some c))) a m = (m', Done tt) ->
  exists bd x, arg_value e a (mkQ RNone T) = Got bd /\ names e false c (b_id b) x true /\ m' = write m (x + off) (read a bd) /\ is_const T = false.
Proof.
  intros Hw Hb Hnc Hu Hn Ho Hh H. unfold property_set in H. cbn [isStatic instance_variant] in H. unfold set_field in H.
  destruct (is_const T) eqn:HT; [discriminate|]. cbn [andb] in H. rewrite Hh in H. cbn [negb] in H.
  destruct (arg_value e a (mkQ RNone T)) as [bd| | | |]; try discriminate. cbn [run] in H.
  destruct (set_object e false (Some c) b) as [[x|]| | | | |] eqn:S; try discriminate.
  - injection H as <-. rewrite set_object_member in S. apply member_object_names in S as (c' & w & E & N & W); auto.
    2:{ intros c' E. injection E as <-. auto. }
    injection E as <-. cbn in W. rewrite (W eq_refl) in N. exists bd, x. auto.
  - exfalso. unfold set_object in S. destruct (holds_class (Some c)).
    + destruct (ref_object _ _ _ _); discriminate.
    + cbn [orb] in Hh. rewrite Hh in S. destruct (ptr_object _ _ _ _); discriminate.
Qed.

Lemma field_settable e read b off T c a m x bd : wf_env e -> b_kind b = KClass -> pointers_copy e -> usable (c_src c) -> one_class c b ->
  holds_class (Some c) || holds_class_ptr (Some c) = true -> is_const T = false ->
  names e false c (b_id b) x true -> arg_value e a (mkQ RNone T) = Got bd ->
  property_set e read (Data b off T) (Some (ByVariant false (Some c))) a m = (write m (x + off) (read a bd), Done tt).
Proof.
  intros Hw Hb Hcp Hu Ho Hh HT N A. unfold property_set. cbn [isStatic instance_variant]. unfold set_field. rewrite HT, Hh. cbn [andb negb].
  rewrite A. cbn [run]. rewrite set_object_member.
  rewrite (member_object_ok e false c {| m_class := b; m_const := false; m_params := [] |} x true Hw Hb Hcp Hu Ho N); auto.
Qed.

Lemma field_get e b off T c m x k w : wf_env e -> b_kind b = KClass -> pointers_copy e -> usable (c_src c) -> one_class c b ->
  names e k c (b_id b) x w -> property_get e (Data b off T) (Some (ByVariant true (Some c))) m = Done (Reference (x + off)).
Proof.
  intros Hw Hb Hcp Hu Ho N. destruct (names_const _ _ _ _ _ _ N) as [w2 N2]. unfold property_get. cbn [isStatic instance_variant snd].
  unfold get_field. rewrite get_object_member.
  rewrite (member_object_ok e true c {| m_class := b; m_const := true; m_params := [] |} x w2 Hw Hb Hcp Hu Ho N2); [reflexivity|auto].
Qed.

Lemma find_offered {M} e (own : nat -> option M) has name c d b m :
  wf_env e -> (forall k m, own k = Some m <-> has k m) -> usable (c_src c) -> no_array c -> name <> [] ->
  object_class e c d -> e_registered e d = true -> offers (e_graph e) has d b m -> find_member e own name (Some c) = Ran m.
Proof.
  intros Hw Hh Hu Hn Hne O R F.
  destruct (find_member_cases e own has name c Hw Hh Hu Hn Hne)
    as [[H ->]|[(H & W & ->)|[(d' & O' & R' & ->)|[(d' & O' & R' & N & ->)|(d' & b' & f' & O' & R' & F' & ->)]]]].
  - destruct H. destruct O as [y O|P _ _]; [inversion O; subst; eexists; eauto|exists d; auto].
  - destruct (object_class_not_wild e c d O W).
  - rewrite (object_class_unique e c d' d O' O) in R'. congruence.
  - rewrite (object_class_unique e c d' d O' O) in N. destruct (offers_reach _ _ _ _ _ F) as [Hb Hf]. destruct (N b m Hb Hf).
  - rewrite (object_class_unique e c d' d O' O) in F'. apply (offers_finds _ own _ Hh) in F, F'. f_equal. eapply finds_unique; eassumption.
Qed.

Lemma class_holds e c d : usable (c_src c) -> object_class e c d -> holds_class (Some c) || holds_class_ptr (Some c) = true.
Proof.
  intros Hu [y O|P _ _].
  - inversion O as [i d' y' C K E1 E2|i p d' y' P Hp K E1 E2].
    + destruct (holds_class_of c i Hu C) as [-> _]. reflexivity.
    + destruct (holds_ptr_of c i Hu P) as [-> ->]. reflexivity.
  - destruct (holds_ptr_of c d Hu P) as [-> ->]. reflexivity.
Qed.
