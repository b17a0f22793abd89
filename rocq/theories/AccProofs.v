(** Proofs about AccModel.v. *)
From Coq Require Import NArith List Bool Arith Lia.
From Verif Require Import TypesModel TypesSpec TypesProofs InheritModel InheritSpec InheritProofs InheritProps AccModel AccSpec.
Import ListNotations.

(** ** Types *)

Lemma remove_all_cv_no_pointer t : no_pointer t = true -> remove_all_cv t = copy_type t.
Proof. induction t; cbn; intro H; try discriminate; auto. f_equal; auto. Qed.

Lemma stored_held c : arrays_of_plain (c_src c) = true -> stored c = held c.
Proof.
  unfold stored, held. destruct (c_form c); [|reflexivity]. destruct (c_src c) as [c0 v b|c0 v t|t n]; cbn; intro H;
    [reflexivity|reflexivity|]. f_equal. apply remove_all_cv_no_pointer, H.
Qed.

Lemma add_const_constify t : add_const t = constify t.
Proof. induction t; cbn; congruence. Qed.

Lemma const_constify t j : const_at (constify t) j = protected true t j.
Proof.
  unfold protected. revert j. induction t as [c v b|c v t IH|t IH n]; intros [|j]; cbn; try reflexivity;
    rewrite ?orb_true_r, ?orb_false_r; try reflexivity.
  - rewrite IH. cbn. rewrite orb_true_r. reflexivity.
  - rewrite IH. reflexivity.
Qed.

Lemma protected_false t j : protected false t j = const_at t j.
Proof. unfold protected. apply orb_false_r. Qed.

Lemma constify_no_volatile t : no_volatile (constify t) = no_volatile t.
Proof. induction t; cbn; congruence. Qed.
Lemma constify_plain t : no_pointer (constify t) = no_pointer t.
Proof. induction t; cbn; congruence. Qed.
Lemma constify_arrays t : arrays_of_plain (constify t) = arrays_of_plain t.
Proof. destruct t; cbn; auto. apply constify_plain. Qed.
Lemma constify_depth t : pointer_depth (constify t) = pointer_depth t.
Proof. destruct t; reflexivity. Qed.
Lemma constify_similar t : similar t (constify t).
Proof. induction t; cbn; constructor; auto using similar_refl. Qed.
Lemma constify_array t : is_array (constify t) = is_array t.
Proof. destruct t; reflexivity. Qed.
Lemma constify_idem t : constify (constify t) = constify t.
Proof. induction t; cbn; congruence. Qed.
Lemma constify_size t : size_of (constify t) = size_of t.
Proof. induction t; cbn; congruence. Qed.
Lemma constify_base t : base_type (constify t) = base_type t.
Proof. induction t; cbn; auto. Qed.

Lemma copy_no_volatile t : no_volatile t = true -> no_volatile (copy_type t) = true.
Proof. induction t; cbn; auto. intro H. apply andb_true_iff in H. apply H. Qed.
Lemma copy_plain t : no_pointer (copy_type t) = no_pointer t.
Proof. induction t; cbn; auto. Qed.
Lemma copy_arrays t : arrays_of_plain (copy_type t) = arrays_of_plain t.
Proof. destruct t; cbn; auto. apply copy_plain. Qed.
Lemma copy_depth t : pointer_depth (copy_type t) = pointer_depth t.
Proof. destruct t; reflexivity. Qed.

Lemma usable_held c : usable (c_src c) -> usable (held c).
Proof.
  unfold held. destruct (c_form c); [|auto]. intros [(H1 & H2 & H3) H4]. cbn in *. split.
  - split; [|split]; cbn [q_ty]; rewrite ?copy_arrays, ?copy_depth; auto using copy_no_volatile.
  - destruct (c_src c) as [| |[|u|] n]; cbn; auto.
Qed.

Lemma usable_constify t : usable t -> usable (constify t).
Proof.
  intros [(H1 & H2 & H3) H4]. split.
  - split; [|split]; cbn [q_ty] in *; rewrite ?constify_no_volatile, ?constify_arrays, ?constify_depth; auto.
  - destruct t as [| |[|u|] n]; cbn; auto.
Qed.

Lemma usable_arrays t : usable t -> arrays_of_plain t = true.
Proof. intros [(H1 & H2 & H3) H4]. exact H2. Qed.

Lemma regular_ref r r' t : regular (mkQ r t) -> regular (mkQ r' t).
Proof. exact (fun H => H). Qed.

Lemma type_id_expression c a : usable (c_src c) -> type_id c (from_attr a) = expression a (held c).
Proof.
  intro H. apply usable_arrays in H. unfold type_id. rewrite (stored_held c H), ?add_const_constify. destruct a; reflexivity.
Qed.

Lemma seen_returned a T : seen a T = returned a T.
Proof. unfold seen, returned. rewrite ?add_const_constify. destruct a; reflexivity. Qed.

Lemma expression_ty a t : q_ty (expression a t) = if on_const a then constify t else t.
Proof. destruct a; reflexivity. Qed.

Lemma returned_ref a T : q_ref (returned a T) <> RNone.
Proof. destruct a; discriminate. Qed.

Lemma returned_similar a T : similar T (q_ty (returned a T)).
Proof. destruct a; cbn; auto using similar_refl, constify_similar. Qed.

Lemma usable_expression a t : usable t -> usable (q_ty (expression a t)).
Proof. rewrite expression_ty. destruct (on_const a); auto using usable_constify. Qed.
Lemma usable_returned a T : usable T -> usable (q_ty (returned a T)).
Proof. destruct a; cbn; auto using usable_constify. Qed.

Lemma protected_expression a t j : protected (on_const a) t j = const_at (q_ty (expression a t)) j.
Proof. rewrite expression_ty. destruct (on_const a); [symmetry; apply const_constify|apply protected_false]. Qed.

Lemma full_decay_constify r r' t : full_decay (mkQ r (constify t)) = full_decay (mkQ r' t).
Proof.
  unfold full_decay. cbn [q_ty]. f_equal. destruct t as [c v b|c v t|t n]; cbn; [destruct (b_kind b); reflexivity|reflexivity|].
  f_equal. symmetry. apply similar_remove_all_cv, constify_similar.
Qed.

Lemma same_decay_iff a b : same_decay a b = true <-> full_decay a = full_decay b.
Proof. unfold same_decay. destruct (qty_eq_dec (full_decay a) (full_decay b)); split; congruence. Qed.

Lemma is_array_iff t : is_array t = true <-> exists u n, t = TArr u n.
Proof. destruct t; cbn; split; try discriminate; eauto; intros (u & m & H); discriminate. Qed.

Lemma not_array_iff q : not_array q <-> is_array (q_ty q) = false.
Proof.
  unfold not_array. destruct (q_ty q) as [| |u n] eqn:E; cbn; split; try discriminate; auto.
  intro H. destruct (H u n); reflexivity.
Qed.

(** *** compatible: constness level by level *)

Lemma compat_levels from to :
  pointer_arity (q_ty from) < 16 -> pointer_arity (q_ty to) < 16 ->
  is_array (q_ty from) = false -> q_ref to <> RNone -> compat from to = CTrue ->
  pointer_arity (q_ty from) = pointer_arity (q_ty to) /\
  forall j, j <= pointer_arity (q_ty from) -> const_at (q_ty from) j = true -> const_at (q_ty to) j = true.
Proof.
  intros Hf Ht Ha Hr Hc. rewrite compatible_unfold in Hc by assumption. cbn zeta in Hc. rewrite Ha in Hc. cbn [andb] in Hc.
  destruct (negb match q_ref from with RL => true | _ => false end && _ && _); [discriminate|].
  destruct (match q_ref from with RL => true | _ => false end && _); [discriminate|].
  destruct (Nat.eqb_spec (pointer_arity (q_ty from)) (pointer_arity (q_ty to))) as [E|E]; [|discriminate]. cbn [negb] in Hc.
  split; [exact E|]. intros j Hj.
  destruct (compare_masks_spec (info_of from) (info_of to) (pointer_arity (q_ty from)) false Hf) as [Hm _].
  assert (Hc' : compare_masks (info_of from) (info_of to) (pointer_arity (q_ty from)) false = CTrue)
    by (destruct (q_ref to); [congruence| |]; exact Hc).
  apply Hm in Hc'. destruct (Hc' (pointer_arity (q_ty from) - j)) as [H0 _]; [lia|]. cbn beta iota in H0.
  rewrite !mask_bit in H0 by assumption. rewrite <- E in H0.
  destruct (Nat.leb_spec (pointer_arity (q_ty from) - j) (pointer_arity (q_ty from))); [|lia].
  replace (pointer_arity (q_ty from) - (pointer_arity (q_ty from) - j)) with j in H0 by lia. exact H0.
Qed.

Lemma compat_arity from to :
  pointer_arity (q_ty from) < 16 -> pointer_arity (q_ty to) < 16 -> compat from to = CTrue ->
  pointer_arity (q_ty to) =
    if is_array (q_ty from) && is_pointer (q_ty to) then S (pointer_arity (q_ty from)) else pointer_arity (q_ty from).
Proof.
  intros Hf Ht Hc. rewrite compatible_unfold in Hc by assumption. cbn zeta in Hc.
  destruct (negb match q_ref from with RL => true | _ => false end && _ && _); [discriminate|].
  destruct (match q_ref from with RL => true | _ => false end && _); [discriminate|].
  destruct (is_array (q_ty from) && is_array (q_ty to) && _); [discriminate|].
  match type of Hc with (if negb (?x =? ?y) then _ else _) = _ => destruct (Nat.eqb_spec x y) end; [congruence|discriminate].
Qed.

(** ** Classes *)

Lemma tag_class q k : tag_of q = TagClass k <-> class_type (q_ty q) k.
Proof.
  unfold tag_of, class_type, kind_is, full_decay. cbn [q_ty]. destruct (q_ty q) as [c v b|c v t|t n]; cbn; split.
  - destruct (base_kind_eq_dec (b_kind b) KClass) as [E|E].
    + rewrite E. cbn. rewrite E. cbn. intro H. injection H as <-. eauto 6.
    + destruct (b_kind b) eqn:K; cbn; rewrite ?K; cbn; congruence.
  - intros (c' & v' & b' & E & K & <-). injection E as <- <- <-. rewrite K. cbn. rewrite K. reflexivity.
  - destruct (remove_all_cv t); [|discriminate|discriminate]. destruct (base_kind_eq_dec _ _); discriminate.
  - intros (c' & v' & b' & E & _). discriminate.
  - destruct (remove_all_cv t); [|discriminate|discriminate]. destruct (base_kind_eq_dec _ _); discriminate.
  - intros (c' & v' & b' & E & _). discriminate.
Qed.

Lemma tag_pointer q k : tag_of q = TagClassPtr k -> is_array (q_ty q) = false -> pointer_type (q_ty q) k.
Proof.
  unfold tag_of, pointer_type, class_type, kind_is, full_decay. cbn [q_ty]. destruct (q_ty q) as [c v b|c v t|t n]; cbn; intros H Ha.
  - destruct (b_kind b) eqn:K; cbn in H; rewrite ?K in H; cbn in H; discriminate.
  - destruct t as [c' v' b|c' v' t|t n]; cbn in H; try discriminate.
    destruct (base_kind_eq_dec (b_kind b) KClass); [|discriminate]. injection H as <-. eauto 10.
  - discriminate.
Qed.

Lemma pointer_tag q k : pointer_type (q_ty q) k -> tag_of q = TagClassPtr k.
Proof.
  intros (c & v & u & E & c' & v' & b & -> & K & <-). unfold tag_of, full_decay, kind_is. rewrite E. cbn. rewrite K. reflexivity.
Qed.

Lemma isClass_info q : isClass (Some (info_of q)) = kind_is KClass (base_type (q_ty q)) && negb (is_pointer (q_ty q)).
Proof.
  unfold isClass. cbn [typeFlags]. rewrite has_flag_testbit, lacks_flag_testbit. cbn [info_of ti_flags].
  rewrite tf_class, tf_pointer. reflexivity.
Qed.

Lemma isClassPtr_info q : pointer_arity (q_ty q) < 16 ->
  isClassPtr (Some (info_of q)) = (pointer_arity (q_ty q) =? 1) && kind_is KClass (base_type (q_ty q)) && is_pointer (q_ty q).
Proof.
  intro H. unfold isClassPtr. cbn [typeFlags pointerArity]. rewrite !has_flag_testbit. cbn [info_of ti_flags ti_arity].
  rewrite tf_class, tf_pointer. f_equal. f_equal. rewrite N.mod_small by lia.
  destruct (Nat.eqb_spec (pointer_arity (q_ty q)) 1) as [E|E]; destruct (N.eqb_spec (N.of_nat (pointer_arity (q_ty q))) 1); auto; lia.
Qed.

(** class_info tells the object. *)
Lemma class_info_spec e c : arrays_of_plain (c_src c) = true ->
  (not_null c ->
   exists r, class_info e c = Got r /\
    match r with
    | Some (d, Some y) => object_of e c d y
    | Some (d, None) => False
    | None => is_array (held c) = true \/ tag_of (mkQ RNone (held c)) = TagNone
    end) /\
  (forall d y, object_of e c d y -> class_info e c = Got (Some (d, Some y))) /\
  (forall d y, class_info e c = Got (Some (d, Some y)) -> object_of e c d y) /\
  (forall d, class_info e c = Got (Some (d, None)) -> c_ptr c = None /\ exists k, pointer_type (held c) k).
Proof.
  intros Hp. unfold class_info. rewrite (stored_held c Hp).
  destruct (is_array (held c)) eqn:Ha.
  { split; [|split; [|split]].
    - intros _. exists None. auto.
    - intros d y H. exfalso. inversion H as [k d' y' (c1 & v1 & b1 & E & _) _|k p d' y' (c1 & v1 & u1 & E & _) _ _];
        rewrite E in Ha; discriminate.
    - discriminate.
    - discriminate. }
  destruct (tag_of (mkQ RNone (held c))) as [|k|k] eqn:Et.
  - split; [|split; [|split]].
    + intros _. exists None. auto.
    + intros d y H. exfalso. inversion H as [k d' y' E _|k p d' y' E _ _].
      * apply (tag_class (mkQ RNone (held c))) in E. congruence.
      * apply (pointer_tag (mkQ RNone (held c))) in E. congruence.
    + discriminate.
    + discriminate.
  - pose proof (proj1 (tag_class _ _) Et) as Ec. cbn [q_ty] in Ec.
    assert (U : forall d y, object_of e c d y -> known e k (c_at c) d y).
    { intros d y H. inversion H as [k' d' y' E K|k' p d' y' E _ _]; subst.
      - apply (tag_class (mkQ RNone (held c))) in E. assert (k' = k) by congruence. subst. exact K.
      - apply (pointer_tag (mkQ RNone (held c))) in E. congruence. }
    destruct (e_declares e k) eqn:Ed.
    + destruct (e_dyn e k (c_at c)) as [d0 x0] eqn:Edyn.
      assert (K0 : known e k (c_at c) d0 x0) by (pose proof (KnownDynamic e k (c_at c) Ed) as K; rewrite Edyn in K; exact K).
      split; [|split; [|split]].
      * intros _. exists (Some (d0, Some x0)). split; [reflexivity|]. exact (ObjClass e c k d0 x0 Ec K0).
      * intros d y H. specialize (U d y H). inversion U; subst; [congruence|]. rewrite Edyn in *. reflexivity.
      * intros d y H. injection H as <- <-. exact (ObjClass e c k d0 x0 Ec K0).
      * discriminate.
    + split; [|split; [|split]].
      * intros _. exists (Some (k, Some (c_at c))). split; [reflexivity|]. exact (ObjClass e c k _ _ Ec (KnownStatic e k _ Ed)).
      * intros d y H. specialize (U d y H). inversion U; subst; [reflexivity|congruence].
      * intros d y H. injection H as <- <-. exact (ObjClass e c k _ _ Ec (KnownStatic e k _ Ed)).
      * discriminate.
  - pose proof (tag_pointer _ _ Et Ha) as Ec. cbn [q_ty] in Ec.
    assert (U : forall d y, object_of e c d y -> exists p, c_ptr c = Some p /\ known e k p d y).
    { intros d y H. inversion H as [k' d' y' E K|k' p d' y' E K1 K2]; subst.
      - apply (tag_class (mkQ RNone (held c))) in E. congruence.
      - apply (pointer_tag (mkQ RNone (held c))) in E. assert (k' = k) by congruence. subst. eauto. }
    destruct (c_ptr c) as [p|] eqn:Ep.
    + destruct (e_declares e k) eqn:Ed.
      * destruct (e_dyn e k p) as [d0 x0] eqn:Edyn.
        assert (K0 : known e k p d0 x0) by (pose proof (KnownDynamic e k p Ed) as K; rewrite Edyn in K; exact K).
        split; [|split; [|split]].
        -- intros _. exists (Some (d0, Some x0)). split; [reflexivity|]. exact (ObjPointer e c k p d0 x0 Ec Ep K0).
        -- intros d y H. destruct (U d y H) as (p' & E & K). injection E as <-. inversion K; subst; [congruence|]. rewrite Edyn in *. reflexivity.
        -- intros d y H. injection H as <- <-. exact (ObjPointer e c k p d0 x0 Ec Ep K0).
        -- discriminate.
      * split; [|split; [|split]].
        -- intros _. exists (Some (k, Some p)). split; [reflexivity|]. exact (ObjPointer e c k p _ _ Ec Ep (KnownStatic e k _ Ed)).
        -- intros d y H. destruct (U d y H) as (p' & E & K). injection E as <-. inversion K; subst; [reflexivity|congruence].
        -- intros d y H. injection H as <- <-. exact (ObjPointer e c k p _ _ Ec Ep (KnownStatic e k _ Ed)).
        -- discriminate.
    + split; [|split; [|split]].
      * intro Hn. exfalso. apply (Hn (ex_intro _ k Ec)). exact Ep.
      * intros d y H. destruct (U d y H) as (p' & E & K). discriminate.
      * intros d y. destruct (e_declares e k); discriminate.
      * intros d _. split; [reflexivity|]. exists k. exact Ec.
Qed.

Lemma base_at_unique e c k z z' : wf_env e -> arrays_of_plain (c_src c) = true -> base_at e c k z -> base_at e c k z' -> z = z'.
Proof.
  intros (Hc & Ha & Hr) Hp (d & y & fs & O & R & R' & F & <-) (d' & y' & fs' & O' & R1 & R1' & F' & <-).
  destruct (class_info_spec e c Hp) as (_ & U & _). pose proof (U _ _ O) as E. rewrite (U _ _ O') in E. injection E as <- <-.
  destruct (C15_cast_first_chain nat (e_graph e) (length (e_graph e)) d' k y' Hc Ha (Hr _ R1) (le_n _))
    as [(_ & gs & _ & _ & G & _)|[N _]].
  - rewrite (G _ F), (G _ F'). reflexivity.
  - exfalso. apply N. clear - F. induction F as [a|a b l1 d f l2 fs Hn En _ F IH]; [constructor|].
    econstructor 2; [|exact IH]. exists (l1 ++ (d, f) :: l2), f. split; [exact En|apply in_elt].
Qed.

Lemma first_chain_reach (g : graph nat) a b fs : first_chain g a b fs -> reach g a b.
Proof.
  intro F. induction F as [a|a b l1 d f l2 fs Hn En _ F IH]; [constructor|].
  econstructor 2; [|exact IH]. exists (l1 ++ (d, f) :: l2), f. split; [exact En|apply in_elt].
Qed.

(** cast_imp finds the base, or there is none. *)
Lemma cast_imp_spec e c k : wf_env e -> arrays_of_plain (c_src c) = true ->
  (forall z, cast_imp e c k = Got (Some z) <-> base_at e c k z) /\
  (not_null c -> exists r, cast_imp e c k = Got r) /\
  (cast_imp e c k = Got None -> c_ptr c = None \/ forall z, ~ base_at e c k z).
Proof.
  intros Hw Hp. pose proof Hw as (Hc & Ha & Hr). destruct (class_info_spec e c Hp) as (I1 & I2 & I3 & I4).
  assert (A : forall z, base_at e c k z -> cast_imp e c k = Got (Some z)).
  { intros z (d & y & fs & O & R & R' & F & <-). unfold cast_imp. rewrite (I2 _ _ O). cbn [bind]. rewrite R, R'. cbn [andb].
    unfold fuel.
    destruct (C15_cast_first_chain nat (e_graph e) (length (e_graph e)) d k y Hc Ha (Hr _ R) (le_n _))
      as [(_ & gs & _ & _ & G & ->)|[N _]].
    - rewrite (G _ F). reflexivity.
    - exfalso. apply N. eapply first_chain_reach; exact F. }
  assert (B : forall z, cast_imp e c k = Got (Some z) -> base_at e c k z).
  { intros z H. unfold cast_imp in H. destruct (class_info e c) as [[[d [y|]]|]| | | |] eqn:E; cbn [bind] in H; try discriminate.
    - destruct (e_registered e d) eqn:R; [|discriminate]. destruct (e_registered e k) eqn:R'; [|discriminate]. cbn [andb] in H.
      unfold fuel in H.
      destruct (C15_cast_first_chain nat (e_graph e) (length (e_graph e)) d k y Hc Ha (Hr _ R) (le_n _))
        as [(_ & gs & G & _ & _ & E')|[N E']]; rewrite E' in H; [|discriminate].
      injection H as <-. exists d, y, gs. auto 6.
    - destruct (e_registered e d) eqn:R; [|discriminate]. destruct (e_registered e k) eqn:R'; [|discriminate]. cbn [andb] in H.
      unfold fuel in H. rewrite (proj2 (C15_null_iff_unrelated nat (e_graph e) (length (e_graph e)) d k 0 Hc Ha (Hr _ R) (le_n _))) in H.
      discriminate. }
  split; [intro z; split; auto|]. split.
  - intro Hn. destruct (I1 Hn) as (r & E & H). unfold cast_imp. rewrite E. cbn [bind]. destruct r as [[d [y|]]|]; [|destruct H|eauto].
    destruct (e_registered e d) eqn:R; [|eexists; reflexivity]. destruct (e_registered e k) eqn:R'; [|eexists; reflexivity].
    cbn [andb]. unfold fuel.
    destruct (C15_cast_first_chain nat (e_graph e) (length (e_graph e)) d k y Hc Ha (Hr _ R) (le_n _))
        as [(_ & gs & G & _ & _ & E')|[N E']]; rewrite E'; eexists; reflexivity.
  - intro H. right. intros z Hz. rewrite (A z Hz) in H. discriminate.
Qed.

(** inherits answers whether there is a base; a null pointer is judged by its static class. *)
Lemma inherits_spec e c k : wf_env e -> arrays_of_plain (c_src c) = true -> not_null c ->
  exists r, inherits e c k = Got r /\ (r = true <-> exists z, base_at e c k z).
Proof.
  intros Hw Hp Hn. pose proof Hw as (Hc & Ha & Hr). destruct (class_info_spec e c Hp) as (I1 & I2 & I3 & I4).
  destruct (I1 Hn) as (r & E & H). unfold inherits. rewrite E. cbn [bind].
  assert (N : forall z d y, class_info e c = Got (Some (d, Some y)) -> base_at e c k z -> e_registered e d = true /\ e_registered e k = true /\ reach (e_graph e) d k).
  { intros z d y E1 (d' & y' & fs & O & R & R' & F & _). rewrite (I2 _ _ O) in E1. injection E1 as <- <-. eauto using first_chain_reach. }
  destruct r as [[d [y|]]|]; [|destruct H|].
  - destruct (e_registered e d) eqn:R; [destruct (e_registered e k) eqn:R'|]; cbn [andb].
    + unfold fuel. destruct (C14_inheritedFrom_reachability nat (e_graph e) (length (e_graph e)) d k Hc Ha (Hr _ R) (le_n _)) as (b & -> & Hb).
      exists b. split; [reflexivity|]. rewrite Hb. split.
      * intro G. destruct (C15_cast_first_chain nat (e_graph e) (length (e_graph e)) d k y Hc Ha (Hr _ R) (le_n _))
          as [(_ & gs & F & _)|[N' _]]; [|contradiction]. exists (along gs y). exists d, y, gs. auto 6.
      * intros [z Hz]. eapply N; eauto.
    + exists false. split; [reflexivity|]. split; [discriminate|]. intros [z Hz]. destruct (N z d y E Hz) as (_ & R2 & _). congruence.
    + exists false. split; [reflexivity|]. split; [discriminate|]. intros [z Hz]. destruct (N z d y E Hz) as (R2 & _). congruence.
  - exists false. split; [reflexivity|]. split; [discriminate|]. intros (z & d & y & fs & O & _). rewrite (I2 _ _ O) in E. discriminate.
Qed.

(** ** C23 *)

Lemma arity_usable t : usable t -> pointer_arity t < 16.
Proof. intros [(_ & _ & H) _]. cbn in H. rewrite pointer_depth_arity in H. exact H. Qed.

Lemma class_const_levels t i j : class_type t i -> const_at t (S j) = false.
Proof. intros (c & v & b & -> & _). reflexivity. Qed.
Lemma pointer_const_levels t i j : pointer_type t i -> const_at t (S (S j)) = false.
Proof. intros (c & v & u & -> & c' & v' & b & -> & _). reflexivity. Qed.

(** The type of the object as the class case sees it. *)
Lemma base_at_types e c k z : base_at e c k z -> exists i, class_type (held c) i \/ pointer_type (held c) i.
Proof. intros (d & y & fs & O & _). inversion O; subst; eauto. Qed.

Lemma class_constify t i : class_type (constify t) i <-> class_type t i.
Proof.
  split; intros (c & v & b & E & K & I).
  - destruct t; try discriminate. cbn in E. injection E as <- <- <-. exists c0, v0, b0. auto.
  - subst. exists true, v, b. auto.
Qed.
Lemma pointer_constify t i : pointer_type (constify t) i <-> pointer_type t i.
Proof.
  split; intros (c & v & u & E & K).
  - destruct t; try discriminate. cbn in E. injection E as <- <- <-. exists c0, v0, t. auto.
  - subst. exists true, v, u. auto.
Qed.

Lemma class_returned a T k : class_type (q_ty (returned a T)) k <-> class_type T k.
Proof. destruct a; cbn; try reflexivity; apply class_constify. Qed.
Lemma pointer_returned a T k : pointer_type (q_ty (returned a T)) k <-> pointer_type T k.
Proof. destruct a; cbn; try reflexivity; apply pointer_constify. Qed.
Lemma class_expression a T k : class_type (q_ty (expression a T)) k <-> class_type T k.
Proof. rewrite expression_ty. destruct (on_const a); try reflexivity; apply class_constify. Qed.
Lemma pointer_expression a T k : pointer_type (q_ty (expression a T)) k <-> pointer_type T k.
Proof. rewrite expression_ty. destruct (on_const a); try reflexivity; apply pointer_constify. Qed.

Lemma class_not_pointer t i k : class_type t i -> pointer_type t k -> False.
Proof. intros (c & v & b & -> & _) (c' & v' & u & E & _). discriminate. Qed.

Lemma isClass_of_class q k : class_type (q_ty q) k -> isClass (Some (info_of q)) = true.
Proof. intros (c & v & b & E & K & _). rewrite isClass_info, E. cbn. unfold kind_is. rewrite K. reflexivity. Qed.
Lemma isClassPtr_of_pointer q k : pointer_type (q_ty q) k -> isClassPtr (Some (info_of q)) = true.
Proof.
  intros (c & v & u & E & c' & v' & b & -> & K & _). rewrite isClassPtr_info by (rewrite E; cbn; lia). rewrite E. cbn.
  unfold kind_is. rewrite K. reflexivity.
Qed.
Lemma pointer_not_isClass q k : pointer_type (q_ty q) k -> isClass (Some (info_of q)) = false.
Proof. intros (c & v & u & E & _). rewrite isClass_info, E. apply andb_false_r. Qed.
Lemma class_not_isClassPtr q k : class_type (q_ty q) k -> isClassPtr (Some (info_of q)) = false.
Proof. intros (c & v & b & E & _). rewrite isClassPtr_info by (rewrite E; cbn; lia). rewrite E. reflexivity. Qed.

(** The outcome of metafunc_cast, in the terms of the specification. *)
Lemma cast_allowed e a c T p : wf_env e -> usable (c_src c) -> usable T ->
  metafunc_cast e c (expression a (held c)) (returned a T) = Got p ->
  allowed e a c T p /\ forall j, const_at (q_ty (expression a (held c))) j = true -> const_at (q_ty (returned a T)) j = true.
Proof.
  intros Hw Hu HT H. pose proof (usable_arrays _ Hu) as Hp. pose proof (usable_held c Hu) as Hh.
  pose proof (usable_expression a _ Hh) as He. pose proof (usable_returned a T HT) as Hret.
  pose proof (arity_usable _ He) as Are. pose proof (arity_usable _ Hret) as Arr. pose proof (returned_ref a T) as Rn.
  set (from := expression a (held c)) in *. set (to := returned a T) in *.
  unfold metafunc_cast, when_compatible in H. destruct (compat from to) eqn:Hc; [|discriminate|discriminate].
  destruct (same_decay from to) eqn:Hd.
  - apply same_decay_iff in Hd. rewrite (stored_held c Hp) in H.
    assert (Hfrom : is_array (q_ty from) = is_array (held c)) by (unfold from; rewrite expression_ty; destruct (on_const a); [apply constify_array|reflexivity]).
    assert (Hto : is_array (q_ty to) = is_array T) by (unfold to; destruct a; cbn; rewrite ?constify_array; reflexivity).
    destruct (is_array (held c)) eqn:Ea.
    + (* an array is held *)
      apply is_array_iff in Ea as (t & n & Eh).
      assert (Ef : exists t1, q_ty from = TArr t1 n /\ similar t t1).
      { unfold from. rewrite expression_ty, Eh. destruct (on_const a); cbn; eauto using constify_similar, similar_refl. }
      destruct Ef as (t1 & Ef & Hs1).
      assert (Hp1 : no_pointer t1 = true) by (pose proof (usable_arrays _ He) as X; rewrite Ef in X; exact X).
      destruct (decay_of_array from to t1 n Ef Hd) as [(t' & m & Et & Hs)|[(c' & v' & t' & Et & Hs)|(c' & v' & b & Et & Hb)]].
      * destruct (array_view_safe from to t1 n t' m Ef Et Hs Hp1 Hc) as (Hsz & _ & Hq).
        rewrite Et in H. cbn in H. injection H as <-. split; [|exact (Hq Rn)].
        assert (ET : exists t2, T = TArr t2 m /\ similar t2 t').
        { pose proof (returned_similar a T) as X. fold to in X. rewrite Et in X. inversion X; subst. eauto. }
        destruct ET as (t2 & -> & Hs2).
        apply (AllowElements e a c _ t n t2 m); auto.
        -- eapply similar_trans; [exact Hs1|]. eapply similar_trans; [exact Hs|]. apply similar_sym, Hs2.
        -- rewrite Ef, Et in Hsz. cbn in Hsz. rewrite (similar_size _ _ Hs2), (similar_size _ _ Hs1). exact Hsz.
      * rewrite Et in H. cbn [is_array] in H. injection H as <-.
        pose proof (proj1 (array_decay_iff from to t1 n c' v' t' Ef Et Hs Hp1) Hc) as [Hq Hr].
        assert (Cc : c' = true) by (destruct (q_ref to); [congruence|exact Hr|apply Hr]).
        split.
        -- assert (ET : exists c2 v2 t2, T = TPtr c2 v2 t2 /\ similar t2 t').
           { pose proof (returned_similar a T) as X. fold to in X. rewrite Et in X. inversion X; subst. eauto. }
           destruct ET as (c2 & v2 & t2 & -> & Hs2).
           apply (AllowHidden e a c _ t n c2 v2 t2); auto.
           ++ eapply similar_trans; [exact Hs1|]. eapply similar_trans; [exact Hs|]. apply similar_sym, Hs2.
           ++ fold to. rewrite Et. exact Cc.
        -- intros [|j]; rewrite Ef, Et; cbn [const_at]; [auto|].
           apply plain_const_mono; auto. rewrite <- (similar_no_pointer _ _ Hs). exact Hp1.
      * exfalso. unfold full_decay in Hd. injection Hd as Hd. rewrite Ef, Et in Hd. cbn in Hd. rewrite Hb in Hd. cbn in Hd.
        injection Hd as Hd. destruct He as [_ He]. rewrite Ef in He.
        destruct t1 as [c1 v1 b1|c1 v1 u1|u1 n1]; cbn in Hd; try discriminate. injection Hd as Hd. subst b1. exact (He Hb).
    + (* not an array *)
      destruct (is_array (q_ty to)) eqn:Et.
      * exfalso. apply is_array_iff in Et as (t & n & Et).
        pose proof (compat_arity from to Are Arr Hc) as X. rewrite Hfrom, Et in X. cbn in X.
        unfold full_decay in Hd. injection Hd as Hd. rewrite Et in Hd. cbn in Hd.
        destruct (q_ty from) as [c1 v1 b1|c1 v1 u1|u1 n1] eqn:Ef; cbn in Hd, X; [|discriminate|discriminate].
        destruct Hret as [_ Hret]. rewrite Et in Hret.
        destruct (b_kind b1) eqn:K1; cbn in Hd; try discriminate. injection Hd as Hd.
        destruct t as [c2 v2 b2|c2 v2 u2|u2 n2]; cbn in Hd; try discriminate. injection Hd as Hd. subst b2. congruence.
      * injection H as <-.
        assert (B : binds from to).
        { apply compat_iff_binds; auto; try apply He; try apply Hret; apply not_array_iff; auto. }
        split; [apply AllowWhole, B|]. intros j. apply binds_const_level; auto.
  - destruct (cast_imp_spec e c) with (k := match tag_of to with TagNone => 0 | TagClass k => k | TagClassPtr k => k end) as (C1 & _); auto.
    destruct (tag_of to) as [|k|k] eqn:Etag; [discriminate| |].
    + destruct (isClass (Some (info_of from))) eqn:Ecl; [|discriminate].
      destruct (cast_imp e c k) as [[z|]| | | |] eqn:Ec; cbn [bind] in H; try discriminate. injection H as <-.
      pose proof (proj1 (C1 z) eq_refl) as Hb. pose proof (proj1 (tag_class to k) Etag) as Hk. pose proof (proj1 (class_returned a T k) Hk) as HkT.
      destruct (base_at_types e c k z Hb) as (i & [Hi|Hi]).
      * split; [exact (AllowBase e a c T i k z Hi HkT Hb)|].
        intros [|j] Hj.
        -- destruct (compat_levels from to Are Arr) as [_ L]; auto; [|apply L; [lia|exact Hj]].
           destruct (proj2 (class_expression a (held c) i) Hi) as (c1 & v1 & b1 & E1 & _). fold from in E1. rewrite E1. reflexivity.
        -- pose proof (class_const_levels _ i j (proj2 (class_expression a (held c) i) Hi)) as X. fold from in X. congruence.
      * pose proof (pointer_not_isClass from i (proj2 (pointer_expression a (held c) i) Hi)). congruence.
    + destruct (isClassPtr (Some (info_of from))) eqn:Ecl; [|discriminate].
      destruct (cast_imp e c k) as [[z|]| | | |] eqn:Ec; cbn [bind] in H; try discriminate.
      destruct (match storage_ptr c with Some p0 => z =? p0 | None => false end) eqn:Es; [|discriminate]. injection H as <-.
      pose proof (proj1 (C1 z) eq_refl) as Hb.
      destruct (base_at_types e c k z Hb) as (i & [Hi|Hi]).
      { pose proof (class_not_isClassPtr from i (proj2 (class_expression a (held c) i) Hi)). congruence. }
      pose proof (proj2 (pointer_expression a (held c) i) Hi) as Hi'. fold from in Hi'.
      assert (Hna : is_array (q_ty to) = false).
      { destruct (is_array (q_ty to)) eqn:X; [exfalso|reflexivity]. apply is_array_iff in X as (t & n & X).
        pose proof (compat_arity from to Are Arr Hc) as Y. rewrite X in Y. destruct Hi' as (c1 & v1 & u1 & E1 & c2 & v2 & b2 & -> & _).
        rewrite E1 in Y. discriminate. }
      pose proof (tag_pointer to k Etag Hna) as Hk. pose proof (proj1 (pointer_returned a T k) Hk) as HkT.
      split.
      * apply (AllowSlot e a c T i k z); auto. intro Ev. unfold storage_ptr in Es. rewrite Ev in Es.
        destruct (c_ptr c); [|discriminate]. apply Nat.eqb_eq in Es. congruence.
      * intros j Hj. destruct j as [|[|j]].
        1, 2: (destruct (compat_levels from to Are Arr) as [_ L]; auto;
          [destruct Hi' as (c1 & v1 & u1 & E1 & _); rewrite E1; reflexivity|apply L; [|exact Hj];
           destruct Hi' as (c1 & v1 & u1 & E1 & _); rewrite E1; cbn; lia]).
        pose proof (pointer_const_levels _ i j Hi'). congruence.
Qed.

Lemma access_cast e a c T p : usable (c_src c) ->
  (access e a (Some c) T = Got (Some p) <-> metafunc_cast e c (expression a (held c)) (returned a T) = Got p).
Proof.
  intro Hu. unfold access. rewrite (type_id_expression c a Hu), seen_returned.
  destruct (metafunc_cast e c (expression a (held c)) (returned a T)), a; cbn [bind]; split; congruence.
Qed.

Lemma access_binds e a c T : usable (c_src c) -> usable T -> is_array (held c) = false -> is_array T = false ->
  binds (expression a (held c)) (returned a T) -> access e a (Some c) T = Got (Some Whole).
Proof.
  intros Hu HT Ha HaT B. apply access_cast; [exact Hu|].
  pose proof (usable_arrays _ Hu) as Hp. pose proof (usable_held c Hu) as Hh.
  pose proof (usable_expression a _ Hh) as He. pose proof (usable_returned a T HT) as Hret.
  assert (Hfrom : is_array (q_ty (expression a (held c))) = false)
    by (rewrite expression_ty; destruct (on_const a); [rewrite constify_array|]; exact Ha).
  assert (Hto : is_array (q_ty (returned a T)) = false) by (destruct a; cbn; rewrite ?constify_array; exact HaT).
  assert (D : full_decay (expression a (held c)) = full_decay (returned a T)).
  { destruct B as [S _]. unfold full_decay. f_equal.
    inversion S as [c1 v1 c2 v2 b E1 E2|c1 v1 c2 v2 t u S' E1 E2|t u n S' E1 E2]; cbn.
    - destruct (b_kind b); reflexivity.
    - f_equal. apply similar_remove_all_cv, S'.
    - rewrite <- E1 in Hfrom. discriminate. }
  unfold metafunc_cast, when_compatible.
  rewrite (proj2 (compat_iff_binds (expression a (held c)) (returned a T) (proj1 He) (proj1 Hret) (proj2 (not_array_iff _) Hfrom) (proj2 (not_array_iff _) Hto) D) B).
  rewrite (proj2 (same_decay_iff _ _) D), Hto, (stored_held c Hp), Ha. reflexivity.
Qed.

(** An upcast succeeds whenever the qualifiers allow it. *)
Lemma compat_class from to i k : class_type (q_ty from) i -> class_type (q_ty to) k -> q_ref to <> RNone ->
  (q_ref to = RL -> q_ref from = RL \/ const_at (q_ty to) 0 = true) -> (q_ref to = RR -> q_ref from <> RL) ->
  (const_at (q_ty from) 0 = true -> const_at (q_ty to) 0 = true) -> compat from to = CTrue.
Proof.
  intros (c & v & b & E & _) (c' & v' & b' & E' & _) Hr H1 H2 H3.
  rewrite compatible_unfold by (rewrite ?E, ?E'; cbn; lia). cbn zeta. rewrite E, E' in *. cbn in *.
  destruct (q_ref to) eqn:R; [congruence| |].
  - assert (X : negb match q_ref from with RL => true | _ => false end && true && negb c' = false).
    { destruct (H1 eq_refl) as [->| ->]; [reflexivity|]. rewrite andb_false_r. reflexivity. }
    rewrite X, andb_false_r.
    destruct (compare_masks_spec (info_of from) (info_of to) 0 false) as [Hm _]; [lia|]. apply Hm.
    intros j Hj. assert (j = 0) by lia. subst j. rewrite !mask_bit by (rewrite ?E, ?E'; cbn; lia). rewrite E, E'. cbn.
    split; [exact H3|]. intros _ i0 Hi. lia.
  - assert (X : match q_ref from with RL => true | _ => false end && true = false) by (destruct (q_ref from); try reflexivity; destruct (H2 eq_refl eq_refl)).
    rewrite X, !andb_false_r. cbn [andb].
    destruct (compare_masks_spec (info_of from) (info_of to) 0 false) as [Hm _]; [lia|]. apply Hm.
    intros j Hj. assert (j = 0) by lia. subst j. rewrite !mask_bit by (rewrite ?E, ?E'; cbn; lia). rewrite E, E'. cbn.
    split; [exact H3|]. intros _ i0 Hi. lia.
Qed.

Lemma class_decay q i r k : class_type (q_ty q) i -> class_type (q_ty r) k -> i <> k -> same_decay q r = false.
Proof.
  intros (c & v & b & E & K & I) (c' & v' & b' & E' & K' & I') N. unfold same_decay, full_decay. rewrite E, E'. cbn.
  rewrite K, K'. cbn. match goal with |- context [if ?d then _ else _] => destruct d as [X|X] end; [|reflexivity]. exfalso. injection X as X. subst. congruence.
Qed.

Lemma access_base e a c T i k z : wf_env e -> usable (c_src c) -> usable T ->
  class_type (held c) i -> class_type T k -> i <> k -> base_at e c k z ->
  (a = RefL \/ a = DataL \/ a = RRef -> const_at (held c) 0 = true -> const_at T 0 = true) ->
  access e a (Some c) T = Got (Some (Base z)).
Proof.
  intros Hw Hu HT Hi Hk N Hb Hq. apply access_cast; [exact Hu|]. pose proof (usable_arrays _ Hu) as Hp.
  pose proof (proj2 (class_expression a (held c) i) Hi) as Hi'. pose proof (proj2 (class_returned a T k) Hk) as Hk'.
  unfold metafunc_cast, when_compatible. rewrite (compat_class _ _ i k Hi' Hk' (returned_ref a T)).
  - rewrite (class_decay _ i _ k Hi' Hk' N), (proj2 (tag_class _ _) Hk'), (isClass_of_class _ i Hi').
    rewrite (proj2 (proj1 (cast_imp_spec e c k Hw Hp) z) Hb). reflexivity.
  - destruct Hk as (c1 & v1 & b1 & -> & _). destruct a; cbn; auto; discriminate.
  - destruct a; cbn; congruence.
  - rewrite <- protected_expression. destruct Hi as (c1 & v1 & b1 & E & _). destruct Hk as (c2 & v2 & b2 & E2 & _).
    rewrite E, E2 in *. cbn in Hq. destruct a; cbn; rewrite ?orb_false_r; auto; intro X; try reflexivity; apply Hq; auto;
      rewrite protected_false in X; exact X.
Qed.

Lemma access_total e a c T : wf_env e -> usable (c_src c) -> usable T -> not_null c ->
  (exists p, access e a (Some c) T = Got p) \/ access e a (Some c) T = Throw.
Proof.
  intros Hw Hu HT Hn. pose proof (usable_arrays _ Hu) as Hp. pose proof (usable_held c Hu) as Hh.
  pose proof (usable_expression a _ Hh) as He. pose proof (usable_returned a T HT) as Hret.
  unfold access. rewrite (type_id_expression c a Hu), seen_returned.
  assert (X : (exists p, metafunc_cast e c (expression a (held c)) (returned a T) = Got p) \/
              metafunc_cast e c (expression a (held c)) (returned a T) = Throw).
  { unfold metafunc_cast, when_compatible. destruct (compat _ _) eqn:Ec; auto.
    - destruct (same_decay _ _); [left; eexists; reflexivity|]. destruct (tag_of _) as [|k|k]; auto.
      + destruct (isClass _); auto. destruct (proj1 (proj2 (cast_imp_spec e c k Hw Hp)) Hn) as ([z|] & ->); cbn; eauto.
      + destruct (isClassPtr _); auto. destruct (proj1 (proj2 (cast_imp_spec e c k Hw Hp)) Hn) as ([z|] & ->); cbn; eauto.
        destruct (match storage_ptr c with Some p => z =? p | None => false end); eauto.
    - exfalso. revert Ec. apply compat_no_term; [apply He|apply Hret]. }
  destruct X as [[p ->]| ->]; destruct a; cbn; eauto.
Qed.

(** ** C24 *)

Definition exp_of (cv : bool) (t : ty) : qty := mkQ RL (if cv then constify t else t).

Lemma type_id_exp c (cv : bool) : arrays_of_plain (c_src c) = true ->
  type_id c (if cv then ALrefConst else ALref) = exp_of cv (held c).
Proof. intro Hp. unfold type_id, exp_of. rewrite (stored_held c Hp), add_const_constify. destruct cv; reflexivity. Qed.

Lemma class_exp cv t i : class_type (q_ty (exp_of cv t)) i <-> class_type t i.
Proof. destruct cv; cbn; [apply class_constify|reflexivity]. Qed.
Lemma pointer_exp cv t i : pointer_type (q_ty (exp_of cv t)) i <-> pointer_type t i.
Proof. destruct cv; cbn; [apply pointer_constify|reflexivity]. Qed.

Lemma similar_exp cv t : similar t (q_ty (exp_of cv t)).
Proof. destruct cv; cbn; auto using constify_similar, similar_refl. Qed.

Lemma is_to e cv c T : wf_env e -> usable (c_src c) -> usable T -> is_array T = false -> not_null c ->
  v_is e cv (Some c) (mkQ RNone T) = Got true -> e_copies e T = true ->
  exists g, v_to e cv (Some c) T = Got g /\ denotes e c T g.
Proof.
  intros Hw Hu HT HaT Hn H Hcp. pose proof (usable_arrays _ Hu) as Hp. pose proof (usable_held c Hu) as Hh.
  unfold v_is, v_to, metafunc_is, metafunc_to, copied in *. rewrite (type_id_exp c cv Hp) in *. rewrite (stored_held c Hp), Hcp.
  set (from := exp_of cv (held c)) in *.
  assert (Uf : usable (q_ty from)) by (unfold from, exp_of; destruct cv; cbn; auto using usable_constify).
  unfold when_compatible in *. destruct (compat from (mkQ RNone T)) eqn:Hc; try discriminate.
  destruct (same_decay from (mkQ RNone T)) eqn:Hd.
  - eexists; split; [reflexivity|]. apply same_decay_iff in Hd.
    assert (Haf : is_array (q_ty from) = is_array (held c)) by (destruct cv; cbn; rewrite ?constify_array; reflexivity).
    destruct (is_array (held c)) eqn:Ea.
    + apply is_array_iff in Ea as (t & n & Eh).
      assert (Ef : exists t1, q_ty from = TArr t1 n /\ similar t t1).
      { unfold from, exp_of. cbn. rewrite Eh. destruct cv; cbn; eauto using constify_similar, similar_refl. }
      destruct Ef as (t1 & Ef & Hs1).
      destruct (decay_of_array from (mkQ RNone T) t1 n Ef Hd) as [(t' & m & Et & Hs)|[(c' & v' & t' & Et & Hs)|(c' & v' & b & Et & Hb)]]; cbn [q_ty] in Et.
      * rewrite Et in HaT. discriminate.
      * apply (DenFirst e c T t n c' v' t'); auto. eapply similar_trans; eassumption.
      * exfalso. apply (f_equal q_ty) in Hd. unfold full_decay in Hd. cbn [q_ty] in Hd. rewrite Ef, Et in Hd. cbn in Hd. rewrite Hb in Hd. cbn in Hd.
        injection Hd as Hd. destruct Uf as [_ Uf]. rewrite Ef in Uf.
        destruct t1 as [c1 v1 b1|c1 v1 u1|u1 n1]; cbn in Hd; try discriminate. injection Hd as Hd. subst b1. exact (Uf Hb).
    + apply DenSame.
      assert (B : compat from (mkQ RNone T) = CTrue <-> binds from (mkQ RNone T)).
      { apply compat_iff_binds; auto; [apply Uf|apply HT|apply not_array_iff; exact Haf|apply not_array_iff; exact HaT]. }
      apply B in Hc. destruct Hc as [S _]. eapply similar_trans; [apply (similar_exp cv)|exact S].
  - destruct (tag_of (mkQ RNone T)) as [|k|k] eqn:Etag; [discriminate| |].
    + destruct (isClass (Some (info_of from))) eqn:Ecl; [|discriminate].
      destruct (inherits_spec e c k Hw Hp Hn) as (r & Er & Hr). rewrite Er in H. injection H as H.
      destruct (proj1 Hr H) as [z Hb]. rewrite (proj2 (proj1 (cast_imp_spec e c k Hw Hp) z) Hb). cbn [bind].
      eexists; split; [reflexivity|]. apply tag_class in Etag. destruct (base_at_types e c k z Hb) as (i & [Hi|Hi]).
      * eapply DenPart; eauto.
      * pose proof (pointer_not_isClass from i (proj2 (pointer_exp cv (held c) i) Hi)). congruence.
    + destruct (isClassPtr (Some (info_of from))) eqn:Ecl; [|discriminate].
      destruct (inherits_spec e c k Hw Hp Hn) as (r & Er & Hr). rewrite Er in H. injection H as H.
      destruct (proj1 Hr H) as [z Hb]. rewrite (proj2 (proj1 (cast_imp_spec e c k Hw Hp) z) Hb). cbn [bind].
      eexists; split; [reflexivity|]. apply (tag_pointer _ _ Etag) in HaT. destruct (base_at_types e c k z Hb) as (i & [Hi|Hi]).
      * pose proof (class_not_isClassPtr from i (proj2 (class_exp cv (held c) i) Hi)). congruence.
      * eapply DenPointer; eauto.
Qed.

Lemma is_total e cv c q : wf_env e -> usable (c_src c) -> usable (q_ty q) -> not_null c -> exists b, v_is e cv (Some c) q = Got b.
Proof.
  intros Hw Hu HT Hn. pose proof (usable_arrays _ Hu) as Hp. pose proof (usable_held c Hu) as Hh.
  unfold v_is, metafunc_is. rewrite (type_id_exp c cv Hp).
  assert (Uf : usable (q_ty (exp_of cv (held c)))) by (unfold exp_of; destruct cv; cbn; auto using usable_constify).
  unfold when_compatible. destruct (compat _ _) eqn:Hc; [|eauto|].
  - destruct (same_decay _ _); [eauto|]. destruct (tag_of q) as [|k|k]; [eauto| |].
    + destruct (isClass _); [|eauto]. destruct (inherits_spec e c k Hw Hp Hn) as (r & -> & _). eauto.
    + destruct (isClassPtr _); [|eauto]. destruct (inherits_spec e c k Hw Hp Hn) as (r & -> & _). eauto.
  - exfalso. revert Hc. apply compat_no_term; [apply Uf|apply HT].
Qed.

(** is and to take the same branches. *)
Lemma is_false_to e cv c T : wf_env e -> usable (c_src c) -> usable T -> not_null c ->
  v_is e cv (Some c) (mkQ RNone T) = Got false ->
  v_to e cv (Some c) T =
    match e_conv e (full_decay (mkQ RNone (held c))) (full_decay (mkQ RNone T)) with
    | Some f => match f c with Good w => Got (Converted w) | _ => Throw end
    | None => Throw
    end.
Proof.
  intros Hw Hu HT Hn H. pose proof (usable_arrays _ Hu) as Hp.
  assert (K : bind (convert e c (exp_of cv (held c)) (mkQ RNone T)) (fun r => match r with Some w => Got (Converted w) | None => Throw end) =
    match e_conv e (full_decay (mkQ RNone (held c))) (full_decay (mkQ RNone T)) with
    | Some f => match f c with Good w => Got (Converted w) | _ => Throw end
    | None => Throw
    end).
  { unfold convert. replace (full_decay (exp_of cv (held c))) with (full_decay (mkQ RNone (held c))).
    - destruct (e_conv e _ _) as [f|]; [|reflexivity]. destruct (f c); reflexivity.
    - destruct cv; [symmetry; apply full_decay_constify|reflexivity]. }
  unfold v_is, v_to, metafunc_is, metafunc_to in *. rewrite (type_id_exp c cv Hp) in *. rewrite K. clear K.
  set (from := exp_of cv (held c)) in *.
  unfold when_compatible in *. destruct (compat from (mkQ RNone T)) eqn:Hc; [|reflexivity|discriminate].
  destruct (same_decay from (mkQ RNone T)) eqn:Hd; [discriminate|].
  destruct (tag_of (mkQ RNone T)) as [|k|k] eqn:Etag; [reflexivity| |].
  - destruct (isClass (Some (info_of from))); [|reflexivity].
    destruct (inherits_spec e c k Hw Hp Hn) as (r & Er & Hr). rewrite Er in H. injection H as ->.
    destruct (cast_imp_spec e c k Hw Hp) as (C1 & C2 & _). destruct (C2 Hn) as ([z|] & E); rewrite E; cbn [bind]; [|reflexivity].
    exfalso. assert (false = true) by (apply Hr; exists z; apply C1, E). discriminate.
  - destruct (isClassPtr (Some (info_of from))); [|reflexivity].
    destruct (inherits_spec e c k Hw Hp Hn) as (r & Er & Hr). rewrite Er in H. injection H as ->.
    destruct (cast_imp_spec e c k Hw Hp) as (C1 & C2 & _). destruct (C2 Hn) as ([z|] & E); rewrite E; cbn [bind]; [|reflexivity].
    exfalso. assert (false = true) by (apply Hr; exists z; apply C1, E). discriminate.
Qed.

Lemma canConvert_unfold e cv c T : usable (c_src c) ->
  v_canConvert e cv (Some c) T =
  bind (v_is e cv (Some c) (mkQ RNone T)) (fun b => if b then Got true else
    match e_conv e (full_decay (mkQ RNone (held c))) (full_decay (mkQ RNone T)) with Some _ => Got true | None => Got false end).
Proof.
  intros Hu. pose proof (usable_arrays _ Hu) as Hp. unfold v_canConvert. rewrite (type_id_exp c cv Hp).
  replace (full_decay (exp_of cv (held c))) with (full_decay (mkQ RNone (held c))); [reflexivity|].
  destruct cv; [symmetry; apply full_decay_constify|reflexivity].
Qed.

Lemma canConvert_to e cv c T : wf_env e -> usable (c_src c) -> usable T -> is_array T = false -> not_null c ->
  e_copies e T = true ->
  (forall f, e_conv e (full_decay (mkQ RNone (held c))) (full_decay (mkQ RNone T)) = Some f -> exists w, f c = Good w) ->
  v_canConvert e cv (Some c) T = Got true -> exists g, v_to e cv (Some c) T = Got g.
Proof.
  intros Hw Hu HT HaT Hn Hcp Hf H. rewrite (canConvert_unfold e cv c T Hu) in H.
  destruct (is_total e cv c (mkQ RNone T) Hw Hu HT Hn) as [[|] E]; rewrite E in H; cbn [bind] in H.
  - destruct (is_to e cv c T Hw Hu HT HaT Hn E Hcp) as (g & -> & _). eauto.
  - rewrite (is_false_to e cv c T Hw Hu HT Hn E). destruct (e_conv e _ _) as [f|]; [|discriminate].
    destruct (Hf f eq_refl) as [w ->]. eauto.
Qed.

Lemma to_canConvert e cv c T g : wf_env e -> usable (c_src c) -> usable T -> not_null c ->
  v_to e cv (Some c) T = Got g -> v_canConvert e cv (Some c) T = Got true.
Proof.
  intros Hw Hu HT Hn H. rewrite (canConvert_unfold e cv c T Hu).
  destruct (is_total e cv c (mkQ RNone T) Hw Hu HT Hn) as [[|] E]; rewrite E; cbn [bind]; [reflexivity|].
  rewrite (is_false_to e cv c T Hw Hu HT Hn E) in H. destruct (e_conv e _ _); [reflexivity|discriminate].
Qed.

Lemma to_denotes e cv c T g : wf_env e -> usable (c_src c) -> usable T -> is_array T = false -> not_null c ->
  v_to e cv (Some c) T = Got g ->
  denotes e c T g \/ exists f w, e_conv e (full_decay (mkQ RNone (held c))) (full_decay (mkQ RNone T)) = Some f /\ f c = Good w /\ g = Converted w.
Proof.
  intros Hw Hu HT HaT Hn H. destruct (is_total e cv c (mkQ RNone T) Hw Hu HT Hn) as [[|] E].
  - left. destruct (e_copies e T) eqn:Hcp.
    + destruct (is_to e cv c T Hw Hu HT HaT Hn E Hcp) as (g' & E' & D). congruence.
    + exfalso. pose proof (usable_arrays _ Hu) as Hp.
      unfold v_is, v_to, metafunc_is, metafunc_to, copied in *. rewrite (type_id_exp c cv Hp), Hcp in *.
      unfold when_compatible in *. destruct (compat _ _); try discriminate. destruct (same_decay _ _); [discriminate|].
      destruct (tag_of _) as [|k|k]; [discriminate| |].
      * destruct (isClass _); [|discriminate]. destruct (inherits_spec e c k Hw Hp Hn) as (r & Er & Hr). rewrite Er in E. injection E as ->.
        destruct (proj1 Hr eq_refl) as [z Hz]. rewrite (proj2 (proj1 (cast_imp_spec e c k Hw Hp) z) Hz) in H. discriminate.
      * destruct (isClassPtr _); [|discriminate]. destruct (inherits_spec e c k Hw Hp Hn) as (r & Er & Hr). rewrite Er in E. injection E as ->.
        destruct (proj1 Hr eq_refl) as [z Hz]. rewrite (proj2 (proj1 (cast_imp_spec e c k Hw Hp) z) Hz) in H. discriminate.
  - right. rewrite (is_false_to e cv c T Hw Hu HT Hn E) in H. destruct (e_conv e _ _) as [f|]; [|discriminate].
    exists f. destruct (f c) as [w| |]; try discriminate. injection H as <-. eauto.
Qed.

(** ** C25, C26 *)

Lemma element_scalar t : remove_all_cv (element t) = scalar t.
Proof. induction t; cbn; auto. Qed.
Lemma count_extent t : count t = extent t.
Proof. induction t; cbn; auto. Qed.
Lemma extent_constify t : extent (constify t) = extent t.
Proof. induction t; cbn; auto. Qed.
Lemma scalar_constify t : scalar (constify t) = scalar t.
Proof. induction t; cbn; auto. Qed.

Lemma equal_loop_pointwise cmp n a b : length a = n -> length b = n -> equal_loop cmp n a b = Got (pointwise cmp a b).
Proof.
  revert a b. induction n as [|n IH]; intros [|x a] [|y b] Ha Hb; cbn in *; try discriminate; [reflexivity|].
  destruct (cmp x y); cbn; [|reflexivity]. apply IH; lia.
Qed.

Lemma pointwise_refl cmp a : (forall x, cmp x x = true) -> pointwise cmp a a = true.
Proof. intro H. induction a; cbn; rewrite ?H; auto. Qed.
Lemma pointwise_sym cmp a b : (forall x y, cmp x y = cmp y x) -> pointwise cmp a b = pointwise cmp b a.
Proof. intro H. revert b. induction a as [|x a IH]; intros [|y b]; cbn; auto. rewrite H, IH. reflexivity. Qed.
Lemma pointwise_trans cmp a b c : (forall x y z, cmp x y = true -> cmp y z = true -> cmp x z = true) ->
  pointwise cmp a b = true -> pointwise cmp b c = true -> pointwise cmp a c = true.
Proof.
  intro H. revert b c. induction a as [|x a IH]; intros [|y b] [|z c]; cbn; try discriminate; auto.
  rewrite !andb_true_iff. intros [A1 A2] [B1 B2]. split; eauto.
Qed.

Definition exp_const (t : ty) : qty := mkQ RL (constify t).

Lemma type_id_const c : arrays_of_plain (c_src c) = true -> type_id c ALrefConst = exp_const (held c).
Proof. intro H. exact (type_id_exp c true H). Qed.

(** Contents of one type. *)
Lemma eq_same e a b cmp : comparable e a -> comparable e b -> consistent a b ->
  constify (held a) = constify (held b) -> e_cmp e (scalar (held a)) = Some cmp ->
  v_eq e (Some a) (Some b) = Got (pointwise cmp (c_vals a) (c_vals b)).
Proof.
  intros (La & Da & Pa & cmp' & Ea & Qa) (Lb & Db & Pb & _) Hc Ht Hcmp.
  rewrite Hcmp in Ea. injection Ea as <-.
  assert (Ex : extent (held a) = extent (held b)) by (rewrite <- extent_constify, Ht, extent_constify; reflexivity).
  unfold v_eq. rewrite (type_id_const a Pa), (type_id_const b Pb). unfold exp_const. rewrite Ht.
  unfold when_compatible. rewrite compat_refl, (proj2 (same_decay_iff _ _) eq_refl).
  unfold compare_eq. rewrite (stored_held a Pa), (stored_held b Pb), element_scalar, Hcmp.
  destruct (Nat.eqb_spec (c_at a) (c_at b)) as [E|E].
  - destruct (Hc E Ht) as [-> _]. rewrite pointwise_refl by apply Qa. reflexivity.
  - rewrite count_extent.
    assert (Har : is_array (held b) = is_array (held a)) by (rewrite <- constify_array, <- Ht, constify_array; reflexivity).
    rewrite Har. destruct (is_array (held a)) eqn:Ia.
    + apply equal_loop_pointwise; lia.
    + assert (X : extent (held a) = 1) by (destruct (held a); try reflexivity; discriminate).
      rewrite X in *. rewrite <- Ex in Lb.
      destruct (c_vals a) as [|x [|x' l]]; try discriminate. destruct (c_vals b) as [|y [|y' l']]; try discriminate.
      cbn. rewrite andb_true_r. reflexivity.
Qed.

(** Contents of types that are not even similar. *)
Lemma eq_other e a b : comparable e a -> comparable e b ->
  full_decay (mkQ RNone (held a)) <> full_decay (mkQ RNone (held b)) -> v_eq e (Some a) (Some b) = Got false.
Proof.
  intros (La & Da & Pa & _) (Lb & Db & Pb & _) Hd. unfold v_eq. rewrite (type_id_const a Pa), (type_id_const b Pb).
  unfold when_compatible. destruct (compat _ _) eqn:Hc; [|reflexivity|].
  - destruct (same_decay _ _) eqn:E; [|reflexivity]. exfalso. apply same_decay_iff in E. apply Hd.
    unfold exp_const in E. rewrite !(full_decay_constify RL RNone) in E. congruence.
  - exfalso. revert Hc. apply compat_no_term; unfold exp_const; cbn; rewrite constify_depth; assumption.
Qed.

Lemma eq_cases e a b : comparable e a -> comparable e b -> unmixed a b -> consistent a b ->
  (constify (held a) = constify (held b) /\ exists cmp, e_cmp e (scalar (held a)) = Some cmp /\ equivalence cmp /\
     v_eq e (Some a) (Some b) = Got (pointwise cmp (c_vals a) (c_vals b))) \/
  (constify (held a) <> constify (held b) /\ v_eq e (Some a) (Some b) = Got false).
Proof.
  intros Ca Cb Hu Hc. destruct (ty_eq_dec (constify (held a)) (constify (held b))) as [E|E].
  - left. split; [exact E|]. pose proof Ca as (_ & _ & _ & cmp & Hcmp & Q). exists cmp. split; [exact Hcmp|]. split; [exact Q|].
    apply eq_same; auto.
  - right. split; [exact E|]. apply eq_other; auto.
Qed.

Lemma unmixed_sym a b : unmixed a b -> unmixed b a.
Proof. intros H E. symmetry. apply H. symmetry. exact E. Qed.
Lemma consistent_sym a b : consistent a b -> consistent b a.
Proof. intros H E F. destruct (H (eq_sym E) (eq_sym F)). auto. Qed.

Lemma eq_refl_all e v : sane e v -> v_eq e v v = Got true.
Proof.
  destruct v as [c|]; [|reflexivity]. intro H. pose proof H as (_ & _ & _ & cmp & Hcmp & Q).
  rewrite (eq_same e c c cmp H H) by (auto; split; reflexivity). rewrite pointwise_refl by apply Q. reflexivity.
Qed.

Lemma eq_sym_all e a b : sane e a -> sane e b -> lift unmixed a b -> lift consistent a b ->
  exists r, v_eq e a b = Got r /\ v_eq e b a = Got r.
Proof.
  destruct a as [a|], b as [b|]; cbn [sane lift]; intros Ca Cb Hu Hc; try (eexists; split; reflexivity).
  destruct (eq_cases e a b Ca Cb Hu Hc) as [(E & cmp & Hcmp & Q & ->)|[E ->]];
  destruct (eq_cases e b a Cb Ca (unmixed_sym _ _ Hu) (consistent_sym _ _ Hc)) as [(E' & cmp' & Hcmp' & Q' & ->)|[E' ->]]; try congruence.
  - assert (cmp' = cmp).
    { rewrite <- scalar_constify, <- E, scalar_constify in Hcmp'. congruence. }
    subst. exists (pointwise cmp (c_vals a) (c_vals b)). split; [reflexivity|]. rewrite pointwise_sym by apply Q. reflexivity.
  - eauto.
Qed.

Lemma eq_trans_all e a b c : sane e a -> sane e b -> sane e c ->
  lift unmixed a b -> lift unmixed b c -> lift unmixed a c ->
  lift consistent a b -> lift consistent b c -> lift consistent a c ->
  v_eq e a b = Got true -> v_eq e b c = Got true -> v_eq e a c = Got true.
Proof.
  destruct a as [a|], b as [b|], c as [c|]; cbn [sane lift]; try discriminate; auto.
  intros Ca Cb Cc U1 U2 U3 K1 K2 K3.
  destruct (eq_cases e a b Ca Cb U1 K1) as [(E1 & m1 & M1 & Q1 & ->)|[E1 ->]]; [|discriminate].
  destruct (eq_cases e b c Cb Cc U2 K2) as [(E2 & m2 & M2 & Q2 & ->)|[E2 ->]]; [|discriminate].
  destruct (eq_cases e a c Ca Cc U3 K3) as [(E3 & m3 & M3 & Q3 & ->)|[E3 ->]]; [|congruence].
  assert (m2 = m1) by (rewrite <- scalar_constify, <- E1, scalar_constify in M2; congruence). assert (m3 = m1) by congruence. subst.
  intros H1 H2. injection H1 as H1. injection H2 as H2. f_equal. eapply pointwise_trans; eauto. apply Q1.
Qed.

Lemma eq_hash e a b : sane e a -> sane e b -> lift unmixed a b -> lift consistent a b -> lift (canonical e) a b ->
  v_eq e a b = Got true -> v_hash e a = v_hash e b.
Proof.
  destruct a as [a|], b as [b|]; cbn [sane lift]; try discriminate; auto. intros Ca Cb U K N.
  destruct (eq_cases e a b Ca Cb U K) as [(E & cmp & M & Q & ->)|[E ->]]; [|discriminate].
  intro H. injection H as H. unfold v_hash. f_equal. eapply N; eauto.
Qed.
