(** Proofs about arguments, calls and properties. *)
From Coq Require Import NArith ZArith List Bool Arith Lia.
From Verif Require Import TypesModel TypesSpec TypesProofs InheritModel InheritSpec InheritProofs AccModel AccSpec AccProofs CallModel CallSpec.
Import ListNotations.

(** ** Arguments *)

Lemma decay_parameter t : parameter_type t -> decay t = copy_type t.
Proof. destruct t as [c v b|c v t|t n]; cbn; intro H; try reflexivity; [|destruct H]. destruct (b_kind b); congruence. Qed.

Lemma copy_parameter t : parameter_type t -> parameter_type (copy_type t).
Proof. destruct t; cbn; auto. Qed.
Lemma parameter_not_array t : parameter_type t -> is_array t = false.
Proof. destruct t; cbn; auto. intros []. Qed.
Lemma copy_usable t : usable t -> usable (copy_type t).
Proof.
  intros [(H1 & H2 & H3) H4]. split; [split; [|split]|].
  - cbn. apply copy_no_volatile, H1.
  - cbn. rewrite copy_arrays. exact H2.
  - cbn. rewrite copy_depth. exact H3.
  - destruct t as [| |[] n]; cbn in *; auto.
Qed.
Lemma copy_similar t : similar t (copy_type t).
Proof. induction t; cbn; constructor; auto using similar_refl. Qed.
Lemma copy_not_const t : const_at (copy_type t) 0 = false.
Proof. induction t; cbn; auto. Qed.
Lemma copy_id t : is_const t = false -> usable t -> parameter_type t -> copy_type t = t.
Proof.
  intros Hc [(Hv & _) _] Hp. destruct t as [c v b|c v t|t n]; cbn in *; [| |destruct Hp]; subst; [destruct v; [discriminate|reflexivity]|].
  destruct v; [discriminate|reflexivity].
Qed.
Lemma class_copy t k : class_type (copy_type t) k <-> class_type t k.
Proof.
  split.
  - intros (c & v & b & E & H). destruct t; cbn in E; try discriminate. injection E as <- <- <-. exists c0, v0, b0. auto.
  - intros (c & v & b & -> & H). exists false, false, b. auto.
Qed.
Lemma pointer_copy t k : pointer_type (copy_type t) k <-> pointer_type t k.
Proof.
  split.
  - intros (c & v & u & E & H). destruct t; cbn in E; try discriminate. injection E as <- <- <-. exists c0, v0, t. auto.
  - intros (c & v & u & -> & H). exists false, false, u. auto.
Qed.

(** The content an argument gives access to. *)
Lemma const_content_of p k c : stands_for p k c -> exists r, g_value (make_argument true p) = Some r /\
  const_content r = Some c /\ mutable_content r = (if k then Throw else Got (Some c)).
Proof. intro H. inversion H; subst; cbn; eexists; repeat split. Qed.

Lemma passed_cases p : (exists k c, stands_for p k c) \/ exists k, p = Variant k None.
Proof. destruct p as [c|c|k [c|]]; eauto using stands_for. Qed.

Lemma arg_value_of e rv p k c q : stands_for p k c ->
  arg_value e (make_argument rv p) q =
  let T := decay (q_ty q) in
  let fallback cv := bind (v_to e cv (Some c) T) (fun g => Got (Temp g)) in
  let direct cv (d : option place) := match d with Some pl => Got (Direct pl) | None => fallback cv end in
  match q_ref q with
  | RR => if rv && negb k then bind (access e DataL (Some c) T) (direct false) else Throw
  | RL => if is_const (q_ty q) then bind (access e DataC (Some c) T) (direct true)
          else if rv || k then Throw
          else bind (access e RefL (Some c) T) (fun d => match d with Some pl => Got (Direct pl) | None => Throw end)
  | RNone => fallback true
  end.
Proof.
  intro H. unfold arg_value. inversion H; subst; cbn [make_argument g_value g_rvalue]; cbn zeta;
    destruct (q_ref q); try reflexivity; unfold value_lref, value_rref; try destruct (is_const (q_ty q)); destruct rv; try destruct k; reflexivity.
Qed.

Lemma empty_rejected e q : arg_value e no_argument q = Throw.
Proof. reflexivity. Qed.
Lemma empty_variant_rejected e rv k q : arg_value e (make_argument rv (Variant k None)) q = Throw.
Proof.
  unfold arg_value. cbn [make_argument g_value g_rvalue]. cbn zeta.
  destruct (q_ref q); [reflexivity| |].
  - destruct (is_const (q_ty q)); [reflexivity|]. unfold value_lref. destruct rv; [reflexivity|]. destruct k; reflexivity.
  - unfold value_rref. destruct rv; [|reflexivity]. destruct k; reflexivity.
Qed.

Lemma allowed_place e a c T pl : is_array T = false -> (const_at (q_ty (returned a T)) 0 = false) -> allowed e a c T pl ->
  same_or_derived e c T pl \/ (exists i k z, pointer_type (held c) i /\ pointer_type T k /\ base_at e c k z /\ pl = Slot).
Proof.
  intros Ha Hc H. inversion H as [B|t n t' m E1 E2|t n c' v' t' E1 E2 S K|i k z C1 C2 B|i k z P1 P2 B S]; subst.
  - left. constructor. destruct B as [S _]. rewrite expression_ty in S.
    eapply similar_trans; [|eapply similar_trans; [exact S|apply similar_sym, returned_similar]].
    destruct (on_const a); auto using constify_similar, similar_refl.
  - discriminate.
  - rewrite K in Hc. discriminate.
  - left. eapply Derived; eassumption.
  - right. eauto 10.
Qed.

Lemma lvalue_only e rv p T b : wf_env e -> good_passed p -> usable T -> parameter_type T -> is_const T = false ->
  arg_value e (make_argument rv p) (mkQ RL T) = Got b ->
  rv = false /\ exists c pl, stands_for p false c /\ b = Direct pl /\
    (forall j, const_at (held c) j = true -> const_at T j = true) /\
    (same_or_derived e c T pl \/ exists i k z, pointer_type (held c) i /\ pointer_type T k /\ base_at e c k z /\ pl = Slot).
Proof.
  intros Hw Hg HT Hpar Hc H. destruct (passed_cases p) as [(k & c & S)|(k & ->)].
  2:{ rewrite empty_variant_rejected in H. discriminate. }
  rewrite (arg_value_of e rv p k c _ S) in H. cbn zeta in H. cbn [q_ref q_ty] in H. rewrite Hc in H.
  rewrite (decay_parameter T Hpar), (copy_id T Hc HT Hpar) in H.
  destruct rv; [discriminate|]. destruct k; [discriminate|]. cbn [orb] in H. split; [reflexivity|].
  destruct (Hg _ _ S) as [Hu Hn].
  destruct (access e RefL (Some c) T) as [[pl|]| | | |] eqn:A; try discriminate. cbn in H. injection H as <-.
  exists c, pl. split; [exact S|]. split; [reflexivity|]. apply (access_cast e RefL c T pl Hu) in A.
  destruct (cast_allowed e RefL c T pl Hw Hu HT A) as [A1 A2]. split; [exact A2|].
  apply (allowed_place e RefL c T pl); [apply parameter_not_array, Hpar| |exact A1]. cbn. rewrite <- is_const_at0. exact Hc.
Qed.

Lemma lvalue_same e p c T : stands_for p false c -> usable (c_src c) -> usable T -> parameter_type T -> is_const T = false ->
  binds (mkQ RL (held c)) (mkQ RL T) -> arg_value e (make_argument false p) (mkQ RL T) = Got (Direct Whole).
Proof.
  intros S Hu HT Hp Hc B. rewrite (arg_value_of e false p false c _ S). cbn zeta. cbn [q_ref q_ty]. rewrite Hc.
  rewrite (decay_parameter T Hp), (copy_id T Hc HT Hp). cbn [orb].
  assert (Ha : is_array T = false) by (apply parameter_not_array, Hp).
  assert (Hh : is_array (held c) = false).
  { destruct B as [Sm _]. cbn in Sm. destruct (held c); try reflexivity. inversion Sm; subst. discriminate. }
  rewrite (access_binds e RefL c T Hu HT Hh Ha B). reflexivity.
Qed.

Lemma lvalue_derived e p c T i k z : wf_env e -> stands_for p false c -> usable (c_src c) -> usable T -> is_const T = false ->
  class_type (held c) i -> class_type T k -> i <> k -> base_at e c k z -> const_at (held c) 0 = false ->
  arg_value e (make_argument false p) (mkQ RL T) = Got (Direct (Base z)).
Proof.
  intros Hw S Hu HT Hc Hi Hk N B Hc0. rewrite (arg_value_of e false p false c _ S). cbn zeta. cbn [q_ref q_ty]. rewrite Hc.
  assert (Hp : parameter_type T) by (destruct Hk as (c1 & v1 & b1 & -> & K & _); cbn; congruence).
  rewrite (decay_parameter T Hp), (copy_id T Hc HT Hp). cbn [orb].
  rewrite (access_base e RefL c T i k z Hw Hu HT Hi Hk N B) by congruence. reflexivity.
Qed.

Lemma rvalue_only e rv p T b : arg_value e (make_argument rv p) (mkQ RR T) = Got b -> rv = true /\ exists c, stands_for p false c.
Proof.
  intro H. destruct (passed_cases p) as [(k & c & S)|(k & ->)].
  2:{ rewrite empty_variant_rejected in H. discriminate. }
  rewrite (arg_value_of e rv p k c _ S) in H. cbn in H. destruct rv, k; try discriminate. eauto.
Qed.

(** How conversion results are related to the content. *)
Definition temporary e c T g := denotes e c T g \/
  exists f w, e_conv e (full_decay (mkQ RNone (held c))) (full_decay (mkQ RNone T)) = Some f /\ f c = Good w /\ g = Converted w.

Lemma rvalue_what e p T b : wf_env e -> good_passed p -> usable T -> parameter_type T ->
  arg_value e (make_argument true p) (mkQ RR T) = Got b ->
  exists c, stands_for p false c /\
    ((exists pl, b = Direct pl /\ const_at (held c) 0 = false /\
        (same_or_derived e c (copy_type T) pl \/
         exists i k z, pointer_type (held c) i /\ pointer_type (copy_type T) k /\ base_at e c k z /\ pl = Slot)) \/
     (exists g, b = Temp g /\ temporary e c (copy_type T) g)).
Proof.
  intros Hw Hg HT Hpar H. destruct (rvalue_only e true p T b H) as (_ & c & S). exists c. split; [exact S|].
  rewrite (arg_value_of e true p false c _ S) in H. cbn zeta in H. cbn [q_ref q_ty] in H. rewrite (decay_parameter T Hpar) in H.
  destruct (Hg _ _ S) as [Hu Hn]. pose proof (copy_usable T HT) as HT'. pose proof (parameter_not_array _ (copy_parameter T Hpar)) as Ha.
  cbn [andb negb] in H. destruct (access e DataL (Some c) (copy_type T)) as [[pl|]| | | |] eqn:A; try discriminate; cbn [bind] in H.
  - injection H as <-. left. exists pl. split; [reflexivity|]. apply (access_cast e DataL c _ pl Hu) in A.
    destruct (cast_allowed e DataL c _ pl Hw Hu HT' A) as [A1 A2]. split.
    + specialize (A2 0). cbn in A2. rewrite copy_not_const in A2. destruct (const_at (held c) 0); [discriminate (A2 eq_refl)|reflexivity].
    + apply (allowed_place e DataL c _ pl Ha); [cbn; apply copy_not_const|exact A1].
  - right. destruct (v_to e false (Some c) (copy_type T)) as [g| | | |] eqn:V; try discriminate. injection H as <-.
    exists g. split; [reflexivity|]. exact (to_denotes e false c _ g Hw Hu HT' Ha Hn V).
Qed.

Lemma convertible_accepted e rv p k c q : wf_env e -> stands_for p k c -> usable (c_src c) -> not_null c -> usable (q_ty q) ->
  parameter_type (q_ty q) -> q_ref q = RNone \/ (q_ref q = RL /\ is_const (q_ty q) = true) \/ (q_ref q = RR /\ rv = true /\ k = false) ->
  e_copies e (copy_type (q_ty q)) = true ->
  (forall f, e_conv e (full_decay (mkQ RNone (held c))) (full_decay (mkQ RNone (copy_type (q_ty q)))) = Some f -> exists w, f c = Good w) ->
  v_canConvert e (match q_ref q with RR => false | _ => true end) (Some c) (copy_type (q_ty q)) = Got true ->
  exists b, arg_value e (make_argument rv p) q = Got b.
Proof.
  intros Hw S Hu Hn HT Hp Hq Hcp Hf H. rewrite (arg_value_of e rv p k c _ S). cbn zeta. rewrite (decay_parameter _ Hp).
  pose proof (copy_usable _ HT) as HT'. pose proof (parameter_not_array _ (copy_parameter _ Hp)) as Ha.
  destruct (canConvert_to e _ c _ Hw Hu HT' Ha Hn Hcp Hf H) as [g Hg].
  destruct Hq as [Hq|[[Hq Hc]|(Hq & -> & ->)]]; rewrite Hq in *; rewrite ?Hc.
  - rewrite Hg. cbn. eauto.
  - destruct (access_total e DataC c (copy_type (q_ty q)) Hw Hu HT' Hn) as [[[pl|] ->]|A]; cbn [bind]; eauto.
    + rewrite Hg. cbn. eauto.
    + exfalso. unfold access in A. destruct (metafunc_cast _ _ _ _); discriminate.
  - cbn [andb negb]. destruct (access_total e DataL c (copy_type (q_ty q)) Hw Hu HT' Hn) as [[[pl|] ->]|A]; cbn [bind]; eauto.
    + rewrite Hg. cbn. eauto.
    + exfalso. unfold access in A. destruct (metafunc_cast _ _ _ _); discriminate.
Qed.

Lemma copy_what e rv p T b : wf_env e -> good_passed p -> usable T -> parameter_type T ->
  arg_value e (make_argument rv p) (mkQ RNone T) = Got b ->
  exists k c g, stands_for p k c /\ b = Temp g /\ temporary e c (copy_type T) g.
Proof.
  intros Hw Hg HT Hpar H. destruct (passed_cases p) as [(k & c & S)|(k & ->)].
  2:{ rewrite empty_variant_rejected in H. discriminate. }
  rewrite (arg_value_of e rv p k c _ S) in H. cbn zeta in H. cbn [q_ref q_ty] in H. rewrite (decay_parameter T Hpar) in H.
  destruct (Hg _ _ S) as [Hu Hn]. destruct (v_to e true (Some c) (copy_type T)) as [g| | | |] eqn:V; try discriminate. injection H as <-.
  exists k, c, g. split; [exact S|]. split; [reflexivity|].
  exact (to_denotes e true c _ g Hw Hu (copy_usable T HT) (parameter_not_array _ (copy_parameter T Hpar)) Hn V).
Qed.

Lemma cref_what e rv p T b : wf_env e -> good_passed p -> usable T -> parameter_type T -> is_const T = true ->
  arg_value e (make_argument rv p) (mkQ RL T) = Got b ->
  exists k c, stands_for p k c /\
    ((exists pl, b = Direct pl /\ allowed e DataC c (copy_type T) pl) \/ (exists g, b = Temp g /\ temporary e c (copy_type T) g)).
Proof.
  intros Hw Hg HT Hpar Hc H. destruct (passed_cases p) as [(k & c & S)|(k & ->)].
  2:{ rewrite empty_variant_rejected in H. discriminate. }
  rewrite (arg_value_of e rv p k c _ S) in H. cbn zeta in H. cbn [q_ref q_ty] in H. rewrite (decay_parameter T Hpar), Hc in H.
  destruct (Hg _ _ S) as [Hu Hn]. exists k, c. split; [exact S|]. pose proof (copy_usable T HT) as HT'.
  destruct (access e DataC (Some c) (copy_type T)) as [[pl|]| | | |] eqn:A; try discriminate; cbn [bind] in H.
  - injection H as <-. left. exists pl. split; [reflexivity|]. apply (access_cast e DataC c _ pl Hu) in A.
    exact (proj1 (cast_allowed e DataC c _ pl Hw Hu HT' A)).
  - right. destruct (v_to e true (Some c) (copy_type T)) as [g| | | |] eqn:V; try discriminate. injection H as <-.
    exists g. split; [reflexivity|].
    exact (to_denotes e true c _ g Hw Hu HT' (parameter_not_array _ (copy_parameter T Hpar)) Hn V).
Qed.

Lemma to_total e cv c T : wf_env e -> usable (c_src c) -> usable T -> is_array T = false -> not_null c ->
  (exists g, v_to e cv (Some c) T = Got g) \/ v_to e cv (Some c) T = Throw.
Proof.
  intros Hw Hu HT Ha Hn. destruct (is_total e cv c (mkQ RNone T) Hw Hu HT Hn) as [[|] E].
  - destruct (e_copies e T) eqn:Hcp.
    + destruct (is_to e cv c T Hw Hu HT Ha Hn E Hcp) as (g & -> & _). eauto.
    + right. pose proof (usable_arrays _ Hu) as Hp.
      unfold v_is, v_to, metafunc_is, metafunc_to, copied in *. rewrite (type_id_exp c cv Hp) in *. rewrite Hcp.
      unfold when_compatible in *. destruct (compat _ _); try discriminate. destruct (same_decay _ _); [reflexivity|].
      destruct (tag_of _) as [|k|k]; [discriminate| |].
      * destruct (isClass _); [|discriminate]. destruct (inherits_spec e c k Hw Hp Hn) as (r & Er & Hr). rewrite Er in E. injection E as ->.
        destruct (proj1 Hr eq_refl) as [z Hz]. rewrite (proj2 (proj1 (cast_imp_spec e c k Hw Hp) z) Hz). reflexivity.
      * destruct (isClassPtr _); [|discriminate]. destruct (inherits_spec e c k Hw Hp Hn) as (r & Er & Hr). rewrite Er in E. injection E as ->.
        destruct (proj1 Hr eq_refl) as [z Hz]. rewrite (proj2 (proj1 (cast_imp_spec e c k Hw Hp) z) Hz). reflexivity.
  - rewrite (is_false_to e cv c T Hw Hu HT Hn E). destruct (e_conv e _ _) as [f|]; [|auto]. destruct (f c); eauto.
Qed.

Lemma argument_total e rv p q : wf_env e -> good_passed p -> usable (q_ty q) -> parameter_type (q_ty q) ->
  (exists b, arg_value e (make_argument rv p) q = Got b) \/ arg_value e (make_argument rv p) q = Throw.
Proof.
  intros Hw Hg HT Hp. destruct (passed_cases p) as [(k & c & S)|(k & ->)].
  2:{ rewrite empty_variant_rejected. auto. }
  destruct (Hg _ _ S) as [Hu Hn]. rewrite (arg_value_of e rv p k c _ S). cbn zeta. rewrite (decay_parameter _ Hp).
  pose proof (copy_usable _ HT) as HT'. pose proof (parameter_not_array _ (copy_parameter _ Hp)) as Ha.
  assert (F : forall cv, (exists b, bind (v_to e cv (Some c) (copy_type (q_ty q))) (fun g => Got (Temp g)) = Got b) \/
                         bind (v_to e cv (Some c) (copy_type (q_ty q))) (fun g => Got (Temp g)) = Throw).
  { intro cv. destruct (to_total e cv c _ Hw Hu HT' Ha Hn) as [[g ->]| ->]; cbn; eauto. }
  destruct (q_ref q).
  - apply F.
  - destruct (is_const (q_ty q)).
    + destruct (access_total e DataC c (copy_type (q_ty q)) Hw Hu HT' Hn) as [[[pl|] ->]| ->]; cbn [bind]; eauto.
    + destruct (rv || k); auto.
      destruct (access_total e RefL c (copy_type (q_ty q)) Hw Hu HT' Hn) as [[[pl|] ->]| ->]; cbn [bind]; eauto.
  - destruct (rv && negb k); auto.
    destruct (access_total e DataL c (copy_type (q_ty q)) Hw Hu HT' Hn) as [[[pl|] ->]| ->]; cbn [bind]; eauto.
Qed.

(** ** Counting arguments *)

Lemma count_down_spec l : forall n, (n < 2 ^ 64)%N ->
  Z.of_N (count_down n l) = ((Z.of_N n - Z.of_nat (leading l)) mod 2 ^ 64)%Z.
Proof.
  induction l as [|a l IH]; intros n Hn.
  - cbn [count_down leading]. rewrite Z.mod_small; lia.
  - cbn [count_down leading]. unfold empty. destruct (g_value a).
    + rewrite IH by (apply N.mod_lt; discriminate). rewrite N2Z.inj_mod, N2Z.inj_add.
      change (Z.of_N (2 ^ 64 - 1)) with (2 ^ 64 - 1)%Z. change (Z.of_N (2 ^ 64)) with (2 ^ 64)%Z.
      rewrite Zminus_mod_idemp_l. rewrite Nat2Z.inj_succ.
      replace (Z.of_N n + (2 ^ 64 - 1) - Z.of_nat (leading l))%Z with (Z.of_N n - Z.succ (Z.of_nat (leading l)) + 1 * 2 ^ 64)%Z by lia.
      apply Z_mod_plus_full.
    + rewrite Z.mod_small; lia.
Qed.

Lemma leading_empties l n : leading (l ++ repeat no_argument n) = leading l.
Proof.
  induction l as [|a l IH]; cbn.
  - destruct n; reflexivity.
  - destruct (g_value a); congruence.
Qed.

Lemma ten_split l : length l <= 10 -> ten l = l ++ repeat no_argument (10 - length l).
Proof.
  intro H. unfold ten. rewrite firstn_app, firstn_all2 by lia. f_equal.
  remember (10 - length l) as n. assert (n <= 10) by lia. clear Heqn.
  do 11 (destruct n as [|n]; [reflexivity|]). lia.
Qed.

Lemma leading_length l : leading l <= length l.
Proof. induction l as [|a l IH]; cbn; [lia|]. destruct (g_value a); lia. Qed.

Lemma pack_spec n l : length l <= 10 -> (N.of_nat n < 2 ^ 64)%N ->
  pack_arguments n l = if leading l =? n then Done (ten l) else Invoke_error.
Proof.
  intros Hl Hn. unfold pack_arguments.
  pose proof (count_down_spec (ten l) (N.of_nat n) Hn) as H.
  rewrite (ten_split l Hl) in H at 2. rewrite leading_empties in H.
  pose proof (leading_length l) as Hlen.
  destruct (N.eqb_spec (count_down (N.of_nat n) (ten l)) 0) as [E|E]; destruct (Nat.eqb_spec (leading l) n) as [F|F]; auto; exfalso.
  - rewrite E in H. change (Z.of_N 0) with 0%Z in H. rewrite nat_N_Z in H.
    destruct (Nat.lt_ge_cases n (leading l)) as [L|L].
    + assert (X : ((Z.of_nat n - Z.of_nat (leading l)) mod 2 ^ 64 = Z.of_nat n - Z.of_nat (leading l) + 2 ^ 64)%Z)
        by (symmetry; apply Z.mod_unique with (-1)%Z; change (2 ^ 64)%Z with 18446744073709551616%Z; lia).
      rewrite X in H. change (2 ^ 64)%Z with 18446744073709551616%Z in H. lia.
    + rewrite Z.mod_small in H; lia.
  - apply E. rewrite F, nat_N_Z, Z.sub_diag, Zmod_0_l in H. apply N2Z.inj. exact H.
Qed.

Lemma bind_all_spec e : forall params args bs,
  bind_all e params args = Done bs <-> length params <= length args /\ bound_in_order e params args bs.
Proof.
  unfold bound_in_order. induction params as [|q params IH]; intros args bs; cbn [bind_all].
  - split.
    + intro H. injection H as <-. split; [cbn; lia|]. split; [reflexivity|]. intros [|i] q a b Hq; discriminate.
    + intros (_ & H & _). destruct bs; [reflexivity|discriminate].
  - destruct args as [|a args].
    + split; [discriminate|]. cbn. lia.
    + split.
      * intro H. destruct (arg_value e a q) as [b| | | |] eqn:E; cbn in H; try discriminate.
        destruct (bind_all e params args) as [bs'| | | | |] eqn:E'; cbn in H; try discriminate. injection H as <-.
        apply IH in E' as (L1 & L2 & L3). cbn [length]. split; [lia|]. split; [lia|].
        intros [|i] q' a' b'; cbn [nth_error]; intros H1 H2 H3; [congruence|eauto].
      * intros (L1 & L2 & L3). cbn [length] in *. destruct bs as [|b bs]; [discriminate|].
        rewrite (L3 0 q a b) by reflexivity. cbn [run andThen].
        assert (X : bind_all e params args = Done bs).
        { apply IH. split; [lia|]. split; [cbn in L2; lia|]. intros i. apply (L3 (S i)). }
        rewrite X. reflexivity.
Qed.

Lemma bind_all_no_invoke e : forall params args, bind_all e params args <> Invoke_error.
Proof.
  induction params as [|q params IH]; intros args; cbn [bind_all]; [discriminate|]. destruct args as [|a args]; [discriminate|].
  destruct (arg_value e a q); cbn; try discriminate. specialize (IH args). destruct (bind_all e params args); cbn; congruence.
Qed.

Lemma bound_in_order_ten e params l bs : length l <= 10 -> length params <= length l ->
  (bound_in_order e params (ten l) bs <-> bound_in_order e params l bs).
Proof.
  intros H Hp. unfold bound_in_order. rewrite (ten_split l H). split; intros [H1 H2]; split; auto; intros i q a b Hq Ha Hb.
  - eapply H2; eauto. rewrite nth_error_app1; [exact Ha|]. apply nth_error_Some. congruence.
  - eapply H2; eauto. rewrite nth_error_app1 in Ha; [exact Ha|].
    assert (i < length params) by (apply nth_error_Some; congruence). lia.
Qed.

Lemma static_called e params args c : length args <= 10 -> (N.of_nat (length params) < 2 ^ 64)%N ->
  (invoke_static e params args = Done c <->
   leading args = length params /\ on c = None /\ bound_in_order e params args (args_of c)).
Proof.
  intros Ha Hp. unfold invoke_static. rewrite (pack_spec _ _ Ha Hp). pose proof (leading_length args) as Hl.
  destruct (Nat.eqb_spec (leading args) (length params)) as [E|E]; cbn [andThen].
  - assert (L : length params <= length args) by lia. split.
    + intro H. destruct (bind_all e params (ten args)) as [bs| | | | |] eqn:B; cbn in H; try discriminate. injection H as <-.
      cbn [on args_of]. split; [exact E|]. split; [reflexivity|]. apply bind_all_spec in B as [_ B].
      apply (bound_in_order_ten e params args bs Ha L). exact B.
    + intros (_ & H1 & H2). assert (B : bind_all e params (ten args) = Done (args_of c)).
      { apply bind_all_spec. split; [rewrite (ten_split _ Ha), app_length; lia|]. apply (bound_in_order_ten e params args _ Ha L). exact H2. }
      rewrite B. destruct c; cbn in *. subst. reflexivity.
  - split; [discriminate|]. intros [H _]. contradiction.
Qed.

Lemma static_error e params args : length args <= 10 -> (N.of_nat (length params) < 2 ^ 64)%N ->
  (invoke_static e params args = Invoke_error <-> leading args <> length params).
Proof.
  intros Ha Hp. unfold invoke_static. rewrite (pack_spec _ _ Ha Hp).
  destruct (Nat.eqb_spec (leading args) (length params)) as [E|E]; cbn [andThen].
  - split; [|contradiction]. intro H. pose proof (bind_all_no_invoke e params (ten args)) as N. destruct (bind_all e params (ten args)); cbn in H; congruence.
  - split; auto.
Qed.

(** ** Objects of member calls *)

Lemma compat_pointer from c0 v0 c1 v1 b1 c2 v2 c3 v3 b3 : q_ty from = TPtr c0 v0 (TBase c1 v1 b1) ->
  (compat from (mkQ RNone (TPtr c2 v2 (TBase c3 v3 b3))) = CTrue <-> (c1 = true -> c3 = true)).
Proof.
  intro E. rewrite compatible_unfold by (rewrite ?E; cbn; lia). cbn zeta. cbn [q_ref q_ty]. rewrite E.
  rewrite !andb_false_r. cbn -[compare_masks info_of]. rewrite ?andb_false_r.
  destruct (compare_masks_spec (info_of from) (info_of (mkQ RNone (TPtr c2 v2 (TBase c3 v3 b3)))) 0 false) as [Hm _]; [lia|]. rewrite Hm.
  unfold loop_ok. split.
  - intro H. destruct (H 0) as [H0 _]; [lia|]. rewrite !mask_bit in H0 by (rewrite ?E; cbn; lia). rewrite E in H0. exact H0.
  - intros H i Hi. assert (i = 0) by lia. subst i. rewrite !mask_bit by (rewrite ?E; cbn; lia). rewrite E. split; [exact H|]. intros _ j Hj. lia.
Qed.

Lemma pointer_exp_shape cv t i : pointer_type t i -> exists c0 v0 c1 v1 b1, q_ty (exp_of cv t) = TPtr c0 v0 (TBase c1 v1 b1) /\
  const_at t 1 = c1 /\ b_kind b1 = KClass /\ b_id b1 = i.
Proof.
  intros (c & v & u & -> & c' & v' & b & -> & K & I). destruct cv; cbn; repeat eexists; eauto.
Qed.

Lemma class_t_usable b cst : usable (class_t b cst).
Proof. split; [split; [reflexivity|split; [reflexivity|cbn; lia]]|exact I]. Qed.
Lemma class_ptr_usable b cst : usable (TPtr false false (class_t b cst)).
Proof. split; [split; [reflexivity|split; [reflexivity|cbn; lia]]|exact I]. Qed.
Lemma class_t_class b cst : b_kind b = KClass -> class_type (class_t b cst) (b_id b).
Proof. intro H. exists cst, false, b. auto. Qed.
Lemma class_ptr_pointer b cst : b_kind b = KClass -> pointer_type (TPtr false false (class_t b cst)) (b_id b).
Proof. intro H. exists false, false, (class_t b cst). auto using class_t_class. Qed.

Lemma one_class_held c b i : one_class c b -> class_type (held c) i -> i = b_id b -> exists c1 v1, held c = TBase c1 v1 b.
Proof.
  intros H Hi ->. pose proof (H (held c) (or_introl eq_refl) Hi) as E. destruct Hi as (c1 & v1 & b1 & Eh & _). rewrite Eh in *. cbn in E. subst. eauto.
Qed.
Lemma one_class_pointee c b i : one_class c b -> pointer_type (held c) i -> i = b_id b -> exists c0 v0 c1 v1, held c = TPtr c0 v0 (TBase c1 v1 b).
Proof.
  intros H (c0 & v0 & u & Eh & Hu) ->. pose proof (H u (or_intror (ex_intro _ c0 (ex_intro _ v0 Eh))) Hu) as E.
  destruct Hu as (c1 & v1 & b1 & -> & _). cbn in E. subst. eauto 6.
Qed.

Lemma ref_object_names e k c b cm x : wf_env e -> usable (c_src c) -> one_class c b -> b_kind b = KClass ->
  k = false \/ cm = true -> ref_object e k c (class_t b cm) = Done x ->
  (exists i, class_type (held c) i) /\ exists w, names e k c (b_id b) x w /\ (cm = false -> w = true).
Proof.
  intros Hw Hu Ho Hb Hk H. unfold ref_object in H. set (a := if k then RefC else RefL) in *.
  destruct (access e a (Some c) (class_t b cm)) as [[p|]| | | |] eqn:A; try discriminate. cbn [run andThen] in H.
  apply (access_cast e a c (class_t b cm) p Hu) in A.
  destruct (cast_allowed e a c (class_t b cm) p Hw Hu (class_t_usable b cm) A) as [A1 A2].
  assert (W : cm = false -> negb (protected k (held c) 0) = true).
  { intros ->. destruct Hk as [-> |]; [|discriminate]. rewrite protected_false. specialize (A2 0). cbn in A2.
    destruct (const_at (held c) 0); [discriminate (A2 eq_refl)|reflexivity]. }
  assert (C : exists i, class_type (held c) i).
  { inversion A1 as [B|t n t' m E1 E2|t n c' v' t' E1 E2 S K|i j z C1 C2 B|i j z P1 P2 B S]; subst; eauto.
    - assert (B' : similar (held c) (class_t b cm)).
      { destruct B as [B _]. rewrite expression_ty in B.
        eapply similar_trans; [|eapply similar_trans; [exact B|apply similar_sym, returned_similar]].
        destruct (on_const a); auto using constify_similar, similar_refl. }
      inversion B' as [c1 v1 c2 v2 b' E1 E2| |]; subst. exists (b_id b), c1, v1, b. auto.
    - discriminate.
    - discriminate.
    - destruct P2 as (? & ? & ? & ? & _). discriminate. }
  split; [exact C|]. destruct C as [i Hi]. exists (negb (protected k (held c) 0)). split; [|exact W].
  destruct (Nat.eq_dec i (b_id b)) as [E|E].
  - destruct (one_class_held c b i Ho Hi E) as (c1 & v1 & Eh).
    unfold metafunc_cast, when_compatible in A. destruct (compat _ _); try discriminate.
    assert (D : same_decay (expression a (held c)) (returned a (class_t b cm)) = true).
    { apply same_decay_iff. unfold full_decay. rewrite Eh. destruct a; cbn; rewrite Hb; reflexivity. }
    assert (R : is_array (q_ty (returned a (class_t b cm))) = false) by (destruct a; reflexivity).
    rewrite D, R in A. rewrite (stored_held c (usable_arrays _ Hu)), Eh in A. cbn in A. injection A as <-.
    cbn in H. injection H as <-. apply NamesSelf; [rewrite <- E; exact Hi|reflexivity].
  - inversion A1 as [B|t n t' m E1 E2|t n c' v' t' E1 E2 S K|i' j z C1 C2 B|i' j z P1 P2 B S]; subst; try discriminate.
    + exfalso. apply E. destruct B as [B _]. rewrite expression_ty in B.
      assert (B' : similar (held c) (class_t b cm)).
      { eapply similar_trans; [|eapply similar_trans; [exact B|apply similar_sym, returned_similar]].
        destruct (on_const a); auto using constify_similar, similar_refl. }
      destruct Hi as (c1 & v1 & b1 & Eh & _ & <-). rewrite Eh in B'. inversion B'. reflexivity.
    + cbn in H. injection H as <-. destruct C2 as (c2 & v2 & b2 & E2 & _ & <-). injection E2 as <- <- <-.
      exact (NamesBase e k c (b_id b) z i Hi E B).
Qed.

Lemma ref_object_ok e k c b cm x w : wf_env e -> usable (c_src c) -> one_class c b -> b_kind b = KClass ->
  (exists i, class_type (held c) i) -> names e k c (b_id b) x w -> w = true \/ cm = true ->
  ref_object e k c (class_t b cm) = Done x.
Proof.
  intros Hw Hu Ho Hb [i Hi] N Hq. unfold ref_object. set (a := if k then RefC else RefL).
  assert (Q : a = RefL \/ a = DataL \/ a = RRef -> w = negb (protected k (held c) 0) -> const_at (held c) 0 = true -> cm = true).
  { intros Ha Ew Hc. destruct Hq as [->|]; [|assumption]. symmetry in Ew. apply negb_true_iff in Ew.
    unfold protected in Ew. rewrite Hc in Ew. discriminate. }
  inversion N as [C E|j C J B|P|j P]; subst.
  - destruct (one_class_held c b _ Ho C eq_refl) as (c1 & v1 & Eh).
    assert (v1 = false).
    { destruct (usable_held c Hu) as [(Hv & _) _]. cbn in Hv. rewrite Eh in Hv. destruct v1; [discriminate|reflexivity]. }
    subst v1.
    rewrite (access_binds e a c (class_t b cm) Hu (class_t_usable b cm)); [reflexivity|rewrite Eh; reflexivity|reflexivity|].
    rewrite Eh. rewrite Eh in Q. subst a. destruct k; cbn in *.
    + split; [constructor|]. cbn. split; [auto|]. intros j _. destruct j; cbn; repeat split; auto; try lia; intros [X|X]; congruence.
    + split; [constructor|]. cbn. split; [auto|]. intros j _. destruct j; cbn; repeat split; auto; try lia; try discriminate.
  - rewrite (access_base e a c (class_t b cm) j (b_id b) x Hw Hu (class_t_usable b cm) C (class_t_class b cm Hb) J B); [reflexivity|].
    cbn. intros Ha Hc. apply Q; auto.
  - destruct (class_not_pointer _ _ _ Hi P).
  - destruct (class_not_pointer _ _ _ Hi P).
Qed.

Lemma pointer_same_decay q i r k : pointer_type (q_ty q) i -> pointer_type (q_ty r) k -> i <> k -> same_decay q r = false.
Proof.
  intros (c & v & u & E & c1 & v1 & b1 & -> & K & I) (c' & v' & u' & E' & c2 & v2 & b2 & -> & K' & I') N.
  unfold same_decay, full_decay. rewrite E, E'. cbn.
  match goal with |- context [if ?d then _ else _] => destruct d as [X|X] end; [|reflexivity]. exfalso. injection X as X. subst. congruence.
Qed.

Lemma ptr_object_names e k c b cm x : wf_env e -> usable (c_src c) -> one_class c b -> b_kind b = KClass ->
  no_pointer_converters e -> not_null c -> holds_class_ptr (Some c) = true ->
  ptr_object e k c (class_t b cm) = Done x ->
  (exists i, pointer_type (held c) i) /\ exists w, names e k c (b_id b) x w /\ (cm = false -> w = true).
Proof.
  intros Hw Hu Ho Hb Hnc Hn Hcp H. unfold ptr_object in H. set (T := TPtr false false (class_t b cm)) in *.
  destruct (v_to e k (Some c) T) as [g| | | |] eqn:V; try discriminate. cbn [run andThen] in H.
  pose proof (class_ptr_usable b cm) as HT. fold T in HT. pose proof (class_ptr_pointer b cm Hb) as HP. fold T in HP.
  destruct (to_denotes e k c T g Hw Hu HT eq_refl Hn V) as [D|(f & w & E & _)].
  2:{ rewrite (Hnc _ _ _ HP) in E. discriminate. }
  assert (I : v_is e k (Some c) (mkQ RNone T) = Got true).
  { destruct (is_total e k c (mkQ RNone T) Hw Hu HT Hn) as [[|] I]; [exact I|exfalso].
    rewrite (is_false_to e k c T Hw Hu HT Hn I), (Hnc _ _ _ HP) in V. discriminate. }
  assert (C : compat (exp_of k (held c)) (mkQ RNone T) = CTrue).
  { unfold v_is, metafunc_is, when_compatible in I. rewrite (type_id_exp c k (usable_arrays _ Hu)) in I. destruct (compat _ _); congruence. }
  assert (P : exists i, pointer_type (held c) i).
  { inversion D as [S|t n c' v' t' E1 E2 S|i j z C1 C2 B|i j z P1 P2 B]; subst; eauto.
    - inversion S as [|c0 v0 c' v' t u S' E1 E2|]; subst. inversion S' as [c1 v1 c2 v2 b' E3 E4| |]; subst.
      exists (b_id b). exists c0, v0, (TBase c1 v1 b). split; [reflexivity|]. exists c1, v1, b. auto.
    - discriminate.
    - destruct C2 as (? & ? & ? & ? & _). discriminate. }
  split; [exact P|]. destruct P as [i Hi].
  destruct (pointer_exp_shape k (held c) i Hi) as (c0 & v0 & c1 & v1 & b1 & Es & E1 & K1 & I1).
  pose proof (proj1 (compat_pointer _ _ _ _ _ _ false false cm false b Es) C) as W.
  exists (negb (const_at (held c) 1)). split; [|intros ->; rewrite E1; destruct c1; [discriminate (W eq_refl)|reflexivity]].
  inversion D as [S|t n c' v' t' E3 E2 S|i' j z C1 C2 B|i' j z P1 P2 B]; subst; try discriminate.
  - cbn in H. destruct (c_ptr c) as [p|] eqn:Ep; [|discriminate]. injection H as <-. apply NamesPointee; [|exact Ep].
    destruct Hi as (c2 & v2 & u & Eh & c3 & v3 & b3 & -> & K3 & I3). rewrite Eh in S. inversion S as [|? ? ? ? ? ? S'|]; subst. inversion S'; subst.
    rewrite Eh. eexists; eexists; eexists; split; [reflexivity|]. eexists; eexists; eexists; eauto.
  - cbn in H. injection H as <-. destruct HP as (? & ? & u & EP & HPu). destruct P2 as (? & ? & u2 & EP2 & HPu2).
    assert (j = b_id b).
    { unfold T in EP, EP2. injection EP as <- <- <-. injection EP2 as <- <- <-.
      destruct HPu2 as (? & ? & ? & EE & _ & <-). injection EE as <- <- <-. reflexivity. }
    subst j. apply NamesPointeeBase with (b_id b1); [exact Hi| |exact B].
    intro E. destruct (one_class_pointee c b _ Ho Hi E) as (c3 & v3 & c4 & v4 & Eh).
    assert (SD : same_decay (exp_of k (held c)) (mkQ RNone T) = true).
    { apply same_decay_iff. unfold full_decay. rewrite Eh. destruct k; reflexivity. }
    unfold v_to, metafunc_to, when_compatible in V. rewrite (type_id_exp c k (usable_arrays _ Hu)), C, SD in V.
    unfold copied in V. destruct (e_copies e T); [|discriminate]. destruct (is_array _); discriminate.
Qed.

Lemma ptr_object_ok e k c b cm x w : wf_env e -> usable (c_src c) -> one_class c b -> b_kind b = KClass ->
  pointers_copy e -> (exists i, pointer_type (held c) i) -> names e k c (b_id b) x w -> w = true \/ cm = true ->
  ptr_object e k c (class_t b cm) = Done x.
Proof.
  intros Hw Hu Ho Hb Hcp [i Hi] N Hq. unfold ptr_object. set (T := TPtr false false (class_t b cm)).
  pose proof (class_ptr_pointer b cm Hb) as HP. fold T in HP. pose proof (usable_arrays _ Hu) as Hp.
  destruct (pointer_exp_shape k (held c) i Hi) as (c0 & v0 & c1 & v1 & b1 & Es & E1 & K1 & I1).
  assert (C : w = negb (const_at (held c) 1) -> compat (exp_of k (held c)) (mkQ RNone T) = CTrue).
  { intro Ew. apply (compat_pointer _ _ _ _ _ _ false false cm false b Es). intros ->. rewrite E1 in Ew. cbn in Ew. destruct Hq; congruence. }
  unfold v_to, metafunc_to, when_compatible, copied. rewrite (type_id_exp c k Hp), (stored_held c Hp). unfold T at 3. rewrite Hcp.
  inversion N as [CC E|j CC J B|P E|j P J B]; subst.
  - destruct (class_not_pointer _ _ _ CC Hi).
  - destruct (class_not_pointer _ _ _ CC Hi).
  - rewrite (C eq_refl). destruct (one_class_pointee c b _ Ho P eq_refl) as (c3 & v3 & c4 & v4 & Eh).
    assert (SD : same_decay (exp_of k (held c)) (mkQ RNone T) = true).
    { apply same_decay_iff. unfold full_decay. rewrite Eh. destruct k; reflexivity. }
    rewrite SD. rewrite Eh. cbn [is_array run andThen pointee]. rewrite E. reflexivity.
  - rewrite (C eq_refl). rewrite (pointer_same_decay (exp_of k (held c)) j (mkQ RNone T) (b_id b)); [|apply pointer_exp, P|exact HP|exact J].
    rewrite (pointer_tag (mkQ RNone T) (b_id b) HP). rewrite (isClassPtr_of_pointer (exp_of k (held c)) j) by (apply pointer_exp, P).
    rewrite (proj2 (proj1 (cast_imp_spec e c (b_id b) Hw Hp) x) B). cbn [bind]. unfold T. rewrite Hcp. reflexivity.
Qed.

Lemma holds_class_of c i : usable (c_src c) -> class_type (held c) i -> holds_class (Some c) = true /\ holds_class_ptr (Some c) = false.
Proof.
  intros Hu H. unfold holds_class, holds_class_ptr, type_id. rewrite (stored_held c (usable_arrays _ Hu)). split.
  - eapply isClass_of_class, H.
  - eapply class_not_isClassPtr, H.
Qed.
Lemma holds_ptr_of c i : usable (c_src c) -> pointer_type (held c) i -> holds_class (Some c) = false /\ holds_class_ptr (Some c) = true.
Proof.
  intros Hu H. unfold holds_class, holds_class_ptr, type_id. rewrite (stored_held c (usable_arrays _ Hu)). split.
  - eapply pointer_not_isClass, H.
  - eapply isClassPtr_of_pointer, H.
Qed.

Lemma names_kind e k c j x w : names e k c j x w -> (exists i, class_type (held c) i) \/ (exists i, pointer_type (held c) i).
Proof. intro H. inversion H; subst; eauto. Qed.

(** The object a member function is called on. *)
Lemma member_object_names e k v m x : wf_env e -> b_kind (m_class m) = KClass -> no_pointer_converters e ->
  (forall c, v = Some c -> usable (c_src c) /\ not_null c /\ one_class c (m_class m)) ->
  member_object e k v m = Done (Some x) ->
  exists c w, v = Some c /\ names e k c (b_id (m_class m)) x w /\ (m_const m = false -> w = true).
Proof.
  intros Hw Hb Hnc Hv H. destruct v as [c|]; [|discriminate]. destruct (Hv c eq_refl) as (Hu & Hn & Ho).
  unfold member_object in H. destruct (holds_class (Some c)) eqn:E1.
  - destruct (k && negb (m_const m)) eqn:E2; [discriminate|].
    destruct (ref_object e k c (class_t (m_class m) (m_const m))) as [y| | | | |] eqn:R; try discriminate. injection H as ->.
    destruct (ref_object_names e k c (m_class m) (m_const m) x Hw Hu Ho Hb) as (_ & w & N & W); auto.
    + destruct k, (m_const m); auto; discriminate.
    + eauto.
  - destruct (holds_class_ptr (Some c)) eqn:E2; [|discriminate].
    destruct (ptr_object e k c (class_t (m_class m) (m_const m))) as [y| | | | |] eqn:R; try discriminate. injection H as ->.
    destruct (ptr_object_names e k c (m_class m) (m_const m) x Hw Hu Ho Hb Hnc Hn E2 R) as (_ & w & N & W). eauto.
Qed.

Lemma member_object_ok e k c m x w : wf_env e -> b_kind (m_class m) = KClass -> pointers_copy e -> usable (c_src c) ->
  one_class c (m_class m) -> names e k c (b_id (m_class m)) x w -> w = true \/ m_const m = true ->
  member_object e k (Some c) m = Done (Some x).
Proof.
  intros Hw Hb Hcp Hu Ho N Hq. unfold member_object. destruct (names_kind _ _ _ _ _ _ N) as [[i C]|[i P]].
  - destruct (holds_class_of c i Hu C) as [-> _].
    assert (X : k && negb (m_const m) = false).
    { destruct k; [|reflexivity]. destruct Hq as [-> | ->]; [|reflexivity]. exfalso.
      inversion N as [C' E W|j C' J B W|P|j P]; subst; try (destruct (class_not_pointer _ _ _ C P));
        unfold protected in W; rewrite andb_true_l in W; cbn [Nat.leb] in W; rewrite orb_true_r in W; discriminate. }
    rewrite X. rewrite (ref_object_ok e k c (m_class m) (m_const m) x w Hw Hu Ho Hb); eauto.
  - destruct (holds_ptr_of c i Hu P) as [-> ->]. rewrite (ptr_object_ok e k c (m_class m) (m_const m) x w Hw Hu Ho Hb Hcp); eauto.
Qed.

(** ** Properties *)

Lemma set_object_member e k v b : set_object e k v b = member_object e k v {| m_class := b; m_const := false; m_params := [] |}.
Proof. destruct v as [c|]; [|reflexivity]. unfold set_object, member_object. cbn. destruct k; reflexivity. Qed.
Lemma get_object_member e v b : get_object e v b = member_object e true v {| m_class := b; m_const := true; m_params := [] |}.
Proof. destruct v as [c|]; reflexivity. Qed.

(** What may be written through a variant may be read through a const one. *)
Lemma names_const e k c j x w : names e k c j x w -> exists w', names e true c j x w'.
Proof.
  intro H. inversion H; subst.
  - eexists. apply NamesSelf; auto.
  - eexists. eapply NamesBase; eauto.
  - eexists. apply NamesPointee; auto.
  - eexists. eapply NamesPointeeBase; eauto.
Qed.
