(** Proofs about the results of calls. *)
From Coq Require Import NArith List Bool Arith Lia.
From Verif Require Import TypesModel TypesSpec TypesProofs InheritModel InheritSpec InheritProofs AccModel AccSpec AccProofs.
From Verif Require Import CallModel CallSpec CallProofs ReturnModel ReturnSpec.
Import ListNotations.

Lemma few_small n : n <= 10 -> (N.of_nat n < 2 ^ 64)%N.
Proof. intro H. change (2 ^ 64)%N with 18446744073709551616%N. lia. Qed.

Lemma leading_given gs : leading (map as_argument gs) = length gs.
Proof. induction gs as [|g gs IH]; cbn; [reflexivity|]. rewrite IH. reflexivity. Qed.

(** What a call that was made and returned tells. *)
Lemma invoke_inv tr e l f gs r : few_parameters f -> invoke tr e l f gs = Some (Done r) ->
  exists g rest, gs = g :: rest /\ length gs <= 10 /\ length (actuals f gs) = length (parametersTypeId f) /\
  match f_kind f with
  | Static params => exists c, on c = None /\ bound_in_order e params (map as_argument gs) (args_of c) /\
      deliver l None (map as_argument gs) f c = Done r
  | OfClass m =>
      let '(k, v) := instance_variant (as_instance l g) in
      exists o, member_object e k v m = Done o /\
      match o with
      | None => r = Result None None true
      | Some x => exists c, on c = Some x /\ bound_in_order e (m_params m) (map as_argument rest) (args_of c) /\
          deliver l (Some (as_instance l g)) (map as_argument rest) f c = Done r
      end
  end.
Proof.
  intros Hf H. unfold invoke in H. destruct (negb (compiles tr (f_returns f))); [discriminate|].
  destruct gs as [|g rest]; [discriminate|]. destruct (Nat.ltb_spec 10 (length (g :: rest))) as [L|L]; [discriminate|].
  cbn [orb] in H. destruct (negb (may_be_instance tr g)); [discriminate|]. injection H as H.
  exists g, rest. split; [reflexivity|]. split; [exact L|]. unfold actuals, parametersTypeId, few_parameters, parametersTypeId in *.
  destruct (f_kind f) as [params|m].
  - change (as_argument g :: map as_argument rest) with (map as_argument (g :: rest)) in H.
    destruct (invoke_static e params (map as_argument (g :: rest))) as [c| | | | |] eqn:S; try discriminate. cbn [andThen] in H.
    assert (L' : length (map as_argument (g :: rest)) <= 10) by (rewrite map_length; exact L).
    apply (static_called e params _ c L' (few_small _ Hf)) in S as (Hl & Ho & Hb). rewrite leading_given in Hl.
    split; [exact Hl|]. exists c. split; [exact Ho|]. split; [exact Hb|exact H].
  - destruct (instance_variant (as_instance l g)) as [k v]. unfold invoke_method in H.
    assert (L' : length (map as_argument rest) <= 10) by (rewrite map_length; cbn in L; lia).
    rewrite (pack_spec _ _ L' (few_small _ Hf)) in H. rewrite leading_given in H. cbn [tl].
    destruct (Nat.eqb_spec (length rest) (length (m_params m))) as [E|E]; cbn [andThen] in H; [|discriminate]. split; [exact E|].
    destruct (member_object e k v m) as [o| | | | |] eqn:M; cbn [andThen] in H; try discriminate. exists o. split; [reflexivity|].
    destruct o as [x|]; cbn [andThen] in H; [|congruence].
    destruct (bind_all e (m_params m) (ten (map as_argument rest))) as [bs| | | | |] eqn:B; cbn [andThen] in H; try discriminate.
    eexists. split; [|split; [|exact H]]; [reflexivity|]. cbn [args_of]. apply bind_all_spec in B as [_ B].
    apply (bound_in_order_ten e _ _ bs L'); [rewrite map_length; lia|exact B].
Qed.

(** What it delivers. *)
Lemma deliver_inv l i args f c r : deliver l i args f c = Done r ->
  r_called r = Some c /\ exists a, f_body f c = Some a /\ fits_type (f_returns f) a /\
  match a with
  | Nil => r_variant r = None /\ r_alive r = true
  | Yields d => exists T, f_returns f = RType (mkQ RNone T) /\ r_variant r = Some (keep T (at_result l) d) /\ r_alive r = true
  | Refers s d => exists T x, refers_type (f_returns f) = Some T /\ spot_at l args c s = Done x /\ r_variant r = Some (refer_to T x d) /\
                    r_alive r = survives i args c s
  | Gives v => r_variant r = v /\ r_alive r = true
  end.
Proof.
  intro H. unfold deliver in H. destruct (f_body f c) as [a|]; [|discriminate].
  destruct (f_returns f) as [|[[] T]| |T] eqn:R, a as [|s d|d|v]; try discriminate;
    try (destruct (spot_at l args c s) as [x| | | | |] eqn:S; try discriminate; cbn [andThen] in H);
    injection H as <-; cbn; (split; [reflexivity|]); eexists; (split; [reflexivity|]); cbn; eauto 8.
Qed.

Lemma invoke_delivers tr e l f gs r c : few_parameters f -> invoke tr e l f gs = Some (Done r) -> r_called r = Some c ->
  exists i, deliver l i (map as_argument (actuals f gs)) f c = Done r /\
    bound_in_order e (parametersTypeId f) (map as_argument (actuals f gs)) (args_of c) /\
    length (actuals f gs) = length (parametersTypeId f).
Proof.
  intros Hf H Hc. destruct (invoke_inv tr e l f gs r Hf H) as (g & rest & -> & L & Hlen & K).
  unfold actuals, parametersTypeId in *. destruct (f_kind f) as [params|m].
  - destruct K as (c' & _ & B & D). pose proof (proj1 (deliver_inv _ _ _ _ _ _ D)) as E. rewrite E in Hc. injection Hc as ->. eauto.
  - destruct (instance_variant (as_instance l g)) as [k v]. destruct K as (o & _ & K). destruct o as [x|].
    + destruct K as (c' & _ & B & D). pose proof (proj1 (deliver_inv _ _ _ _ _ _ D)) as E. rewrite E in Hc. injection Hc as ->. eauto.
    + subst r. discriminate.
Qed.

(** ** Taking results out *)

Lemma refer_stored T x d : stored (refer_to T x d) = T.
Proof. reflexivity. Qed.
Lemma keep_stored T x d : is_array T = false -> stored (keep T x d) = copy_type T.
Proof. destruct T; [reflexivity|reflexivity|discriminate]. Qed.

Lemma refer_access e T x d : access e RefL (Some (refer_to T x d)) T = Got (Some (if is_array T then Elements else Whole)).
Proof.
  unfold access, metafunc_cast, when_compatible, type_id, seen, from_attr. rewrite refer_stored, compat_refl.
  rewrite (proj2 (same_decay_iff _ _) eq_refl). cbn [q_ty]. destruct (is_array T); reflexivity.
Qed.
Lemma refer_is e k T x d : v_is e k (Some (refer_to T x d)) (mkQ RL (if k then add_const T else T)) = Got true.
Proof.
  unfold v_is, metafunc_is, when_compatible, type_id. rewrite refer_stored.
  destruct k; rewrite compat_refl, (proj2 (same_decay_iff _ _) eq_refl); reflexivity.
Qed.
Lemma keep_access e T x d : is_array T = false -> access e RefL (Some (keep T x d)) (copy_type T) = Got (Some Whole).
Proof.
  intro A. unfold access, metafunc_cast, when_compatible, type_id, seen, from_attr. rewrite (keep_stored T x d A), compat_refl.
  rewrite (proj2 (same_decay_iff _ _) eq_refl). cbn [q_ty]. destruct T; [reflexivity|reflexivity|discriminate].
Qed.

Lemma value_binds k T : usable T -> is_array T = false -> binds (exp_of k (copy_type T)) (mkQ RNone T).
Proof.
  intros HT A. split; cbn [q_ty q_ref exp_of].
  - assert (S : similar T (copy_type T)) by apply copy_similar.
    destruct k; cbn.
    + eapply similar_trans; [|apply similar_sym; exact S]. apply similar_sym. apply constify_similar.
    + apply similar_sym. exact S.
  - destruct HT as [[Hv _] _]. intros j Hj. destruct T as [c v b|c v t|]; [| |discriminate]; destruct k; cbn; (destruct j; [lia|]); cbn;
      (split; [auto|split; [auto|intros [X|X]; destruct (X eq_refl)]]).
Qed.


Lemma keep_is e k T x d : usable T -> is_array T = false -> v_is e k (Some (keep T x d)) (mkQ RNone T) = Got true /\
  (e_copies e T = true -> v_to e k (Some (keep T x d)) T = Got Same).
Proof.
  intros HT A. pose proof (value_binds k T HT A) as B. pose proof (copy_usable T HT) as HT'.
  assert (Ha : is_array (copy_type T) = false) by (destruct T; [reflexivity|reflexivity|discriminate]).
  assert (Hp : arrays_of_plain (c_src (keep T x d)) = true) by (apply usable_arrays, HT).
  assert (Eh : held (keep T x d) = copy_type T) by reflexivity.
  assert (D : full_decay (exp_of k (copy_type T)) = full_decay (mkQ RNone T)).
  { unfold exp_of. destruct k; [rewrite (full_decay_constify RL RNone)|]; unfold full_decay; f_equal; cbn [q_ty];
      destruct T as [c v b|c v t|]; try discriminate; cbn; try reflexivity; destruct (b_kind b); reflexivity. }
  assert (C : compat (exp_of k (copy_type T)) (mkQ RNone T) = CTrue).
  { apply compat_iff_binds; auto.
    - unfold exp_of. destruct k; cbn; [apply (usable_constify _ HT')|apply HT'].
    - apply HT.
    - apply not_array_iff. unfold exp_of. destruct k; cbn [q_ty]; rewrite ?constify_array; exact Ha.
    - apply not_array_iff. exact A. }
  unfold v_is, v_to, metafunc_is, metafunc_to, when_compatible. rewrite (type_id_exp _ k Hp), Eh, C, (proj2 (same_decay_iff _ _) D).
  split; [reflexivity|]. intro Hc. rewrite (stored_held _ Hp), Eh, Ha. unfold copied. rewrite Hc. reflexivity.
Qed.

(** ** Parameters *)

Lemma stands_for_referent g k c : stands_for (snd g) k c -> referent (as_argument g) = Some c.
Proof. intro S. destruct g as [rv p]. cbn in S. destruct S; reflexivity. Qed.

(** A parameter that is bound to an object of the caller, or its base. *)
Lemma own_bound e l j g T c k pl : stands_for (snd g) k c -> same_or_derived e c T pl ->
  callers_own e g T (bound_at l j (as_argument g) (Direct pl)) /\ pl <> Hidden /\ pl <> Slot.
Proof.
  intros S D. destruct D as [D|i j' z Hi Hj B].
  - split; [|split; discriminate]. eapply OwnSame; eauto. unfold bound_at. rewrite (stands_for_referent g k c S). reflexivity.
  - split; [|split; discriminate]. cbn. eapply OwnBase; eauto.
Qed.

Lemma survives_direct i args c j pl : nth_error (args_of c) j = Some (Direct pl) -> pl <> Hidden -> pl <> Slot ->
  survives i args c (InParam j) = true.
Proof. intros H A B. cbn. rewrite H. destruct pl; congruence. Qed.

Lemma nth_given gs j a : nth_error (map as_argument gs) j = Some a -> exists g, nth_error gs j = Some g /\ a = as_argument g.
Proof.
  intro H. rewrite nth_error_map in H. destruct (nth_error gs j) as [g|]; [|discriminate]. injection H as <-. eauto.
Qed.

(** The parameter a result refers to. *)
Lemma returned_parameter tr e l f gs r c j d : few_parameters f -> invoke tr e l f gs = Some (Done r) -> r_called r = Some c ->
  f_body f c = Some (Refers (InParam j) d) ->
  exists g q b T, nth_error (actuals f gs) j = Some g /\ nth_error (parametersTypeId f) j = Some q /\
    nth_error (args_of c) j = Some b /\ arg_value e (as_argument g) q = Got b /\ refers_type (f_returns f) = Some T /\
    r_variant r = Some (refer_to T (bound_at l j (as_argument g) b) d) /\
    (forall pl, b = Direct pl -> pl <> Hidden -> pl <> Slot -> r_alive r = true) /\
    (forall t, b = Temp t -> r_alive r = false).
Proof.
  intros Hf H Hc Hb. destruct (invoke_delivers tr e l f gs r c Hf H Hc) as (i & D & B & L).
  destruct (deliver_inv _ _ _ _ _ _ D) as (_ & a & Ha & _ & K). rewrite Hb in Ha. injection Ha as <-. cbn iota beta in K.
  destruct K as (T & x & HT & Hx & Hv & Hal). unfold spot_at in Hx.
  destruct (nth_error (map as_argument (actuals f gs)) j) as [a|] eqn:Ea; [|discriminate].
  destruct (nth_error (args_of c) j) as [b|] eqn:Eb; [|discriminate]. injection Hx as <-.
  destruct (nth_given _ _ _ Ea) as (g & Eg & ->). destruct B as [B1 B2].
  assert (exists q, nth_error (parametersTypeId f) j = Some q) as [q Eq].
  { destruct (nth_error (parametersTypeId f) j) as [q|] eqn:E; [eauto|]. apply nth_error_None in E.
    assert (j < length (args_of c)) by (apply nth_error_Some; congruence). lia. }
  exists g, q, b, T. repeat (split; [solve [eauto]|]). rewrite Hal. split.
  - intros pl -> P1 P2. apply (survives_direct i _ c j pl); auto.
  - intros t ->. cbn. rewrite Eb. reflexivity.
Qed.

Lemma parameter_lvalue tr e l f gs r c j d T : wf_env e -> few_parameters f -> invoke tr e l f gs = Some (Done r) ->
  r_called r = Some c -> f_body f c = Some (Refers (InParam j) d) -> nth_error (parametersTypeId f) j = Some (mkQ RL T) ->
  (forall g, nth_error (actuals f gs) j = Some g -> good_passed (snd g)) -> usable T -> parameter_type T ->
  is_const T = false -> (forall k, ~ pointer_type T k) ->
  exists g x, nth_error (actuals f gs) j = Some g /\ r_variant r = Some x /\ callers_own e g T (c_at x) /\ r_alive r = true.
Proof.
  intros Hw Hf H Hc Hb Hp Hg HT Hpar Hcst Hk.
  destruct (returned_parameter tr e l f gs r c j d Hf H Hc Hb) as (g & q & b & U & Eg & Eq & Eb & A & _ & Hv & Hd & _).
  rewrite Hp in Eq. injection Eq as <-. destruct g as [rv p].
  destruct (lvalue_only e rv p T b Hw (Hg _ Eg) HT Hpar Hcst A) as (_ & ct & pl & S & -> & _ & [D|(i & k & z & _ & P & _)]); [|destruct (Hk k P)].
  destruct (own_bound e l j (rv, p) T ct false pl S D) as (O & N1 & N2).
  exists (rv, p), (refer_to U (bound_at l j (as_argument (rv, p)) (Direct pl)) d). cbn [c_at refer_to]. repeat split; auto. eapply Hd; eauto.
Qed.

Lemma parameter_const tr e l f gs r c j d T : wf_env e -> few_parameters f -> invoke tr e l f gs = Some (Done r) ->
  r_called r = Some c -> f_body f c = Some (Refers (InParam j) d) -> nth_error (parametersTypeId f) j = Some (mkQ RL T) ->
  (forall g, nth_error (actuals f gs) j = Some g -> good_passed (snd g)) -> usable T -> parameter_type T ->
  is_const T = true -> (forall k, ~ pointer_type T k) ->
  (forall g k ct, nth_error (actuals f gs) j = Some g -> stands_for (snd g) k ct -> is_array (held ct) = false) ->
  exists g x, nth_error (actuals f gs) j = Some g /\ r_variant r = Some x /\
    (callers_own e g (copy_type T) (c_at x) /\ r_alive r = true \/
     (exists t, nth_error (args_of c) j = Some (Temp t)) /\ r_alive r = false).
Proof.
  intros Hw Hf H Hc Hb Hp Hg HT Hpar Hcst Hk Harr.
  destruct (returned_parameter tr e l f gs r c j d Hf H Hc Hb) as (g & q & b & U & Eg & Eq & Eb & A & _ & Hv & Hd & Ht).
  rewrite Hp in Eq. injection Eq as <-. destruct g as [rv p].
  destruct (cref_what e rv p T b Hw (Hg _ Eg) HT Hpar Hcst A) as (k & ct & S & [(pl & -> & D)|(t & -> & _)]).
  - exists (rv, p), (refer_to U (bound_at l j (as_argument (rv, p)) (Direct pl)) d). repeat (split; [solve [auto]|]). left.
    assert (X : same_or_derived e ct (copy_type T) pl).
    { inversion D as [B|t n t' m E1 E2|t n c' v' t' E1|i k' z Hi Hk' B|i k' z Hi Hk' B]; subst.
      - apply SameType. destruct B as [B _]. cbn in B. eapply similar_trans; [apply constify_similar|].
        eapply similar_trans; [exact B|]. apply similar_sym, constify_similar.
      - pose proof (Harr _ _ _ Eg S) as W. rewrite E1 in W. discriminate.
      - pose proof (Harr _ _ _ Eg S) as W. rewrite E1 in W. discriminate.
      - eapply Derived; eauto.
      - destruct (Hk _ (proj1 (pointer_copy _ _) Hk')). }
    destruct (own_bound e l j (rv, p) _ ct k pl S X) as (O & N1 & N2). split; [exact O|]. eapply Hd; eauto.
  - exists (rv, p), (refer_to U (bound_at l j (as_argument (rv, p)) (Temp t)) d). repeat (split; [solve [auto]|]). right. split; eauto.
Qed.

(** ** The object *)

Lemma names_keep e c at_ b x w : (exists i, pointer_type (c_src c) i) ->
  names e true (keep (c_src c) at_ (Datum (c_ptr c) (c_vals c) (c_bytes c))) b x w ->
  (pointer_type (c_src c) b /\ c_ptr c = Some x) \/ (exists i, pointer_type (c_src c) i /\ i <> b /\ base_at e (by_reference c) b x).
Proof.
  intros [i0 P] N. set (o := keep _ _ _) in *.
  assert (Ho : forall i, pointer_type (held o) i <-> pointer_type (c_src c) i) by (intro i; apply pointer_copy).
  assert (Hc : forall i, class_type (held o) i -> False).
  { intros i C. apply (class_not_pointer (held o) i i0 C). apply Ho, P. }
  inversion N as [C|i C|P' E|i P' J B]; subst.
  - destruct (Hc _ C).
  - destruct (Hc _ C).
  - left. split; [apply Ho, P'|exact E].
  - right. exists i. split; [apply Ho, P'|]. split; [exact J|]. destruct B as (d & y & fs & O & R1 & R2 & F & A).
    exists d, y, fs. split; [|auto]. inversion O as [k d' y' C K|k p d' y' P2 E K]; subst.
    + destruct (Hc _ C).
    + eapply ObjPointer; [apply Ho, P2|exact E|exact K].
Qed.

Lemma self_leads tr e l f m g rest r c off d : wf_env e -> few_parameters f -> f_kind f = OfClass m -> b_kind (m_class m) = KClass ->
  no_pointer_converters e -> invoke tr e l f (g :: rest) = Some (Done r) -> r_called r = Some c ->
  f_body f c = Some (Refers (InObject off) d) -> good_given e (m_class m) g ->
  (forall o k, snd g = Object o -> ~ class_type (c_src o) k) ->
  exists x y, leads_to e (b_id (m_class m)) g x /\ r_variant r = Some y /\ c_at y = x + off /\ r_alive r = true.
Proof.
  intros Hw Hf Hkd Hb Hnc H Hc Hbd Hg Hno.
  destruct (invoke_inv tr e l f (g :: rest) r Hf H) as (g' & rest' & Egs & _ & _ & K). injection Egs as <- <-. rewrite Hkd in K.
  destruct (instance_variant (as_instance l g)) as [k v] eqn:Ei. destruct K as (o & M & K).
  destruct o as [x|]; [|subst r; discriminate]. destruct K as (c' & On & _ & D).
  destruct (deliver_inv _ _ _ _ _ _ D) as (Ec & a & Ha & _ & K). rewrite Ec in Hc. injection Hc as ->. rewrite Hbd in Ha. injection Ha as <-.
  cbn iota beta in K. destruct K as (T & z & _ & Hz & Hv & Hal). cbn [spot_at] in Hz. rewrite On in Hz. injection Hz as <-.
  exists x, (refer_to T (x + off) d).
  assert (Q : forall ct, v = Some ct -> usable (c_src ct) /\ not_null ct /\ one_class ct (m_class m)).
  { intros ct ->. destruct g as [rv p]. destruct p as [o|o|k' o]; cbn in Ei; injection Ei as <- E; subst.
    - destruct (Hg false (by_reference o) (StObject o)) as (Q1 & Q2 & Q3). split; [exact Q1|]. split.
      + intros (i & P). apply Q2. exists i. exact (proj1 (pointer_copy _ _) P).
      + intros t Et Ct. change (held (keep (c_src o) (at_instance l) (Datum (c_ptr o) (c_vals o) (c_bytes o)))) with (copy_type (c_src o)) in Et.
        destruct Et as [<-|(cq & v0 & Et)].
        * apply (proj1 (class_copy _ _)) in Ct. destruct (Hno o _ eq_refl Ct).
        * apply (Q3 t); [|exact Ct]. right. cbn. destruct (c_src o) as [|c1 v1 u|u n]; cbn in Et; try discriminate.
          injection Et as _ _ <-. eauto.
    - exact (Hg false (by_reference o) (StWrapped o)).
    - exact (Hg k' ct (StVariant k' ct)). }
  destruct (member_object_names e k v m x Hw Hb Hnc Q M) as (ct & w & Ev & N & _).
  assert (Hl : leads_to e (b_id (m_class m)) g x).
  { destruct g as [rv p]. destruct p as [o|o|k' o]; cbn in Ei; injection Ei as <- E; subst.
    - injection Ev as <-. destruct (names_kind _ _ _ _ _ _ N) as [(i & C)|(i & P)].
      + apply (proj1 (class_copy _ _)) in C. destruct (Hno o i eq_refl C).
      + apply (proj1 (pointer_copy _ _)) in P. destruct (names_keep e o (at_instance l) _ x w (ex_intro _ i P) N) as [[P1 P2]|(i' & P1 & P2 & P3)].
        * apply LeadsPointer; auto.
        * eapply LeadsPointerBase; eauto.
    - injection Ev as <-. eapply LeadsWrapper; eauto.
    - eapply LeadsVariant; eauto. }
  split; [exact Hl|]. split; [exact Hv|]. split; [reflexivity|]. rewrite Hal. unfold survives, as_instance.
  destruct g as [rv p]. destruct p as [o|o|k' o]; cbn [snd]; auto.
  cbn in Ei. injection Ei as <- <-. injection Ev as <-. destruct (names_kind _ _ _ _ _ _ N) as [(i & C)|(i & P)].
  - apply (proj1 (class_copy _ _)) in C. destruct (Hno o i eq_refl C).
  - destruct (Q _ eq_refl) as (U & _). destruct (holds_ptr_of _ i U P) as [Hh _].
    match goal with |- ?t = true => change t with (negb (holds_class (Some (keep (c_src o) (at_instance l) (Datum (c_ptr o) (c_vals o) (c_bytes o)))))) end.
    rewrite Hh. reflexivity.
Qed.
