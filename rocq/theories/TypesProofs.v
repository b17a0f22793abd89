(** Proofs about the type grammar and [compatible]. *)
From Coq Require Import NArith List Bool Arith Lia.
From Verif Require Import TypesModel TypesSpec.
Import ListNotations.

(** ** Flags *)

Lemma land_pow2 f b : N.land f (2 ^ b) = if N.testbit f b then (2 ^ b)%N else 0%N.
Proof.
  apply N.bits_inj; intro i. rewrite N.land_spec, N.pow2_bits_eqb.
  destruct (N.eqb_spec b i) as [->|Hn].
  - destruct (N.testbit f i) eqn:E; rewrite ?N.pow2_bits_true, ?N.bits_0; reflexivity.
  - rewrite andb_false_r. destruct (N.testbit f b); rewrite ?N.bits_0; auto.
    symmetry; apply N.pow2_bits_false; assumption.
Qed.

Lemma has_flag_testbit f b : has_flag f b = N.testbit f b.
Proof.
  unfold has_flag. rewrite land_pow2. destruct (N.testbit f b).
  - apply N.eqb_refl.
  - apply N.eqb_neq. intro H. symmetry in H. revert H. apply N.pow_nonzero. discriminate.
Qed.

Lemma lacks_flag_testbit f b : lacks_flag f b = negb (N.testbit f b).
Proof.
  unfold lacks_flag. rewrite land_pow2. destruct (N.testbit f b); cbn [negb].
  - apply N.eqb_neq. apply N.pow_nonzero. discriminate.
  - reflexivity.
Qed.

Lemma flag_if_bit c b i : N.testbit (flag_if c b) i = c && (b =? i)%N.
Proof.
  unfold flag_if. destruct c; cbn [andb]; rewrite ?N.pow2_bits_eqb, ?N.bits_0; reflexivity.
Qed.

Lemma trait_bits_low x i : (i < 13)%N -> N.testbit (N.land x trait_mask) i = false.
Proof.
  intro H. rewrite N.land_spec. replace (N.testbit trait_mask i) with false; [apply andb_false_r|].
  symmetry. unfold trait_mask.
  assert (i = 0 \/ i = 1 \/ i = 2 \/ i = 3 \/ i = 4 \/ i = 5 \/ i = 6 \/ i = 7 \/ i = 8 \/ i = 9
          \/ i = 10 \/ i = 11 \/ i = 12)%N as D by lia.
  repeat (destruct D as [->|D]; [reflexivity|]). subst i; reflexivity.
Qed.

Ltac flag_solve :=
  unfold type_flags; cbn [fold_right]; rewrite !N.lor_spec, !flag_if_bit, N.bits_0;
  rewrite trait_bits_low by reflexivity; cbn;
  rewrite ?andb_true_r, ?andb_false_r, ?orb_false_r; cbn [orb]; try reflexivity.

Lemma tf_const q : N.testbit (type_flags q) bConst = is_const (q_ty q).
Proof. flag_solve. Qed.
Lemma tf_pointer q : N.testbit (type_flags q) bPointer = is_pointer (q_ty q).
Proof. flag_solve. Qed.
Lemma tf_lref q : N.testbit (type_flags q) bLref = match q_ref q with RL => true | _ => false end.
Proof. flag_solve. Qed.
Lemma tf_rref q : N.testbit (type_flags q) bRref = match q_ref q with RR => true | _ => false end.
Proof. flag_solve. Qed.
Lemma tf_array q : N.testbit (type_flags q) bArray = is_array (remove_pointer (q_ty q)).
Proof. flag_solve. Qed.
Lemma tf_void q : N.testbit (type_flags q) bVoid = kind_is KVoid (base_type (q_ty q)).
Proof. flag_solve. Qed.
Lemma tf_class q : N.testbit (type_flags q) bClass = kind_is KClass (base_type (q_ty q)).
Proof. flag_solve. Qed.
Lemma tf_function q : N.testbit (type_flags q) bFunction = kind_is KFunction (base_type (q_ty q)).
Proof. flag_solve. Qed.

Definition mt (q : qty) : metatype := Some (info_of q).

Lemma isConst_mt q : isConst (mt q) = is_const (q_ty q).
Proof. unfold isConst, mt; cbn [typeFlags]. rewrite has_flag_testbit. apply tf_const. Qed.
Lemma isPointer_mt q : isPointer (mt q) = is_pointer (q_ty q).
Proof. unfold isPointer, mt; cbn [typeFlags]. rewrite has_flag_testbit. apply tf_pointer. Qed.
Lemma isLref_mt q : isLref (mt q) = match q_ref q with RL => true | _ => false end.
Proof. unfold isLref, mt; cbn [typeFlags]. rewrite has_flag_testbit. apply tf_lref. Qed.
Lemma isRref_mt q : isRref (mt q) = match q_ref q with RR => true | _ => false end.
Proof. unfold isRref, mt; cbn [typeFlags]. rewrite has_flag_testbit. apply tf_rref. Qed.
Lemma isArray_mt q : isArray (mt q) = is_array (q_ty q).
Proof.
  unfold isArray, mt; cbn [typeFlags ti_flags info_of].
  rewrite has_flag_testbit, lacks_flag_testbit, tf_array, tf_pointer.
  destruct (q_ty q); cbn; rewrite ?andb_true_r, ?andb_false_r; reflexivity.
Qed.
Lemma isReference_mt q :
  isReference (mt q) = match q_ref q with RNone => false | _ => true end.
Proof. unfold isReference. rewrite isLref_mt, isRref_mt. destruct (q_ref q); reflexivity. Qed.

(** ** Arity and masks *)

Lemma pointer_depth_arity t : pointer_depth t = pointer_arity t.
Proof. induction t; cbn; congruence. Qed.

Lemma arity_small q : pointer_arity (q_ty q) < 16 ->
  N.to_nat (ti_arity (info_of q)) = pointer_arity (q_ty q).
Proof.
  intro H. unfold info_of; cbn [ti_arity]. rewrite N.mod_small by lia. apply Nnat.Nat2N.id.
Qed.

Lemma is_const_at0 t : is_const t = const_at t 0.
Proof. induction t; cbn; auto. Qed.

Lemma bit_high x n i : (x < 2 ^ n)%N -> (n <= i)%N -> N.testbit x i = false.
Proof.
  intros Hx Hi. destruct (N.eq_dec x 0) as [->|Hx0]; [apply N.bits_0|].
  apply N.bits_above_log2. apply N.log2_lt_pow2; [lia|].
  eapply N.lt_le_trans; [exact Hx|]. apply N.pow_le_mono_r; [discriminate|assumption].
Qed.

Lemma add_pow2_bit x n i : (x < 2 ^ n)%N ->
  N.testbit (2 ^ n + x) i = (n =? i)%N || N.testbit x i.
Proof.
  intro Hx.
  assert (Hl : N.land (2 ^ n) x = 0%N).
  { rewrite N.land_comm, land_pow2. rewrite (bit_high x n n Hx) by lia. reflexivity. }
  rewrite N.add_nocarry_lxor by exact Hl. rewrite N.lxor_spec, N.pow2_bits_eqb.
  destruct (N.eqb_spec n i) as [<-|Hn]; cbn [orb].
  - rewrite (bit_high x n n Hx) by lia. reflexivity.
  - apply xorb_false_l.
Qed.

Lemma cbs_bound t : (const_bitset_helper t (pointer_arity t) < 2 ^ N.of_nat (S (pointer_arity t)))%N.
Proof.
  induction t as [c v b|c v t IH|t IH n]; cbn [const_bitset_helper pointer_arity].
  - destruct c; cbn; lia.
  - replace (S (pointer_arity t) - 1) with (pointer_arity t) by lia.
    rewrite (Nnat.Nat2N.inj_succ (S (pointer_arity t))), N.pow_succ_r'.
    destruct c; lia.
  - destruct (is_const (TArr t n)); cbn; lia.
Qed.

Lemma cbs_bit t i :
  N.testbit (const_bitset t) (N.of_nat i) =
  if i <=? pointer_arity t then const_at t (pointer_arity t - i) else false.
Proof.
  unfold const_bitset. revert i.
  assert (Hleaf : forall (c : bool) i, N.testbit (if c then 2 ^ N.of_nat 0 else 0) (N.of_nat i) =
                         (c && (i <=? 0))).
  { intros c i. destruct c; cbn [andb].
    - rewrite N.pow2_bits_eqb. destruct i; [reflexivity|].
      cbn [Nat.leb]. apply N.eqb_neq. lia.
    - apply N.bits_0. }
  induction t as [c v b|c v t IH|t IH n]; intro i.
  - cbn [const_bitset_helper pointer_arity is_const]. rewrite Hleaf. destruct i; cbn; destruct c; reflexivity.
  - cbn [const_bitset_helper pointer_arity].
    replace (S (pointer_arity t) - 1) with (pointer_arity t) by lia.
    assert (Hb := cbs_bound t).
    assert (Hsplit : N.testbit ((if c then 2 ^ N.of_nat (S (pointer_arity t)) else 0)
        + const_bitset_helper t (pointer_arity t)) (N.of_nat i)
        = (c && (N.of_nat (S (pointer_arity t)) =? N.of_nat i)%N)
          || N.testbit (const_bitset_helper t (pointer_arity t)) (N.of_nat i)).
    { destruct c; [apply add_pow2_bit; exact Hb | reflexivity]. }
    rewrite Hsplit, IH.
    destruct (Nat.leb_spec i (S (pointer_arity t))) as [Hle|Hgt].
    + destruct (Nat.eq_dec i (S (pointer_arity t))) as [->|Hne].
      * rewrite N.eqb_refl, Nat.sub_diag. cbn [const_at].
        replace (S (pointer_arity t) <=? pointer_arity t) with false
          by (symmetry; apply Nat.leb_gt; lia).
        rewrite andb_true_r, orb_false_r. reflexivity.
      * replace (N.of_nat (S (pointer_arity t)) =? N.of_nat i)%N with false
          by (symmetry; apply N.eqb_neq; lia).
        rewrite andb_false_r, orb_false_l.
        replace (i <=? pointer_arity t) with true by (symmetry; apply Nat.leb_le; lia).
        replace (S (pointer_arity t) - i) with (S (pointer_arity t - i)) by lia. reflexivity.
    + replace (N.of_nat (S (pointer_arity t)) =? N.of_nat i)%N with false
        by (symmetry; apply N.eqb_neq; lia).
      replace (i <=? pointer_arity t) with false by (symmetry; apply Nat.leb_gt; lia).
      rewrite andb_false_r. reflexivity.
  - cbn [const_bitset_helper pointer_arity]. rewrite Hleaf.
    destruct i; cbn [Nat.leb]; rewrite ?andb_true_r, ?andb_false_r; [|reflexivity].
    rewrite is_const_at0. reflexivity.
Qed.

Lemma mask_bit q i : pointer_arity (q_ty q) < 16 ->
  N.testbit (ti_mask (info_of q)) (N.of_nat i) =
  if i <=? pointer_arity (q_ty q) then const_at (q_ty q) (pointer_arity (q_ty q) - i) else false.
Proof.
  intro H. unfold info_of; cbn [ti_mask]. rewrite N.mod_small; [apply cbs_bit|].
  assert (Hb := cbs_bound (q_ty q)). fold (const_bitset (q_ty q)) in Hb.
  eapply N.lt_le_trans; [exact Hb|]. change 65536%N with (2 ^ 16)%N.
  apply N.pow_le_mono_r; [discriminate|lia].
Qed.

(** ** The loops *)

Definition loop_ok (f t : nat -> bool) (lo m : nat) : Prop :=
  forall i, lo <= i <= m ->
    (f i = true -> t i = true) /\
    (f i <> t i -> forall j, i < j <= m -> t j = true).

Lemma inner_loop_spec to s n : s + n <= 16 ->
  (inner_loop to (seq s n) = CTrue <-> forall j, s <= j < s + n -> N.testbit to (N.of_nat j) = true)
  /\ inner_loop to (seq s n) <> CTerm.
Proof.
  revert s. induction n as [|n IH]; intros s Hs; cbn [seq inner_loop].
  - split; [split; [intros; lia | reflexivity] | discriminate].
  - replace (16 <=? s) with false by (symmetry; apply Nat.leb_gt; lia).
    destruct (IH (S s)) as [IH1 IH2]; [lia|].
    destruct (N.testbit to (N.of_nat s)) eqn:E.
    + split; [|exact IH2]. rewrite IH1. split.
      * intros H j Hj. destruct (Nat.eq_dec j s) as [->|]; [exact E|apply H; lia].
      * intros H j Hj. apply H; lia.
    + split; [|discriminate]. split; [discriminate|].
      intro H. rewrite (H s) in E by lia. discriminate.
Qed.

Lemma outer_loop_spec from to m n s : m < 16 -> s + n = S m ->
  (outer_loop from to m (seq s n) = CTrue <->
   loop_ok (fun i => N.testbit from (N.of_nat i)) (fun i => N.testbit to (N.of_nat i)) s m)
  /\ outer_loop from to m (seq s n) <> CTerm.
Proof.
  intro Hm. revert s. induction n as [|n IH]; intros s Hs; cbn [seq outer_loop].
  - split; [|discriminate]. split; [|reflexivity]. intros _ i Hi. lia.
  - replace (16 <=? s) with false by (symmetry; apply Nat.leb_gt; lia).
    destruct (IH (S s)) as [IH1 IH2]; [lia|].
    destruct (N.testbit from (N.of_nat s)) eqn:Ef, (N.testbit to (N.of_nat s)) eqn:Et;
      cbn [andb negb].
    + split; [|exact IH2]. rewrite IH1. split; intros H i Hi.
      * destruct (Nat.eq_dec i s) as [->|]; [|apply H; lia].
        split; [congruence|]. rewrite Ef, Et. congruence.
      * apply H; lia.
    + split; [|discriminate]. split; [discriminate|]. intro H.
      destruct (H s) as [H1 _]; [lia|]. specialize (H1 Ef). cbn beta in H1. congruence.
    + destruct (inner_loop_spec to (S s) (m - s)) as [J1 J2]; [lia|].
      split; [|exact J2]. rewrite J1. split.
      * intros H i Hi. destruct (Nat.eq_dec i s) as [->|Hne].
        -- split; [congruence|]. intros _ j Hj. apply H; lia.
        -- split; [intros _; apply H; lia|]. intros _ j Hj. apply H; lia.
      * intros H j Hj. destruct (H s) as [_ H2]; [lia|]. cbn beta in H2. apply H2; [|lia].
        rewrite Ef, Et. discriminate.
    + split; [|exact IH2]. rewrite IH1. split; intros H i Hi.
      * destruct (Nat.eq_dec i s) as [->|]; [|apply H; lia].
        split; [congruence|]. rewrite Ef, Et. congruence.
      * apply H; lia.
Qed.

Lemma compare_masks_spec fi ti m (b : bool) : m < 16 ->
  (compare_masks fi ti m b = CTrue <->
   loop_ok (fun i => N.testbit (if b then N.setbit (ti_mask fi) (N.of_nat m) else ti_mask fi) (N.of_nat i))
           (fun i => N.testbit (ti_mask ti) (N.of_nat i)) 0 m)
  /\ compare_masks fi ti m b <> CTerm.
Proof.
  intro Hm. unfold compare_masks.
  replace (b && (16 <=? m)) with false
    by (symmetry; apply andb_false_iff; right; apply Nat.leb_gt; lia).
  set (from := if b then _ else _). cbn zeta.
  destruct (N.eqb_spec from (ti_mask ti)) as [->|Hne].
  - split; [|discriminate]. split; [|reflexivity]. intros _ i _. split; [auto|congruence].
  - apply outer_loop_spec; lia.
Qed.

(** ** From masks to qualification conversions *)

Fixpoint array_depth (t : ty) : nat :=
  match t with TArr t' _ => S (array_depth t') | _ => 0 end.

Lemma const_at_plain t d : no_pointer t = true ->
  const_at t d = is_const t && (d <=? array_depth t).
Proof.
  revert d. induction t as [c v b|c v t IH|t IH n]; intros d H; cbn in *.
  - destruct d; cbn; [rewrite andb_true_r|rewrite andb_false_r]; reflexivity.
  - discriminate.
  - destruct d; rewrite IH by exact H; cbn [Nat.leb]; reflexivity.
Qed.

Lemma similar_arity t u : similar t u -> pointer_arity t = pointer_arity u.
Proof. induction 1; cbn; congruence. Qed.

Lemma similar_depth t u : similar t u -> array_depth t = array_depth u.
Proof. induction 1; cbn; congruence. Qed.

Lemma similar_no_pointer t u : similar t u -> no_pointer t = no_pointer u.
Proof. induction 1; cbn; congruence. Qed.

Lemma similar_refl t : similar t t.
Proof. induction t; constructor; auto. Qed.

Lemma similar_sym t u : similar t u -> similar u t.
Proof. induction 1; constructor; auto. Qed.

Lemma similar_trans t u w : similar t u -> similar u w -> similar t w.
Proof. intro H. revert w. induction H; intros w Hw; inversion Hw; subst; constructor; auto. Qed.

(** Similar means: the same once all qualifiers are removed. *)
Lemma similar_remove_all_cv t u : similar t u <-> remove_all_cv t = remove_all_cv u.
Proof.
  split.
  - induction 1; cbn; congruence.
  - revert u. induction t as [c v b|c v t IH|t IH n]; intros [c' v' b'|c' v' u|u n']; cbn; intro H;
      try discriminate; injection H as H1; subst; constructor; auto.
Qed.

Fixpoint pointee (t : ty) : ty := match t with TPtr _ _ t' => pointee t' | _ => t end.

(** Below the last pointer the levels repeat the qualifiers of the last level. *)
Lemma const_at_below t d : arrays_of_plain t = true ->
  const_at t (pointer_arity t + d) = const_at t (pointer_arity t) && (d <=? array_depth (pointee t)).
Proof.
  induction t as [c v b|c v t IH|t IH n]; intro H.
  - cbn. destruct d; cbn; rewrite ?andb_true_r, ?andb_false_r; reflexivity.
  - cbn [pointer_arity Nat.add const_at]. rewrite IH by exact H.
    reflexivity.
  - cbn [arrays_of_plain] in H. cbn [pointer_arity Nat.add pointee].
    rewrite (const_at_plain (TArr t n) d) by exact H.
    rewrite <- is_const_at0. reflexivity.
Qed.

Lemma similar_iter t u : similar t u ->
  array_depth (pointee t) =
  array_depth (pointee u).
Proof.
  induction 1 as [c v c' v' b|c v c' v' t u Hs IH|t u n Hs IH]; cbn [pointee].
  - reflexivity.
  - exact IH.
  - cbn. rewrite (similar_depth _ _ Hs). reflexivity.
Qed.

Lemma volatile_none t j : no_volatile t = true -> volatile_at t j = false.
Proof.
  revert j. induction t as [c v b|c v t IH|t IH n]; intros j H; cbn in *.
  - destruct v; [discriminate|]. destruct j; reflexivity.
  - apply andb_true_iff in H as [Hv H]. destruct v; [discriminate|]. destruct j; [reflexivity|auto].
  - destruct j; auto.
Qed.

(** The loop over the bits [0..m] decides [qual_ok] from level [arity - m]. *)
Lemma loop_qual t u k : similar t u ->
  no_volatile t = true -> no_volatile u = true ->
  arrays_of_plain t = true -> arrays_of_plain u = true ->
  k <= pointer_arity t ->
  (loop_ok (fun i => if i <=? pointer_arity t then const_at t (pointer_arity t - i) else false)
           (fun i => if i <=? pointer_arity u then const_at u (pointer_arity u - i) else false)
           0 (pointer_arity t - k)
   <-> qual_ok k t u).
Proof.
  intros Hs Hvt Hvu Hat Hau Hk.
  assert (Ha : pointer_arity u = pointer_arity t) by (symmetry; apply similar_arity; exact Hs).
  rewrite Ha. set (a := pointer_arity t) in *.
  assert (Hbelow : forall w, similar t w -> arrays_of_plain w = true -> forall d,
             const_at w (a + d) = const_at w a && (d <=? array_depth (pointee t))).
  { intros w Hw Hpw d. assert (Haw : pointer_arity w = a) by (symmetry; apply similar_arity; exact Hw).
    pose proof (const_at_below w d Hpw) as E. rewrite Haw in E. rewrite E.
    f_equal. f_equal. symmetry. apply similar_iter. exact Hw. }
  unfold loop_ok, qual_ok. split.
  - intros H j Hj.
    rewrite !volatile_none by assumption.
    assert (Hlev : forall l, k <= l <= a ->
        (const_at t l = true -> const_at u l = true) /\
        (const_at t l <> const_at u l -> forall i, k <= i -> i < l -> const_at u i = true)).
    { intros l Hl. destruct (H (a - l)) as [H1 H2]; [lia|].
      replace (a - l <=? a) with true in * by (symmetry; apply Nat.leb_le; lia).
      replace (a - (a - l)) with l in * by lia.
      split; [exact H1|]. intros Hd i Hki Hil. specialize (H2 Hd (a - i)).
      replace (a - i <=? a) with true in * by (symmetry; apply Nat.leb_le; lia).
      replace (a - (a - i)) with i in * by lia. apply H2. lia. }
    destruct (Nat.le_gt_cases j a) as [Hja|Hja].
    + destruct (Hlev j) as [H1 H2]; [lia|]. split; [exact H1|]. split; [discriminate|].
      intros [Hd|Hd]; [apply H2; exact Hd|congruence].
    + destruct (Hlev a) as [H1 H2]; [lia|].
      assert (Hj' : j = a + (j - a)) by lia.
      rewrite Hj'. rewrite (Hbelow t (similar_refl t) Hat), (Hbelow u Hs Hau).
      set (dd := j - a <=? _). split.
      * rewrite !andb_true_iff. intros [E1 E2]. split; auto.
      * split; [discriminate|]. intros [Hd|Hd]; [|congruence].
        assert (Hda : const_at t a <> const_at u a) by congruence.
        assert (Hua : const_at u a = true).
        { destruct (const_at u a) eqn:E; [reflexivity|]. destruct (const_at t a) eqn:E';
            [specialize (H1 eq_refl); discriminate|congruence]. }
        intros i Hki Hij. destruct (Nat.le_gt_cases i a) as [Hia|Hia].
        -- destruct (Nat.eq_dec i a) as [->|]; [exact Hua|]. apply (H2 Hda); lia.
        -- replace i with (a + (i - a)) by lia. rewrite (Hbelow u Hs Hau), Hua. cbn [andb].
           apply Nat.leb_le. destruct dd eqn:Edd.
           ++ apply Nat.leb_le in Edd. lia.
           ++ rewrite !andb_false_r in Hd. congruence.
  - intros H i Hi.
    replace (i <=? a) with true by (symmetry; apply Nat.leb_le; lia).
    destruct (H (a - i)) as [H1 [_ H3]]; [lia|].
    split; [exact H1|]. intros Hd j Hj.
    replace (j <=? a) with true by (symmetry; apply Nat.leb_le; lia).
    apply H3; [left; exact Hd|lia|lia].
Qed.

Lemma loop_ok_ext f f' t t' lo m : (forall i, f i = f' i) -> (forall i, t i = t' i) ->
  (loop_ok f t lo m <-> loop_ok f' t' lo m).
Proof.
  intros Hf Ht. unfold loop_ok. split; intros H i Hi; destruct (H i Hi) as [H1 H2].
  - rewrite <- Hf, <- Ht. split; [exact H1|]. intros Hd j Hj. rewrite <- Ht. auto.
  - rewrite Hf, Ht. split; [exact H1|]. intros Hd j Hj. rewrite Ht. auto.
Qed.

Lemma masks_qual from to k : regular from -> regular to ->
  similar (q_ty from) (q_ty to) -> k <= pointer_arity (q_ty from) ->
  (compare_masks (info_of from) (info_of to) (pointer_arity (q_ty from) - k) false = CTrue
   <-> qual_ok k (q_ty from) (q_ty to)).
Proof.
  intros (Hvf & Hpf & Hdf) (Hvt & Hpt & Hdt) Hs Hk.
  rewrite pointer_depth_arity in Hdf, Hdt.
  destruct (compare_masks_spec (info_of from) (info_of to) (pointer_arity (q_ty from) - k) false)
    as [Hc _]; [lia|].
  rewrite Hc. rewrite <- (loop_qual _ _ k Hs Hvf Hvt Hpf Hpt Hk).
  apply loop_ok_ext; intro i; apply mask_bit; assumption.
Qed.

Lemma compatible_unfold from to :
  pointer_arity (q_ty from) < 16 -> pointer_arity (q_ty to) < 16 ->
  compat from to =
    (let is_arr := is_array (q_ty from) in
     if negb (match q_ref from with RL => true | _ => false end)
        && (match q_ref to with RL => true | _ => false end) && negb (is_const (q_ty to)) then CFalse else
     if (match q_ref from with RL => true | _ => false end)
        && (match q_ref to with RR => true | _ => false end) then CFalse else
     if is_arr && is_array (q_ty to) && (size_of (q_ty from) <? size_of (q_ty to))%N then CFalse else
     let arity1 := if is_arr && is_pointer (q_ty to) then S (pointer_arity (q_ty from))
                   else pointer_arity (q_ty from) in
     if negb (arity1 =? pointer_arity (q_ty to)) then CFalse else
     let isref := match q_ref to with RNone => false | _ => true end in
     let set_top := is_arr && negb (is_array (q_ty to)) && isref in
     if isref then compare_masks (info_of from) (info_of to) arity1 set_top
     else match arity1 with
          | 0 => CTrue
          | S a => compare_masks (info_of from) (info_of to) a set_top
          end).
Proof.
  intros Hf Ht. unfold compat, compatible. fold (mt from) (mt to).
  rewrite !isLref_mt, !isRref_mt, !isConst_mt, !isArray_mt, !isPointer_mt, !isReference_mt.
  rewrite (arity_small _ Hf), (arity_small _ Ht). reflexivity.
Qed.

(** ** Exactness outside arrays *)

Lemma compat_iff_binds from to :
  regular from -> regular to -> not_array from -> not_array to ->
  full_decay from = full_decay to ->
  (compat from to = CTrue <-> binds from to).
Proof.
  intros Hrf Hrt Hnf Hnt Hdec.
  assert (Hdf : pointer_arity (q_ty from) < 16) by (rewrite <- pointer_depth_arity; apply Hrf).
  assert (Hdt : pointer_arity (q_ty to) < 16) by (rewrite <- pointer_depth_arity; apply Hrt).
  assert (Hfa : is_array (q_ty from) = false)
    by (destruct (q_ty from) as [| |t n] eqn:E; [reflexivity|reflexivity|destruct (Hnf t n E)]).
  assert (Hta : is_array (q_ty to) = false)
    by (destruct (q_ty to) as [| |t n] eqn:E; [reflexivity|reflexivity|destruct (Hnt t n E)]).
  assert (Hsim : pointer_arity (q_ty from) = pointer_arity (q_ty to) -> similar (q_ty from) (q_ty to)).
  { intro Ha. apply similar_remove_all_cv. unfold full_decay in Hdec. injection Hdec as Hdec.
    destruct (q_ty from) as [c v b|c v t|t n] eqn:Ef, (q_ty to) as [c' v' b'|c' v' u|u n'] eqn:Et;
      cbn in *; try discriminate.
    - destruct b as [k i z tr], b' as [k' i' z' tr']; cbn in *.
      destruct k, k'; cbn in *; congruence.
    - congruence. }
  assert (Hq : forall k, k <= pointer_arity (q_ty from) ->
      pointer_arity (q_ty from) = pointer_arity (q_ty to) ->
      (compare_masks (info_of from) (info_of to) (pointer_arity (q_ty from) - k) false = CTrue
       <-> qual_ok k (q_ty from) (q_ty to))).
  { intros k Hk Ha. apply masks_qual; auto. }
  rewrite (compatible_unfold from to Hdf Hdt). cbn zeta. rewrite Hfa, Hta. cbn [andb].
  rewrite is_const_at0. unfold binds.
  destruct (Nat.eqb_spec (pointer_arity (q_ty from)) (pointer_arity (q_ty to))) as [Ha|Ha]; cbn [negb].
  2:{ split.
      - destruct (q_ref from), (q_ref to), (const_at (q_ty to) 0); cbn; discriminate.
      - intros [Hs _]. apply similar_arity in Hs. contradiction. }
  specialize (Hsim Ha).
  assert (Hq0 := Hq 0 (Nat.le_0_l _) Ha). rewrite Nat.sub_0_r in Hq0.
  destruct (q_ref to) eqn:Ert.
  - (* by value *)
    rewrite !andb_false_r. cbn [andb].
    destruct (pointer_arity (q_ty from)) as [|a] eqn:Ea.
    + split; [|reflexivity]. intros _. split; [exact Hsim|].
      intros j Hj. destruct Hrf as (Hv & Hp & _), Hrt as (Hv' & Hp' & _).
      destruct (q_ty from) as [c v b|c v t|t n] eqn:Ef, (q_ty to) as [c' v' b'|c' v' u|u n'] eqn:Et;
        cbn in Ea, Hfa, Hta; try discriminate.
      destruct j as [|j]; [lia|]. cbn. split; [discriminate|]. split; [discriminate|].
      intros [Hx|Hx]; congruence.
    + assert (Hq1 := Hq 1). rewrite <- Hq1; [|lia|exact Ha].
      replace (S a - 1) with a by lia. tauto.
  - (* lvalue reference *)
    rewrite !andb_true_r, !andb_false_r.
    rewrite <- Hq0.
    destruct (q_ref from) eqn:Erf; cbn [negb andb]; destruct (const_at (q_ty to) 0) eqn:Ec; cbn [negb andb];
      split; try discriminate; try tauto;
      try (intro H; split; [exact Hsim|split; [auto|exact H]]);
      intros (_ & [H|H] & _); discriminate.
  - (* rvalue reference *)
    rewrite !andb_false_r, !andb_true_r. cbn [andb].
    rewrite <- Hq0.
    destruct (q_ref from) eqn:Erf.
    + split; [intro H; split; [exact Hsim|split; [discriminate|exact H]]|tauto].
    + split; [discriminate|]. intros (_ & H & _). congruence.
    + split; [intro H; split; [exact Hsim|split; [discriminate|exact H]]|tauto].
Qed.

(** Within the guard [compatible] never terminates the program. *)
Lemma compat_no_term from to :
  pointer_depth (q_ty from) < 16 -> pointer_depth (q_ty to) < 16 -> compat from to <> CTerm.
Proof.
  intros Hf Ht. rewrite pointer_depth_arity in Hf, Ht.
  rewrite compatible_unfold by lia. cbn zeta.
  assert (Hs : (if is_array (q_ty from) && is_pointer (q_ty to) then S (pointer_arity (q_ty from))
                else pointer_arity (q_ty from)) < 16).
  { destruct (q_ty from); cbn in *; try lia. destruct (is_pointer (q_ty to)); lia. }
  repeat match goal with |- (if ?b then _ else _) <> _ => destruct b; try discriminate end.
  - apply compare_masks_spec. exact Hs.
  - destruct (if is_array (q_ty from) && is_pointer (q_ty to) then _ else _) eqn:E; [discriminate|].
    apply compare_masks_spec. lia.
Qed.

(** ** Chains *)

(** A value travels through declared types, each step reported compatible and keeping the decayed type. *)
Inductive chain (P : qty -> Prop) : qty -> qty -> Prop :=
| chain_nil q : chain P q q
| chain_cons q r s : P r -> full_decay q = full_decay r -> compat q r = CTrue ->
    chain P r s -> chain P q s.

Definition plain (q : qty) : Prop := regular q /\ not_array q.
Definition plain_ref (q : qty) : Prop := plain q /\ q_ref q <> RNone.

Lemma binds_const_level from to j : binds from to -> 1 <= j \/ q_ref to <> RNone ->
  const_at (q_ty from) j = true -> const_at (q_ty to) j = true.
Proof.
  intros [_ H] Hj Hc. destruct (q_ref to).
  - destruct Hj as [Hj|Hj]; [|congruence]. destruct (H j Hj) as [H1 _]. exact (H1 Hc).
  - destruct H as [_ H]. destruct (H j (Nat.le_0_l j)) as [H1 _]. exact (H1 Hc).
  - destruct H as [_ H]. destruct (H j (Nat.le_0_l j)) as [H1 _]. exact (H1 Hc).
Qed.

Lemma chain_const from to j : plain from -> chain plain from to -> 1 <= j ->
  const_at (q_ty from) j = true -> const_at (q_ty to) j = true.
Proof.
  intros Hf Hc Hj. induction Hc as [q|q r s Hr Hd Hcompat Hc IH]; [auto|].
  intro H. apply IH; [exact Hr|]. destruct Hf as [Hf1 Hf2], Hr as [Hr1 Hr2].
  apply (binds_const_level q r j); auto. apply compat_iff_binds; assumption.
Qed.

Lemma chain_ref_const from to j : plain from -> chain plain_ref from to ->
  const_at (q_ty from) j = true -> const_at (q_ty to) j = true.
Proof.
  intros Hf Hc. induction Hc as [q|q r s Hr Hd Hcompat Hc IH]; [auto|].
  intro H. destruct Hr as [Hr Hnr]. apply IH; [exact Hr|]. destruct Hf as [Hf1 Hf2], Hr as [Hr1 Hr2].
  apply (binds_const_level q r j); auto. apply compat_iff_binds; assumption.
Qed.

Lemma compat_refl q : compat q q = CTrue.
Proof.
  unfold compat, compatible. fold (mt q).
  rewrite !isLref_mt, !isRref_mt, !isConst_mt, !isArray_mt, !isPointer_mt, !isReference_mt.
  replace (is_array (q_ty q) && is_pointer (q_ty q)) with false by (destruct (q_ty q); reflexivity).
  replace (is_array (q_ty q) && negb (is_array (q_ty q)) && _) with false
    by (destruct (q_ty q); reflexivity).
  rewrite N.ltb_irrefl, andb_false_r, Nat.eqb_refl.
  destruct (q_ref q); cbn [negb andb].
  - destruct (N.to_nat (ti_arity (info_of q))); [reflexivity|].
    unfold compare_masks; cbn [andb]; rewrite N.eqb_refl; reflexivity.
  - unfold compare_masks; cbn [andb]; rewrite N.eqb_refl; reflexivity.
  - unfold compare_masks; cbn [andb]; rewrite N.eqb_refl; reflexivity.
Qed.

Lemma qual_ok_trans k t u w : qual_ok k t u -> qual_ok k u w -> qual_ok k t w.
Proof.
  intros H1 H2 j Hj. destruct (H1 j Hj) as (A1 & B1 & C1), (H2 j Hj) as (A2 & B2 & C2).
  split; [auto|]. split; [auto|]. intros Hd i Hi Hij.
  assert (D : (const_at t j <> const_at u j \/ volatile_at t j <> volatile_at u j) \/
              (const_at u j <> const_at w j \/ volatile_at u j <> volatile_at w j)).
  { destruct (bool_dec (const_at t j) (const_at u j)), (bool_dec (volatile_at t j) (volatile_at u j)); auto.
    right. destruct Hd; [left|right]; congruence. }
  destruct D as [D|D].
  - destruct (H2 i Hi) as [E _]. apply E. apply C1; auto.
  - apply C2; auto.
Qed.

Lemma compat_trans_value a b c :
  plain a -> plain b -> plain c -> q_ref b = RNone -> q_ref c = RNone ->
  full_decay a = full_decay b -> full_decay b = full_decay c ->
  compat a b = CTrue -> compat b c = CTrue -> compat a c = CTrue.
Proof.
  intros [Ha Ha'] [Hb Hb'] [Hc Hc'] Rb Rc D1 D2 C1 C2.
  apply (compat_iff_binds a b) in C1; auto. apply (compat_iff_binds b c) in C2; auto.
  apply compat_iff_binds; auto; [congruence|].
  destruct C1 as [S1 Q1], C2 as [S2 Q2]. rewrite Rb in Q1. rewrite Rc in Q2.
  split; [eapply similar_trans; eassumption|]. rewrite Rc.
  eapply qual_ok_trans; eassumption.
Qed.

(** ** Arrays *)

Lemma decay_of_array from to e n : q_ty from = TArr e n -> full_decay from = full_decay to ->
  (exists e' m, q_ty to = TArr e' m /\ similar e e') \/
  (exists c v e', q_ty to = TPtr c v e' /\ similar e e') \/
  (exists c v b, q_ty to = TBase c v b /\ b_kind b = KFunction).
Proof.
  intros Hf Hd. unfold full_decay in Hd. injection Hd as Hd. rewrite Hf in Hd. cbn in Hd.
  destruct (q_ty to) as [c v b|c v u|u m] eqn:Et; cbn in Hd.
  - right; right. exists c, v, b. split; [reflexivity|]. destruct (b_kind b); try discriminate. reflexivity.
  - right; left. exists c, v, u. split; [reflexivity|]. injection Hd as Hd. apply similar_remove_all_cv; exact Hd.
  - left. exists u, m. split; [reflexivity|]. injection Hd as Hd. apply similar_remove_all_cv; exact Hd.
Qed.

Lemma similar_size t u : similar t u -> size_of t = size_of u.
Proof. induction 1; cbn; congruence. Qed.

Lemma plain_const_mono e e' j : no_pointer e = true -> no_pointer e' = true -> similar e e' ->
  (const_at e 0 = true -> const_at e' 0 = true) -> const_at e j = true -> const_at e' j = true.
Proof.
  intros He He' Hs H0 Hj. rewrite <- !is_const_at0 in H0.
  rewrite const_at_plain in Hj by exact He. rewrite const_at_plain by exact He'.
  rewrite <- (similar_depth _ _ Hs). apply andb_true_iff in Hj as [E1 E2].
  rewrite E2, (H0 E1). reflexivity.
Qed.

Lemma array_view_safe from to e n e' m :
  q_ty from = TArr e n -> q_ty to = TArr e' m -> similar e e' -> no_pointer e = true ->
  compat from to = CTrue ->
  (size_of (q_ty to) <= size_of (q_ty from))%N /\
  ((0 < size_of e)%N -> (m <= n)%N) /\
  (q_ref to <> RNone -> forall j, const_at (q_ty from) j = true -> const_at (q_ty to) j = true).
Proof.
  intros Hf Ht Hs Hp Hc. rewrite compatible_unfold in Hc by (rewrite ?Hf, ?Ht; cbn; lia).
  assert (Hp' : no_pointer e' = true) by (rewrite <- (similar_no_pointer _ _ Hs); exact Hp).
  cbn zeta in Hc. rewrite Hf, Ht in Hc. cbn [is_array is_pointer pointer_arity andb negb Nat.eqb] in Hc.
  destruct (negb match q_ref from with RL => true | _ => false end && _ && _); [discriminate|].
  destruct (match q_ref from with RL => true | _ => false end && _); [discriminate|].
  destruct (N.ltb_spec (size_of (TArr e n)) (size_of (TArr e' m))) as [Hlt|Hle]; [discriminate|].
  rewrite Hf, Ht. split; [exact Hle|]. split.
  - cbn in Hle. rewrite <- (similar_size _ _ Hs) in Hle. intro Hpos.
    apply N.mul_le_mono_pos_r in Hle; assumption.
  - intros Hr j. destruct (q_ref to) eqn:Er; [congruence| |];
      (destruct (compare_masks_spec (info_of from) (info_of to) 0 false) as [Hcm _]; [lia|];
       apply Hcm in Hc; destruct (Hc 0) as [H0 _]; [lia|]; cbn beta in H0;
       rewrite !mask_bit in H0 by (rewrite ?Hf, ?Ht; cbn; lia);
       rewrite Hf, Ht in H0; cbn [pointer_arity Nat.leb Nat.sub] in H0;
       destruct j; cbn [const_at]; apply (plain_const_mono e e'); auto).
Qed.

(** An array decaying to a pointer: the exact rule. The pointer obtained is a value of its own, so a
    reference to it has to be a reference to const. *)
Definition decays_to (from to : qty) (e e' : ty) (c : bool) : Prop :=
  (const_at e 0 = true -> const_at e' 0 = true) /\
  match q_ref to with
  | RNone => True
  | RL => c = true
  | RR => q_ref from <> RL /\ c = true
  end.

Lemma array_decay_iff from to e n c v e' :
  q_ty from = TArr e n -> q_ty to = TPtr c v e' -> similar e e' -> no_pointer e = true ->
  (compat from to = CTrue <-> decays_to from to e e' c).
Proof.
  intros Hf Ht Hs Hp.
  assert (Hp' : no_pointer e' = true) by (rewrite <- (similar_no_pointer _ _ Hs); exact Hp).
  assert (Ha' : pointer_arity e' = 0) by (destruct e'; cbn in *; congruence).
  rewrite compatible_unfold by (rewrite ?Hf, ?Ht; cbn; lia).
  cbn zeta. rewrite Hf, Ht. cbn [is_array is_pointer pointer_arity andb negb is_const].
  rewrite Ha'. cbn [Nat.eqb negb]. unfold decays_to.
  assert (Hbit0 : forall k, k < 2 -> N.testbit (ti_mask (info_of from)) (N.of_nat k) =
                     match k with 0 => const_at e 0 | _ => false end).
  { intros k Hk. rewrite mask_bit by (rewrite Hf; cbn; lia). rewrite Hf. cbn [pointer_arity].
    destruct k as [|[|k]]; [reflexivity|reflexivity|lia]. }
  assert (Hbit1 : forall k, k < 2 -> N.testbit (ti_mask (info_of to)) (N.of_nat k) =
                     match k with 0 => const_at e' 0 | _ => c end).
  { intros k Hk. rewrite mask_bit by (rewrite Ht; cbn; lia). rewrite Ht. cbn [pointer_arity].
    rewrite Ha'. destruct k as [|[|k]]; [reflexivity|reflexivity|lia]. }
  destruct (q_ref to) eqn:Er.
  - rewrite !andb_false_r. cbn [andb].
    destruct (compare_masks_spec (info_of from) (info_of to) 0 false) as [Hcm _]; [lia|].
    rewrite Hcm. unfold loop_ok. split.
    + intro H. split; [|exact I]. destruct (H 0) as [H0 _]; [lia|]. rewrite Hbit0, Hbit1 in H0 by lia. exact H0.
    + intros [H _] i Hi. assert (i = 0) by lia; subst i. rewrite Hbit0, Hbit1 by lia.
      split; [exact H|]. intros _ j Hj. lia.
  - rewrite !andb_false_r, !andb_true_r.
    destruct (compare_masks_spec (info_of from) (info_of to) 1 true) as [Hcm _]; [lia|].
    assert (Hl : compare_masks (info_of from) (info_of to) 1 true = CTrue <->
                 (const_at e 0 = true -> const_at e' 0 = true) /\ c = true).
    { rewrite Hcm. unfold loop_ok. split.
      - intro H. destruct (H 0) as [H0 _]; [lia|]. destruct (H 1) as [H1 _]; [lia|].
        rewrite N.setbit_eqb, Hbit0, Hbit1 in H0 by lia. rewrite N.setbit_eqb, Hbit0, Hbit1 in H1 by lia.
        cbn in H0, H1. auto.
      - intros [H0 Hc] i Hi. rewrite N.setbit_eqb.
        assert (i = 0 \/ i = 1) as [->| ->] by lia; rewrite Hbit0, Hbit1 by lia; cbn [N.of_nat N.eqb orb].
        + split; [exact H0|]. intros _ j Hj. assert (j = 1) by lia; subst j.
          rewrite Hbit1 by lia. exact Hc.
        + split; [auto|]. intros _ j Hj. lia. }
    destruct (q_ref from); cbn [negb andb]; destruct c; cbn [negb]; rewrite ?Hl;
      split; try discriminate; try tauto; intros [_ H]; congruence.
  - rewrite !andb_false_r, !andb_true_r. cbn [andb].
    destruct (compare_masks_spec (info_of from) (info_of to) 1 true) as [Hcm _]; [lia|].
    assert (Hl : compare_masks (info_of from) (info_of to) 1 true = CTrue <->
                 (const_at e 0 = true -> const_at e' 0 = true) /\ c = true).
    { rewrite Hcm. unfold loop_ok. split.
      - intro H. destruct (H 0) as [H0 _]; [lia|]. destruct (H 1) as [H1 _]; [lia|].
        rewrite N.setbit_eqb, Hbit0, Hbit1 in H0 by lia. rewrite N.setbit_eqb, Hbit0, Hbit1 in H1 by lia.
        cbn in H0, H1. auto.
      - intros [H0 Hc] i Hi. rewrite N.setbit_eqb.
        assert (i = 0 \/ i = 1) as [->| ->] by lia; rewrite Hbit0, Hbit1 by lia; cbn [N.of_nat N.eqb orb].
        + split; [exact H0|]. intros _ j Hj. assert (j = 1) by lia; subst j.
          rewrite Hbit1 by lia. exact Hc.
        + split; [auto|]. intros _ j Hj. lia. }
    destruct (q_ref from) eqn:Erf; cbn [negb andb]; rewrite ?Hl.
    + split; [intros [A B]; repeat split; auto; discriminate|tauto].
    + split; [discriminate|]. intros [_ [H _]]. congruence.
    + split; [intros [A B]; repeat split; auto; discriminate|tauto].
Qed.

(** There are no arrays of functions in C++. *)
Definition not_function (t : ty) : Prop :=
  match t with TBase _ _ b => b_kind b <> KFunction | _ => True end.

Lemma array_compat_safe from to e n :
  q_ty from = TArr e n -> no_pointer e = true -> not_function e -> full_decay from = full_decay to ->
  compat from to = CTrue ->
  (exists e' m, q_ty to = TArr e' m /\ (m * size_of e' <= n * size_of e)%N /\
     (q_ref to <> RNone -> forall j, const_at e j = true -> const_at e' j = true)) \/
  (exists c v e', q_ty to = TPtr c v e' /\ (forall j, const_at e j = true -> const_at e' j = true) /\
     (q_ref to <> RNone -> c = true)).
Proof.
  intros Hf Hp Hnf Hd Hc.
  destruct (decay_of_array from to e n Hf Hd) as [(e' & m & Ht & Hs)|[(c & v & e' & Ht & Hs)|(c & v & b & Ht & Hb)]].
  - left. exists e', m. split; [exact Ht|].
    destruct (array_view_safe from to e n e' m Hf Ht Hs Hp Hc) as (Hsz & _ & Hq).
    rewrite Hf, Ht in Hsz. split; [exact Hsz|].
    intros Hr j Hj. specialize (Hq Hr (S j)). rewrite Hf, Ht in Hq. exact (Hq Hj).
  - right. exists c, v, e'. split; [exact Ht|].
    apply (array_decay_iff from to e n c v e' Hf Ht Hs Hp) in Hc. destruct Hc as [H0 Hr]. split.
    + intros j. apply plain_const_mono; auto. rewrite <- (similar_no_pointer _ _ Hs); exact Hp.
    + intro Hnr. destruct (q_ref to); [congruence|exact Hr|apply Hr].
  - exfalso. unfold full_decay in Hd. injection Hd as Hd. rewrite Hf, Ht in Hd. cbn in Hd. rewrite Hb in Hd.
    cbn in Hd. injection Hd as Hd.
    destruct e as [ce ve be|ce ve te|te ne]; cbn in *; try discriminate. injection Hd as Hd. subst be.
    exact (Hnf Hb).
Qed.

(** ** Decay *)

Lemma remove_all_cv_idem t : remove_all_cv (remove_all_cv t) = remove_all_cv t.
Proof. induction t; cbn; congruence. Qed.

Lemma full_decay_idem q : full_decay (full_decay q) = full_decay q.
Proof.
  unfold full_decay. cbn [q_ty]. f_equal.
  destruct (q_ty q) as [c v b|c v t|t n]; cbn.
  - destruct (b_kind b) eqn:E; cbn; rewrite ?E; reflexivity.
  - rewrite remove_all_cv_idem. reflexivity.
  - rewrite remove_all_cv_idem. reflexivity.
Qed.

(** Every type that is not an array binds to its decayed type. *)
Lemma compat_to_decay q : plain q -> (forall c v b, q_ty q = TBase c v b -> b_kind b <> KFunction) ->
  (forall j, 1 <= j -> const_at (q_ty q) j = false) -> compat q (full_decay q) = CTrue.
Proof.
  intros [Hr Hn] Hf Hc.
  assert (Ha : pointer_arity (q_ty (full_decay q)) = pointer_arity (q_ty q)).
  { unfold full_decay; cbn [q_ty]. destruct (q_ty q) as [c v b|c v t|t n] eqn:E; cbn.
    - specialize (Hf c v b eq_refl). destruct (b_kind b); cbn; congruence.
    - f_equal. clear. induction t; cbn; congruence.
    - destruct (Hn t n E). }
  assert (Hsim : similar (q_ty q) (q_ty (full_decay q))).
  { apply similar_remove_all_cv. unfold full_decay; cbn [q_ty].
    destruct (q_ty q) as [c v b|c v t|t n] eqn:E; cbn.
    - specialize (Hf c v b eq_refl). destruct (b_kind b); cbn; congruence.
    - rewrite remove_all_cv_idem. reflexivity.
    - destruct (Hn t n E). }
  assert (Hnone : forall t j, const_at (remove_all_cv t) j = false).
  { induction t as [c v b|c v t IH|t IH n]; intros [|j]; cbn; auto. }
  assert (Hnov : forall t, no_volatile (remove_all_cv t) = true).
  { induction t as [c v b|c v t IH|t IH n]; cbn; auto. }
  assert (Hreg : regular (full_decay q)).
  { destruct Hr as (_ & Hp & Hd). split; [|split].
    - apply Hnov.
    - clear - Hsim Hp. revert Hp. generalize (q_ty q), (q_ty (full_decay q)), Hsim. clear.
      induction 1 as [c v c' v' b|c v c' v' t u Hs IH|t u n Hs IH]; cbn; auto.
      rewrite (similar_no_pointer _ _ Hs). auto.
    - rewrite pointer_depth_arity in *. rewrite Ha. exact Hd. }
  assert (Hna : not_array (full_decay q)).
  { intros t n E. unfold full_decay in E; cbn [q_ty] in E.
    destruct (q_ty q) as [c v b|c v t'|t' n'] eqn:E'; cbn in E; try discriminate.
    destruct (b_kind b); discriminate. }
  apply compat_iff_binds; auto; [symmetry; apply full_decay_idem|].
  split; [exact Hsim|]. cbn [full_decay q_ref]. intros j Hj.
  rewrite (Hc j Hj). destruct Hr as (Hv & _).
  rewrite (volatile_none (q_ty q) j Hv). rewrite (volatile_none (q_ty (full_decay q)) j) by apply Hreg.
  assert (E : const_at (q_ty (full_decay q)) j = false) by apply Hnone. rewrite E.
  split; [auto|]. split; [auto|]. intros [H|H]; congruence.
Qed.

(** ** Predicates *)

Lemma kind_is_spec k b : kind_is k b = true <-> b_kind b = k.
Proof. unfold kind_is. destruct (base_kind_eq_dec (b_kind b) k); split; congruence. Qed.

Lemma pointerArity_mt q : instantiable q = true ->
  pointerArity (mt q) = N.of_nat (pointer_depth (q_ty q)).
Proof.
  unfold instantiable, mt, pointerArity, info_of. cbn [ti_arity]. intro H. apply Nat.leb_le in H.
  change (pointer_depth (q_ty q)) with (pointer_arity (q_ty q)). apply N.mod_small. lia.
Qed.

Lemma isClass_mt q : not_array q ->
  (isClass (mt q) = true <-> exists c v b, q_ty q = TBase c v b /\ b_kind b = KClass).
Proof.
  intro Hn. unfold isClass, mt; cbn [typeFlags ti_flags info_of].
  rewrite has_flag_testbit, lacks_flag_testbit, tf_class, tf_pointer.
  destruct (q_ty q) as [c v b|c v t|t n] eqn:E; cbn [base_type is_pointer negb].
  - rewrite andb_true_r, kind_is_spec. split.
    + intro H. exists c, v, b. auto.
    + intros (c' & v' & b' & H & Hk). injection H as -> -> ->. exact Hk.
  - rewrite andb_false_r. split; [discriminate|]. intros (c' & v' & b' & H & _). discriminate.
  - destruct (Hn t n E).
Qed.

Lemma isClassPtr_mt q : instantiable q = true ->
  (forall c v t n, q_ty q <> TPtr c v (TArr t n)) ->
  (isClassPtr (mt q) = true <->
   exists c v c' v' b, q_ty q = TPtr c v (TBase c' v' b) /\ b_kind b = KClass).
Proof.
  intros Hi Hn. unfold isClassPtr. rewrite (pointerArity_mt q Hi).
  unfold mt; cbn [typeFlags ti_flags info_of].
  rewrite !has_flag_testbit, tf_class, tf_pointer.
  destruct (q_ty q) as [c v b|c v t|t n] eqn:E; cbn [base_type is_pointer pointer_depth].
  - split; [discriminate|]. intros (? & ? & ? & ? & ? & H & _). discriminate.
  - destruct t as [c' v' b|c' v' t|t n]; cbn [base_type pointer_depth].
    + cbn. rewrite andb_true_r, kind_is_spec. split.
      * intro H. exists c, v, c', v', b. auto.
      * intros (? & ? & ? & ? & b' & H & Hk). injection H as <- <- <- <- <-. exact Hk.
    + replace (N.of_nat (S (S (pointer_depth t))) =? 1)%N with false by (symmetry; apply N.eqb_neq; lia).
      split; [discriminate|]. intros (? & ? & ? & ? & ? & H & _). discriminate.
    + destruct (Hn c v t n eq_refl).
  - split; [discriminate|]. intros (? & ? & ? & ? & ? & H & _). discriminate.
Qed.

Lemma isFunctionPtr_mt q : instantiable q = true ->
  (forall c v t n, q_ty q <> TPtr c v (TArr t n)) ->
  (isFunctionPtr (mt q) = true <->
   exists c v c' v' b, q_ty q = TPtr c v (TBase c' v' b) /\ b_kind b = KFunction).
Proof.
  intros Hi Hn. unfold isFunctionPtr. rewrite (pointerArity_mt q Hi).
  unfold mt; cbn [typeFlags ti_flags info_of].
  rewrite !has_flag_testbit, tf_function, tf_pointer.
  destruct (q_ty q) as [c v b|c v t|t n] eqn:E; cbn [base_type is_pointer pointer_depth].
  - split; [discriminate|]. intros (? & ? & ? & ? & ? & H & _). discriminate.
  - destruct t as [c' v' b|c' v' t|t n]; cbn [base_type pointer_depth].
    + cbn. rewrite andb_true_r, kind_is_spec. split.
      * intro H. exists c, v, c', v', b. auto.
      * intros (? & ? & ? & ? & b' & H & Hk). injection H as <- <- <- <- <-. exact Hk.
    + replace (N.of_nat (S (S (pointer_depth t))) =? 1)%N with false by (symmetry; apply N.eqb_neq; lia).
      split; [discriminate|]. intros (? & ? & ? & ? & ? & H & _). discriminate.
    + destruct (Hn c v t n eq_refl).
  - split; [discriminate|]. intros (? & ? & ? & ? & ? & H & _). discriminate.
Qed.

Lemma isVoidPtr_mt q : pointer_depth (q_ty q) <= 1 ->
  (forall c v t n, q_ty q <> TPtr c v (TArr t n)) ->
  (isVoidPtr (mt q) = true <->
   exists c v c' v' b, q_ty q = TPtr c v (TBase c' v' b) /\ b_kind b = KVoid).
Proof.
  intros Hd Hn. unfold isVoidPtr, mt; cbn [typeFlags ti_flags info_of].
  rewrite !has_flag_testbit, tf_void, tf_pointer.
  destruct (q_ty q) as [c v b|c v t|t n] eqn:E; cbn [base_type is_pointer].
  - rewrite andb_false_r. split; [discriminate|]. intros (? & ? & ? & ? & ? & H & _). discriminate.
  - rewrite andb_true_r, kind_is_spec.
    destruct t as [c' v' b|c' v' t|t n]; cbn in *; [|lia|destruct (Hn c v t n eq_refl)]. split.
    + intro H. exists c, v, c', v', b. auto.
    + intros (? & ? & ? & ? & b' & H & Hk). injection H as <- <- <- <- <-. exact Hk.
  - rewrite andb_false_r. split; [discriminate|]. intros (? & ? & ? & ? & ? & H & _). discriminate.
Qed.
