(** Proofs for C64. *)
From Coq Require Import NArith List Bool Arith Lia.
From Verif Require Import TypesModel TypesSpec TypesProofs SelectModel SelectSpec.
Import ListNotations.
Local Open Scope bool_scope.

(** ** Qualifiers *)

Lemma const_levels t j : const_at t j = fst (nth j (levels t) (false, false)).
Proof.
  revert j; induction t as [c v b|c v t IH|t IH n]; intros [|j]; cbn [const_at levels].
  - reflexivity.
  - destruct j; reflexivity.
  - reflexivity.
  - apply IH.
  - specialize (IH 0). destruct (levels t); exact IH.
  - specialize (IH j). rewrite IH. destruct (levels t); [destruct j|]; reflexivity.
Qed.
Lemma volatile_levels t j : volatile_at t j = snd (nth j (levels t) (false, false)).
Proof.
  revert j; induction t as [c v b|c v t IH|t IH n]; intros [|j]; cbn [volatile_at levels].
  - reflexivity.
  - destruct j; reflexivity.
  - reflexivity.
  - apply IH.
  - specialize (IH 0). destruct (levels t); exact IH.
  - specialize (IH j). rewrite IH. destruct (levels t); [destruct j|]; reflexivity.
Qed.
Lemma similar_levels t u : similar t u -> length (levels t) = length (levels u).
Proof.
  induction 1 as [ |c v c' v' t u S IH|t u n S IH]; cbn; [reflexivity|now rewrite IH|].
  destruct (levels t), (levels u); cbn in *; congruence.
Qed.

Definition level_ok (above : Prop) (l m : list (bool * bool)) : Prop :=
  forall j, let a := nth j l (false, false) in let b := nth j m (false, false) in
    (fst a = true -> fst b = true) /\ (snd a = true -> snd b = true) /\
    ((fst a <> fst b \/ snd a <> snd b) -> above /\ forall i, i < j -> fst (nth i m (false, false)) = true).

Lemma qualifies_ok l m above : length l = length m ->
  (qualifies above l m = true <-> level_ok (above = true) l m).
Proof.
  revert m above; induction l as [|[c v] l IH]; intros [|[c' v'] m] above L; try discriminate.
  - split; [|reflexivity]. intros _ j. destruct j; cbn; repeat split; intuition congruence.
  - cbn in L. injection L as L. cbn [qualifies]. rewrite !andb_true_iff, (IH m (above && c') L). clear IH. split.
    + intros [[[C V] A] R] [|j]; cbn [nth fst snd].
      * repeat split.
        -- intro E; subst; destruct c'; [reflexivity|discriminate C].
        -- intro E; subst; destruct v'; [reflexivity|discriminate V].
        -- apply orb_true_iff in A as [A|A]; [exact A|]. apply andb_true_iff in A as [A B].
           apply eqb_prop in A. apply eqb_prop in B. intuition congruence.
        -- intros i I. lia.
      * destruct (R j) as [R1 [R2 R3]]. split; [exact R1|]. split; [exact R2|]. intro D.
        destruct (R3 D) as [U W]. apply andb_true_iff in U as [U U']. split; [exact U|].
        intros [|i] I; [exact U'|]. cbn. apply W. lia.
    + intro R. split.
      * destruct (R 0) as [C [V A]]. cbn in C, V, A. repeat split.
        -- destruct c, c'; cbn; auto.
        -- destruct v, v'; cbn; auto.
        -- destruct above; [reflexivity|]. cbn.
           destruct c, c', v, v'; cbn; try reflexivity; exfalso;
             assert (X : false = true) by (apply A; (left; discriminate) || (right; discriminate)); discriminate X.
      * intro j. destruct (R (S j)) as [C [V A]]. cbn [nth] in C, V, A. split; [exact C|]. split; [exact V|].
        intro D. destruct (A D) as [U W]. split.
        -- rewrite U. exact (W 0 (Nat.lt_0_succ j)).
        -- intros i I. exact (W (S i) (proj1 (Nat.succ_lt_mono i j) I)).
Qed.

Lemma same_similar t u : same t u = true <-> similar t u.
Proof.
  unfold same. destruct (ty_eq_dec _ _) as [E|N]; rewrite similar_remove_all_cv; [tauto|].
  split; [discriminate|contradiction].
Qed.
Lemma same_not t u : same t u = false <-> ~ similar t u.
Proof. rewrite <- same_similar. destruct (same t u); intuition congruence. Qed.

Lemma nth_tl {A} (l : list A) j d : nth j (tl l) d = nth (S j) l d.
Proof. destruct l; [destruct j; reflexivity|reflexivity]. Qed.
Lemma length_tl {A} (l m : list A) : length l = length m -> length (tl l) = length (tl m).
Proof. destruct l, m; cbn; congruence. Qed.

Lemma qualifies_zero t u : similar t u -> (qualifies true (levels t) (levels u) = true <-> qual_ok 0 t u).
Proof.
  intro S. rewrite (qualifies_ok _ _ true (similar_levels t u S)). unfold level_ok, qual_ok. split; intros H j.
  - intros _. destruct (H j) as [C [V A]]. rewrite !const_levels, !volatile_levels. split; [exact C|]. split; [exact V|].
    intros D i _ I. rewrite const_levels. now apply A.
  - destruct (H j (Nat.le_0_l j)) as [C [V A]]. rewrite !const_levels in *. rewrite !volatile_levels in *.
    split; [exact C|]. split; [exact V|]. intro D. split; [reflexivity|]. intros i I. rewrite <- const_levels.
    apply (A D); [lia|exact I].
Qed.
Lemma qualifies_one t u : similar t u ->
  (qualifies true (tl (levels t)) (tl (levels u)) = true <-> qual_ok 1 t u).
Proof.
  intro S. rewrite (qualifies_ok _ _ true (length_tl _ _ (similar_levels t u S))). unfold level_ok, qual_ok. split; intros H j.
  - intro J. destruct j as [|j]; [lia|]. destruct (H j) as [C [V A]]. rewrite !nth_tl in *.
    rewrite !const_levels, !volatile_levels. split; [exact C|]. split; [exact V|].
    intros D i I I'. destruct i as [|i]; [lia|]. rewrite const_levels, <- nth_tl. apply (proj2 (A D)). lia.
  - rewrite !nth_tl. destruct (H (Datatypes.S j)) as [C [V A]]; [lia|]. rewrite !const_levels in *. rewrite !volatile_levels in *.
    split; [exact C|]. split; [exact V|]. intro D. split; [reflexivity|]. intros i I. rewrite nth_tl, <- const_levels.
    apply (A D); lia.
Qed.

Lemma is_const_at t : is_const t = const_at t 0.
Proof. induction t; cbn; auto. Qed.

(** ** Initialisation *)

Lemma makes_transfers e a t : makes e a t = true <-> transfers e a t.
Proof.
  destruct t as [c v b|c v t|t n]; cbn.
  - rewrite is_const_at. split.
    + destruct (q_ref a) eqn:R; [|intro; apply tr_copy; auto|];
        (destruct (const_at (q_ty a) 0) eqn:C; intro;
         [apply tr_copy; auto|apply tr_move; [auto|rewrite R; discriminate|auto]]).
    + intro H. inversion H as [? ? ? C W|? ? ? C W Z|]; subst.
      * destruct (q_ref a); auto; (destruct (const_at (q_ty a) 0); [auto|destruct W; discriminate]).
      * destruct (q_ref a); [rewrite Z; auto|congruence|rewrite Z; auto].
  - split; [constructor|reflexivity].
  - split; [discriminate|]. intro H; inversion H.
Qed.

Lemma takes_initialises e a p : takes e a p = true <-> initialises e a p.
Proof.
  unfold takes. destruct (same (q_ty a) (q_ty p)) eqn:S.
  - pose proof (proj1 (same_similar _ _) S) as Sim. split.
    + intro H. apply in_direct.
      * split; [exact Sim|]. destruct (q_ref p).
        -- apply andb_true_iff in H as [Q _]. now apply qualifies_one.
        -- apply andb_true_iff in H as [R Q]. split; [|now apply qualifies_zero].
           destruct (q_ref a); auto; right; now rewrite <- is_const_at.
        -- apply andb_true_iff in H as [R Q]. split; [|now apply qualifies_zero].
           destruct (q_ref a); discriminate.
      * intro R. rewrite R in H. apply andb_true_iff in H as [_ M]. now apply makes_transfers.
    + intro H. destruct H as [[_ B] T|N _ _]; [|contradiction]. destruct (q_ref p).
      * apply andb_true_iff. split; [now apply qualifies_one|now apply makes_transfers, T].
      * destruct B as [R Q]. apply andb_true_iff. split; [|now apply qualifies_zero].
        rewrite is_const_at. destruct (q_ref a); auto; destruct R; congruence.
      * destruct B as [R Q]. apply andb_true_iff. split; [|now apply qualifies_zero]. destruct (q_ref a); congruence.
  - pose proof (proj1 (same_not _ _) S) as N. rewrite andb_true_iff. split.
    + intros [R C]. apply in_temporary; auto. intro E. rewrite E, is_const_at in R. exact R.
    + intro H. destruct H as [[Sim _] _|_ C R]; [contradiction|]. split; [|exact C].
      destruct (q_ref p); auto. rewrite is_const_at. auto.
Qed.

Lemma implicit_becomes e a t : implicit e a t = true <-> becomes e a t.
Proof.
  unfold implicit. destruct (same (q_ty a) t) eqn:S.
  - pose proof (proj1 (same_similar _ _) S) as Sim. rewrite andb_true_iff, (qualifies_one _ _ Sim). split.
    + intros [Q M]. apply be_same; auto. intro R. apply makes_transfers. destruct (q_ref a); congruence.
    + intro H. destruct H as [_ Q T|N _]; [|contradiction]. split; [exact Q|].
      destruct (q_ref a); auto; apply makes_transfers, T; discriminate.
  - pose proof (proj1 (same_not _ _) S) as N. split; [now apply be_other|].
    intro H. destruct H as [Sim _ _|_ C]; [contradiction|exact C].
Qed.
Lemma direct_constructs e a t : direct e a t = true <-> constructs e a t.
Proof.
  unfold direct, constructs. rewrite orb_true_iff, andb_true_iff, negb_true_iff, implicit_becomes, same_not. reflexivity.
Qed.

(** ** Contents *)

Lemma constant_similar t : similar (constant t) t.
Proof.
  induction t; cbn; constructor; auto. apply similar_refl.
Qed.
Lemma constant_const t : const_at (constant t) 0 = true.
Proof. induction t; cbn; auto. Qed.
Lemma source_unmodifiable F : is_array F = false -> unmodifiable (source F) F.
Proof.
  intro A. split; [reflexivity|]. split; [apply constant_similar|]. split; [apply constant_const|].
  destruct F as [c v b|c v t|t n]; [| |discriminate].
  - split; [reflexivity|]. intros [|j] J; [lia|]. split; reflexivity.
  - split; [reflexivity|]. intros [|j] J; [lia|]. split; reflexivity.
Qed.

(** The source is the only expression a converter gets. *)
Lemma unmodifiable_is a F : is_array F = false -> unmodifiable a F -> a = source F.
Proof.
  intros A [R [S [C [V L]]]]. destruct a as [r t]. cbn in *. subst r. unfold source. f_equal.
  assert (G : forall t u, similar t u -> (forall j, const_at t j = const_at u j /\ volatile_at t j = volatile_at u j) -> t = u).
  { clear. intros t u S. induction S as [c v c' v' b|c v c' v' t u S IH|t u n S IH]; intro H.
    - destruct (H 0) as [X Y]. cbn in X, Y. now subst.
    - destruct (H 0) as [X Y]. cbn in X, Y. subst. f_equal. apply IH. intro j. apply (H (Datatypes.S j)).
    - f_equal. apply IH. intro j. apply (H (Datatypes.S j)). }
  apply G; [eapply similar_trans; [exact S|apply similar_sym, constant_similar]|].
  destruct (source_unmodifiable F A) as [_ [_ [C' [V' L']]]]. cbn in C', V', L'.
  intros [|j]; [split; congruence|]. destruct (L (Datatypes.S j)) as [X Y]; [lia|].
  destruct (L' (Datatypes.S j)) as [X' Y']; [lia|]. split; congruence.
Qed.

Lemma object_type_has t : object_type t = true <-> has_objects t.
Proof.
  unfold has_objects. destruct t as [c v b|c v t|t n]; cbn.
  - split.
    + intros H c0 v0 b0 E. injection E as <- <- <-. destruct (b_kind b); try discriminate; split; discriminate.
    + intro H. destruct (H c v b eq_refl) as [A B]. destruct (b_kind b); auto; congruence.
  - split; [discriminate|reflexivity].
  - split; [discriminate|reflexivity].
Qed.

(** ** Which converter is made *)

Lemma taken_longer e args params : length params < length args -> taken e args params = false.
Proof.
  revert params; induction args as [|a args IH]; intros [|p params] L; cbn in *; try lia; try reflexivity.
  rewrite IH; [apply andb_false_r|lia].
Qed.

Lemma choose_plain e fn cst F T p : written_plain fn p ->
  choose e fn cst F T =
  if object_type F && object_type T && o_const fn && takes e (source F) p && direct e (o_result fn) T
  then Registered Plain else Ill_formed.
Proof.
  intros [P Q]. unfold choose, is_functorOk, plain_compiles, call. rewrite P.
  rewrite (taken_longer e [mkQ RR F; flag] [p]) by (cbn; lia). rewrite andb_false_r.
  destruct (object_type F && object_type T); cbn [negb andb]; [|reflexivity].
  cbn [implb taken length]. replace (o_required fn <=? 1) with true by (symmetry; now apply Nat.leb_le).
  rewrite andb_true_r. destruct (o_const fn); cbn [andb]; [|reflexivity]. rewrite andb_true_r.
  destruct (takes e (source F) p); cbn [andb]; reflexivity.
Qed.

Lemma takes_flag e : takes e flag (mkQ RL (TBase false false bool_base)) = true.
Proof. apply takes_initialises, in_direct; [|discriminate]. split; [apply similar_refl|]. split; [now left|].
  intros j _. repeat split; auto. intuition congruence. Qed.

Lemma choose_reporting e fn cst F T p : written_reporting fn p ->
  choose e fn cst F T =
  if object_type F && object_type T && o_const fn && takes e (source F) p && takes e (mkQ RR F) p && implicit e (o_result fn) T
  then Registered Reporting else Ill_formed.
Proof.
  intros [b [P [Q B]]]. subst b. unfold choose, is_functorOk, plain_compiles, reporting_compiles, call. rewrite P, Q.
  cbn [length Nat.leb taken]. rewrite takes_flag, !andb_true_r, andb_false_r. cbn [andb].
  destruct (object_type F && object_type T); cbn [negb andb]; [|reflexivity]. cbn [implb].
  destruct (o_const fn); cbn [andb].
  - replace (implb cst true) with true by (destruct cst; reflexivity). cbn [andb]. unfold direct.
    destruct (takes e (mkQ RR F) p), (takes e (source F) p); cbn [andb]; try reflexivity;
      destruct (implicit e (o_result fn) T); reflexivity.
  - destruct cst; cbn [andb implb]; [reflexivity|].
    destruct (takes e (mkQ RR F) p); [|reflexivity]. destruct (implicit e (o_result fn) T); reflexivity.
Qed.

Lemma registered_parts e fn cst F T k : choose e fn cst F T = Registered k ->
  object_type F = true /\ object_type T = true /\ o_const fn = true /\ direct e (o_result fn) T = true /\
  exists p ps, o_params fn = p :: ps /\ takes e (source F) p = true /\
    (k = Reporting -> exists p2 ps', ps = p2 :: ps' /\ takes e flag p2 = true).
Proof.
  unfold choose, plain_compiles, reporting_compiles, call. intro H.
  destruct (object_type F); [|discriminate]. destruct (object_type T); [|discriminate]. cbn [andb negb implb] in H.
  do 2 (split; [reflexivity|]).
  destruct (is_functorOk e fn cst F T).
  - destruct (o_const fn); [|discriminate]. cbn [andb] in H. destruct (o_required fn <=? length [source F; flag]); [|discriminate].
    cbn [andb] in H. destruct (o_params fn) as [|p [|p2 ps]]; cbn [taken] in H; [discriminate|rewrite andb_false_r in H; discriminate|].
    destruct (takes e (source F) p) eqn:K1; [|discriminate]. destruct (takes e flag p2) eqn:K2; [|discriminate]. cbn [andb] in H.
    destruct (direct e (o_result fn) T) eqn:D; [|discriminate]. injection H as <-. split; [reflexivity|]. split; [reflexivity|].
    exists p, (p2 :: ps). split; [reflexivity|]. split; [exact K1|]. intros _. exists p2, ps. split; [reflexivity|exact K2].
  - destruct (o_const fn); [|discriminate]. cbn [andb] in H. destruct (o_required fn <=? length [source F]); [|discriminate].
    cbn [andb] in H. destruct (o_params fn) as [|p ps]; cbn [taken] in H; [discriminate|].
    destruct (takes e (source F) p) eqn:K1; [|discriminate]. cbn [andb] in H.
    destruct (direct e (o_result fn) T) eqn:D; [|discriminate]. injection H as <-. split; [reflexivity|]. split; [reflexivity|].
    exists p, ps. split; [reflexivity|]. split; [exact K1|]. discriminate.
Qed.

(** ** Types as declared and as registered *)

Lemma full_decay_not_array q : is_array (q_ty (full_decay q)) = false.
Proof.
  destruct q as [r [c v b|c v t|t n]]; cbn; try reflexivity. destruct (b_kind b); reflexivity.
Qed.
Lemma full_decay_levels q j : const_at (q_ty (full_decay q)) j = false /\ volatile_at (q_ty (full_decay q)) j = false.
Proof.
  cbn. generalize (decay (q_ty q)). intro t. revert j. induction t as [c v b|c v t IH|t IH n]; intros [|j]; cbn; auto.
Qed.
Lemma full_decay_similar q : is_array (q_ty q) = false -> has_objects (q_ty q) -> similar (q_ty (full_decay q)) (q_ty q).
Proof.
  intros A O. apply similar_remove_all_cv. destruct q as [r [c v b|c v t|t n]]; cbn in *; [| |discriminate].
  - destruct (O c v b eq_refl) as [_ K]. destruct (b_kind b); try reflexivity. congruence.
  - f_equal. generalize t. intro u. induction u; cbn; congruence.
Qed.

Lemma is_flag_detached p : is_flag p = false <-> detached p.
Proof.
  unfold is_flag, detached. rewrite is_const_at. destruct (q_ref p) eqn:R.
  - split; [|reflexivity]. intros _. left. discriminate.
  - destruct (same (q_ty p) (q_ty flag)) eqn:S.
    + pose proof (proj1 (same_similar _ _) S) as Sim. cbn [andb]. rewrite negb_false_iff. split; [auto|].
      intros [N|[C|N]]; [congruence|exact C|contradiction].
    + pose proof (proj1 (same_not _ _) S) as N. split; [|reflexivity]. intros _. right. right. exact N.
  - split; [|reflexivity]. intros _. left. discriminate.
Qed.

Lemma similar_has t u : similar t u -> has_objects u -> has_objects t.
Proof.
  intros S O c v b E. subst t. inversion S as [? ? c' v' ? E1 E2| |]. apply (O c' v' b). now symmetry.
Qed.
