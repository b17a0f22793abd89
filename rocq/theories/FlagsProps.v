(** C35: what typeFlags() tells, flag by flag, by the numbers the header gives them (include/rtti/metatype.h:39-69). *)
From Coq Require Import NArith List Bool Arith Lia.
From Verif Require Import TypesModel TypesSpec TypesProofs.
Import ListNotations.

(** The type that is left without pointers, arrays and qualifiers. *)
Inductive rests_on : ty -> base -> Prop :=
| RestsBase c v b : rests_on (TBase c v b) b
| RestsPointer c v t b : rests_on t b -> rests_on (TPtr c v t) b
| RestsArray t n b : rests_on t b -> rests_on (TArr t n) b.

(** The kinds of types and the numbers of their flags. *)
Definition flag_of_kind : list (N * base_kind) :=
  [(6, KVoid); (7, KIntegral); (8, KFloat); (9, KEnum); (10, KFunction); (11, KUnion); (12, KClass)]%N.

(** What a flag says of a type. *)
Inductive carries : N -> qty -> Prop :=
| IsConst q : const_at (q_ty q) 0 = true -> carries 0 q
| IsPointer r c v t : carries 1 (mkQ r (TPtr c v t))
| IsMemberPointer r c v b : b_kind b = KMemberPointer -> carries 2 (mkQ r (TBase c v b))
| IsLvalueReference t : carries 3 (mkQ RL t)
| IsRvalueReference t : carries 4 (mkQ RR t)
| IsArray r t n : carries 5 (mkQ r (TArr t n))
| IsPointerToArray r c v t n : carries 5 (mkQ r (TPtr c v (TArr t n)))
| IsKind i k r t b : In (i, k) flag_of_kind -> rests_on t b -> b_kind b = k -> carries i (mkQ r t).

Lemma rests_base t : rests_on t (base_type t).
Proof. induction t; cbn; constructor; assumption. Qed.
Lemma rests_only t b : rests_on t b -> b = base_type t.
Proof. induction 1; cbn; auto. Qed.

Lemma kind_flag i k q : In (i, k) flag_of_kind ->
  (forall q', N.testbit (type_flags q') i = kind_is k (base_type (q_ty q'))) ->
  (N.testbit (type_flags q) i = true <-> exists b, rests_on (q_ty q) b /\ b_kind b = k).
Proof.
  intros _ H. rewrite H, kind_is_spec. split.
  - intro E. exists (base_type (q_ty q)). split; [apply rests_base|exact E].
  - intros (b & R & E). now rewrite <- (rests_only _ _ R).
Qed.

Ltac no_kind :=
  match goal with H : In _ flag_of_kind |- _ => exfalso; cbn in H; repeat (destruct H as [H|H]; [discriminate H|]); exact H end.
Ltac of_kind K :=
  rewrite (kind_flag _ K); [|cbn; tauto|intro; flag_solve];
  split;
  [ intros (b & R & E); match goal with q : qty |- _ => destruct q end; eapply IsKind; [|exact R|exact E]; cbn; tauto
  | intro C; inversion C; subst; cbn [q_ty]; match goal with H : In _ flag_of_kind |- _ =>
      cbn in H; repeat (destruct H as [H|H]; [try discriminate H; inversion H; subst; eauto|]); contradiction end ].

Theorem C35_flags : forall q i, (i < 13)%N -> (N.testbit (typeFlags (mt q)) i = true <-> carries i q).
Proof.
  intros q i H. change (typeFlags (mt q)) with (type_flags q).
  assert (i = 0 \/ i = 1 \/ i = 2 \/ i = 3 \/ i = 4 \/ i = 5 \/ i = 6 \/ i = 7 \/ i = 8 \/ i = 9
          \/ i = 10 \/ i = 11 \/ i = 12)%N as D by lia. clear H.
  destruct D as [->|D].
  { rewrite (tf_const q : N.testbit _ 0 = _), is_const_at0. split; [now constructor|]. inversion 1; [assumption|no_kind]. }
  destruct D as [->|D].
  { rewrite (tf_pointer q : N.testbit _ 1 = _). destruct q as [r []]; cbn; split; intro X; try discriminate; try constructor; try reflexivity;
      inversion X; subst; no_kind. }
  destruct D as [->|D].
  { assert (E : N.testbit (type_flags q) 2 = match q_ty q with TBase _ _ b' => kind_is KMemberPointer b' | _ => false end) by flag_solve.
    rewrite E. destruct q as [r []]; cbn; split; intro X; try discriminate.
    - apply kind_is_spec in X. now constructor.
    - inversion X; subst; [now apply kind_is_spec|no_kind].
    - inversion X; subst; no_kind.
    - inversion X; subst; no_kind. }
  destruct D as [->|D].
  { rewrite (tf_lref q : N.testbit _ 3 = _). destruct q as [[] t]; cbn; split; intro X; try discriminate; try constructor; try reflexivity;
      inversion X; subst; no_kind. }
  destruct D as [->|D].
  { rewrite (tf_rref q : N.testbit _ 4 = _). destruct q as [[] t]; cbn; split; intro X; try discriminate; try constructor; try reflexivity;
      inversion X; subst; no_kind. }
  destruct D as [->|D].
  { rewrite (tf_array q : N.testbit _ 5 = _). destruct q as [r [|c v []|]]; cbn; split; intro X; try discriminate; try constructor; try reflexivity;
      inversion X; subst; no_kind. }
  destruct D as [->|D]; [of_kind KVoid|].
  destruct D as [->|D]; [of_kind KIntegral|].
  destruct D as [->|D]; [of_kind KFloat|].
  destruct D as [->|D]; [of_kind KEnum|].
  destruct D as [->|D]; [of_kind KFunction|].
  destruct D as [->|D]; [of_kind KUnion|].
  subst i. of_kind KClass.
Qed.
Print Assumptions C35_flags.

(** The flags from StandardLayout to Destructible (13 to 22) tell what the compiler says of that base type, so those of a pointer
    are those of what it leads to; there are no others (EQ_Comparable, 23, is left out; see [trait_mask]). *)
Theorem C35_traits : forall q i, (13 <= i)%N -> i <> 23%N ->
  (N.testbit (typeFlags (mt q)) i = true <-> (i < 23)%N /\ exists b, rests_on (q_ty q) b /\ N.testbit (b_traits b) i = true).
Proof.
  intros q i H N23. change (typeFlags (mt q)) with (type_flags q).
  assert (E : N.testbit (type_flags q) i = N.testbit (b_traits (base_type (q_ty q))) i && (i <? 23)%N).
  { unfold type_flags; cbn [fold_right]; rewrite !N.lor_spec, !flag_if_bit, N.bits_0, N.land_spec.
    assert (F : forall b, (b < 13)%N -> (b =? i)%N = false) by (intros b Hb; apply N.eqb_neq; lia).
    rewrite !F by reflexivity. rewrite !andb_false_r. cbn [orb]. rewrite orb_false_r. f_equal.
    destruct (N.ltb_spec i 23) as [L|L].
    - assert (i = 13 \/ i = 14 \/ i = 15 \/ i = 16 \/ i = 17 \/ i = 18 \/ i = 19 \/ i = 20 \/ i = 21 \/ i = 22)%N as D by lia.
      repeat (destruct D as [->|D]; [reflexivity|]). subst i; reflexivity.
    - apply N.bits_above_log2. apply N.lt_le_trans with 24%N; [reflexivity|lia]. }
  rewrite E, andb_true_iff, N.ltb_lt. split.
  - intros [T L]. split; [exact L|]. exists (base_type (q_ty q)). split; [apply rests_base|exact T].
  - intros [L (b & R & T)]. rewrite <- (rests_only _ _ R). now split.
Qed.
Print Assumptions C35_traits.

(** A reference to a pointer to an array of three `double const`, and an enumeration; both trivial (14). *)
Definition a_float : base := {| b_kind := KFloat; b_id := 1; b_size := 8; b_traits := 2 ^ 14 |}.
Definition an_enum : base := {| b_kind := KEnum; b_id := 2; b_size := 4; b_traits := 2 ^ 14 |}.
Example C35_flags_case :
  let q := mkQ RL (TPtr false false (TArr (TBase true false a_float) 3)) in
  carries 8 q /\ carries 5 q /\ carries 1 q /\ carries 3 q /\ ~ carries 9 q /\ ~ carries 0 q /\
  typeFlags (mt q) = (2 + 8 + 32 + 256 + 16384)%N /\
  carries 9 (mkQ RNone (TBase true false an_enum)) /\ typeFlags (mt (mkQ RNone (TBase true false an_enum))) = (1 + 512 + 16384)%N.
Proof.
  intro q. repeat match goal with |- _ /\ _ => split end; try reflexivity.
  - now apply C35_flags.
  - now apply C35_flags.
  - now apply C35_flags.
  - now apply C35_flags.
  - intro X. apply C35_flags in X; [discriminate X|reflexivity].
  - intro X. apply C35_flags in X; [discriminate X|reflexivity].
  - now apply C35_flags.
Qed.
