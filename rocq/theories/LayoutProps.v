(** C62: the contents of variants lie in live storage of their own, large enough and aligned for their type, for as long as they
    exist; nothing is read that nothing was written to; memory taken from the heap is given back.
    The full statement is refuted for the alignment and for what is read. Proved of all programs: the bounds, that contents do not
    overlap and that the heap holds the contents of variants and nothing else. *)
From Coq Require Import List Bool Arith Lia.
From Verif Require Import LayoutModel LayoutSpec LayoutProofs.
Import ListNotations.

Local Lemma ok_of s P : fine P s -> Forall (ok_fault P) (faults s).
Proof. intros (v & b & f & HA & _). exact (at_faults _ _ _ _ _ _ HA). Qed.

(** *** In live storage, freed once *)
Theorem C62_in_bounds : forall o l s, (forall T, In T (types l) -> proper T) -> ran o l s ->
  ~ In WildFree (faults s) /\ (forall T a, ~ In (OutOfBounds T a) (faults s)).
Proof.
  intros o l s HT H. pose proof (ok_of _ _ (ran_fine o l s HT H)) as F. rewrite Forall_forall in F. split.
  - intro Hin. exact (F _ Hin).
  - intros T a Hin. exact (F _ Hin).
Qed.
Print Assumptions C62_in_bounds.

(** *** Aligned, if the alignment of every type is one that its storage has; missing: types of larger alignment, for which it is
    refuted below *)
Theorem C62_aligned_partial : forall o l s, (forall T, In T (types l) -> proper T /\ suits T) -> ran o l s ->
  forall T a, ~ In (Misaligned T a) (faults s).
Proof.
  intros o l s HT H T a Hin. pose proof (ok_of _ _ (ran_fine o l s (fun T H => proj1 (HT T H)) H)) as F. rewrite Forall_forall in F.
  destruct (F _ Hin) as [[_ HI] HS]. apply HS. apply (HT T HI).
Qed.
Print Assumptions C62_aligned_partial.

(** *** Nothing uninitialised is read, if no type has its objects on the heap; missing: those, for which it is refuted below *)
Theorem C62_initialised_partial : forall o l s, (forall T, In T (types l) -> proper T /\ place_of T <> Heap) -> ran o l s ->
  ~ In Indeterminate (faults s).
Proof.
  intros o l s HT H Hin. pose proof (ok_of _ _ (ran_fine o l s (fun T H => proj1 (HT T H)) H)) as F. rewrite Forall_forall in F.
  destruct (F _ Hin) as (T & [_ HI] & HP). apply (HT T HI). exact HP.
Qed.
Print Assumptions C62_initialised_partial.

(** *** Contents have storage of their own *)
Theorem C62_contents_apart : forall o l s a b T U p q, (forall T, In T (types l) -> proper T) -> ran o l s ->
  content s a T p -> content s b U q -> a <> b -> p + size T <= q \/ q + size U <= p.
Proof.
  intros o l s a b T U p q HT H Ca Cb N. destruct (ran_fine o l s HT H) as (v & bl & f & HA & G).
  destruct Ca as [Va Pa], Cb as [Vb Pb]. rewrite (at_vars _ _ _ _ _ _ HA) in Va, Vb. pose proof (good_nodup _ _ _ _ G) as ND.
  apply (in_mgr _ _ _ ND) in Va, Vb. pose proof (mgr_fst _ _ _ Va) as Fa. pose proof (mgr_fst _ _ _ Vb) as Fb.
  rewrite (at_ptrs _ _ _ _ _ _ HA) in Pa, Pb.
  pose proof (g_sep _ _ _ _ G) as S. rewrite regs_nil in S. pose proof S as S0. apply sep_app in S. destruct S as (S1 & S2 & S3).
  assert (Rg : forall x W r, mgr v x = Some (Some W) -> match place_of W with InPlace => r = x | Heap => f x = Some r | Refer => False end ->
    (place_of W = InPlace /\ r = x /\ size W <= 16) \/ (place_of W = Heap /\ f x = Some r /\ In (r, size W) bl)).
  { intros x W r Hx Hr. destruct (place_of W) eqn:Ep; [left; split; [reflexivity|]; split; [exact Hr|apply inplace_small; exact Ep]|contradiction|].
    right. destruct (g_heap _ _ _ _ G x W Hx Ep) as (r' & Hr' & Hin). split; [reflexivity|]. split; [exact Hr|]. congruence. }
  destruct (Rg a T p Va Pa) as [(E1 & -> & L1)|(E1 & F1 & I1)], (Rg b U q Vb Pb) as [(E2 & -> & L2)|(E2 & F2 & I2)].
  - assert (A : apart (a, 24) (b, 24) = true).
    { apply (sep_in _ _ _ S1); [apply in_map_iff; exists a; auto|apply in_map_iff; exists b; auto|congruence]. }
    apply apart_spec in A. cbn in A. lia.
  - assert (A : apart (a, 24) (q, size U) = true) by (apply S3; [apply in_map_iff; exists a; auto|exact I2]).
    apply apart_spec in A. cbn in A. lia.
  - assert (A : apart (b, 24) (p, size T) = true) by (apply S3; [apply in_map_iff; exists b; auto|exact I1]).
    apply apart_spec in A. cbn in A. lia.
  - assert (NE : p <> q) by (intros ->; apply N; eapply (g_inj _ _ _ _ G); eauto; congruence).
    assert (A : apart (p, size T) (q, size U) = true) by (apply (sep_in _ _ _ S2); auto; congruence).
    apply apart_spec in A. exact A.
Qed.
Print Assumptions C62_contents_apart.

(** *** A variant that holds an object gives access to it where it lies, and nothing uninitialised is read for that *)
Theorem C62_access : forall o l s a T, (forall T, In T (types l) -> proper T) -> ran o l s ->
  In (a, Some T) (vars s) -> place_of T <> Refer ->
  exists p, content s a T p /\ f_access T a s = Some (Some p, s).
Proof.
  intros o l s a T HT H Ha Hp. destruct (ran_fine o l s HT H) as (v & b & f & HA & G).
  unfold content, f_access. destruct (place_of T) eqn:Ep; [|destruct (Hp eq_refl)|].
  - exists a. auto.
  - pose proof (good_nodup _ _ _ _ G) as ND. pose proof Ha as Va. rewrite (at_vars _ _ _ _ _ _ HA) in Va. apply (in_mgr _ _ _ ND) in Va.
    destruct (g_heap _ _ _ _ G a T Va Ep) as (q & Hq & _). rewrite <- (at_ptrs _ _ _ _ _ _ HA) in Hq.
    exists q. split; [split; assumption|]. unfold read_ptr. rewrite Hq. reflexivity.
Qed.
Print Assumptions C62_access.

(** *** The heap holds the contents of variants and nothing else: blocks and the objects that variants have there are the same *)
Theorem C62_heap : forall o l s, (forall T, In T (types l) -> proper T) -> ran o l s ->
  forall p n, In (p, n) (blocks s) <-> exists a T, place_of T = Heap /\ content s a T p /\ size T = n.
Proof.
  intros o l s HT H p n. destruct (ran_fine o l s HT H) as (v & b & f & HA & G).
  rewrite (at_blocks _ _ _ _ _ _ HA). unfold content. rewrite (at_vars _ _ _ _ _ _ HA). pose proof (good_nodup _ _ _ _ G) as ND. split.
  - intro Hin. destruct (g_own _ _ _ _ G p n Hin) as (a & T & Ha & Hp & Hf). exists a, T. rewrite Hp. split; [reflexivity|].
    rewrite (at_ptrs _ _ _ _ _ _ HA). split; [split; [apply mgr_in; exact Ha|exact Hf]|].
    destruct (g_heap _ _ _ _ G a T Ha Hp) as (q & Hq & Hi). rewrite Hf in Hq. injection Hq as <-. eapply good_block; eauto.
  - intros (a & T & Hp & [Va Pa] & <-). rewrite Hp, (at_ptrs _ _ _ _ _ _ HA) in Pa. apply (in_mgr _ _ _ ND) in Va.
    destruct (g_heap _ _ _ _ G a T Va Hp) as (q & Hq & Hi). congruence.
Qed.
Print Assumptions C62_heap.

Theorem C62_nothing_left : forall o l s, (forall T, In T (types l) -> proper T) -> ran o l s -> vars s = [] -> blocks s = [].
Proof.
  intros o l s HT H E. destruct (blocks s) as [|[p n] r] eqn:EB; [reflexivity|]. exfalso.
  destruct (proj1 (C62_heap o l s HT H p n)) as (a & T & _ & [Hin _] & _); [rewrite EB; left; reflexivity|]. rewrite E in Hin. exact Hin.
Qed.
Print Assumptions C62_nothing_left.

(** *** References to contents on the heap stay valid when the variant is moved from or swapped *)
Local Lemma ran_app o l1 l2 s : ran o (l1 ++ l2) s <-> exists s1, ran o l1 s1 /\ exec_all l2 s1 = Some (tt, s).
Proof.
  unfold ran. generalize (start o) as s0. induction l1 as [|x l1 IH]; intro s0; cbn [app exec_all].
  - split; [intro H; exists s0; split; [reflexivity|exact H]|]. intros (s1 & E & H). unfold ret in E. injection E as <-. exact H.
  - unfold bind. destruct (exec x s0) as [[u s2]|]; [apply IH|]. split; [discriminate|]. intros (s1 & E & _). discriminate.
Qed.
Local Lemma to_content s v b f P : At P v b [] f s -> Good P v b f -> forall a T p,
  place_of T = Heap -> (content s a T p <-> mgr v a = Some (Some T) /\ f a = Some p).
Proof.
  intros HA G a T p Hp. unfold content. rewrite Hp, (at_vars _ _ _ _ _ _ HA), (at_ptrs _ _ _ _ _ _ HA).
  split; intros [H1 H2]; (split; [|exact H2]); [apply in_mgr; [eapply good_nodup; eauto|exact H1]|apply mgr_in; exact H1].
Qed.

Theorem C62_swap_keeps_place : forall o l s s' a b T p, (forall T, In T (types l) -> proper T) -> ran o l s ->
  place_of T = Heap -> content s b T p -> exec (Swap a b) s = Some (tt, s') \/ exec (Swap b a) s = Some (tt, s') -> content s' a T p.
Proof.
  intros o l s s' a b T p HT H Hp HC E. destruct (ran_fine o l s HT H) as (v & bl & f & HA & G).
  apply (to_content _ _ _ _ _ HA G b T p Hp) in HC. destruct HC as [H1 H2]. cbn [exec] in E. destruct E as [E|E].
  - pose proof (swap_ok _ (fun T H => proj1 H) v bl f s a b HA G) as S. unfold post in S. rewrite E in S. destruct S as (v' & f' & HA' & X & S).
    apply (to_content _ _ _ _ _ HA' (good_swapped _ _ _ _ _ _ _ _ G X S) a T p Hp). destruct X as (_ & X & _), S as (S & _).
    rewrite X. split; [exact H1|]. rewrite (S T H1) by congruence. exact H2.
  - pose proof (swap_ok _ (fun T H => proj1 H) v bl f s b a HA G) as S. unfold post in S. rewrite E in S. destruct S as (v' & f' & HA' & X & S).
    apply (to_content _ _ _ _ _ HA' (good_swapped _ _ _ _ _ _ _ _ G X S) a T p Hp). destruct X as (_ & _ & X & _), S as (_ & S & _).
    rewrite X. split; [exact H1|]. rewrite (S T H1) by congruence. exact H2.
Qed.
Print Assumptions C62_swap_keeps_place.

Theorem C62_move_keeps_place : forall o l s s' a b T p, (forall T, In T (types l) -> proper T) -> ran o l s ->
  place_of T = Heap -> content s b T p -> exec (MoveOf a b) s = Some (tt, s') -> content s' a T p /\ In (b, None) (vars s').
Proof.
  intros o l s s' a b T p HT H Hp HC E. destruct (ran_fine o l s HT H) as (v & bl & f & HA & G).
  apply (to_content _ _ _ _ _ HA G b T p Hp) in HC. destruct HC as [H1 H2]. cbn [exec] in E.
  pose proof (moved_from_ok _ (fun T H => proj1 H) v bl f s a b HA G) as S. unfold post in S. rewrite E in S.
  destruct S as (v1 & v' & f' & m & HA' & G' & _ & N & _ & -> & X & S). destruct X as (_ & X & X' & _), S as (S & _).
  assert (M : mgr ((a, None) :: v) b = Some (Some T)) by (cbn [mgr]; apply Nat.eqb_neq in N; rewrite N; exact H1). split.
  - apply (to_content _ _ _ _ _ HA' G' a T p Hp). rewrite X, (S T M) by congruence. rewrite upd_neq by auto. auto.
  - rewrite (at_vars _ _ _ _ _ _ HA'). apply mgr_in. rewrite X', mgr_head. reflexivity.
Qed.
Print Assumptions C62_move_keeps_place.

(** *** Contents stay where they are while a client changes other variants *)
Definition changes (o : op) : list nat :=
  match o with
  | Default a | Make a _ _ | SetValue a _ _ | Clear a | Drop a | CopyOf a _ | Assign a _ => [a]
  | MoveOf a b | MoveAssign a b | Swap a b => [a; b]
  end.
Section S.
  Variable P : ctype -> Prop.
  Hypothesis Pproper : forall T, P T -> proper T.
  (** The variant at [z] is what it was. *)
  Local Definition same (v : list (nat * option ctype)) (f : nat -> option nat) (z : nat) (s' : state) : Prop :=
    exists v' b' f', At P v' b' [] f' s' /\ Good P v' b' f' /\ mgr v' z = mgr v z /\ f' z = f z.
  Local Lemma swap_same v b f s x y z : At P v b [] f s -> Good P v b f -> In z (map fst v) -> z <> x -> z <> y ->
    post s (swap x y) (fun _ => same v f z).
  Proof.
    intros HA G Hz Nx Ny. eapply post_weak; [apply (swap_ok P Pproper v b f s x y HA G)|]. intros ? s' (v' & f' & H & X & S).
    exists v', b, f'. split; [exact H|]. split; [eapply good_swapped; eauto|]. destruct X as (_ & _ & _ & X), S as (_ & _ & S). auto.
  Qed.
  Local Lemma tail_same v f s t x z : same v f z s -> In z (map fst v) -> z <> t -> z <> x ->
    post s (bind (swap t x) (fun _ => destructor t)) (fun _ => same v f z).
  Proof.
    intros (v1 & b1 & f1 & H1 & G1 & M1 & F1) Hz Nt Nx.
    assert (Hz1 : In z (map fst v1)).
    { apply fst_mgr in Hz. rewrite <- M1 in Hz. destruct (mgr v1 z) eqn:E; [eapply mgr_fst; eauto|congruence]. }
    eapply post_bind; [apply (swap_same v1 b1 f1 s t x z H1 G1 Hz1 Nt Nx)|]. intros ? s2 (v2 & b2 & f2 & H2 & G2 & M2 & F2).
    eapply post_weak; [apply (destructor_ok P Pproper v2 b2 f2 s2 t H2 G2)|]. intros ? s3 (v3 & b3 & f3 & H3 & G3 & _ & M3 & F3).
    exists v3, b3, f3. split; [exact H3|]. split; [exact G3|]. rewrite M3, F3 by exact Nt. split; congruence.
  Qed.
  Local Lemma exec_same v b f s o z : At P v b [] f s -> Good P v b f -> (forall T, In T (op_types o) -> P T) -> In z (map fst v) ->
    ~ In z (changes o) -> post s (exec o) (fun _ => same v f z).
  Proof.
    intros HA G HT Hz. pose proof (fst_mgr _ _ Hz) as Mz.
    destruct o as [a|a T x|a y|a y|a T x|a y|a y|a y|a|a]; cbn [exec changes]; intro Nz.
    - assert (N : z <> a) by (intros ->; apply Nz; left; reflexivity).
      eapply post_weak; [apply (place_ok _ _ _ _ _ s a HA)|]. intros ? s1 (H1 & D & AP). eexists. eexists. eexists. split; [exact H1|].
      split; [apply good_place; assumption|]. split; [cbn [mgr]; apply not_eq_sym, Nat.eqb_neq in N; rewrite N; reflexivity|apply upd_neq; exact N].
    - assert (N : z <> a) by (intros ->; apply Nz; left; reflexivity).
      eapply post_weak; [apply (from_value_ok P Pproper v b f s a T x HA G); apply HT; left; reflexivity|].
      intros ? s1 (v' & b' & f' & H & G' & _ & _ & M & F). exists v', b', f'. auto.
    - assert (N : z <> a) by (intros ->; apply Nz; left; reflexivity).
      eapply post_weak; [apply (copy_of_ok P Pproper v b f s a y HA G)|]. intros ? s1 (m & _ & v' & b' & f' & H & G' & _ & _ & M & F). exists v', b', f'. auto.
    - assert (N : z <> a) by (intros ->; apply Nz; left; reflexivity). assert (N' : z <> y) by (intros ->; apply Nz; right; left; reflexivity).
      eapply post_weak; [apply (moved_from_ok P Pproper v b f s a y HA G)|]. intros ? s1 (v1 & v' & f' & m & H & G' & _ & _ & _ & -> & X & S). exists v', b, f'.
      destruct X as (_ & _ & _ & X), S as (_ & _ & S). split; [exact H|]. split; [exact G'|]. rewrite X, S by (auto; right; exact Hz).
      split; [cbn [mgr]; apply not_eq_sym, Nat.eqb_neq in N; rewrite N; reflexivity|apply upd_neq; exact N].
    - assert (N : z <> a) by (intros ->; apply Nz; left; reflexivity).
      eapply post_bind; [apply (manager_ok _ _ _ _ _ s a HA)|]. intros m s0 [_ H0]. unfold assign_value.
      eapply post_bind; [apply (pop_ok _ _ _ _ _ s0 H0)|]. intros t s1 H1.
      eapply post_bind; [apply (from_value_ok P Pproper v b f s1 t T x H1 G); apply HT; left; reflexivity|].
      intros ? s2 (v' & b' & f' & H2 & G' & _ & Ht & M & F). assert (Nt : z <> t) by congruence.
      apply tail_same; auto. exists v', b', f'. auto.
    - assert (N : z <> a) by (intros ->; apply Nz; left; reflexivity).
      eapply post_bind; [apply (manager_ok _ _ _ _ _ s a HA)|]. intros m s0 [_ H0].
      eapply post_bind; [apply (manager_ok _ _ _ _ _ s0 y H0)|]. intros n s1 [_ H1]. unfold assign.
      destruct (a =? y); [apply post_ret; exists v, b, f; auto|]. eapply post_bind; [apply (pop_ok _ _ _ _ _ s1 H1)|]. intros t s2 H2.
      eapply post_bind; [apply (copy_of_ok P Pproper v b f s2 t y H2 G)|]. intros ? s3 (k & _ & v' & b' & f' & H3 & G' & _ & Ht & M & F).
      assert (Nt : z <> t) by congruence. apply tail_same; auto. exists v', b', f'. auto.
    - assert (N : z <> a) by (intros ->; apply Nz; left; reflexivity). assert (N' : z <> y) by (intros ->; apply Nz; right; left; reflexivity).
      eapply post_bind; [apply (manager_ok _ _ _ _ _ s a HA)|]. intros m s0 [_ H0].
      eapply post_bind; [apply (manager_ok _ _ _ _ _ s0 y H0)|]. intros n s1 [_ H1]. unfold move_assign.
      destruct (a =? y); [apply post_ret; exists v, b, f; auto|]. eapply post_bind; [apply (pop_ok _ _ _ _ _ s1 H1)|]. intros t s2 H2.
      eapply post_bind; [apply (moved_from_ok P Pproper v b f s2 t y H2 G)|]. intros ? s3 (v1 & v' & f' & k & H3 & G' & _ & _ & Ht & -> & X & S).
      assert (Nt : z <> t) by congruence. apply tail_same; auto. exists v', b, f'. destruct X as (_ & _ & _ & X), S as (_ & _ & S).
      split; [exact H3|]. split; [exact G'|]. rewrite X, S by (auto; right; exact Hz).
      split; [cbn [mgr]; apply not_eq_sym, Nat.eqb_neq in Nt; rewrite Nt; reflexivity|apply upd_neq; exact Nt].
    - apply (swap_same v b f); auto; intros ->; apply Nz; cbn; auto.
    - assert (N : z <> a) by (intros ->; apply Nz; left; reflexivity).
      eapply post_weak; [apply (clear_ok P Pproper v b f s a HA G)|]. intros ? s1 (b' & f' & H & G' & _ & F). eexists. exists b', f'. split; [exact H|].
      split; [exact G'|]. rewrite setm_mgr, F by exact N. apply Nat.eqb_neq in N. rewrite N. auto.
    - assert (N : z <> a) by (intros ->; apply Nz; left; reflexivity).
      eapply post_bind; [apply (manager_ok _ _ _ _ _ s a HA)|]. intros m s0 [_ H0].
      eapply post_weak; [apply (destructor_ok P Pproper v b f s0 a H0 G)|]. intros ? s1 (v' & b' & f' & H & G' & _ & M & F). exists v', b', f'. auto.
  Qed.
End S.

Theorem C62_others_stay : forall o l x s s' a T p, (forall T, In T (types (l ++ [x])) -> proper T) -> ran o l s ->
  content s a T p -> exec x s = Some (tt, s') -> ~ In a (changes x) -> content s' a T p.
Proof.
  intros o l x s s' a T p HT H HC E N. set (Q := fun T => proper T /\ In T (types (l ++ [x]))).
  assert (HI : forall T, In T (types l) \/ In T (op_types x) -> Q T).
  { intros U HU. unfold Q, types in *. rewrite flat_map_app in *. cbn [flat_map] in *. rewrite app_nil_r in *.
    assert (In U (flat_map op_types l ++ op_types x)) by (apply in_or_app; exact HU). auto. }
  assert (F : fine Q s).
  { pose proof (exec_all_fine Q (fun T H => proj1 H) l (start o) (start_fine Q o)) as F. unfold post in F. unfold ran in H. rewrite H in F. apply F. auto. }
  destruct F as (v & b & f & HA & G). destruct HC as [Va Pa]. rewrite (at_vars _ _ _ _ _ _ HA) in Va. rewrite (at_ptrs _ _ _ _ _ _ HA) in Pa.
  apply (in_mgr _ _ _ (good_nodup _ _ _ _ G)) in Va.
  pose proof (exec_same Q (fun T H => proj1 H) v b f s x a HA G (fun T H => HI T (or_intror H)) (mgr_fst _ _ _ Va) N) as S.
  unfold post in S. rewrite E in S. destruct S as (v' & b' & f' & HA' & G' & M & F'). unfold content.
  rewrite (at_vars _ _ _ _ _ _ HA'), (at_ptrs _ _ _ _ _ _ HA'). split; [apply mgr_in; congruence|]. rewrite F'. exact Pa.
Qed.
Print Assumptions C62_others_stay.

(** *** The variants there are are those of the client: temporary ones end *)
Section O.
  Variable P : ctype -> Prop.
  Hypothesis Pproper : forall T, P T -> proper T.
  Local Definition has (A : list nat) (s : state) : Prop := exists v b f, At P v b [] f s /\ Good P v b f /\ forall z, In z (map fst v) <-> In z A.
  Local Lemma in_fst v z : In z (map fst v) <-> mgr v z <> None.
  Proof. split; [apply fst_mgr|]. destruct (mgr v z) eqn:E; [intros _; eapply mgr_fst; eauto|congruence]. Qed.
  Local Lemma tail_has A s t x v' b' f' : At P v' b' [] f' s -> Good P v' b' f' -> (forall z, z <> t -> In z (map fst v') <-> In z A) -> ~ In t A ->
    post s (bind (swap t x) (fun _ => destructor t)) (fun _ => has A).
  Proof.
    intros H1 G1 M1 Ht. eapply post_bind; [apply (swap_ok P Pproper v' b' f' s t x H1 G1)|]. intros ? s2 (v2 & f2 & H2 & X & S).
    pose proof (good_swapped _ _ _ _ _ _ _ _ G1 X S) as G2.
    eapply post_weak; [apply (destructor_ok P Pproper v2 b' f2 s2 t H2 G2)|]. intros ? s3 (v3 & b3 & f3 & H3 & G3 & N3 & M3 & _).
    exists v3, b3, f3. split; [exact H3|]. split; [exact G3|]. intro z. destruct (Nat.eq_dec z t) as [e|N].
    - subst z. rewrite in_fst, N3. split; [congruence|contradiction].
    - rewrite in_fst, M3, <- in_fst by exact N. destruct X as [-> _]. apply M1. exact N.
  Qed.
  Local Lemma exec_has A s o : has A s -> (forall T, In T (op_types o) -> P T) -> post s (exec o) (fun _ => has (owns [o] A)).
  Proof.
    intros (v & b & f & HA & G & HV) HT. destruct o as [a|a T x|a y|a y|a T x|a y|a y|a y|a|a]; cbn [exec owns].
    - eapply post_weak; [apply (place_ok _ _ _ _ _ s a HA)|]. intros ? s1 (H1 & D & AP). eexists. eexists. eexists. split; [exact H1|].
      split; [apply good_place; assumption|]. intro z. cbn [map fst In]. rewrite HV. tauto.
    - eapply post_weak; [apply (from_value_ok P Pproper v b f s a T x HA G); apply HT; left; reflexivity|].
      intros ? s1 (v' & b' & f' & H & G' & Ma & _ & M & F). exists v', b', f'. split; [exact H|]. split; [exact G'|]. intro z. cbn [In]. rewrite in_fst.
      destruct (Nat.eq_dec a z) as [e|N]; [subst z; rewrite Ma; split; [auto|discriminate]|]. rewrite M, <- in_fst, HV by auto. tauto.
    - eapply post_weak; [apply (copy_of_ok P Pproper v b f s a y HA G)|]. intros ? s1 (m & _ & v' & b' & f' & H & G' & Ma & _ & M & F). exists v', b', f'.
      split; [exact H|]. split; [exact G'|]. intro z. cbn [In]. rewrite in_fst.
      destruct (Nat.eq_dec a z) as [e|N]; [subst z; rewrite Ma; split; [auto|discriminate]|]. rewrite M, <- in_fst, HV by auto. tauto.
    - eapply post_weak; [apply (moved_from_ok P Pproper v b f s a y HA G)|]. intros ? s1 (v1 & v' & f' & m & H & G' & _ & _ & _ & -> & X & S). exists v', b, f'.
      destruct X as [X _]. split; [exact H|]. split; [exact G'|]. intro z. rewrite X. cbn [map fst In]. rewrite HV. tauto.
    - eapply post_bind; [apply (manager_ok _ _ _ _ _ s a HA)|]. intros m s0 [_ H0]. unfold assign_value.
      eapply post_bind; [apply (pop_ok _ _ _ _ _ s0 H0)|]. intros t s1 H1.
      eapply post_bind; [apply (from_value_ok P Pproper v b f s1 t T x H1 G); apply HT; left; reflexivity|].
      intros ? s2 (v' & b' & f' & H2 & G' & _ & Ht & M & F). eapply tail_has; eauto.
      + intros z N. rewrite in_fst, M, <- in_fst by exact N. apply HV.
      + rewrite <- HV, in_fst, Ht. congruence.
    - eapply post_bind; [apply (manager_ok _ _ _ _ _ s a HA)|]. intros m s0 [_ H0].
      eapply post_bind; [apply (manager_ok _ _ _ _ _ s0 y H0)|]. intros n s1 [_ H1]. unfold assign.
      destruct (a =? y); [apply post_ret; exists v, b, f; auto|]. eapply post_bind; [apply (pop_ok _ _ _ _ _ s1 H1)|]. intros t s2 H2.
      eapply post_bind; [apply (copy_of_ok P Pproper v b f s2 t y H2 G)|]. intros ? s3 (k & _ & v' & b' & f' & H3 & G' & _ & Ht & M & F).
      eapply tail_has; eauto.
      + intros z N. rewrite in_fst, M, <- in_fst by exact N. apply HV.
      + rewrite <- HV, in_fst, Ht. congruence.
    - eapply post_bind; [apply (manager_ok _ _ _ _ _ s a HA)|]. intros m s0 [_ H0].
      eapply post_bind; [apply (manager_ok _ _ _ _ _ s0 y H0)|]. intros n s1 [_ H1]. unfold move_assign.
      destruct (a =? y); [apply post_ret; exists v, b, f; auto|]. eapply post_bind; [apply (pop_ok _ _ _ _ _ s1 H1)|]. intros t s2 H2.
      eapply post_bind; [apply (moved_from_ok P Pproper v b f s2 t y H2 G)|]. intros ? s3 (v1 & v' & f' & k & H3 & G' & _ & _ & Ht & -> & X & S).
      destruct X as [X _]. eapply tail_has; eauto.
      + intros z N. rewrite X. cbn [map fst In]. rewrite HV. split; [intros [e|H]; [congruence|exact H]|auto].
      + rewrite <- HV, in_fst, Ht. congruence.
    - eapply post_weak; [apply (swap_ok P Pproper v b f s a y HA G)|]. intros ? s1 (v' & f' & H & X & S). exists v', b, f'. split; [exact H|].
      split; [eapply good_swapped; eauto|]. destruct X as [-> _]. exact HV.
    - eapply post_weak; [apply (clear_ok P Pproper v b f s a HA G)|]. intros ? s1 (b' & f' & H & G' & _ & F). eexists. exists b', f'. split; [exact H|].
      split; [exact G'|]. intro z. rewrite setm_fst. apply HV.
    - eapply post_bind; [apply (manager_ok _ _ _ _ _ s a HA)|]. intros m s0 [_ H0].
      eapply post_weak; [apply (destructor_ok P Pproper v b f s0 a H0 G)|]. intros ? s1 (v' & b' & f' & H & G' & Ma & M & F). exists v', b', f'.
      split; [exact H|]. split; [exact G'|]. intro z. rewrite in_fst. destruct (Nat.eq_dec z a) as [e|N].
      + subst z. rewrite Ma. split; [congruence|]. intro HI. exfalso. exact (remove_In Nat.eq_dec A a HI).
      + rewrite M, <- in_fst, HV by exact N. split; [intro HI; apply in_in_remove; assumption|intro HI; apply in_remove in HI; apply HI].
  Qed.
  Local Lemma exec_all_has l : forall A s, has A s -> (forall T, In T (types l) -> P T) -> post s (exec_all l) (fun _ => has (owns l A)).
  Proof.
    induction l as [|o l IH]; intros A s H HT; cbn [exec_all]; [apply post_ret; exact H|].
    eapply post_bind; [apply (exec_has A s o H); intros T HT'; apply HT; cbn; apply in_or_app; auto|].
    intros ? s1 H1. assert (E : owns (o :: l) A = owns l (owns [o] A)) by (destruct o; reflexivity). rewrite E. apply IH; [exact H1|].
    intros T HT'. apply HT. cbn. apply in_or_app. auto.
  Qed.
End O.
Theorem C62_variants : forall o l s, (forall T, In T (types l) -> proper T) -> ran o l s -> forall a, In a (map fst (vars s)) <-> In a (owns l []).
Proof.
  intros o l s HT H. pose proof (exec_all_has (fun T => proper T /\ In T (types l)) (fun T H => proj1 H) l [] (start o)) as HP.
  unfold post in HP. unfold ran in H. rewrite H in HP. destruct HP as (v & b & f & HA & _ & HV).
  - exists [], [], (fun _ => None). split; [constructor; try reflexivity; constructor|]. split; [|tauto].
    constructor; cbn; try (intros; discriminate); try (intros; contradiction). constructor.
  - auto.
  - rewrite (at_vars _ _ _ _ _ _ HA). exact HV.
Qed.
Print Assumptions C62_variants.

(** *** Refuted *)

(** A type of alignment 16 and at most 16 bytes (`long double`, `__int128`, SIMD vectors) is put into the storage of the variant,
    which only has alignment 8. *)
Theorem C62_in_place_refuted : forall T a, place_of T = InPlace -> proper T -> align T = 16 -> a mod 16 = 8 ->
  exists s, ran [] [Make a T 0] s /\ In (Misaligned T a) (faults s).
Proof.
  intros T a Hp HP Hal Ha. assert (M8 : a mod 8 = 0).
  { rewrite (Nat.div_mod a 16), Ha by lia. replace (16 * (a / 16) + 8) with ((2 * (a / 16) + 1) * 8) by lia. apply Nat.mod_mul. lia. }
  unfold ran, exec_all, exec, from_value, f_construct. rewrite Hp. unfold bind, place_var, set_manager, fits.
  cbn [regions start vars temps blocks map app forallb]. change STORAGE_ALIGN with 8. rewrite M8. cbn [Nat.eqb andb].
  unfold touch. rewrite Hal, Ha. cbn [Nat.eqb]. unfold ret. eexists. split; [reflexivity|].
  match goal with |- In _ (faults (if ?c then _ else _)) => destruct c; cbn; auto end.
Qed.
Print Assumptions C62_in_place_refuted.
Definition long_double := CType 16 16 Plain.
Example C62_in_place_case : place_of long_double = InPlace /\ proper long_double /\ align long_double = 16 /\ 24 mod 16 = 8.
Proof. vm_compute. repeat split; lia. Qed.

Local Definition final (o : list nat) (l : list op) : state := match exec_all l (start o) with Some (_, s) => s | None => start [] end.
(** Even a client that aligns its own variants to 16 meets this: swap and assignment have storage of their own on the stack. *)
Theorem C62_swap_refuted : exists o a b s, a mod 16 = 0 /\ b mod 16 = 0 /\
  ran o [Make a long_double 0; Make b long_double 0; Swap a b] s /\ exists t, In (Misaligned long_double t) (faults s).
Proof.
  exists [104], 32, 64, (final [104] [Make 32 long_double 0; Make 64 long_double 0; Swap 32 64]).
  split; [reflexivity|]. split; [reflexivity|]. split; [vm_compute; reflexivity|]. exists 104. vm_compute. auto.
Qed.
Print Assumptions C62_swap_refuted.
Theorem C62_assign_refuted : exists o a s, a mod 16 = 0 /\ ran o [Default a; SetValue a long_double 0] s /\
  exists t, In (Misaligned long_double t) (faults s).
Proof.
  exists [104], 32, (final [104] [Default 32; SetValue 32 long_double 0]).
  split; [reflexivity|]. split; [vm_compute; reflexivity|]. exists 104. vm_compute. auto.
Qed.
Print Assumptions C62_assign_refuted.

(** `operator new(size)` does not regard larger alignments. *)
Theorem C62_heap_refuted : forall T a p, place_of T = Heap -> proper T -> Nat.divide 16 p -> p mod align T <> 0 -> a mod 8 = 0 ->
  a + 24 <= p \/ p + size T <= a -> exists s, ran [p] [Make a T 0] s /\ In (Misaligned T p) (faults s).
Proof.
  intros T a p Hp HP D Hal Ha HA. unfold ran, exec_all, exec, from_value, f_construct. rewrite Hp.
  unfold bind, place_var, set_manager, fits, allocate, bind, pop. cbn [regions start vars temps blocks map app forallb]. change STORAGE_ALIGN with 8. rewrite Ha.
  cbn [Nat.eqb andb oracle with_ptr with_vars]. unfold fits, bind.
  assert (E1 : p mod NEW_ALIGN =? 0 = true) by (apply Nat.eqb_eq, Nat.mod_divide; [unfold NEW_ALIGN; lia|exact D]). cbn [oracle start]. rewrite E1.
  cbn [regions with_oracle with_vars with_ptr vars temps blocks map fst app forallb]. rewrite Nat.eqb_refl. cbn [fst].
  assert (E2 : apart (p, size T) (a, VARIANT_SIZE) = true) by (apply apart_spec; cbn; unfold VARIANT_SIZE; lia). rewrite E2. cbn [andb].
  unfold write_ptr, touch. apply Nat.eqb_neq in Hal. cbn [start temps blocks map app forallb]. rewrite Hal. unfold ret. eexists. split; [reflexivity|].
  match goal with |- In _ (faults (if ?c then _ else _)) => destruct c; cbn; auto end.
Qed.
Print Assumptions C62_heap_refuted.
Definition cache_line := CType 64 64 Plain.
Example C62_heap_case : place_of cache_line = Heap /\ proper cache_line /\ Nat.divide 16 48 /\ 48 mod align cache_line <> 0 /\ 16 mod 8 = 0 /\ 16 + 24 <= 48.
Proof. repeat split; try (vm_compute; lia). exists 3. reflexivity. Qed.

(** Contents on the heap move by std::swap with the pointer of storage that nothing was written to. *)
Theorem C62_move_refuted : forall s s' a b T p, NoDup (map fst (vars s)) -> place_of T = Heap -> content s b T p ->
  exec (MoveOf a b) s = Some (tt, s') -> In Indeterminate (faults s').
Proof.
  intros s s' a b T p ND Hp [Vb Pb] E. cbn [exec] in E. unfold moved_from in E. unfold bind at 1 in E.
  destruct (manager b s) as [[m s0]|] eqn:E0; [|discriminate]. assert (s0 = s). { unfold manager in E0. destruct (find _ _); [congruence|discriminate]. } subst s0.
  unfold bind at 1 in E. destruct (place_var a s) as [[u s1]|] eqn:E1; [|discriminate]. unfold place_var in E1.
  destruct (fits s a VARIANT_SIZE STORAGE_ALIGN) eqn:EF; [|discriminate]. injection E1 as _ <-.
  assert (N : a <> b).
  { intros <-. unfold fits in EF. apply andb_true_iff in EF. destruct EF as [_ EF]. unfold regions in EF. rewrite forallb_app in EF.
    apply andb_true_iff in EF. destruct EF as [EF _]. rewrite forallb_forall in EF.
    specialize (EF _ (in_map (fun v => (fst v, VARIANT_SIZE)) _ _ Vb)). apply apart_spec in EF. cbn in EF. unfold VARIANT_SIZE in EF. lia. }
  unfold swap in E. unfold bind at 1 in E. unfold manager at 1 in E. cbn [vars with_ptr with_vars find fst] in E. rewrite Nat.eqb_refl in E. cbn [snd] in E.
  unfold bind at 1 in E. unfold manager at 1 in E. cbn [vars with_ptr with_vars find fst] in E. pose proof N as N'. apply Nat.eqb_neq in N'. rewrite N' in E.
  pose proof (in_mgr _ _ _ ND Vb) as Mb. rewrite mgr_find in Mb. destruct (find (fun w => fst w =? b) (vars s)) as [[y n]|]; [|discriminate].
  cbn in Mb. injection Mb as ->. cbn [snd] in E. unfold f_move in E. rewrite Hp in E. unfold bind, read_ptr, write_ptr, set_manager in E.
  injection E as <-. cbn. rewrite (Nat.eqb_sym b a), N'. rewrite Hp in Pb. rewrite Pb. cbn. rewrite Nat.eqb_refl. cbn. auto.
Qed.
Print Assumptions C62_move_refuted.

(** *** Cases *)
Definition number := CType 4 4 Plain.
Definition text := CType 32 8 Plain.
Definition wrapped := CType 8 8 Wrapper.
Definition story : list op :=
  [Make 8 number 0; Make 40 text 0; Make 72 wrapped 500; CopyOf 104 40; Swap 8 40; MoveOf 136 104; Assign 72 136; Clear 136; SetValue 136 number 0;
   MoveAssign 136 8; Drop 8; Drop 40].
Definition given : list nat := [1600; 1648; 304; 304; 1696; 336; 304; 304; 336].
Example C62_case : exists s, ran given story s /\ (forall T, In T (types story) -> proper T /\ suits T) /\
  content s 136 text 1600 /\ content s 72 text 1696 /\ vars s = [(136, Some text); (104, None); (72, Some text)] /\
  blocks s = [(1696, 32); (1600, 32)] /\ exists s1 s2, exec (Swap 72 136) s = None /\
  exec (Swap 104 72) s = Some (tt, s1) /\ exec (MoveOf 304 136) s = Some (tt, s2).
Proof.
  exists (final given story). split; [vm_compute; reflexivity|]. split.
  { intros T H. cbn in H. destruct H as [<-|[<-|[<-|[<-|[]]]]]; (split; [split; cbn; lia|]); try exact I;
      [exists 2; reflexivity|exists 2; reflexivity|exists 2; reflexivity]. }
  split; [vm_compute; auto|]. split; [vm_compute; auto|]. split; [vm_compute; reflexivity|]. split; [vm_compute; reflexivity|].
  eexists. eexists. split; [vm_compute; reflexivity|]. split; [vm_compute; reflexivity|vm_compute; reflexivity].
Qed.
Example C62_variants_case : owns story [] = [136; 104; 72].
Proof. reflexivity. Qed.
(** Nothing is left of it when the last variants end. *)
Example C62_all_ended : exists s, ran given (story ++ [Drop 72; Drop 104; Drop 136]) s /\ vars s = [] /\ blocks s = [].
Proof. exists (final given (story ++ [Drop 72; Drop 104; Drop 136])). split; [vm_compute; reflexivity|]. split; vm_compute; reflexivity. Qed.
(** Without contents on the heap: a number, a wrapper, copies of both, moved and swapped. *)
Definition plain_story : list op := [Make 8 number 0; Make 40 wrapped 500; CopyOf 72 8; Swap 8 40; MoveOf 104 72; Assign 72 40; MoveAssign 8 104; Drop 40].
Example C62_plain_case : exists s, ran [304; 304; 304; 336] plain_story s /\ (forall T, In T (types plain_story) -> proper T /\ place_of T <> Heap) /\
  content s 8 number 8 /\ content s 72 number 72 /\ faults s = [].
Proof.
  exists (final [304; 304; 304; 336] plain_story). split; [vm_compute; reflexivity|]. split.
  { intros T H. cbn in H. destruct H as [<-|[<-|[]]]; (split; [split; cbn; lia|discriminate]). }
  split; [vm_compute; auto|]. split; [vm_compute; auto|]. vm_compute. reflexivity.
Qed.
