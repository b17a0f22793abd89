(** Proofs about references into variants. *)
From Coq Require Import List Bool Arith Lia Permutation.
From Verif Require Import DeferModel DeferProofs VarModel VarSpec VarProofs RefsModel RefsSpec.
Import ListNotations.

Lemma alive_same sc i x : i < length sc -> alive (put sc i x) i = x.
Proof. intro L. unfold alive. rewrite put_same by exact L. destruct x; reflexivity. Qed.

Lemma alive_other sc i k x : i <> k -> alive (put sc i x) k = alive sc k.
Proof. intro N. unfold alive. rewrite put_other by exact N. reflexivity. Qed.

Lemma alive_len sc i v : alive sc i = Some v -> i < length sc.
Proof. intro H. apply alive_nth in H. apply nth_error_Some. congruence. Qed.

Lemma dead_len sc i : dead sc i = true -> i < length sc.
Proof. intro H. apply dead_nth in H. apply nth_error_Some. congruence. Qed.

Lemma dead_alive sc i v : dead sc i = true -> alive sc i = Some v -> False.
Proof. intros H K. apply dead_nth in H. apply alive_nth in K. congruence. Qed.

(** Blocks are never un-freed. *)
Definition grows (s s' : store) : Prop := incl (freed s) (freed s').

Lemma grows_refl s : grows s s.
Proof. intros b H; exact H. Qed.

Lemma grows_trans a b c : grows a b -> grows b c -> grows a c.
Proof. intros H K x Hx. apply K, H, Hx. Qed.

Definition growing {A} (s : store) (m : out A) : Prop :=
  match m with Ok _ s' | Exn s' => grows s s' | UB | Term => True end.

Lemma growing_bind {A B} s (m : out A) (f : A -> store -> out B) :
  growing s m -> (forall a s', grows s s' -> growing s (f a s')) -> growing s (bind m f).
Proof. destruct m; cbn; auto. Qed.

Lemma growing_from {A} s s1 (m : out A) : grows s s1 -> growing s1 m -> growing s m.
Proof. intros H K. destruct m; cbn in *; eauto using grows_trans. Qed.

Lemma growing_noexcept {A} s (m : out A) : growing s m -> growing s (noexcept m).
Proof. destruct m; cbn; auto. Qed.

Lemma copy_obj_grows t o s : growing s (copy_obj t o s).
Proof.
  unfold copy_obj, draw. destruct (copyable t); [|apply grows_refl]. destruct (fallible t); [|intros b Hb; exact Hb].
  destruct (fails s) as [|[|] l]; intros b Hb; exact Hb.
Qed.

Lemma abandon_grows x s : grows s (abandon x s).
Proof. intros b Hb. destruct x; cbn; try exact Hb. destruct (res o); exact Hb. Qed.

Lemma on_heap_grows t build s : (forall s', growing s' (build s')) -> growing s (on_heap t build s).
Proof.
  intro H. unfold on_heap. specialize (H (with_heap s (heap s ++ [None]))).
  assert (K : growing s (match build (with_heap s (heap s ++ [None])) with
      | Ok o s2 => Ok (length (heap s)) (with_heap s2 (put (heap s2) (length (heap s)) (Some o)))
      | Exn s2 => Exn (with_lostb s2 (length (heap s) :: lostb s2)) | UB => UB | Term => Term end)).
  { destruct (build (with_heap s (heap s ++ [None]))); cbn; auto. }
  destruct (shape_of t), (owns t); try exact K; exact I.
Qed.

Lemma f_copy_grows m x s : growing s (f_copy m x s).
Proof.
  unfold f_copy. destruct m as [t|]; [|apply grows_refl].
  destruct (shape_of t), x; try exact I; try apply grows_refl.
  - apply growing_bind; [apply copy_obj_grows|]. intros a s' H. exact H.
  - destruct (block s b); [|exact I]. apply growing_bind; [apply on_heap_grows; intro; apply copy_obj_grows|]. intros a s' H. exact H.
  - destruct (block s b); [|exact I]. apply growing_bind; [apply on_heap_grows; intro; apply copy_obj_grows|]. intros a s' H. exact H.
Qed.

Lemma f_move_grows m x y s : growing s (f_move m x y s).
Proof.
  unfold f_move. destruct m as [t|]; [|apply grows_refl].
  destruct (shape_of t), x; try exact I.
  - apply growing_bind.
    + unfold move_obj. destruct (steals t); [intros b Hb; exact Hb|]. apply growing_bind; [apply copy_obj_grows|]. intros a s' H. exact H.
    + intros [a c] s' H. cbn. eapply grows_trans; [exact H|apply abandon_grows].
  - destruct y; try (apply abandon_grows); apply grows_refl.
  - destruct y; try (apply abandon_grows); apply grows_refl.
  - apply abandon_grows.
Qed.

Lemma f_destroy_grows m x s : growing s (f_destroy m x s).
Proof.
  unfold f_destroy. destruct m as [t|]; [|apply grows_refl].
  assert (D : forall o, growing s (destroy_obj t o s)).
  { intro o. unfold destroy_obj. destruct (res o); [|intros b Hb; exact Hb]. destruct (in_dec _ _ _); [exact I|]. intros b Hb; exact Hb. }
  destruct (shape_of t), x; try exact I; try apply grows_refl; try apply D;
    (destruct (block s b); [|exact I]; apply growing_bind; [apply D|]; intros a s' H c Hc; right; apply H; exact Hc).
Qed.

Lemma v_swap_grows a b s : growing s (v_swap a b s).
Proof.
  unfold v_swap. apply growing_noexcept. destruct (mgr a) as [t|], (mgr b) as [u|].
  - apply growing_bind; [apply f_move_grows|]. intros [a1 tm] s1 H1.
    apply growing_bind; [eapply growing_from; [exact H1|apply f_move_grows]|]. intros [b1 a2] s2 H2.
    apply growing_bind; [eapply growing_from; [exact H2|apply f_move_grows]|]. intros [tm' b2] s3 H3.
    cbn. eapply grows_trans; [exact H3|apply abandon_grows].
  - apply growing_bind; [apply f_move_grows|]. intros [x y] s1 H1. cbn. eapply grows_trans; [exact H1|apply abandon_grows].
  - apply growing_bind; [apply f_move_grows|]. intros [x y] s1 H1. cbn. eapply grows_trans; [exact H1|apply abandon_grows].
  - apply grows_refl.
Qed.

Lemma v_clear_grows a s : growing s (v_clear a s).
Proof. unfold v_clear. apply growing_noexcept. apply growing_bind; [apply f_destroy_grows|]. intros _ s' H. exact H. Qed.

Lemma v_copy_grows a s : growing s (v_copy a s).
Proof. unfold v_copy. apply growing_bind; [apply f_copy_grows|]. intros x s' H. exact H. Qed.

Lemma v_make_grows t x rv s : growing s (v_make t x rv s).
Proof.
  unfold v_make. set (build := fun s0 : store => _).
  assert (B : forall s0, growing s0 (build s0)).
  { intro s0. unfold build. destruct (rv && steals t); [intros b Hb; exact Hb|apply copy_obj_grows]. }
  destruct (shape_of t); (apply growing_bind; [first [apply B|apply on_heap_grows; exact B]|]; intros a s' H; exact H).
Qed.

Lemma replace_grows a b s : growing s (replace a b s).
Proof.
  unfold replace. apply growing_bind; [apply v_swap_grows|]. intros [x y] s1 H1.
  apply growing_bind; [eapply growing_from; [exact H1|apply v_clear_grows]|]. intros _ s2 H2. exact H2.
Qed.

Lemma exec_grows o sc s : growing s (exec o sc s).
Proof.
  assert (SK : growing s (Ok sc s)) by apply grows_refl.
  destruct o as [i|i t x rv|i e|i j|i j|i j|i j|i t x rv|i e|i j|i|i|i x]; cbn [exec].
  - destruct (dead sc i); exact SK.
  - destruct (dead sc i); [|exact SK]. apply growing_bind; [apply v_make_grows|]. auto.
  - destruct (_ && _); exact SK.
  - destruct (alive sc j) as [v|]; [|exact SK]. destruct (dead sc i); [|exact SK].
    apply growing_bind; [apply v_copy_grows|]. auto.
  - destruct (alive sc j) as [v|]; [|exact SK]. destruct (dead sc i); [|exact SK].
    apply growing_bind; [apply v_swap_grows|]. intros [a b] s' H. exact H.
  - destruct (alive sc i) as [a|]; [|exact SK]. destruct (alive sc j) as [b|]; [|exact SK]. destruct (i =? j); [exact SK|].
    apply growing_bind; [apply v_copy_grows|]. intros c s' H. apply growing_bind; [eapply growing_from; [exact H|apply replace_grows]|]. auto.
  - destruct (alive sc i) as [a|]; [|exact SK]. destruct (alive sc j) as [b|]; [|exact SK]. destruct (i =? j); [exact SK|].
    apply growing_bind; [apply v_swap_grows|]. intros [c d] s' H. apply growing_bind; [eapply growing_from; [exact H|apply replace_grows]|]. auto.
  - destruct (alive sc i) as [a|]; [|exact SK].
    apply growing_bind; [apply v_make_grows|]. intros c s' H. apply growing_bind; [eapply growing_from; [exact H|apply replace_grows]|]. auto.
  - destruct (alive sc i) as [a|]; [|exact SK]. destruct (_ <? _); [|exact SK].
    apply growing_bind; [apply replace_grows|]. auto.
  - destruct (alive sc i) as [a|]; [|exact SK]. destruct (alive sc j) as [b|]; [|exact SK]. destruct (i =? j).
    + apply growing_bind; [|auto]. unfold v_swap_self. destruct (mgr a) as [t|]; [|exact SK]. destruct (shape_of t); try exact SK.
      destruct (trivial t); [exact SK|exact I].
    + apply growing_bind; [apply v_swap_grows|]. intros [c d] s' H. exact H.
  - destruct (alive sc i) as [a|]; [|exact SK]. apply growing_bind; [apply v_clear_grows|]. auto.
  - destruct (alive sc i) as [a|]; [|exact SK]. apply growing_bind; [apply v_clear_grows|]. auto.
  - destruct (alive sc i) as [[[t|] y]|]; [|exact SK|exact SK]. destruct y; try exact SK. destruct (block s b); [|exact I]. exact SK.
Qed.

Lemma run_grows p : forall sc s, growing s (run p sc s).
Proof.
  induction p as [|o p IH]; intros sc s; cbn [run]; [apply grows_refl|].
  pose proof (exec_grows o sc s) as G. destruct (exec o sc s) as [sc1 s1|s1| |]; cbn in G; try exact I.
  - apply growing_bind; [eapply growing_from; [exact G|apply IH]|]. intros [a b] s' H. exact H.
  - apply growing_bind; [eapply growing_from; [exact G|apply IH]|]. intros [a b] s' H. exact H.
Qed.

Section Follow.
  Variable allowed : ty -> Prop.
  Hypothesis allowed_safe : forall t, allowed t -> safe t.
  Local Notation inv := (inv allowed).

  (** Swapping exchanges the pointers. *)
  Lemma swap_ptr a b vs s a' b' s' : inv s (a :: b :: vs) -> v_swap a b s = Ok (a', b') s' ->
    ptr_of (st a') = ptr_of (st b) /\ ptr_of (st b') = ptr_of (st a).
  Proof.
    intros [W _ _]. inversion W as [|? ? Wa W1]. subst. inversion W1 as [|? ? Wb W2]. subst. clear W W1.
    unfold v_swap. unfold wf in Wa, Wb. destruct (mgr a) as [t|] eqn:Ea, (mgr b) as [u|] eqn:Eb.
    - destruct (f_move_ok allowed allowed_safe t (st a) Raw s Wa ltac:(discriminate)) as (a1 & tm & s1 & E1 & M1 & V1 & _ & N1 & P1 & _).
      rewrite E1. cbn [bind].
      destruct (f_move_ok allowed allowed_safe u (st b) a1 s1 (wf_mem _ _ _ _ _ M1 Wb) N1) as (b1 & a2 & s2 & E2 & M2 & V2 & _ & N2 & P2 & _).
      rewrite E2. cbn [bind].
      destruct (f_move_ok allowed allowed_safe t tm b1 s2 (wf_mem _ _ _ _ _ M2 V1) N2) as (tm' & b2 & s3 & E3 & _ & _ & _ & _ & P3 & _).
      rewrite E3. cbn [bind noexcept]. intro E. injection E as <- <- _. cbn [st]. split; congruence.
    - assert (NR : forall p, st b <> Ptr p) by (rewrite Wb; discriminate).
      destruct (f_move_ok allowed allowed_safe t (st a) (st b) s Wa NR) as (a1 & b2 & s1 & E1 & _ & _ & _ & _ & P1 & _).
      rewrite E1. cbn [bind noexcept]. intro E. injection E as <- <- _. cbn [st]. rewrite Wb. split; [reflexivity|exact P1].
    - assert (NR : forall p, st a <> Ptr p) by (rewrite Wa; discriminate).
      destruct (f_move_ok allowed allowed_safe u (st b) (st a) s Wb NR) as (b1 & a2 & s1 & E1 & _ & _ & _ & _ & P1 & _).
      rewrite E1. cbn [bind noexcept]. intro E. injection E as <- <- _. cbn [st]. rewrite Wa. split; [exact P1|reflexivity].
    - cbn [noexcept]. intro E. injection E as <- <- _. rewrite Wa, Wb. split; reflexivity.
  Qed.

  (** Clearing frees the block. *)
  Lemma clear_frees a s v s' b : wf allowed s a -> st a = Ptr b -> v_clear a s = Ok v s' -> In b (freed s').
  Proof.
    intros W E. unfold v_clear, wf in *. destruct (mgr a) as [t|]; [|congruence]. unfold f_destroy. rewrite E.
    destruct (shape_of t).
    - discriminate.
    - destruct (block s b); [|discriminate]. unfold bind. destruct (destroy_obj t o s); cbn; try discriminate. intro H. injection H as _ <-. left; reflexivity.
    - destruct (block s b); [|discriminate]. unfold bind. destruct (destroy_obj t o s); cbn; try discriminate. intro H. injection H as _ <-. left; reflexivity.
    - discriminate.
  Qed.

  Lemma ptr_eq x y b : ptr_of x = ptr_of y -> y = Ptr b -> x = Ptr b.
  Proof. intros H ->. destruct x; cbn in H; congruence. Qed.

  Lemma replace_ptr temp this vs s v s' : inv s (temp :: this :: vs) -> replace temp this s = Ok v s' ->
    ptr_of (st v) = ptr_of (st temp) /\ forall b, st this = Ptr b -> In b (freed s').
  Proof.
    intros I. unfold replace. destruct (swap_calm allowed allowed_safe temp this vs s I) as (t' & v' & s1 & E & I1 & _).
    destruct (swap_ptr _ _ _ _ _ _ _ I E) as [P1 P2]. rewrite E. cbn [bind].
    destruct (v_clear t' s1) as [z s2|s2| |] eqn:Ec; cbn [bind]; try discriminate. intro H. injection H as <- <-.
    split; [exact P2|]. intros b Eb. eapply clear_frees; [|eapply ptr_eq; [exact P1|exact Eb]|exact Ec].
    destruct I1 as [W _ _]. inversion W; assumption.
  Qed.

  Lemma bind_ok {A B} (m : out A) (f : A -> store -> out B) b s : bind m f = Ok b s -> exists a s1, m = Ok a s1 /\ f a s1 = Ok b s.
  Proof. destruct m; cbn; try discriminate. eauto. Qed.

  Definition at_ptr (sc : scope) (k b : nat) : Prop := exists v, alive sc k = Some v /\ st v = Ptr b.

  (** One statement. *)
  Lemma exec_follow o sc s sc' s' i b : inv s (live sc) -> (forall t, In t (types_of o) -> allowed t) -> no_self_swap o ->
    exec o sc s = Ok sc' s' -> at_ptr sc i b ->
    match follow o (abs s sc) i with Some k => at_ptr sc' k b | None => In b (freed s') end.
  Proof.
    intros I HT HS E (v & Hv & Ev). pose proof (alive_len _ _ _ Hv) as Li.
    assert (SAME : at_ptr sc i b) by (exists v; auto).
    assert (NEW : forall k x, dead sc k = true -> at_ptr (put sc k x) i b).
    { intros k x Hk. exists v. split; [|exact Ev]. rewrite alive_other; [exact Hv|]. intros ->. eapply dead_alive; eassumption. }
    assert (OTH : forall k x, k <> i -> at_ptr (put sc k x) i b).
    { intros k x Hk. exists v. split; [|exact Ev]. rewrite alive_other; [exact Hv|exact Hk]. }
    destruct o as [k|k t x rv|k e|k j|k j|k j|k j|k t x rv|k e|k j|k|k|k x]; cbn [exec follow] in *.
    - destruct (dead sc k) eqn:Ed; injection E as <- <-; auto.
    - destruct (dead sc k) eqn:Ed; [|injection E as <- <-; auto]. apply bind_ok in E. destruct E as (w & s1 & _ & E). injection E as <- <-. auto.
    - destruct (dead sc k) eqn:Ed; cbn [andb] in E; [destruct (e <? length (ext s))|]; injection E as <- <-; auto.
    - destruct (alive sc j) as [w|] eqn:Ej; [|injection E as <- <-; exact SAME]. destruct (dead sc k) eqn:Ed; [|injection E as <- <-; exact SAME].
      apply bind_ok in E. destruct E as (w' & s1 & _ & E). injection E as <- <-. auto.
    - (* MoveNew *)
      rewrite free_abs. destruct (alive sc j) as [w|] eqn:Ej.
      2:{ injection E as <- <-. destruct (Nat.eqb_spec i j) as [->|]; [congruence|exact SAME]. }
      destruct (dead sc k) eqn:Ed; [|injection E as <- <-; rewrite andb_false_r; exact SAME].
      apply bind_ok in E. destruct E as ([new old] & s1 & E1 & E). injection E as <- <-.
      apply alive_nth in Ej as Nj. apply dead_nth in Ed as Nk. assert (N : j <> k) by congruence.
      assert (PM : Permutation (live sc) (w :: live (put (put sc j None) k None))) by (apply (live_at2 sc j k (Some w) None N Nj Nk)).
      pose proof (inv_perm _ _ _ _ I PM) as I1. apply inv_empty in I1.
      destruct (swap_ptr _ _ _ _ _ _ _ I1 E1) as [P1 P2].
      destruct (Nat.eqb_spec i j) as [->|Nij]; cbn [andb].
      + assert (w = v) by congruence. subst w. exists new. split; [|eapply ptr_eq; [exact P1|exact Ev]].
        apply alive_same. rewrite put_length. eapply dead_len; exact Ed.
      + exists v. split; [|exact Ev]. rewrite alive_other by (intros ->; eapply dead_alive; eassumption). rewrite alive_other by congruence. exact Hv.
    - (* CopyAssign *)
      rewrite !lives_abs. destruct (alive sc k) as [a|] eqn:Ek; [|injection E as <- <-; exact SAME].
      destruct (alive sc j) as [c|] eqn:Ej; [|injection E as <- <-; exact SAME]. cbn [option_map].
      destruct (Nat.eqb_spec k j) as [->|N]; [injection E as <- <-; cbn [negb]; rewrite andb_false_r; exact SAME|].
      apply bind_ok in E. destruct E as (temp & s1 & E1 & E). apply bind_ok in E. destruct E as (a' & s2 & E2 & E). injection E as <- <-.
      destruct (Nat.eqb_spec i k) as [->|Nik]; cbn [andb negb]; [|apply OTH; congruence].
      assert (a = v) by congruence. subst a. apply alive_nth in Ek as Nk.
      assert (Hc : In c (live sc)) by (apply in_live; eapply nth_error_In; apply alive_nth; exact Ej).
      pose proof (copy_ok allowed allowed_safe c (live sc) s I Hc) as H. rewrite E1 in H. destruct H as (H1 & _).
      assert (I1 : inv s1 (temp :: v :: live (put sc k None))).
      { eapply inv_perm; [exact H1|]. constructor. apply (live_at _ _ _ Nk). }
      eapply (proj2 (replace_ptr _ _ _ _ _ _ I1 E2)). exact Ev.
    - (* MoveAssign *)
      rewrite !lives_abs. destruct (alive sc k) as [a|] eqn:Ek; [|injection E as <- <-; exact SAME].
      destruct (alive sc j) as [c|] eqn:Ej; [|injection E as <- <-; exact SAME]. cbn [option_map].
      destruct (Nat.eqb_spec k j) as [->|N]; [injection E as <- <-; exact SAME|].
      apply bind_ok in E. destruct E as ([temp c'] & s1 & E1 & E). apply bind_ok in E. destruct E as (a' & s2 & E2 & E). injection E as <- <-.
      apply alive_nth in Ek as Nk. apply alive_nth in Ej as Nj. assert (N' : j <> k) by congruence.
      set (rest := live (put (put sc j None) k None)).
      assert (PM : Permutation (live sc) (c :: a :: rest)) by (apply (live_at2 sc j k (Some c) (Some a) N' Nj Nk)).
      pose proof (inv_perm _ _ _ _ I PM) as I0.
      destruct (move_ok allowed allowed_safe c (a :: rest) s I0) as (temp0 & c0 & s0 & E0 & I1 & _).
      rewrite E1 in E0. injection E0 as <- <- <-. apply inv_empty in I0. destruct (swap_ptr _ _ _ _ _ _ _ I0 E1) as [P1 P2].
      assert (I1' : inv s1 (temp :: a :: c' :: rest)) by (eapply inv_perm; [exact I1|]; constructor; apply perm_swap).
      destruct (replace_ptr _ _ _ _ _ _ I1' E2) as [Q1 Q2].
      destruct (Nat.eqb_spec i k) as [->|Nik].
      + apply Q2. congruence.
      + destruct (Nat.eqb_spec i j) as [->|Nij].
        * exists a'. split; [apply alive_same; rewrite put_length; eapply alive_len; exact Ek|].
          eapply ptr_eq; [rewrite Q1; exact P1|congruence].
        * exists v. split; [|exact Ev]. rewrite !alive_other by congruence. exact Hv.
    - (* Assign *)
      destruct (alive sc k) as [a|] eqn:Ek.
      2:{ injection E as <- <-. destruct (Nat.eqb_spec i k) as [->|]; [congruence|exact SAME]. }
      apply bind_ok in E. destruct E as (temp & s1 & E1 & E). apply bind_ok in E. destruct E as (a' & s2 & E2 & E). injection E as <- <-.
      destruct (Nat.eqb_spec i k) as [->|Nik]; [|apply OTH; congruence].
      assert (a = v) by congruence. subst a. apply alive_nth in Ek as Nk.
      pose proof (make_ok allowed allowed_safe t x rv (live sc) s (HT t (or_introl eq_refl)) I) as H. rewrite E1 in H. destruct H as (H1 & _).
      assert (I1 : inv s1 (temp :: v :: live (put sc k None))).
      { eapply inv_perm; [exact H1|]. constructor. apply (live_at _ _ _ Nk). }
      eapply (proj2 (replace_ptr _ _ _ _ _ _ I1 E2)). exact Ev.
    - (* AssignRef *)
      change (snd (abs s sc)) with (ext s). destruct (alive sc k) as [a|] eqn:Ek.
      2:{ injection E as <- <-. destruct (Nat.eqb_spec i k) as [->|]; [congruence|exact SAME]. }
      destruct (e <? length (ext s)) eqn:El; [|injection E as <- <-; rewrite andb_false_r; exact SAME]. rewrite andb_true_r.
      apply bind_ok in E. destruct E as (a' & s2 & E2 & E). injection E as <- <-.
      destruct (Nat.eqb_spec i k) as [->|Nik]; [|apply OTH; congruence].
      assert (a = v) by congruence. subst a. apply alive_nth in Ek as Nk. apply Nat.ltb_lt in El.
      assert (I1 : inv s (Var (Some ref_ty) (Addr e) :: v :: live (put sc k None))).
      { pose proof (inv_at _ _ _ _ _ I Hv) as [W R P]. constructor; auto. constructor; [|exact W]. left. split; [reflexivity|]. exists e. auto. }
      eapply (proj2 (replace_ptr _ _ _ _ _ _ I1 E2)). exact Ev.
    - (* Swap *)
      rewrite !lives_abs. destruct (alive sc k) as [a|] eqn:Ek; [|injection E as <- <-; exact SAME].
      destruct (alive sc j) as [c|] eqn:Ej; [|injection E as <- <-; exact SAME]. cbn [option_map].
      cbn in HS. destruct (Nat.eqb_spec k j) as [Ekj|N]; [destruct (HS Ekj)|].
      apply bind_ok in E. destruct E as ([a' c'] & s1 & E1 & E). injection E as <- <-.
      pose proof (alive_nth _ _ _ Ek) as Nk. pose proof (alive_nth _ _ _ Ej) as Nj.
      assert (PM : Permutation (live sc) (a :: c :: live (put (put sc k None) j None))) by (apply (live_at2 sc k j (Some a) (Some c) N Nk Nj)).
      destruct (swap_ptr _ _ _ _ _ _ _ (inv_perm _ _ _ _ I PM) E1) as [P1 P2].
      destruct (Nat.eqb_spec i k) as [->|Nik].
      + exists c'. split; [apply alive_same; rewrite put_length; eapply alive_len; exact Ej|]. eapply ptr_eq; [exact P2|congruence].
      + destruct (Nat.eqb_spec i j) as [->|Nij].
        * exists a'. split; [rewrite alive_other by congruence; apply alive_same; eapply alive_len; exact Ek|]. eapply ptr_eq; [exact P1|congruence].
        * exists v. split; [|exact Ev]. rewrite !alive_other by congruence. exact Hv.
    - (* Clear *)
      destruct (alive sc k) as [a|] eqn:Ek.
      2:{ injection E as <- <-. destruct (Nat.eqb_spec i k) as [->|]; [congruence|exact SAME]. }
      apply bind_ok in E. destruct E as (a' & s1 & E1 & E). injection E as <- <-.
      destruct (Nat.eqb_spec i k) as [->|Nik]; [|apply OTH; congruence].
      assert (a = v) by congruence. subst a. eapply clear_frees; [|exact Ev|exact E1].
      pose proof (inv_at _ _ _ _ _ I Hv) as [W _ _]. inversion W; assumption.
    - (* Drop *)
      destruct (alive sc k) as [a|] eqn:Ek.
      2:{ injection E as <- <-. destruct (Nat.eqb_spec i k) as [->|]; [congruence|exact SAME]. }
      apply bind_ok in E. destruct E as (a' & s1 & E1 & E). injection E as <- <-.
      destruct (Nat.eqb_spec i k) as [->|Nik]; [|apply OTH; congruence].
      assert (a = v) by congruence. subst a. eapply clear_frees; [|exact Ev|exact E1].
      pose proof (inv_at _ _ _ _ _ I Hv) as [W _ _]. inversion W; assumption.
    - (* Write *)
      destruct (alive sc k) as [[[t|] y]|] eqn:Ek; try (injection E as <- <-; exact SAME).
      destruct y as [|o|c|e]; try (injection E as <- <-; exact SAME).
      + injection E as <- <-. apply OTH. intros ->. rewrite Hv in Ek. injection Ek as ->. discriminate.
      + destruct (block s c); [|discriminate]. injection E as <- <-. exact SAME.
  Qed.

  (** A whole program. *)
  Lemma run_follow p : forall sc s sc' th s' i b, inv s (live sc) -> uses allowed p -> (forall o, In o p -> no_self_swap o) ->
    run p sc s = Ok (sc', th) s' -> at_ptr sc i b ->
    match follow_all p th (abs s sc) i with Some k => at_ptr sc' k b | None => In b (freed s') end.
  Proof.
    induction p as [|o p IH]; intros sc s sc' th s' i b I HU HS E H.
    - cbn in E. injection E as <- <- <-. exact H.
    - cbn [run] in E.
      assert (HT : forall t, In t (types_of o) -> allowed t) by (intros t Ht; apply (HU o t); [left; reflexivity|exact Ht]).
      assert (HN : no_self_swap o) by (apply HS; left; reflexivity).
      pose proof (exec_ok allowed allowed_safe o sc s I HT (or_introl HN)) as G.
      assert (HU' : uses allowed p) by (intros q t Hq; apply HU; right; exact Hq).
      assert (HS' : forall q, In q p -> no_self_swap q) by (intros q Hq; apply HS; right; exact Hq).
      destruct (exec o sc s) as [sc1 s1|s1| |] eqn:E1; cbn [good] in G; [| |discriminate|discriminate].
      + destruct G as (I1 & A1 & _). apply bind_ok in E. destruct E as ([sc2 l] & s2 & E2 & E). injection E as <- <- <-.
        pose proof (exec_follow o sc s sc1 s1 i b I HT HN E1 H) as F. cbn [follow_all].
        destruct (follow o (abs s sc) i) as [k|].
        * rewrite <- A1. eapply IH; eassumption.
        * pose proof (run_grows p sc1 s1) as GR. rewrite E2 in GR. apply GR. exact F.
      + destruct G as (I1 & A1 & _). apply bind_ok in E. destruct E as ([sc2 l] & s2 & E2 & E). injection E as <- <- <-.
        cbn [follow_all]. rewrite <- A1. eapply IH; eassumption.
  Qed.
End Follow.

Lemma take_kind (allowed : ty -> Prop) s sc i r : (forall t, allowed t -> safe t) -> inv allowed s (live sc) -> take sc i = Some r ->
  exists v, alive sc i = Some v /\ mgr v = Some (r_ty r) /\
  match r_at r with
  | Within j => j = i /\ shape_of (r_ty r) = Inplace /\ exists o x, st v = In_ o /\ val o = Some x
  | Block b => shape_of (r_ty r) <> Inplace /\ exists o x, st v = Ptr b /\ block s b = Some o /\ val o = Some x
  | Outside e => st v = Addr e /\ e < length (ext s)
  end.
Proof.
  intros HA I. unfold take. destruct (alive sc i) as [[[t|] y]|] eqn:E; try discriminate.
  pose proof (inv_at _ _ _ _ _ I E) as [W _ _]. inversion W as [|? ? Wv _]. subst. unfold wf in Wv. cbn [mgr st] in Wv.
  destruct Wv as [(-> & e & -> & L)|(Ht & K)].
  - intro H. injection H as <-. cbn. eauto.
  - destruct (shape_of t) eqn:Es.
    + destruct K as (o & -> & (x & Ex) & _). intro H. injection H as <-. cbn. eexists. split; [reflexivity|]. cbn. rewrite Es. eauto 7.
    + destruct K as (b & o & -> & Hb & (x & Ex) & _). intro H. injection H as <-. cbn. eexists. split; [reflexivity|]. cbn. rewrite Es.
      split; [reflexivity|]. split; [discriminate|eauto].
    + destruct K as (b & o & -> & Hb & (x & Ex) & _). intro H. injection H as <-. cbn. eexists. split; [reflexivity|]. cbn. rewrite Es.
      split; [reflexivity|]. split; [discriminate|eauto].
    + destruct K.
Qed.

(** What a reference into a block reads, and what writing through it does, while a variant holds the block. *)
Lemma block_reads (allowed : ty -> Prop) s sc k b t : (forall t, allowed t -> safe t) -> inv allowed s (live sc) -> at_ptr sc k b ->
  exists x, load (Reference t (Block b)) sc s = Some x /\ seen (abs s sc) k = Some x /\
  forall y, save (Reference t (Block b)) y sc s = exec (Write k y) sc s.
Proof.
  intros HA I (v & Hv & Ev). pose proof (inv_at _ _ _ _ _ I Hv) as [W _ _]. inversion W as [|? ? Wv _]. subst. unfold wf in Wv.
  unfold load, save, seen. cbn [r_at r_ty exec]. rewrite lives_abs, Hv. cbn [option_map]. unfold cont.
  destruct v as [[u|] y]; cbn [mgr st] in *; [|congruence]. subst y.
  destruct Wv as [(-> & e & K & _)|(_ & K)]; [discriminate|].
  assert (G : exists o x, block s b = Some o /\ val o = Some x).
  { destruct (shape_of u).
    - destruct K as (o & E & _). discriminate.
    - destruct K as (c & o & E & Hb & (x & Ex) & _). injection E as <-. eauto.
    - destruct K as (c & o & E & Hb & (x & Ex) & _). injection E as <-. eauto.
    - destruct K. }
  destruct G as (o & x & Hb & Ex). rewrite Hb, Ex. exists x. split; [reflexivity|]. split; [reflexivity|]. reflexivity.
Qed.

Lemma freed_reads s sc b t : In b (freed s) -> load (Reference t (Block b)) sc s = None /\ forall y, save (Reference t (Block b)) y sc s = UB.
Proof.
  intro H. unfold load, save. cbn [r_at]. unfold block. destruct (in_dec Nat.eq_dec b (freed s)); [|contradiction]. split; reflexivity.
Qed.

(** ** Statements that leave a variant alone *)
Lemma lives_set_same a i x : i < length (fst a) -> lives (set a i x) i = x.
Proof. intro L. unfold lives, set. cbn [fst]. rewrite put_same by exact L. destruct x; reflexivity. Qed.

Lemma lives_set_other a i k x : k <> i -> lives (set a k x) i = lives a i.
Proof. intro N. unfold lives, set. cbn [fst]. rewrite put_other by exact N. reflexivity. Qed.

Lemma lives_len a i c : lives a i = Some c -> i < length (fst a).
Proof. unfold lives. intro H. apply nth_error_Some. destruct (nth_error (fst a) i); congruence. Qed.

Lemma free_lives a k i c : free_name a k = true -> lives a i = Some c -> k <> i.
Proof. unfold free_name, lives. intros H K ->. destruct (nth_error (fst a) i) as [[|]|]; congruence. Qed.

Definition same_kind (c d : option content) : Prop :=
  match c, d with
  | Some (Own t _), Some (Own u _) => t = u
  | Some (Alias e), Some (Alias f) => e = f
  | None, None => True
  | _, _ => False
  end.

Lemma same_kind_refl c : same_kind c c.
Proof. destruct c as [[|]|]; cbn; auto. Qed.

Lemma same_kind_trans c d e : same_kind c d -> same_kind d e -> same_kind c e.
Proof. destruct c as [[|]|], d as [[|]|], e as [[|]|]; cbn; intuition congruence. Qed.

Lemma meaning_leaves o a i c : leaves o i -> lives a i = Some c ->
  (exists d, lives (meaning o a) i = Some d /\ same_kind c d) /\ follow o a i = Some i.
Proof.
  intros L H. assert (R : exists d, lives a i = Some d /\ same_kind c d) by (exists c; auto using same_kind_refl).
  assert (N : forall k x, k <> i -> exists d, lives (set a k x) i = Some d /\ same_kind c d).
  { intros k x Hk. rewrite lives_set_other by exact Hk. exact R. }
  destruct o as [k|k t x rv|k e|k j|k j|k j|k j|k t x rv|k e|k j|k|k|k x]; cbn [leaves meaning follow] in *.
  - destruct (free_name a k) eqn:F; [|auto]. pose proof (free_lives _ _ _ _ F H). auto.
  - destruct (free_name a k) eqn:F; [|auto]. pose proof (free_lives _ _ _ _ F H). auto.
  - destruct (free_name a k) eqn:F; [|auto]. pose proof (free_lives _ _ _ _ F H). destruct (_ && _); auto.
  - destruct (lives a j); [|auto]. destruct (free_name a k) eqn:F; [|auto]. pose proof (free_lives _ _ _ _ F H). auto.
  - assert (E : (i =? j) = false) by (apply Nat.eqb_neq; congruence). rewrite E. cbn [andb]. split; [|reflexivity].
    destruct (lives a j); [|auto]. destruct (free_name a k) eqn:F; [|auto]. pose proof (free_lives _ _ _ _ F H).
    rewrite !lives_set_other by congruence. exact R.
  - assert (E : (i =? k) = false) by (apply Nat.eqb_neq; congruence). rewrite E. cbn [andb].
    destruct (lives a k), (lives a j); auto.
  - destruct L as [L1 L2]. assert (E : (i =? k) = false) by (apply Nat.eqb_neq; congruence). assert (E2 : (i =? j) = false) by (apply Nat.eqb_neq; congruence).
    rewrite E, E2. destruct (lives a k), (lives a j); auto. destruct (k =? j); auto. split; [|reflexivity].
    rewrite !lives_set_other by congruence. exact R.
  - assert (E : (i =? k) = false) by (apply Nat.eqb_neq; congruence). rewrite E. destruct (lives a k); auto.
  - assert (E : (i =? k) = false) by (apply Nat.eqb_neq; congruence). rewrite E. cbn [andb]. destruct (lives a k); auto. destruct (_ <? _); auto.
  - destruct L as [L1 L2]. assert (E : (i =? k) = false) by (apply Nat.eqb_neq; congruence). assert (E2 : (i =? j) = false) by (apply Nat.eqb_neq; congruence).
    rewrite E, E2. destruct (lives a k), (lives a j); auto. split; [|reflexivity]. rewrite !lives_set_other by congruence. exact R.
  - assert (E : (i =? k) = false) by (apply Nat.eqb_neq; congruence). rewrite E. destruct (lives a k); auto.
  - assert (E : (i =? k) = false) by (apply Nat.eqb_neq; congruence). rewrite E. destruct (lives a k); auto.
  - split; [|reflexivity]. destruct (Nat.eq_dec k i) as [->|Nk].
    + rewrite H. destruct c as [[t y|e]|]; [| |exact R].
      * rewrite lives_set_same by (eapply lives_len; exact H). eexists. split; [reflexivity|]. reflexivity.
      * exists (Some (Alias e)). split; [exact H|reflexivity].
    + destruct (lives a k) as [[[t y|e]|]|]; auto.
Qed.

Lemma meaning_all_leaves p : forall th a i c, (forall o, In o p -> leaves o i) -> lives a i = Some c ->
  (exists d, lives (meaning_all p th a) i = Some d /\ same_kind c d) /\ follow_all p th a i = Some i.
Proof.
  induction p as [|o p IH]; intros th a i c L H.
  - cbn. split; [exists c; auto using same_kind_refl|reflexivity].
  - destruct th as [|[|] th]; cbn [meaning_all follow_all].
    + split; [exists c; auto using same_kind_refl|reflexivity].
    + apply IH; [intros q Hq; apply L; right; exact Hq|exact H].
    + destruct (meaning_leaves o a i c (L o (or_introl eq_refl)) H) as [(d & H1 & K1) F1]. rewrite F1.
      destruct (IH th (meaning o a) i d (fun q Hq => L q (or_intror Hq)) H1) as [(e & H2 & K2) F2].
      split; [exists e; eauto using same_kind_trans|exact F2].
Qed.

(** What a reference into the storage of a variant reads while the variant holds something of its type. *)
Lemma within_reads (allowed : ty -> Prop) s sc i t x : (forall t, allowed t -> safe t) -> inv allowed s (live sc) -> shape_of t = Inplace ->
  lives (abs s sc) i = Some (Some (Own t x)) ->
  load (Reference t (Within i)) sc s = Some x /\ forall y, save (Reference t (Within i)) y sc s = exec (Write i y) sc s.
Proof.
  intros HA I Es H. rewrite lives_abs in H. destruct (alive sc i) as [v|] eqn:Ev; [|discriminate]. cbn in H. injection H as H.
  pose proof (inv_at _ _ _ _ _ I Ev) as [W _ _]. inversion W as [|? ? Wv _]. subst. unfold wf in Wv.
  destruct v as [[u|] y]; cbn [mgr st] in *; [|discriminate].
  destruct Wv as [(-> & e & -> & _)|(_ & K)]; [discriminate|].
  assert (u = t). { unfold cont in H. cbn [mgr st] in H. destruct y as [|o|b|]; try discriminate.
    - destruct (val o); congruence. - destruct (block s b) as [o|]; [|discriminate]. destruct (val o); congruence. }
  subst u. rewrite Es in K. destruct K as (o & -> & (z & Ez) & _). unfold cont in H. cbn [mgr st] in H. rewrite Ez in H. injection H as <-.
  unfold load, save. cbn [r_at r_ty exec]. rewrite Ev. destruct (ty_eq_dec t t) as [_|N]; [|congruence]. split; [exact Ez|reflexivity].
Qed.

Lemma cont_alias (allowed : ty -> Prop) s sc v e : (forall t, allowed t -> safe t) -> inv allowed s (live sc) -> In v (live sc) -> cont s v = Some (Alias e) ->
  exists t, mgr v = Some t /\ st v = Addr e /\ e < length (ext s).
Proof.
  intros HA [W _ _] Hv H. rewrite Forall_forall in W. specialize (W v Hv). unfold wf in W. unfold cont in H. destruct (mgr v) as [t|]; [|discriminate].
  destruct W as [(-> & f & Ef & L)|(_ & K)].
  - rewrite Ef in H. injection H as ->. eauto.
  - destruct (st v) as [|o|b|f]; try discriminate.
    + destruct (val o); discriminate.
    + destruct (block s b) as [o|]; [|discriminate]. destruct (val o); discriminate.
    + destruct (shape_of t).
      * destruct K as (o & E & _). discriminate.
      * destruct K as (b & o & E & _). discriminate.
      * destruct K as (b & o & E & _). discriminate.
      * destruct K.
Qed.
