(** Proofs for C62. *)
From Coq Require Import List Bool Arith Lia Permutation.
From Verif Require Import LayoutModel LayoutSpec.
Import ListNotations.

(** ** Storage that lies apart *)

Lemma apart_sym r q : apart r q = apart q r.
Proof. unfold apart. apply orb_comm. Qed.
Lemma apart_spec r q : apart r q = true <-> fst r + snd r <= fst q \/ fst q + snd q <= fst r.
Proof. unfold apart. rewrite orb_true_iff, !Nat.leb_le. tauto. Qed.

Inductive sep : list (nat * nat) -> Prop :=
| sep_nil : sep []
| sep_cons r l : forallb (apart r) l = true -> sep l -> sep (r :: l).

Lemma sep_cons_inv r l : sep (r :: l) -> forallb (apart r) l = true /\ sep l.
Proof. intro H. inversion H; auto. Qed.
Lemma forallb_perm {A} (f : A -> bool) l l' : Permutation l l' -> forallb f l = forallb f l'.
Proof. induction 1; cbn; try congruence. destruct (f x), (f y); reflexivity. Qed.
Lemma sep_perm l l' : Permutation l l' -> sep l -> sep l'.
Proof.
  induction 1 as [|x l l' HP IH|x y l|l1 l2 l3 _ IH1 _ IH2]; intro H; auto.
  - apply sep_cons_inv in H. destruct H as [H1 H2]. constructor; [rewrite <- (forallb_perm _ _ _ HP); exact H1|auto].
  - apply sep_cons_inv in H. destruct H as [H1 H2]. apply sep_cons_inv in H2. destruct H2 as [H2 H3]. cbn in H1.
    apply andb_true_iff in H1. destruct H1 as [H0 H1]. constructor; [|constructor; assumption]. cbn. rewrite apart_sym, H0. exact H2.
Qed.
Lemma sep_in l r q : sep l -> In r l -> In q l -> r <> q -> apart r q = true.
Proof.
  induction l as [|x l IH]; intros H Hr Hq N; [destruct Hr|]. apply sep_cons_inv in H. destruct H as [H1 H2].
  rewrite forallb_forall in H1. destruct Hr as [Hr|Hr], Hq as [Hq|Hq]; try subst x.
  - congruence.
  - auto.
  - rewrite apart_sym. auto.
  - auto.
Qed.
Lemma sep_filter f l : sep l -> sep (filter f l).
Proof.
  induction 1 as [|r l H _ IH]; cbn; [constructor|]. destruct (f r); [|exact IH]. constructor; [|exact IH].
  rewrite forallb_forall in H |- *. intros x Hx. apply filter_In in Hx. apply H, Hx.
Qed.
Lemma sep_app_l l l' : sep (l ++ l') -> sep l.
Proof.
  induction l as [|x l IH]; intro H; [constructor|]. cbn in H. apply sep_cons_inv in H. destruct H as [H1 H2]. rewrite forallb_app in H1.
  apply andb_true_iff in H1. constructor; [apply H1|auto].
Qed.
Lemma sep_app l l' : sep (l ++ l') <-> sep l /\ sep l' /\ (forall r q, In r l -> In q l' -> apart r q = true).
Proof.
  induction l as [|x l IH]; cbn [app].
  - split; [intro H; repeat split; [constructor|exact H|intros r q []]|tauto].
  - split.
    + intro H. apply sep_cons_inv in H. destruct H as [H1 H2]. rewrite forallb_app in H1. apply andb_true_iff in H1. destruct H1 as [H1 H3].
      apply IH in H2. destruct H2 as (H2 & H4 & H5). split; [constructor; auto|]. split; [exact H4|]. intros r q [<-|Hr] Hq; [|auto].
      rewrite forallb_forall in H3. auto.
    + intros (H1 & H2 & H3). apply sep_cons_inv in H1. destruct H1 as [H1 H4]. constructor.
      * rewrite forallb_app, H1. cbn. apply forallb_forall. intros q Hq. apply H3; [left; reflexivity|exact Hq].
      * apply IH. split; [exact H4|]. split; [exact H2|]. intros r q Hr Hq. apply H3; [right; exact Hr|exact Hq].
Qed.

(** ** What the state is, up to the environment's choices *)

Definition upd (f : nat -> option nat) (a : nat) (p : option nat) : nat -> option nat := fun x => if x =? a then p else f x.
Lemma upd_eq f a p : upd f a p a = p.
Proof. unfold upd. rewrite Nat.eqb_refl. reflexivity. Qed.
Lemma upd_neq f a p x : x <> a -> upd f a p x = f x.
Proof. intro H. unfold upd. apply Nat.eqb_neq in H. rewrite H. reflexivity. Qed.

Fixpoint mgr (v : list (nat * option ctype)) (a : nat) : option (option ctype) :=
  match v with [] => None | (x, m) :: v' => if x =? a then Some m else mgr v' a end.
Definition setm (v : list (nat * option ctype)) (a : nat) (m : option ctype) := map (fun w => if fst w =? a then (a, m) else w) v.

Lemma mgr_find v a : mgr v a = option_map snd (find (fun w => fst w =? a) v).
Proof. induction v as [|[x m] v IH]; cbn; [reflexivity|]. destruct (x =? a); [reflexivity|exact IH]. Qed.
Lemma mgr_in v a m : mgr v a = Some m -> In (a, m) v.
Proof.
  induction v as [|[x n] v IH]; cbn; [discriminate|]. destruct (Nat.eqb_spec x a) as [e|N]; [subst x; intros [= ->]; auto|auto].
Qed.
Lemma mgr_fst v a m : mgr v a = Some m -> In a (map fst v).
Proof. intro H. apply mgr_in in H. apply (in_map fst) in H. exact H. Qed.
Lemma in_mgr v a m : NoDup (map fst v) -> In (a, m) v -> mgr v a = Some m.
Proof.
  induction v as [|[x n] v IH]; cbn; intros HN H; [destruct H|]. inversion HN as [|y l Hx HN']; subst. destruct H as [H|H].
  - injection H as -> ->. rewrite Nat.eqb_refl. reflexivity.
  - destruct (Nat.eqb_spec x a) as [e|N]; [|auto]. subst x. apply (in_map fst) in H. contradiction.
Qed.
Lemma fst_mgr v a : In a (map fst v) -> mgr v a <> None.
Proof.
  induction v as [|[x n] v IH]; cbn; [auto|]. intro H. destruct (Nat.eqb_spec x a); [discriminate|]. destruct H; [contradiction|auto].
Qed.
Lemma mgr_none v a : ~ In a (map fst v) -> mgr v a = None.
Proof. intro H. destruct (mgr v a) eqn:E; [|reflexivity]. apply mgr_fst in E. contradiction. Qed.
Lemma setm_fst v a m : map fst (setm v a m) = map fst v.
Proof.
  unfold setm. rewrite map_map. apply map_ext. intros [x n]. cbn. destruct (Nat.eqb_spec x a); [subst; reflexivity|reflexivity].
Qed.
Lemma setm_mgr v a m x : mgr (setm v a m) x = if x =? a then match mgr v a with Some _ => Some m | None => None end else mgr v x.
Proof.
  induction v as [|[y n] v IH]; cbn [setm map mgr fst]; [destruct (x =? a); reflexivity|]. fold (setm v a m).
  destruct (Nat.eqb_spec y a) as [e|N].
  - subst y. cbn [mgr]. rewrite (Nat.eqb_sym x a). destruct (Nat.eqb_spec a x) as [e|N]; [reflexivity|]. rewrite IH.
    apply Nat.eqb_neq in N. rewrite (Nat.eqb_sym x a), N. reflexivity.
  - cbn [mgr]. destruct (Nat.eqb_spec y x) as [e|N2]; [subst y; apply Nat.eqb_neq in N; rewrite N; reflexivity|exact IH].
Qed.

Definition regs (A t : list nat) (b : list (nat * nat)) : list (nat * nat) :=
  map (fun a => (a, 24)) A ++ map (fun a => (a, 16)) t ++ b.
Definition holds_in (A t : list nat) (b : list (nat * nat)) (a n : nat) : Prop :=
  exists r, (In r (map (fun a => (a, 16)) A) \/ In r (map (fun a => (a, 16)) t) \/ In r b) /\ fst r <= a /\ a + n <= fst r + snd r.

Section P.
  (** The types in use. *)
  Variable P : ctype -> Prop.
  Hypothesis Pproper : forall T, P T -> proper T.

  Definition ok_fault (x : fault) : Prop :=
    match x with
    | Misaligned T _ => P T /\ ~ suits T
    | OutOfBounds _ _ | WildFree => False
    | Indeterminate => exists T, P T /\ place_of T = Heap
    end.

  Record At (v : list (nat * option ctype)) (b : list (nat * nat)) (t : list nat) (f : nat -> option nat) (s : state) : Prop := {
    at_vars : vars s = v; at_blocks : blocks s = b; at_temps : temps s = t; at_ptrs : forall x, ptrs s x = f x;
    at_faults : Forall ok_fault (faults s) }.

  Definition post {A} (s : state) (m : M A) (Q : A -> state -> Prop) : Prop := match m s with Some (x, s') => Q x s' | None => True end.
  Lemma post_bind {A B} s (m : M A) (g : A -> M B) (R : A -> state -> Prop) Q :
    post s m R -> (forall x s', R x s' -> post s' (g x) Q) -> post s (bind m g) Q.
  Proof. unfold post, bind. intros H G. destruct (m s) as [[x s']|]; [apply G; exact H|exact I]. Qed.
  Lemma post_ret {A} s (x : A) (Q : A -> state -> Prop) : Q x s -> post s (ret x) Q.
  Proof. auto. Qed.
  Lemma post_weak {A} s (m : M A) (R Q : A -> state -> Prop) : post s m R -> (forall x s', R x s' -> Q x s') -> post s m Q.
  Proof. unfold post. destruct (m s) as [[x s']|]; auto. Qed.

  Lemma At_regions v b t f s : At v b t f s -> regions s = regs (map fst v) t b.
  Proof. intros [<- <- <- _ _]. unfold regions, regs. rewrite map_map. reflexivity. Qed.
  Lemma At_blame v b t f s x : At v b t f s -> ok_fault x -> At v b t f (blame s x).
  Proof. intros [E1 E2 E3 E4 E5] H. constructor; try assumption. constructor; assumption. Qed.

  (** *** Steps *)

  Lemma touch_at_ok v b t f s T a : At v b t f s -> P T -> holds_in (map fst v) t b a (size T) ->
    (suits T -> Nat.divide (align T) a) -> post s (touch T a) (fun _ s' => At v b t f s').
  Proof.
    intros HA HP Hin Hs. unfold post, touch. cbn zeta.
    assert (H1 : At v b t f (if a mod align T =? 0 then s else blame s (Misaligned T a))).
    { destruct (Nat.eqb_spec (a mod align T) 0) as [e|N]; [exact HA|]. apply At_blame; [exact HA|]. split; [exact HP|]. intro H. apply N.
      apply Nat.mod_divide; [destruct (Pproper T HP); lia|auto]. }
    destruct (inside _ a (size T)) eqn:E; [exact H1|]. exfalso. revert E. generalize dependent (if a mod align T =? 0 then s else blame s (Misaligned T a)).
    intros s1 H1. unfold inside. intro E. destruct Hin as (r & Hr & H2 & H3).
    assert (HE : existsb (fun r => (fst r <=? a) && (a + size T <=? fst r + snd r))
      (map (fun v => (fst v, STORAGE_SIZE)) (vars s1) ++ map (fun t => (t, STORAGE_SIZE)) (temps s1) ++ blocks s1) = true).
    { apply existsb_exists. exists r. destruct H1 as [-> -> -> _ _]. split.
      - rewrite !in_app_iff. rewrite map_map in Hr. exact Hr.
      - apply andb_true_iff. split; apply Nat.leb_le; assumption. }
    congruence.
  Qed.
  Lemma read_ok v b t f s a : At v b t f s -> (f a = None -> exists T, P T /\ place_of T = Heap) ->
    post s (read_ptr a) (fun x s' => x = f a /\ At v b t f s').
  Proof.
    intros HA H. unfold post, read_ptr. rewrite (at_ptrs _ _ _ _ _ HA a). split; [reflexivity|].
    destruct (f a) eqn:E; [exact HA|]. apply At_blame; [exact HA|]. apply H. reflexivity.
  Qed.
  Lemma write_ok v b t f s a p : At v b t f s -> post s (write_ptr a p) (fun _ s' => At v b t (upd f a p) s').
  Proof.
    intros [E1 E2 E3 E4 E5]. unfold post, write_ptr. constructor; try assumption. intro x. cbn. unfold upd. destruct (x =? a); auto.
  Qed.
  Lemma At_ext v b t f g s : At v b t f s -> (forall x, f x = g x) -> At v b t g s.
  Proof. intros [E1 E2 E3 E4 E5] H. constructor; try assumption. intro x. rewrite E4. apply H. Qed.
  Lemma pop_ok v b t f s : At v b t f s -> post s pop (fun _ s' => At v b t f s').
  Proof. intros [E1 E2 E3 E4 E5]. unfold post, pop. destruct (oracle s); [exact I|]. constructor; assumption. Qed.
  Lemma allocate_ok v b t f s n : At v b t f s ->
    post s (allocate n) (fun p s' => At v ((p, n) :: b) t f s' /\ Nat.divide 16 p /\ forallb (apart (p, n)) (regs (map fst v) t b) = true).
  Proof.
    intro HA. unfold allocate. eapply post_bind; [apply pop_ok; exact HA|]. intros p s1 H1. unfold post, fits.
    rewrite (At_regions _ _ _ _ _ H1). destruct (p mod NEW_ALIGN =? 0) eqn:E; [|exact I]. cbn [andb].
    destruct (forallb _ _) eqn:E2; [|exact I]. split; [|split; [|first [exact E2|reflexivity]]].
    - destruct H1 as [F1 F2 F3 F4 F5]. constructor; try assumption. cbn. rewrite F2. reflexivity.
    - apply Nat.eqb_eq in E. apply Nat.mod_divide; [unfold NEW_ALIGN; lia|exact E].
  Qed.
  Lemma deallocate_ok v b t f s p n : At v b t f s -> In (p, n) b ->
    post s (deallocate p) (fun _ s' => At v (filter (fun r => negb (fst r =? p)) b) t f s').
  Proof.
    intros HA Hin. unfold post, deallocate. rewrite (at_blocks _ _ _ _ _ HA).
    assert (E : existsb (fun r => fst r =? p) b = true) by (apply existsb_exists; exists (p, n); split; [exact Hin|apply Nat.eqb_refl]).
    rewrite E. destruct HA as [F1 F2 F3 F4 F5]. constructor; try assumption. reflexivity.
  Qed.
  Lemma manager_ok v b t f s a : At v b t f s -> post s (manager a) (fun m s' => mgr v a = Some m /\ At v b t f s').
  Proof.
    intro HA. unfold post, manager. rewrite (at_vars _ _ _ _ _ HA), mgr_find. destruct (find _ v) as [[x m]|]; [|exact I]. split; [reflexivity|exact HA].
  Qed.
  Lemma set_manager_ok v b t f s a m : At v b t f s -> post s (set_manager a m) (fun _ s' => At (setm v a m) b t f s').
  Proof. intros [E1 E2 E3 E4 E5]. unfold post, set_manager. constructor; try assumption. cbn. rewrite E1. reflexivity. Qed.
  Lemma place_ok v b t f s a : At v b t f s ->
    post s (place_var a) (fun _ s' => At ((a, None) :: v) b t (upd f a None) s' /\ Nat.divide 8 a /\ forallb (apart (a, 24)) (regs (map fst v) t b) = true).
  Proof.
    intro HA. unfold post, place_var, fits. rewrite (At_regions _ _ _ _ _ HA). destruct (a mod STORAGE_ALIGN =? 0) eqn:E; [|exact I]. cbn [andb].
    destruct (forallb _ _) eqn:E2; [|exact I]. split; [|split; [|first [exact E2|reflexivity]]].
    - destruct HA as [F1 F2 F3 F4 F5]. constructor; try assumption; cbn; [rewrite F1; reflexivity|]. intro x. unfold upd. destruct (x =? a); auto.
    - apply Nat.eqb_eq in E. apply Nat.mod_divide; [unfold STORAGE_ALIGN; lia|exact E].
  Qed.
  Lemma remove_ok v b t f s a : At v b t f s -> post s (remove_var a) (fun _ s' => At (filter (fun w : nat * option ctype => negb (fst w =? a)) v) b t f s').
  Proof. intros [E1 E2 E3 E4 E5]. unfold post, remove_var. constructor; try assumption. cbn. rewrite E1. reflexivity. Qed.
  Lemma push_ok v b t f s : At v b t f s ->
    post s push_temp (fun x s' => At v b (x :: t) (upd f x None) s' /\ Nat.divide 8 x /\ forallb (apart (x, 16)) (regs (map fst v) t b) = true).
  Proof.
    intro HA. unfold push_temp. eapply post_bind; [apply pop_ok; exact HA|]. intros x s1 H1. unfold post, fits.
    rewrite (At_regions _ _ _ _ _ H1). destruct (x mod STORAGE_ALIGN =? 0) eqn:E; [|exact I]. cbn [andb].
    destruct (forallb _ _) eqn:E2; [|exact I]. split; [|split; [|first [exact E2|reflexivity]]].
    - destruct H1 as [F1 F2 F3 F4 F5]. constructor; try assumption; cbn; [rewrite F3; reflexivity|]. intro y. unfold upd. destruct (y =? x); auto.
    - apply Nat.eqb_eq in E. apply Nat.mod_divide; [unfold STORAGE_ALIGN; lia|exact E].
  Qed.
  Lemma pop_temp_ok v b t f s x : At v b (x :: t) f s -> post s pop_temp (fun _ s' => At v b t f s').
  Proof. intros [E1 E2 E3 E4 E5]. unfold post, pop_temp. constructor; try assumption. cbn. rewrite E3. reflexivity. Qed.

  (** *** Good states *)

  Record Good (v : list (nat * option ctype)) (b : list (nat * nat)) (f : nat -> option nat) : Prop := {
    g_sep : sep (regs (map fst v) [] b);
    g_var : forall a, In a (map fst v) -> Nat.divide 8 a;
    g_blk : forall p n, In (p, n) b -> Nat.divide 16 p /\ 0 < n;
    g_heap : forall a T, mgr v a = Some (Some T) -> place_of T = Heap -> exists p, f a = Some p /\ In (p, size T) b;
    g_refer : forall a T, mgr v a = Some (Some T) -> place_of T = Refer -> f a <> None;
    g_inj : forall a a' T T', mgr v a = Some (Some T) -> mgr v a' = Some (Some T') -> place_of T = Heap -> place_of T' = Heap -> f a = f a' -> a = a';
    g_own : forall p n, In (p, n) b -> exists a T, mgr v a = Some (Some T) /\ place_of T = Heap /\ f a = Some p;
    g_P : forall a T, mgr v a = Some (Some T) -> P T }.

  Lemma regs_nil A b : regs A [] b = map (fun a => (a, 24)) A ++ b.
  Proof. reflexivity. Qed.
  Lemma apart_24 a b : apart (a, 24) (b, 24) = true -> a <> b.
  Proof. rewrite apart_spec. cbn. lia. Qed.
  Lemma sep_nodup A : sep (map (fun a => (a, 24)) A) -> NoDup A.
  Proof.
    induction A as [|a A IH]; intro H; [constructor|]. cbn in H. apply sep_cons_inv in H. destruct H as [H1 H2]. constructor; [|auto].
    intro Hin. rewrite forallb_forall in H1. specialize (H1 (a, 24) (in_map (fun a => (a, 24)) _ _ Hin)). apply apart_24 in H1. congruence.
  Qed.
  Lemma good_nodup v b f : Good v b f -> NoDup (map fst v).
  Proof. intro G. pose proof (g_sep _ _ _ G) as H. rewrite regs_nil in H. apply sep_app_l in H. apply sep_nodup. exact H. Qed.
  Lemma good_block v b f p n m : Good v b f -> In (p, n) b -> In (p, m) b -> n = m.
  Proof.
    intros G Hn Hm. destruct (Nat.eq_dec n m) as [e|N]; [exact e|]. exfalso. pose proof (g_sep _ _ _ G) as H. rewrite regs_nil in H.
    apply sep_app in H. destruct H as (_ & H & _). pose proof (sep_in b (p, n) (p, m) H Hn Hm) as HA.
    assert (HN : (p, n) <> (p, m)) by congruence. specialize (HA HN). apply apart_spec in HA. cbn in HA.
    destruct (g_blk _ _ _ G p n Hn), (g_blk _ _ _ G p m Hm). lia.
  Qed.

  (** Contents lie in their storage. *)
  Lemma inplace_small T : place_of T = InPlace -> size T <= 16.
  Proof.
    unfold place_of. destruct (formed T); try discriminate. destruct (Nat.leb_spec (size T) STORAGE_SIZE); [auto|discriminate].
  Qed.
  Lemma var_in A t b a T : In a A -> place_of T = InPlace -> holds_in A t b a (size T).
  Proof.
    intros Ha Hp. exists (a, 16). split; [left; apply in_map_iff; exists a; auto|]. cbn. pose proof (inplace_small T Hp). lia.
  Qed.
  Lemma temp_in A t b a T : In a t -> place_of T = InPlace -> holds_in A t b a (size T).
  Proof.
    intros Ha Hp. exists (a, 16). split; [right; left; apply in_map_iff; exists a; auto|]. cbn. pose proof (inplace_small T Hp). lia.
  Qed.
  Lemma block_in A t b p n : In (p, n) b -> holds_in A t b p n.
  Proof. intro H. exists (p, n). split; [auto|]. cbn. lia. Qed.
  Lemma suits_inplace T a : place_of T = InPlace -> Nat.divide 8 a -> suits T -> Nat.divide (align T) a.
  Proof. intros Hp Ha Hs. unfold suits in Hs. rewrite Hp in Hs. eapply Nat.divide_trans; eauto. Qed.
  Lemma suits_heap T a : place_of T = Heap -> Nat.divide 16 a -> suits T -> Nat.divide (align T) a.
  Proof. intros Hp Ha Hs. unfold suits in Hs. rewrite Hp in Hs. eapply Nat.divide_trans; eauto. Qed.

  (** *** Moving *)

  (** [f'] is [f] after the pointer (if it matters) of [a] went to [b]. *)
  Lemma move_ok v b t f s T x y : At v b t f s -> P T ->
    (In x (map fst v) \/ In x t) -> (In y (map fst v) \/ In y t) -> Nat.divide 8 x -> Nat.divide 8 y ->
    (place_of T = Refer -> f x <> None) ->
    post s (f_move T x y) (fun _ s' => exists f', At v b t f' s' /\ (place_of T <> InPlace -> f' y = f x) /\
      (place_of T = Heap -> f' x = f y) /\ (place_of T <> Heap -> x <> y -> f' x = f x) /\
      (forall z, z <> x -> z <> y -> f' z = f z) /\ (place_of T = InPlace -> forall z, f' z = f z)).
  Proof.
    intros HA HP Hx Hy Dx Dy Hr. unfold f_move. destruct (place_of T) eqn:Ep.
    - eapply post_bind; [apply (touch_at_ok v b t f s T x HA HP)|].
      { destruct Hx; [apply var_in|apply temp_in]; assumption. } { apply suits_inplace; assumption. }
      intros ? s1 H1. eapply post_weak; [apply (touch_at_ok v b t f s1 T y H1 HP)|].
      { destruct Hy; [apply var_in|apply temp_in]; assumption. } { apply suits_inplace; assumption. }
      intros ? s2 H2. exists f. split; [exact H2|]. repeat split; intros; congruence.
    - eapply post_bind; [apply (read_ok v b t f s x HA); intro E; destruct (Hr eq_refl E)|].
      intros p s1 [-> H1]. eapply post_weak; [apply (write_ok v b t f s1 y (f x) H1)|]. intros ? s2 H2. exists (upd f y (f x)). split; [exact H2|].
      split; [intros _; apply upd_eq|]. split; [discriminate|]. split; [intros _ N; apply upd_neq; exact N|].
      split; [intros z _ N; apply upd_neq; exact N|discriminate].
    - eapply post_bind; [apply (read_ok v b t f s x HA); intros _; exists T; auto|].
      intros p s1 [-> H1]. eapply post_bind; [apply (read_ok v b t f s1 y H1); intros _; exists T; auto|].
      intros q s2 [-> H2]. eapply post_bind; [apply (write_ok v b t f s2 x (f y) H2)|]. intros ? s3 H3.
      eapply post_weak; [apply (write_ok _ _ _ _ s3 y (f x) H3)|]. intros ? s4 H4. exists (upd (upd f x (f y)) y (f x)). split; [exact H4|].
      split; [intros _; apply upd_eq|]. split.
      { intros _. destruct (Nat.eq_dec x y) as [e|N]; [subst y; apply upd_eq|]. rewrite upd_neq by exact N. apply upd_eq. }
      split; [congruence|]. split; [|discriminate]. intros z Nx Ny. rewrite !upd_neq by assumption. reflexivity.
  Qed.

  (** The managers of [a] and [b] are exchanged. *)
  Definition exchanged (v v' : list (nat * option ctype)) (a b : nat) : Prop :=
    map fst v' = map fst v /\ mgr v' a = mgr v b /\ mgr v' b = mgr v a /\ (forall x, x <> a -> x <> b -> mgr v' x = mgr v x).

  Definition swapped (v : list (nat * option ctype)) (f f' : nat -> option nat) (a b : nat) : Prop :=
    (forall T, mgr v b = Some (Some T) -> place_of T <> InPlace -> f' a = f b) /\
    (forall T, mgr v a = Some (Some T) -> place_of T <> InPlace -> f' b = f a) /\
    (forall x, In x (map fst v) -> x <> a -> x <> b -> f' x = f x).

  Lemma good_swapped v v' b f f' x y : Good v b f -> exchanged v v' x y -> swapped v f f' x y -> Good v' b f'.
  Proof.
    intros G (E1 & E2 & E3 & E4) (F1 & F2 & F3).
    (* the variant whose contents those at [z] were *)
    set (old := fun z => if z =? x then y else if z =? y then x else z).
    assert (HM : forall z, mgr v' z = mgr v (old z)).
    { intro z. unfold old. destruct (Nat.eqb_spec z x) as [e|N]; [subst z; exact E2|]. destruct (Nat.eqb_spec z y) as [e|N']; [subst z; exact E3|auto]. }
    assert (HF : forall z T, mgr v' z = Some (Some T) -> place_of T <> InPlace -> f' z = f (old z)).
    { intros z T Hz Hp. rewrite HM in Hz. unfold old in *. destruct (Nat.eqb_spec z x) as [e|N]; [subst z; eapply F1; eauto|].
      destruct (Nat.eqb_spec z y) as [e|N']; [subst z; eapply F2; eauto|]. apply F3; auto. eapply mgr_fst; eauto. }
    assert (HI : forall z z', old z = old z' -> z = z').
    { intros z z'. unfold old. destruct (Nat.eqb_spec z x), (Nat.eqb_spec z' x), (Nat.eqb_spec z y), (Nat.eqb_spec z' y); congruence. }
    assert (HO : forall z, old (old z) = z).
    { intro z. unfold old. destruct (Nat.eqb_spec z x) as [e|N].
      - subst z. destruct (Nat.eqb_spec y x) as [e|N]; [exact e|]. rewrite Nat.eqb_refl. reflexivity.
      - destruct (Nat.eqb_spec z y) as [e|N']; [subst z; rewrite Nat.eqb_refl; reflexivity|].
        apply Nat.eqb_neq in N. rewrite N. apply Nat.eqb_neq in N'. rewrite N'. reflexivity. }
    destruct G as [G1 G2 G3 G4 G5 G6 G7 G8]. constructor.
    - rewrite E1. exact G1.
    - rewrite E1. exact G2.
    - exact G3.
    - intros a T Ha Hp. rewrite (HF a T Ha) by congruence. rewrite HM in Ha. eapply G4; eauto.
    - intros a T Ha Hp. rewrite (HF a T Ha) by congruence. rewrite HM in Ha. eapply G5; eauto.
    - intros a a' T T' Ha Ha' Hp Hp' E. rewrite (HF a T Ha), (HF a' T' Ha') in E by congruence. rewrite HM in Ha, Ha'. apply HI. eapply G6; eauto.
    - intros p n Hin. destruct (G7 p n Hin) as (a & T & Ha & Hp & Hf). exists (old a), T. rewrite HM, HO. split; [exact Ha|]. split; [exact Hp|].
      rewrite (HF (old a) T), HO; [exact Hf|rewrite HM, HO; exact Ha|congruence].
    - intros a T Ha. rewrite HM in Ha. eapply G8; eauto.
  Qed.

  Lemma exchange_set v x y m n : mgr v x = Some m -> mgr v y = Some n -> exchanged v (setm (setm v x n) y m) x y.
  Proof.
    intros Hx Hy. split; [rewrite !setm_fst; reflexivity|]. rewrite !setm_mgr, !Nat.eqb_refl, Hx, Hy. split; [|split].
    - destruct (Nat.eqb_spec x y) as [e|N].
      + subst y. rewrite Hx in Hy. injection Hy as ->. rewrite Nat.eqb_refl. reflexivity.
      + reflexivity.
    - destruct (Nat.eqb_spec y x); reflexivity.
    - intros z N1 N2. rewrite !setm_mgr. apply Nat.eqb_neq in N1. apply Nat.eqb_neq in N2. rewrite N1, N2. reflexivity.
  Qed.

  Lemma swap_ok v b f s x y : At v b [] f s -> Good v b f ->
    post s (swap x y) (fun _ s' => exists v' f', At v' b [] f' s' /\ exchanged v v' x y /\ swapped v f f' x y).
  Proof.
    intros HA G. unfold swap. eapply post_bind; [apply (manager_ok v b [] f s x HA)|]. intros m s1 [Hm H1].
    eapply post_bind; [apply (manager_ok v b [] f s1 y H1)|]. intros n s2 [Hn H2].
    pose proof (mgr_fst _ _ _ Hm) as Fx. pose proof (mgr_fst _ _ _ Hn) as Fy.
    pose proof (g_var _ _ _ G x Fx) as Dx. pose proof (g_var _ _ _ G y Fy) as Dy.
    destruct m as [T|], n as [U|].
    - (* both *)
      pose proof (g_P _ _ _ G x T Hm) as PT. pose proof (g_P _ _ _ G y U Hn) as PU.
      eapply post_bind; [apply (push_ok v b [] f s2 H2)|]. intros t s3 (H3 & Dt & At3).
      assert (Nt : forall z, In z (map fst v) -> z <> t).
      { intros z Hz e. subst z. rewrite regs_nil, forallb_app in At3. apply andb_true_iff in At3. destruct At3 as [At3 _].
        rewrite forallb_forall in At3. specialize (At3 (t, 24) (in_map (fun a => (a, 24)) _ _ Hz)). apply apart_spec in At3. cbn in At3. lia. }
      eapply post_bind; [apply (move_ok v b [t] _ s3 T x t H3 PT); auto; [right; left; reflexivity|]|].
      { intro E. rewrite upd_neq by auto. eapply g_refer; eauto. }
      intros ? s4 (f1 & H4 & M1 & M2 & M3 & M4 & M5).
      eapply post_bind; [apply (move_ok v b [t] _ s4 U y x H4 PU); auto|].
      { intro E. destruct (Nat.eq_dec y x) as [e|N].
        - subst y. rewrite Hm in Hn. injection Hn as <-. rewrite M3, upd_neq by (auto; congruence). eapply g_refer; eauto.
        - rewrite M4, upd_neq by auto. eapply g_refer; eauto. }
      intros ? s5 (f2 & H5 & N1 & N2 & N3 & N4 & N5).
      eapply post_bind; [apply (move_ok v b [t] _ s5 T t y H5 PT); auto; [right; left; reflexivity|]|].
      { intro E. destruct (Nat.eq_dec t x) as [e|_]; [destruct (Nt x Fx); auto|]. rewrite N4; [|intro e; apply (Nt y Fy); auto|intro e; apply (Nt x Fx); auto].
        rewrite M1 by congruence. rewrite upd_neq by auto. eapply g_refer; eauto. }
      intros ? s6 (f3 & H6 & O1 & O2 & O3 & O4 & O5).
      eapply post_bind; [apply (set_manager_ok _ _ _ _ s6 x (Some U) H6)|]. intros ? s7 H7.
      eapply post_bind; [apply (set_manager_ok _ _ _ _ s7 y (Some T) H7)|]. intros ? s8 H8.
      eapply post_weak; [apply (pop_temp_ok _ _ _ _ s8 t H8)|]. intros ? s9 H9. eexists. exists f3. split; [exact H9|].
      split; [apply exchange_set; assumption|].
      assert (Ft : place_of T <> InPlace -> f2 t = f x).
      { intro E. rewrite N4; [|intro e; apply (Nt y Fy); auto|intro e; apply (Nt x Fx); auto]. rewrite M1 by exact E. apply upd_neq; auto. }
      assert (Fx2 : place_of U <> InPlace -> x <> y -> f2 x = f y).
      { intros E N. rewrite N1 by exact E. rewrite M4; [|auto|auto]. apply upd_neq; auto. }
      split; [|split].
      + intros U' HU' EU. rewrite Hn in HU'. injection HU' as <-. destruct (Nat.eq_dec x y) as [e|N].
        * subst y. rewrite Hm in Hn. injection Hn as <-. rewrite O1 by exact EU. apply Ft. exact EU.
        * rewrite O4; [auto|apply Nt; exact Fx|exact N].
      + intros T' HT' ET. rewrite Hm in HT'. injection HT' as <-. rewrite O1 by exact ET. apply Ft. exact ET.
      + intros z Hz Zx Zy. rewrite O4, N4, M4, upd_neq; auto.
    - (* into y *)
      pose proof (g_P _ _ _ G x T Hm) as PT.
      eapply post_bind; [apply (move_ok v b [] f s2 T x y H2 PT); auto|]. { intro E. eapply g_refer; eauto. }
      intros ? s4 (f1 & H4 & M1 & M2 & M3 & M4 & M5).
      eapply post_bind; [apply (set_manager_ok _ _ _ _ s4 y (Some T) H4)|]. intros ? s7 H7.
      eapply post_bind; [apply (set_manager_ok _ _ _ _ s7 x None H7)|]. intros ? s8 H8.
      eapply post_weak; [apply (write_ok _ _ _ _ s8 x (Some 0) H8)|]. intros ? s9 H9. eexists. eexists. split; [exact H9|].
      assert (N : y <> x) by (intro e; subst y; congruence).
      split.
      { destruct (exchange_set v y x None (Some T) Hn Hm) as (X1 & X2 & X3 & X4). split; [exact X1|]. split; [exact X3|]. split; [exact X2|].
        intros z Z1 Z2. apply X4; assumption. }
      split; [|split].
      + intros U HU. congruence.
      + intros T' HT' ET. rewrite Hm in HT'. injection HT' as <-. rewrite upd_neq by exact N. apply M1. exact ET.
      + intros z Hz Zx Zy. rewrite upd_neq by exact Zx. apply M4; assumption.
    - (* into x *)
      pose proof (g_P _ _ _ G y U Hn) as PU.
      eapply post_bind; [apply (move_ok v b [] f s2 U y x H2 PU); auto|]. { intro E. eapply g_refer; eauto. }
      intros ? s4 (f1 & H4 & M1 & M2 & M3 & M4 & M5).
      eapply post_bind; [apply (set_manager_ok _ _ _ _ s4 x (Some U) H4)|]. intros ? s7 H7.
      eapply post_bind; [apply (set_manager_ok _ _ _ _ s7 y None H7)|]. intros ? s8 H8.
      eapply post_weak; [apply (write_ok _ _ _ _ s8 y (Some 0) H8)|]. intros ? s9 H9. eexists. eexists. split; [exact H9|].
      assert (N : x <> y) by (intro e; subst y; congruence).
      split; [apply exchange_set; assumption|]. split; [|split].
      + intros U' HU' EU. rewrite Hn in HU'. injection HU' as <-. rewrite upd_neq by exact N. apply M1. exact EU.
      + intros T HT. congruence.
      + intros z Hz Zx Zy. rewrite upd_neq by exact Zy. apply M4; assumption.
    - apply post_ret. exists v, f. split; [exact H2|]. split.
      + split; [reflexivity|]. split; [congruence|]. split; [congruence|]. auto.
      + split; [intros; congruence|]. split; [intros; congruence|]. auto.
  Qed.

  (** *** Making, filling, emptying and removing *)

  Lemma good_place v b f a : Good v b f -> Nat.divide 8 a -> forallb (apart (a, 24)) (regs (map fst v) [] b) = true ->
    Good ((a, None) :: v) b (upd f a None) /\ ~ In a (map fst v).
  Proof.
    intros G Da Ha. assert (Hn : ~ In a (map fst v)).
    { intro Hz. rewrite regs_nil, forallb_app in Ha. apply andb_true_iff in Ha. destruct Ha as [Ha _].
      rewrite forallb_forall in Ha. specialize (Ha (a, 24) (in_map (fun a => (a, 24)) _ _ Hz)). apply apart_24 in Ha. congruence. }
    split; [|exact Hn].
    assert (HM : forall z T, mgr ((a, None) :: v) z = Some (Some T) -> mgr v z = Some (Some T) /\ upd f a None z = f z).
    { intros z T. cbn [mgr]. destruct (Nat.eqb_spec a z) as [e|N]; [discriminate|]. intro H. split; [exact H|]. apply upd_neq. auto. }
    destruct G as [G1 G2 G3 G4 G5 G6 G7 G8]. constructor.
    - cbn [map fst regs app]. constructor; assumption.
    - intros z [<-|Hz]; auto.
    - exact G3.
    - intros z T Hz Hp. apply HM in Hz. destruct Hz as [Hz ->]. eapply G4; eauto.
    - intros z T Hz Hp. apply HM in Hz. destruct Hz as [Hz ->]. eapply G5; eauto.
    - intros z z' T T' Hz Hz' Hp Hp'. apply HM in Hz, Hz'. destruct Hz as [Hz ->], Hz' as [Hz' ->]. eapply G6; eauto.
    - intros p n Hin. destruct (G7 p n Hin) as (z & T & Hz & Hp & Hf). exists z, T.
      assert (N : z <> a) by (intros ->; apply Hn; eapply mgr_fst; eauto).
      rewrite upd_neq by exact N. cbn [mgr]. apply Nat.eqb_neq in N. rewrite Nat.eqb_sym, N. auto.
    - intros z T Hz. apply HM in Hz. eapply G8; apply Hz.
  Qed.

  (** How the heap changes when an object of type [T] comes to the empty variant [a]. *)
  Definition filled (v : list (nat * option ctype)) (b b' : list (nat * nat)) (f' : nat -> option nat) (a : nat) (T : ctype) : Prop :=
    match place_of T with
    | InPlace => b' = b
    | Refer => b' = b /\ f' a <> None
    | Heap => exists p, f' a = Some p /\ b' = (p, size T) :: b /\ Nat.divide 16 p /\ forallb (apart (p, size T)) (regs (map fst v) [] b) = true
    end.
  Lemma good_fill v b b' f f' a T : Good v b f -> mgr v a = Some None -> P T -> (forall z, z <> a -> f' z = f z) -> filled v b b' f' a T ->
    Good (setm v a (Some T)) b' f'.
  Proof.
    intros G Ha HP Hf HF.
    assert (HM : forall z U, mgr (setm v a (Some T)) z = Some (Some U) -> (z = a /\ U = T) \/ (z <> a /\ mgr v z = Some (Some U) /\ f' z = f z)).
    { intros z U. rewrite setm_mgr, Ha. destruct (Nat.eqb_spec z a) as [e|N]; [intros [= <-]; auto|]. intro H. right. auto. }
    assert (HO : forall z U, mgr v z = Some (Some U) -> mgr (setm v a (Some T)) z = Some (Some U) /\ f' z = f z).
    { intros z U Hz. assert (N : z <> a) by congruence. rewrite setm_mgr. split; [|auto]. apply Nat.eqb_neq in N. rewrite N. exact Hz. }
    destruct G as [G1 G2 G3 G4 G5 G6 G7 G8].
    assert (HB : forall p n, In (p, n) b -> In (p, n) b').
    { intros p n Hin. unfold filled in HF. destruct (place_of T); [subst; exact Hin|destruct HF as [-> _]; exact Hin|].
      destruct HF as (q & _ & -> & _). right. exact Hin. }
    constructor.
    - rewrite setm_fst. unfold filled in HF. destruct (place_of T); [subst b'; exact G1|destruct HF as [-> _]; exact G1|].
      destruct HF as (q & _ & -> & _ & HA). rewrite regs_nil in *. eapply sep_perm; [|apply (sep_cons (q, size T) _ HA G1)]. apply Permutation_middle.
    - rewrite setm_fst. exact G2.
    - unfold filled in HF. destruct (place_of T); [subst b'; exact G3|destruct HF as [-> _]; exact G3|].
      destruct HF as (q & _ & -> & D & _). intros p n [[= <- <-]|Hin]; [|auto]. split; [exact D|]. apply (Pproper T HP).
    - intros z U Hz Hp. destruct (HM z U Hz) as [[-> ->]|(N & Hz' & ->)].
      + unfold filled in HF. rewrite Hp in HF. destruct HF as (q & Hq & -> & _). exists q. split; [exact Hq|]. left. reflexivity.
      + destruct (G4 z U Hz' Hp) as (q & Hq & Hin). exists q. auto.
    - intros z U Hz Hp. destruct (HM z U Hz) as [[-> ->]|(N & Hz' & ->)]; [|eapply G5; eauto]. unfold filled in HF. rewrite Hp in HF. apply HF.
    - assert (NEW : forall z U, mgr v z = Some (Some U) -> place_of U = Heap -> place_of T = Heap -> f' a = f z -> False).
      { intros z U Hz Hp HT E. unfold filled in HF. rewrite HT in HF. destruct HF as (q & Hq & _ & _ & HA).
        destruct (G4 z U Hz Hp) as (r & Hr & Hin). assert (r = q) by congruence. subst r. rewrite regs_nil, forallb_app in HA.
        apply andb_true_iff in HA. destruct HA as [_ HA]. rewrite forallb_forall in HA. specialize (HA _ Hin). apply apart_spec in HA. cbn in HA.
        destruct (G3 _ _ Hin). destruct (Pproper T HP). lia. }
      intros z z' U U' Hz Hz' Hp Hp' E. destruct (HM z U Hz) as [[-> ->]|(N & Hy & Ey)], (HM z' U' Hz') as [[-> ->]|(N' & Hy' & Ey')].
      + reflexivity.
      + exfalso. apply (NEW z' U' Hy' Hp' Hp). congruence.
      + exfalso. apply (NEW z U Hy Hp Hp'). congruence.
      + rewrite Ey, Ey' in E. eapply G6; eauto.
    - intros p n Hin. assert (Hc : In (p, n) b \/ (place_of T = Heap /\ f' a = Some p)).
      { unfold filled in HF. destruct (place_of T); [subst b'; auto|destruct HF as [-> _]; auto|]. destruct HF as (q & Hq & -> & _).
        destruct Hin as [[= <- <-]|Hin]; auto. }
      destruct Hc as [Hc|[HT Hq]].
      + destruct (G7 p n Hc) as (z & U & Hz & Hp & Hq). exists z, U. destruct (HO z U Hz) as [X ->]. auto.
      + exists a, T. split; [|auto]. rewrite setm_mgr, Nat.eqb_refl, Ha. reflexivity.
    - intros z U Hz. destruct (HM z U Hz) as [[-> ->]|(N & Hz' & _)]; [exact HP|eapply G8; eauto].
  Qed.

  Definition emptied (b b' : list (nat * nat)) (f : nat -> option nat) (a : nat) (m : option ctype) : Prop :=
    match m with
    | Some T => match place_of T with Heap => exists p, f a = Some p /\ b' = filter (fun r => negb (fst r =? p)) b | _ => b' = b end
    | None => b' = b
    end.
  Lemma good_empty v b b' f f' a m : Good v b f -> mgr v a = Some m -> (forall z, z <> a -> f' z = f z) -> emptied b b' f a m ->
    Good (setm v a None) b' f'.
  Proof.
    intros G Ha Hf HE.
    assert (HM : forall z U, mgr (setm v a None) z = Some (Some U) -> z <> a /\ mgr v z = Some (Some U) /\ f' z = f z).
    { intros z U. rewrite setm_mgr, Ha. destruct (Nat.eqb_spec z a) as [e|N]; [discriminate|]. auto. }
    destruct G as [G1 G2 G3 G4 G5 G6 G7 G8].
    assert (HB : forall p n, In (p, n) b' -> In (p, n) b /\ (forall T, m = Some T -> place_of T = Heap -> f a <> Some p)).
    { intros p n Hin. unfold emptied in HE. destruct m as [T|]; [|subst b'; split; [exact Hin|discriminate]].
      destruct (place_of T) eqn:Ep; [subst b'; split; [exact Hin|intros U [= <-]; congruence]|subst b'; split; [exact Hin|intros U [= <-]; congruence]|].
      destruct HE as (q & Hq & ->). apply filter_In in Hin. destruct Hin as [Hin Hn]. split; [exact Hin|]. intros U _ _ E. cbn in Hn.
      apply negb_true_iff, Nat.eqb_neq in Hn. congruence. }
    assert (HC : forall p n, In (p, n) b -> (forall T, m = Some T -> place_of T = Heap -> f a <> Some p) -> In (p, n) b').
    { intros p n Hin Hx. unfold emptied in HE. destruct m as [T|]; [|subst b'; exact Hin]. destruct (place_of T) eqn:Ep; try (subst b'; exact Hin).
      destruct HE as (q & Hq & ->). apply filter_In. split; [exact Hin|]. cbn. apply negb_true_iff, Nat.eqb_neq. intro e. subst q.
      exact (Hx T eq_refl Ep Hq). }
    constructor.
    - rewrite setm_fst, regs_nil in *. apply sep_app in G1. destruct G1 as (S1 & S2 & S3). apply sep_app. split; [exact S1|]. split.
      + unfold emptied in HE. destruct m as [T|]; [|subst b'; exact S2]. destruct (place_of T); try (subst b'; exact S2).
        destruct HE as (q & _ & ->). apply sep_filter. exact S2.
      + intros r [p n] Hr Hq. apply S3; [exact Hr|]. apply (HB p n Hq).
    - rewrite setm_fst. exact G2.
    - intros p n Hin. apply G3. apply (HB p n Hin).
    - intros z U Hz Hp. destruct (HM z U Hz) as (N & Hy & ->). destruct (G4 z U Hy Hp) as (q & Hq & Hin). exists q. split; [exact Hq|].
      apply HC; [exact Hin|]. intros T -> HT E. apply N. eapply G6; eauto. congruence.
    - intros z U Hz Hp. destruct (HM z U Hz) as (N & Hy & ->). eapply G5; eauto.
    - intros z z' U U' Hz Hz' Hp Hp' E. destruct (HM z U Hz) as (N & Hy & Ey), (HM z' U' Hz') as (N' & Hy' & Ey'). rewrite Ey, Ey' in E. eapply G6; eauto.
    - intros p n Hin. destruct (HB p n Hin) as [Hc Hx]. destruct (G7 p n Hc) as (z & U & Hz & Hp & Hq). exists z, U.
      assert (N : z <> a). { intros ->. rewrite Ha in Hz. injection Hz as ->. exact (Hx U eq_refl Hp Hq). }
      rewrite setm_mgr, Hf by exact N. apply Nat.eqb_neq in N. rewrite N. auto.
    - intros z U Hz. destruct (HM z U Hz) as (N & Hy & _). eapply G8; eauto.
  Qed.

  Lemma filter_mgr v a z : z <> a -> mgr (filter (fun w : nat * option ctype => negb (fst w =? a)) v) z = mgr v z.
  Proof.
    intro N. induction v as [|[x m] v IH]; [reflexivity|]. cbn [filter fst mgr]. destruct (Nat.eqb_spec x a) as [e|N']; cbn [negb mgr].
    - subst x. rewrite IH. apply not_eq_sym in N. apply Nat.eqb_neq in N. rewrite N. reflexivity.
    - rewrite IH. reflexivity.
  Qed.
  Lemma filter_fst v a z : In z (map fst (filter (fun w : nat * option ctype => negb (fst w =? a)) v)) <-> z <> a /\ In z (map fst v).
  Proof.
    rewrite !in_map_iff. split.
    - intros ([x m] & <- & H). apply filter_In in H. destruct H as [H1 H2]. cbn in *. apply negb_true_iff, Nat.eqb_neq in H2.
      split; [exact H2|]. exists (x, m). auto.
    - intros [N ([x m] & <- & H)]. exists (x, m). split; [reflexivity|]. apply filter_In. split; [exact H|]. cbn in *. apply negb_true_iff, Nat.eqb_neq.
      exact N.
  Qed.
  Lemma filter_fst_eq v a : map fst (filter (fun w : nat * option ctype => negb (fst w =? a)) v) = filter (fun x => negb (x =? a)) (map fst v).
  Proof. induction v as [|[x m] v IH]; [reflexivity|]. cbn. destruct (x =? a); cbn; rewrite IH; reflexivity. Qed.
  Lemma map_filter_24 A a : map (fun x => (x, 24)) (filter (fun x => negb (x =? a)) A) = filter (fun r => negb (fst r =? a)) (map (fun x => (x, 24)) A).
  Proof. induction A as [|x A IH]; [reflexivity|]. cbn. destruct (x =? a); cbn; rewrite IH; reflexivity. Qed.

  Lemma good_remove v b f a : Good v b f -> mgr v a = Some None -> Good (filter (fun w : nat * option ctype => negb (fst w =? a)) v) b f.
  Proof.
    intros G Ha. set (v' := filter _ v).
    assert (HM : forall z U, mgr v' z = Some (Some U) -> mgr v z = Some (Some U)).
    { intros z U Hz. destruct (Nat.eq_dec z a) as [e|N].
      - subst z. apply mgr_fst in Hz. apply filter_fst in Hz. destruct Hz; congruence.
      - rewrite <- Hz. symmetry. apply filter_mgr. exact N. }
    assert (HO : forall z U, mgr v z = Some (Some U) -> mgr v' z = Some (Some U)).
    { intros z U Hz. unfold v'. rewrite filter_mgr; [exact Hz|congruence]. }
    destruct G as [G1 G2 G3 G4 G5 G6 G7 G8]. constructor.
    - unfold v'. rewrite regs_nil in *. rewrite filter_fst_eq, map_filter_24. apply sep_app in G1. destruct G1 as (S1 & S2 & S3). apply sep_app.
      split; [apply sep_filter; exact S1|]. split; [exact S2|]. intros r q Hr Hq. apply filter_In in Hr. apply S3; [apply Hr|exact Hq].
    - intros z Hz. apply G2. apply filter_fst in Hz. apply Hz.
    - exact G3.
    - intros z T Hz Hp. eapply G4; eauto.
    - intros z T Hz Hp. eapply G5; eauto.
    - intros z z' T T' Hz Hz' Hp Hp'. eapply G6; eauto.
    - intros p n Hin. destruct (G7 p n Hin) as (z & T & Hz & Hp & Hf). exists z, T. auto.
    - intros z T Hz. eapply G8; eauto.
  Qed.

  (** *** The operations *)

  (** What a good state is after an operation that may have changed everything. *)
  Definition fine (s : state) : Prop := exists v b f, At v b [] f s /\ Good v b f.

  Lemma touch_at_some v b t f s T p : At v b t f s -> P T -> place_of T = Heap -> In (p, size T) b -> Nat.divide 16 p ->
    post s (touch T p) (fun _ s' => At v b t f s').
  Proof.
    intros HA HP Hp Hin D. apply touch_at_ok; auto; [apply block_in; exact Hin|]. apply suits_heap; assumption.
  Qed.

  Lemma construct_ok v b f s a T x : At (setm v a (Some T)) b [] f s -> Good v b f -> mgr v a = Some None -> P T ->
    post s (f_construct T x a) (fun _ s' => exists b' f', At (setm v a (Some T)) b' [] f' s' /\ Good (setm v a (Some T)) b' f' /\ (forall z, z <> a -> f' z = f z)).
  Proof.
    intros HA G Ha HP. unfold f_construct. destruct (place_of T) eqn:Ep.
    - eapply post_weak; [apply (touch_at_ok _ _ _ _ s T a HA HP)|].
      { apply var_in; [|exact Ep]. rewrite setm_fst. eapply mgr_fst; eauto. }
      { apply suits_inplace; [exact Ep|]. eapply g_var; [exact G|]. eapply mgr_fst; eauto. }
      intros ? s1 H1. exists b, f. split; [exact H1|]. split; [|auto]. eapply good_fill; eauto. unfold filled. rewrite Ep. reflexivity.
    - eapply post_weak; [apply (write_ok _ _ _ _ s a (Some x) HA)|]. intros ? s1 H1. exists b, (upd f a (Some x)). split; [exact H1|].
      split; [|intros z N; apply upd_neq; exact N].
      eapply good_fill; eauto; [intros z N; apply upd_neq; exact N|]. unfold filled. rewrite Ep, upd_eq. split; [reflexivity|discriminate].
    - eapply post_bind; [apply (allocate_ok _ _ _ _ s (size T) HA)|]. intros p s1 (H1 & D & AP). rewrite setm_fst in AP.
      eapply post_bind; [apply (write_ok _ _ _ _ s1 a (Some p) H1)|]. intros ? s2 H2.
      eapply post_weak; [apply (touch_at_some _ _ _ _ s2 T p H2 HP Ep); [left; reflexivity|exact D]|]. intros ? s3 H3.
      eexists. eexists. split; [exact H3|]. split; [|intros z N; apply upd_neq; exact N].
      eapply good_fill; eauto; [intros z N; apply upd_neq; exact N|]. unfold filled. rewrite Ep, upd_eq.
      exists p. auto.
  Qed.
  Lemma copy_ok v b f s y a T : At (setm v a (Some T)) b [] f s -> Good v b f -> mgr v a = Some None -> mgr v y = Some (Some T) ->
    post s (f_copy T y a) (fun _ s' => exists b' f', At (setm v a (Some T)) b' [] f' s' /\ Good (setm v a (Some T)) b' f' /\ (forall z, z <> a -> f' z = f z)).
  Proof.
    intros HA G Ha Hy. assert (N : y <> a) by congruence. pose proof (g_P _ _ _ G y T Hy) as HP.
    pose proof (mgr_fst _ _ _ Hy) as Fy. pose proof (mgr_fst _ _ _ Ha) as Fa.
    unfold f_copy. destruct (place_of T) eqn:Ep.
    - eapply post_bind; [apply (touch_at_ok _ _ _ _ s T y HA HP)|].
      { apply var_in; [|exact Ep]. rewrite setm_fst. exact Fy. }
      { apply suits_inplace; [exact Ep|]. eapply g_var; eauto. }
      intros ? s0 H0. eapply post_weak; [apply (touch_at_ok _ _ _ _ s0 T a H0 HP)|].
      { apply var_in; [|exact Ep]. rewrite setm_fst. exact Fa. }
      { apply suits_inplace; [exact Ep|]. eapply g_var; eauto. }
      intros ? s1 H1. exists b, f. split; [exact H1|]. split; [|auto]. eapply good_fill; eauto. unfold filled. rewrite Ep. reflexivity.
    - pose proof (g_refer _ _ _ G y T Hy Ep) as Hr.
      eapply post_bind; [apply (read_ok _ _ _ _ s y HA); contradiction|]. intros p s0 [-> H0].
      eapply post_weak; [apply (write_ok _ _ _ _ s0 a (f y) H0)|]. intros ? s1 H1. exists b, (upd f a (f y)). split; [exact H1|].
      split; [|intros z Nz; apply upd_neq; exact Nz].
      eapply good_fill; eauto; [intros z Nz; apply upd_neq; exact Nz|]. unfold filled. rewrite Ep, upd_eq. split; [reflexivity|exact Hr].
    - destruct (g_heap _ _ _ G y T Hy Ep) as (q & Hq & Hin).
      eapply post_bind; [apply (allocate_ok _ _ _ _ s (size T) HA)|]. intros p s1 (H1 & D & AP). rewrite setm_fst in AP.
      eapply post_bind; [apply (write_ok _ _ _ _ s1 a (Some p) H1)|]. intros ? s2 H2.
      eapply post_bind; [apply (read_ok _ _ _ _ s2 y H2); rewrite upd_neq by exact N; congruence|]. intros q' s3 [-> H3]. rewrite upd_neq, Hq by exact N.
      cbn [touch_at]. eapply post_bind; [apply (touch_at_some _ _ _ _ s3 T q H3 HP Ep); [right; exact Hin|eapply (g_blk _ _ _ G); eauto]|]. intros ? s4 H4.
      eapply post_weak; [apply (touch_at_some _ _ _ _ s4 T p H4 HP Ep); [left; reflexivity|exact D]|]. intros ? s5 H5.
      eexists. eexists. split; [exact H5|]. split; [|intros z Nz; apply upd_neq; exact Nz].
      eapply good_fill; eauto; [intros z Nz; apply upd_neq; exact Nz|]. unfold filled. rewrite Ep, upd_eq.
      exists p. auto.
  Qed.

  Lemma mgr_head v a m : mgr ((a, m) :: v) a = Some m.
  Proof. cbn. rewrite Nat.eqb_refl. reflexivity. Qed.

  (** A variant is made: the others are left alone. *)
  Definition made (v : list (nat * option ctype)) (f : nat -> option nat) (a : nat) (m : option ctype) (s' : state) : Prop :=
    exists v' b' f', At v' b' [] f' s' /\ Good v' b' f' /\ mgr v' a = Some m /\ mgr v a = None /\
      (forall z, z <> a -> mgr v' z = mgr v z) /\ (forall z, z <> a -> f' z = f z).

  Lemma from_value_ok v b f s a T x : At v b [] f s -> Good v b f -> P T -> post s (from_value a T x) (fun _ => made v f a (Some T)).
  Proof.
    intros HA G HP. unfold from_value. eapply post_bind; [apply (place_ok _ _ _ _ s a HA)|]. intros ? s1 (H1 & D & AP).
    destruct (good_place v b f a G D AP) as [G1 Hn].
    eapply post_bind; [apply (set_manager_ok _ _ _ _ s1 a (Some T) H1)|]. intros ? s2 H2.
    eapply post_weak; [apply (construct_ok _ _ _ s2 a T x H2 G1 (mgr_head _ _ _) HP)|]. intros ? s3 (b' & f' & H3 & G3 & F3).
    eexists. exists b', f'. split; [exact H3|]. split; [exact G3|]. split; [rewrite setm_mgr, Nat.eqb_refl, mgr_head; reflexivity|].
    split; [apply mgr_none; exact Hn|]. split.
    - intros z N. rewrite setm_mgr. cbn [mgr]. rewrite (Nat.eqb_sym a z). apply Nat.eqb_neq in N. rewrite N. reflexivity.
    - intros z N. rewrite F3 by exact N. apply upd_neq. exact N.
  Qed.
  Lemma copy_of_ok v b f s a y : At v b [] f s -> Good v b f -> post s (copy_of a y) (fun _ s' => exists m, mgr v y = Some m /\ made v f a m s').
  Proof.
    intros HA G. unfold copy_of. eapply post_bind; [apply (manager_ok _ _ _ _ s y HA)|]. intros m s0 [Hy H0].
    eapply post_bind; [apply (place_ok _ _ _ _ s0 a H0)|]. intros ? s1 (H1 & D & AP).
    destruct (good_place v b f a G D AP) as [G1 Hn]. assert (N : y <> a) by (intros ->; apply Hn; eapply mgr_fst; eauto).
    eapply post_bind; [apply (set_manager_ok _ _ _ _ s1 a m H1)|]. intros ? s2 H2.
    assert (HZ : forall z, z <> a -> mgr (setm ((a, None) :: v) a m) z = mgr v z).
    { intros z Nz. rewrite setm_mgr. cbn [mgr]. rewrite (Nat.eqb_sym a z). apply Nat.eqb_neq in Nz. rewrite Nz. reflexivity. }
    destruct m as [T|].
    - eapply post_weak; [apply (copy_ok _ _ _ s2 y a T H2 G1 (mgr_head _ _ _))|].
      { cbn [mgr]. apply not_eq_sym in N. apply Nat.eqb_neq in N. rewrite N. exact Hy. }
      intros ? s3 (b' & f' & H3 & G3 & F3). exists (Some T). split; [exact Hy|].
      eexists. exists b', f'. split; [exact H3|]. split; [exact G3|]. split; [rewrite setm_mgr, Nat.eqb_refl, mgr_head; reflexivity|].
      split; [apply mgr_none; exact Hn|]. split; [exact HZ|]. intros z Nz. rewrite F3 by exact Nz. apply upd_neq. exact Nz.
    - apply post_ret. exists None. split; [exact Hy|]. eexists. eexists. eexists. split; [exact H2|]. split.
      { eapply good_empty; [exact G1|apply mgr_head|reflexivity|reflexivity]. }
      split; [rewrite setm_mgr, Nat.eqb_refl, mgr_head; reflexivity|]. split; [apply mgr_none; exact Hn|]. split; [exact HZ|].
      intros z Nz. apply upd_neq. exact Nz.
  Qed.

  Lemma destroy_ok v b f s a T : At v b [] f s -> Good v b f -> mgr v a = Some (Some T) ->
    post s (f_destroy T a) (fun _ s' => exists b', At v b' [] f s' /\ emptied b b' f a (Some T)).
  Proof.
    intros HA G Ha. pose proof (g_P _ _ _ G a T Ha) as HP. pose proof (mgr_fst _ _ _ Ha) as Fa. unfold f_destroy, emptied. destruct (place_of T) eqn:Ep.
    - eapply post_weak; [apply (touch_at_ok _ _ _ _ s T a HA HP)|].
      { apply var_in; assumption. } { apply suits_inplace; [exact Ep|]. eapply g_var; eauto. }
      intros ? s1 H1. exists b. auto.
    - apply post_ret. exists b. auto.
    - destruct (g_heap _ _ _ G a T Ha Ep) as (q & Hq & Hin).
      eapply post_bind; [apply (read_ok _ _ _ _ s a HA); congruence|]. intros p s1 [-> H1]. rewrite Hq. cbn [touch_at].
      eapply post_bind; [apply (touch_at_some _ _ _ _ s1 T q H1 HP Ep Hin); eapply (g_blk _ _ _ G); eauto|]. intros ? s2 H2.
      eapply post_weak; [apply (deallocate_ok _ _ _ _ s2 q (size T) H2 Hin)|]. intros ? s3 H3. eexists. split; [exact H3|]. exists q. auto.
  Qed.
  Lemma clear_ok v b f s a : At v b [] f s -> Good v b f ->
    post s (clear a) (fun _ s' => exists b' f', At (setm v a None) b' [] f' s' /\ Good (setm v a None) b' f' /\ mgr (setm v a None) a = Some None /\
      (forall z, z <> a -> f' z = f z)).
  Proof.
    intros HA G. unfold clear. eapply post_bind; [apply (manager_ok _ _ _ _ s a HA)|]. intros m s0 [Ha H0].
    eapply (post_bind _ _ _ (fun _ s' => exists b', At v b' [] f s' /\ emptied b b' f a m)).
    { destruct m as [T|]; [apply destroy_ok; assumption|]. apply post_ret. exists b. split; [exact H0|reflexivity]. }
    intros ? s1 (b' & H1 & HE).
    eapply post_bind; [apply (set_manager_ok _ _ _ _ s1 a None H1)|]. intros ? s2 H2.
    eapply post_weak; [apply (write_ok _ _ _ _ s2 a (Some 0) H2)|]. intros ? s3 H3. exists b'. eexists. split; [exact H3|].
    split; [|split; [rewrite setm_mgr, Nat.eqb_refl, Ha; reflexivity|intros z N; apply upd_neq; exact N]].
    eapply good_empty; eauto. intros z N. apply upd_neq. exact N.
  Qed.
  (** The others are left alone. *)
  Definition dropped (v : list (nat * option ctype)) (f : nat -> option nat) (a : nat) (s' : state) : Prop :=
    exists v' b' f', At v' b' [] f' s' /\ Good v' b' f' /\ mgr v' a = None /\
      (forall z, z <> a -> mgr v' z = mgr v z) /\ (forall z, z <> a -> f' z = f z).
  Lemma destructor_ok v b f s a : At v b [] f s -> Good v b f -> post s (destructor a) (fun _ => dropped v f a).
  Proof.
    intros HA G. unfold destructor. eapply post_bind; [apply (clear_ok v b f s a HA G)|]. intros ? s1 (b' & f' & H1 & G1 & Ha & F1).
    eapply post_weak; [apply (remove_ok _ _ _ _ s1 a H1)|]. intros ? s2 H2. eexists. exists b', f'. split; [exact H2|].
    split; [apply good_remove; assumption|]. split; [|split; [|exact F1]].
    - apply mgr_none. intro H. apply filter_fst in H. destruct H. congruence.
    - intros z N. rewrite filter_mgr, setm_mgr by exact N. apply Nat.eqb_neq in N. rewrite N. reflexivity.
  Qed.

  Lemma moved_from_ok v b f s a y : At v b [] f s -> Good v b f ->
    post s (moved_from a y) (fun _ s' => exists v1 v' f' m, At v' b [] f' s' /\ Good v' b f' /\
      mgr v y = Some m /\ a <> y /\ mgr v a = None /\ v1 = (a, None) :: v /\ exchanged v1 v' a y /\ swapped v1 (upd f a None) f' a y).
  Proof.
    intros HA G. unfold moved_from. eapply post_bind; [apply (manager_ok _ _ _ _ s y HA)|]. intros m s0 [Hy H0].
    eapply post_bind; [apply (place_ok _ _ _ _ s0 a H0)|]. intros ? s1 (H1 & D & AP).
    destruct (good_place v b f a G D AP) as [G1 Hn]. assert (N : a <> y) by (intros ->; apply Hn; eapply mgr_fst; eauto).
    eapply post_weak; [apply (swap_ok _ _ _ s1 a y H1 G1)|]. intros ? s2 (v' & f' & H2 & X & S). exists ((a, None) :: v), v', f', m.
    split; [exact H2|]. split; [eapply good_swapped; eauto|]. split; [exact Hy|]. split; [exact N|]. split; [apply mgr_none; exact Hn|]. auto.
  Qed.

  Lemma fine_intro v b f s : At v b [] f s -> Good v b f -> fine s.
  Proof. intros. exists v, b, f. auto. Qed.
  Lemma swap_fine v b f s x y : At v b [] f s -> Good v b f -> post s (swap x y) (fun _ => fine).
  Proof.
    intros HA G. eapply post_weak; [apply (swap_ok v b f s x y HA G)|]. intros ? s1 (v' & f' & H & X & S). exists v', b, f'.
    split; [exact H|]. eapply good_swapped; eauto.
  Qed.
  Lemma destructor_fine s a : fine s -> post s (destructor a) (fun _ => fine).
  Proof.
    intros (v & b & f & HA & G). eapply post_weak; [apply (destructor_ok v b f s a HA G)|]. intros ? s1 (v' & b' & f' & H & G' & _).
    exists v', b', f'. auto.
  Qed.

  Lemma exec_fine o s : fine s -> (forall T, In T (op_types o) -> P T) -> post s (exec o) (fun _ => fine).
  Proof.
    intros (v & b & f & HA & G) HT. destruct o as [a|a T x|a y|a y|a T x|a y|a y|a y|a|a]; cbn [exec].
    - eapply post_weak; [apply (place_ok _ _ _ _ s a HA)|]. intros ? s1 (H1 & D & AP). eapply fine_intro; [exact H1|apply good_place; assumption].
    - eapply post_weak; [apply (from_value_ok v b f s a T x HA G); apply HT; left; reflexivity|].
      intros ? s1 (v' & b' & f' & H & G' & _). exists v', b', f'. auto.
    - eapply post_weak; [apply (copy_of_ok v b f s a y HA G)|]. intros ? s1 (m & _ & v' & b' & f' & H & G' & _). exists v', b', f'. auto.
    - eapply post_weak; [apply (moved_from_ok v b f s a y HA G)|]. intros ? s1 (v1 & v' & f' & m & H & G' & _). exists v', b, f'. auto.
    - eapply post_bind; [apply (manager_ok _ _ _ _ s a HA)|]. intros m s0 [_ H0]. unfold assign_value.
      eapply post_bind; [apply (pop_ok _ _ _ _ s0 H0)|]. intros t s1 H1.
      eapply post_bind; [apply (from_value_ok v b f s1 t T x H1 G); apply HT; left; reflexivity|].
      intros ? s2 (v' & b' & f' & H2 & G' & _). eapply post_bind; [apply (swap_fine _ _ _ s2 t a H2 G')|]. intros ? s3 H3. apply destructor_fine. exact H3.
    - eapply post_bind; [apply (manager_ok _ _ _ _ s a HA)|]. intros m s0 [_ H0].
      eapply post_bind; [apply (manager_ok _ _ _ _ s0 y H0)|]. intros n s1 [_ H1]. unfold assign.
      destruct (a =? y); [apply post_ret; eapply fine_intro; eauto|]. eapply post_bind; [apply (pop_ok _ _ _ _ s1 H1)|]. intros t s2 H2.
      eapply post_bind; [apply (copy_of_ok v b f s2 t y H2 G)|]. intros ? s3 (k & _ & v' & b' & f' & H3 & G' & _).
      eapply post_bind; [apply (swap_fine _ _ _ s3 t a H3 G')|]. intros ? s4 H4. apply destructor_fine. exact H4.
    - eapply post_bind; [apply (manager_ok _ _ _ _ s a HA)|]. intros m s0 [_ H0].
      eapply post_bind; [apply (manager_ok _ _ _ _ s0 y H0)|]. intros n s1 [_ H1]. unfold move_assign.
      destruct (a =? y); [apply post_ret; eapply fine_intro; eauto|]. eapply post_bind; [apply (pop_ok _ _ _ _ s1 H1)|]. intros t s2 H2.
      eapply post_bind; [apply (moved_from_ok v b f s2 t y H2 G)|]. intros ? s3 (v1 & v' & f' & k & H3 & G' & _).
      eapply post_bind; [apply (swap_fine _ _ _ s3 t a H3 G')|]. intros ? s4 H4. apply destructor_fine. exact H4.
    - apply (swap_fine v b f); assumption.
    - eapply post_weak; [apply (clear_ok v b f s a HA G)|]. intros ? s1 (b' & f' & H & G' & _). eapply fine_intro; eauto.
    - eapply post_bind; [apply (manager_ok _ _ _ _ s a HA)|]. intros m s0 [_ H0]. apply destructor_fine. eapply fine_intro; eauto.
  Qed.
  Lemma exec_all_fine l : forall s, fine s -> (forall T, In T (types l) -> P T) -> post s (exec_all l) (fun _ => fine).
  Proof.
    induction l as [|o l IH]; intros s H HT; cbn [exec_all]; [apply post_ret; exact H|].
    eapply post_bind; [apply (exec_fine o s H); intros T HT'; apply HT; cbn; apply in_or_app; auto|].
    intros ? s1 H1. apply IH; [exact H1|]. intros T HT'. apply HT. cbn. apply in_or_app. auto.
  Qed.
  Lemma start_fine o : fine (start o).
  Proof.
    exists [], [], (fun _ => None). split; [constructor; try reflexivity; constructor|].
    constructor; cbn; try (intros; discriminate); try (intros; contradiction). constructor.
  Qed.
End P.

Lemma ran_fine o l s : (forall T, In T (types l) -> proper T) -> ran o l s -> fine (fun T => proper T /\ In T (types l)) s.
Proof.
  intros HT H. pose proof (exec_all_fine (fun T => proper T /\ In T (types l)) (fun T H => proj1 H) l (start o)) as HP.
  unfold post in HP. unfold ran in H. rewrite H in HP. apply HP; [apply start_fine|]. intros T Hin. auto.
Qed.
