(** C60: calls of several threads take effect one after another. *)
From Coq Require Import List Bool Arith Lia.
From Verif Require Import Util DeferModel RaceModel RaceSpec RaceProofs RaceProps AtomicSpec AtomicBook AtomicProofs AtomicRun AtomicUse.
Import ListNotations.

(** The decayed types at the start. *)
Definition decay_of (m : loc -> val) (t : nat) : nat := number (m (LInfo t)).

Theorem C60_atomic : forall defs m a n clients sched,
  (forall c, In c clients -> only (fun _ => early n) [] c) -> (forall d c, only (fun _ => early n) [] (defs d c)) ->
  exists h answer, ordered (decay_of m) m (exec defs (start m a n clients) sched) h answer.
Proof. intros defs m a n clients sched Hc Hd. apply (run_ordered defs n); [exact Hd|lia|reflexivity|exact Hc]. Qed.
Print Assumptions C60_atomic.

Section Answers.
  Variables (defs : nat -> nat -> client) (m : loc -> val) (a : aloc -> val) (n : nat) (clients : list client) (sched : list nat).
  Definition calm : Prop :=
    (forall c, In c clients -> only (fun _ => early n) [] c) /\ (forall d c, only (fun _ => early n) [] (defs d c)) /\
    forall p, In p (threads (exec defs (start m a n clients) sched)) -> p = Done.
  Definition said (j : nat) (x : api) (b : nat) (v : val) : Prop :=
    nth_error (log (exec defs (start m a n clients) sched)) j = Some (x, b, v).
  Definition pair_of (x y : nat) : nat * nat := (decay_of m x, decay_of m y).
End Answers.

(** A converter that was removed, with no attempt to register one for the types that was under way since, is not there for
    those who ask after that. *)
Theorem C60_removed : forall defs m a n clients sched j x y b j' x' y' b' r,
  calm defs m a n clients sched ->
  said defs m a n clients sched j (UnregConv x y) b VUnit -> x <> 0 -> y <> 0 ->
  said defs m a n clients sched j' (HasConv x' y') b' r -> pair_of m x' y' = pair_of m x y -> j < b' ->
  (forall k u w f d v, said defs m a n clients sched k (RegConv u w f) d v -> pair_of m u w = pair_of m x y -> k < b \/ j' < d) ->
  r = VBool false.
Proof.
  intros defs m a n clients sched j x y b j' x' y' b' r (Hc & Hd & Hs) Hj Hx Hy Hj' Ek Hb HR.
  destruct (C60_atomic defs m a n clients sched Hc Hd) as (h & answer & O). unfold said in *. set (s := exec _ _ _) in *.
  destruct (placed _ _ _ _ _ _ _ _ _ O Hj) as (p & Hp & Ap & Lp); [discriminate|].
  destruct (placed _ _ _ _ _ _ _ _ _ O Hj') as (q & Hq & Aq & Lq); [discriminate|].
  pose proof O as (_ & _ & _ & Time). assert (L : p < q) by (apply (Time p q j _ Lp Ap Hq); exact Hb).
  destruct (between _ _ _ _ _ _ _ _ _ O Hp Hq L) as (m1 & m2 & m3 & m4 & _ & (l & El & U & _) & Mid & (l' & El' & Q & _) & In').
  injection El as <-. injection El' as <-. cbn [effect] in U, Q. destruct U as [_ U].
  replace ((x =? 0) || (y =? 0)) with false in U by (destruct x, y; try contradiction; reflexivity).
  assert (K : ~ In (pair_of m x y) (map fst (convs (m3 LConv)))).
  { refine (history_keeps (decay_of m) (fun v => ~ In (pair_of m x y) (map fst (convs v))) LConv _ I _ m2 m3 Mid _).
    - intros e e1 e2 He Hap No. destruct (conv_step _ _ _ _ Hap) as [->|[(u & w & f & b0 & v & -> & _ & _ & Es)|(u & w & b0 & v & -> & _ & Es)]]; [exact No| |].
      + rewrite Es, map_app. intro Hi. apply in_app_or in Hi. destruct Hi as [Hi|[Hi|[]]]; [exact (No Hi)|]. cbn [fst] in Hi.
        destruct (In' _ He) as (z & Lz & Ez). destruct (settled _ _ _ _ _ _ _ O Hs Ez) as (k & Ak & v' & Hk). cbn [caller begun] in Hk.
        assert (Lz' : z < length h) by (apply nth_error_Some; congruence).
        destruct (HR k u w f b0 v' Hk Hi) as [X|X].
        * pose proof (Time z p k _ Lz' Ak Hp X). lia.
        * pose proof (Time q z j' _ Lq Aq Ez X). lia.
      + intro Hi. apply No. apply in_map_iff in Hi. destruct Hi as (r0 & Er & Hr). apply Es in Hr. apply in_map_iff. exists r0. tauto.
    - intro Hi. apply in_map_iff in Hi. destruct Hi as (r0 & Er & Hr). apply U in Hr. destruct Hr as [_ Hr]. exact (Hr Er). }
  destruct Q as [_ (o & -> & Q)]. destruct o as [g|]; [|reflexivity]. destruct (_ || _); [discriminate Q|]. cbn [converts] in Q.
  destruct K. apply in_map_iff. exists (pair_of m x' y', g). split; [exact Ek|exact Q].
Qed.
Print Assumptions C60_removed.

(** A converter that was registered, with no attempt to remove it that was under way since, is the one that those get who
    ask after that. *)
Theorem C60_kept : forall defs m a n clients sched j x y f b j' x' y' b' r,
  calm defs m a n clients sched ->
  said defs m a n clients sched j (RegConv x y f) b (VBool true) ->
  said defs m a n clients sched j' (Convert x' y') b' r -> pair_of m x' y' = pair_of m x y -> x' <> 0 -> y' <> 0 -> j < b' ->
  (forall k u w d v, said defs m a n clients sched k (UnregConv u w) d v -> pair_of m u w = pair_of m x y -> k < b \/ j' < d) ->
  r = VOpt (Some f).
Proof.
  intros defs m a n clients sched j x y f b j' x' y' b' r (Hc & Hd & Hs) Hj Hj' Ek Hx Hy Hb HR.
  destruct (C60_atomic defs m a n clients sched Hc Hd) as (h & answer & O). unfold said in *. set (s := exec _ _ _) in *.
  destruct (placed _ _ _ _ _ _ _ _ _ O Hj) as (p & Hp & Ap & Lp); [discriminate|].
  destruct (placed _ _ _ _ _ _ _ _ _ O Hj') as (q & Hq & Aq & Lq); [discriminate|].
  pose proof O as (_ & _ & _ & Time). assert (L : p < q) by (apply (Time p q j _ Lp Ap Hq); exact Hb).
  destruct (between _ _ _ _ _ _ _ _ _ O Hp Hq L) as (m1 & m2 & m3 & m4 & _ & (l & El & U & _) & Mid & (l' & El' & Q & _) & In').
  injection El as <-. injection El' as <-. cbn [effect] in U, Q.
  (* the answer of a table that has one converter for the types *)
  set (only_one := fun v : val => In (pair_of m x y, f) (convs v) /\ forall g, In (pair_of m x y, g) (convs v) -> g = f).
  assert (K : only_one (m3 LConv)).
  { refine (history_keeps (decay_of m) only_one LConv _ I _ m2 m3 Mid _).
    - intros e e1 e2 He Hap [Y N]. destruct (conv_step _ _ _ _ Hap) as [->|[(u & w & f' & b0 & v & -> & _ & No & Es)|(u & w & b0 & v & -> & _ & Es)]].
      + exact (conj Y N).
      + split; [rewrite Es; apply in_or_app; left; exact Y|]. intros g Hg. rewrite Es in Hg. apply in_app_or in Hg. destruct Hg as [Hg|[Hg|[]]]; [exact (N g Hg)|].
        injection Hg as E1 E2 _. destruct No. apply in_map_iff. exists (pair_of m x y, f). split; [unfold pair_of; cbn; congruence|exact Y].
      + assert (Nk : pair_of m x y <> pair_of m u w).
        { intro Ekk. destruct (In' _ He) as (z & Lz & Ez). destruct (settled _ _ _ _ _ _ _ O Hs Ez) as (k & Ak & v' & Hk). cbn [caller begun] in Hk.
          assert (Lz' : z < length h) by (apply nth_error_Some; congruence).
          destruct (HR k u w b0 v' Hk (eq_sym Ekk)) as [X|X].
          * pose proof (Time z p k _ Lz' Ak Hp X). lia.
          * pose proof (Time q z j' _ Lq Aq Ez X). lia. }
        split; [apply Es; split; [exact Y|exact Nk]|]. intros g Hg. apply Es in Hg. exact (N g (proj1 Hg)).
    - destruct (_ || _); [destruct U; discriminate|]. destruct U as [(_ & U & _)|(_ & No & Es)]; [discriminate U|]. split.
      + rewrite Es. apply in_or_app. right. left. reflexivity.
      + intros g Hg. rewrite Es in Hg. apply in_app_or in Hg. destruct Hg as [Hg|[Hg|[]]]; [|congruence]. destruct No.
        apply in_map_iff. exists (pair_of m x y, g). split; [reflexivity|exact Hg]. }
  destruct K as [Y N]. destruct Q as [_ (o & -> & Q)].
  replace ((x' =? 0) || (y' =? 0)) with false in Q by (destruct x', y'; try contradiction; reflexivity).
  destruct o as [g|]; cbn [converts] in Q.
  - f_equal. f_equal. apply N. unfold pair_of in Ek |- *. rewrite <- Ek. exact Q.
  - destruct Q. apply in_map_iff. exists (pair_of m x y, f). split; [symmetry; exact Ek|exact Y].
Qed.
Print Assumptions C60_kept.

(** ** Calls that are not among them *)

Definition then_ask (a b : api) : client := Call a (fun _ => once b).

(** addBaseClass: a thread is told that class 1 has a base, and after that, that class 2 has no derived class; nothing
    else ever changes. *)
Theorem C60_add_base_refuted : exists m a n sched,
  log (exec no_defs (start m a n [once (AddBase 1 12); then_ask (BaseCount 1) (DerivedCount 2)]) sched)
  = [(BaseCount 1, 0, VNat 1); (DerivedCount 2, 1, VNat 0); (AddBase 1 12, 0, VUnit)].
Proof. exists world, classes, 20, (repeat 0 6 ++ repeat 1 30 ++ repeat 0 30). vm_compute. reflexivity. Qed.
Print Assumptions C60_add_base_refuted.

(** MetaClass::create: a thread finds the class by its name, and after that does not find it by its type. *)
Theorem C60_create_class_refuted : exists m a n sched i,
  log (exec no_defs (start m a n [once (CreateClass 0 31 13); then_ask (Get 0 Class 31) (FindClass 13)]) sched)
  = [(Get 0 Class 31, 0, VOpt (Some i)); (FindClass 13, 1, VOpt None); (CreateClass 0 31 13, 0, VOpt (Some i))].
Proof. exists world, (fun x => match x with AMeta 13 => VOpt None | _ => classes x end), 20, (repeat 0 12 ++ repeat 1 30 ++ repeat 0 30), 20. vm_compute. reflexivity. Qed.
Print Assumptions C60_create_class_refuted.

(** getMethod: the method of the base is the answer, though the class had got a method of its own with that signature
    (item [i]) before that of the base (item [k]) was made; at no moment was [k] the first to be found. *)
Definition derived_world : loc -> val := fun l =>
  match l with LBases 1 => VMap [(12, 2)] | LDerived 2 => VMap [(1, 1)] | _ => world l end.
Theorem C60_get_member_refuted : exists m a n sched i k, i <> k /\
  log (exec no_defs (start m a n [once (GetMember Method 1 40); then_ask (Create Method 1 40) (Create Method 2 40)]) sched)
  = [(Create Method 1 40, 0, VOpt (Some i)); (Create Method 2 40, 1, VOpt (Some k)); (GetMember Method 1 40, 0, VOpt (Some k))].
Proof.
  exists derived_world, classes, 20, (repeat 0 6 ++ repeat 1 60 ++ repeat 0 40), 20, 21. split; [discriminate|]. vm_compute. reflexivity.
Qed.
Print Assumptions C60_get_member_refuted.

(** ** Cases *)

Definition converters : list client :=
  [Call (RegConv 11 12 1) (fun _ => once (UnregConv 11 12)); once (RegConv 11 12 2);
   Call (HasConv 11 12) (fun _ => Call (Convert 11 12) (fun _ => once (HasConv 11 12)))].
Definition in_turn : list nat := List.concat (repeat [0; 1; 2] 30).

Lemma converters_early : (forall c, In c converters -> only (fun _ => early 20) [] c) /\ (forall d c, only (fun _ => early 20) [] (no_defs d c)).
Proof. split; [intros c [<-|[<-|[<-|[]]]]; cbn; repeat (split || intro); try exact I; lia|intros d c; exact I]. Qed.

Example C60_case : forall sched, exists h answer,
  ordered (decay_of world) world (exec no_defs (start world classes 20 converters) sched) h answer.
Proof. intro sched. apply C60_atomic; apply converters_early. Qed.

Example C60_case_log : log (exec no_defs (start world classes 20 converters) in_turn)
  = [(RegConv 11 12 1, 0, VBool true); (RegConv 11 12 2, 0, VBool false); (HasConv 11 12, 0, VBool true);
     (UnregConv 11 12, 1, VUnit); (Convert 11 12, 3, VOpt None); (HasConv 11 12, 5, VBool false)].
Proof. vm_compute. reflexivity. Qed.

(** The hypotheses of C60_removed. *)
Example C60_removed_case : forall r, said no_defs world classes 20 converters (repeat 1 20 ++ repeat 0 20 ++ repeat 2 30) 3 (HasConv 11 12) 3 r ->
  r = VBool false.
Proof.
  intros r Hr. apply (C60_removed no_defs world classes 20 converters (repeat 1 20 ++ repeat 0 20 ++ repeat 2 30) 2 11 12 2 3 11 12 3 r);
    [|vm_compute; reflexivity|discriminate|discriminate|exact Hr|reflexivity|lia|].
  - split; [apply converters_early|]. split; [apply converters_early|]. intros p Hp. vm_compute in Hp. intuition congruence.
  - intros k u w f d v Hk _. unfold said in Hk. vm_compute in Hk. do 6 (destruct k as [|k]; [try discriminate Hk; left; lia|]).
    destruct k; discriminate Hk.
Qed.

(** The hypotheses of C60_kept. *)
Example C60_kept_case : forall r, said no_defs world classes 20 converters (repeat 1 20 ++ repeat 2 30 ++ repeat 0 30) 2 (Convert 11 12) 2 r ->
  r = VOpt (Some 2).
Proof.
  intros r Hr. apply (C60_kept no_defs world classes 20 converters (repeat 1 20 ++ repeat 2 30 ++ repeat 0 30) 0 11 12 2 0 2 11 12 2 r);
    [|vm_compute; reflexivity|exact Hr|reflexivity|discriminate|discriminate|lia|].
  - split; [apply converters_early|]. split; [apply converters_early|]. intros p Hp. vm_compute in Hp. intuition congruence.
  - intros k u w d v Hk _. unfold said in Hk. vm_compute in Hk. do 6 (destruct k as [|k]; [try discriminate Hk; injection Hk as _ _ <- _; right; lia|]).
    destruct k; discriminate Hk.
Qed.

(** Not every log has an order: two calls that registered a converter for the same types, nobody removed one. *)
Example C60_no_order : forall s h answer, log s = [(RegConv 11 12 1, 0, VBool true); (RegConv 11 12 2, 0, VBool true)] ->
  threads s = [Done; Done] -> ~ ordered (decay_of world) world s h answer.
Proof.
  intros s h answer El Et O.
  assert (Hs : forall q, In q (threads s) -> q = Done) by (rewrite Et; intros q [<-|[<-|[]]]; reflexivity).
  destruct (placed _ _ _ _ _ 0 _ _ _ O ltac:(rewrite El; reflexivity)) as (p & Hp & Ap & Lp); [discriminate|].
  destruct (placed _ _ _ _ _ 1 _ _ _ O ltac:(rewrite El; reflexivity)) as (q & Hq & Aq & Lq); [discriminate|].
  assert (N : p <> q) by (intros ->; congruence).
  assert (Twice : forall p q f g, nth_error h p = Some (Took (RegConv 11 12 f) 0 (VBool true)) ->
            nth_error h q = Some (Took (RegConv 11 12 g) 0 (VBool true)) -> p < q -> False).
  { clear - El O Hs. intros p q f g Hp Hq L.
    destruct (between _ _ _ _ _ _ _ _ _ O Hp Hq L) as (m1 & m2 & m3 & m4 & _ & (l & E1 & U & _) & Mid & (l' & E2 & Q & _) & In').
    injection E1 as <-. injection E2 as <-. cbn in U, Q.
    destruct U as [(_ & U & _)|(_ & _ & Es)]; [discriminate U|]. destruct Q as [(_ & Q & _)|(_ & Q & _)]; [discriminate Q|]. apply Q.
    refine (history_keeps (decay_of world) (fun v => In (11, 12) (map fst (convs v))) LConv _ I _ m2 m3 Mid _).
    - intros e e1 e2 He Hap Y. destruct (conv_step _ _ _ _ Hap) as [->|[(u & w & f' & b0 & v & -> & _ & No & Es')|(u & w & b0 & v & -> & _ & _)]]; [exact Y| |].
      + rewrite Es', map_app. apply in_or_app. left. exact Y.
      + destruct (In' _ He) as (z & _ & Ez). destruct (settled _ _ _ _ _ _ _ O Hs Ez) as (k & _ & v' & Hk). rewrite El in Hk.
        destruct k as [|[|[|k]]]; discriminate Hk.
    - rewrite Es, map_app. apply in_or_app. right. left. reflexivity. }
  destruct (Nat.lt_gt_cases p q) as [C _]. destruct (C N) as [L|L]; [exact (Twice _ _ _ _ Hp Hq L)|exact (Twice _ _ _ _ Hq Hp L)].
Qed.
