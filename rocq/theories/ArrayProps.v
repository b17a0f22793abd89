(** C42: arrays as contents. *)
From Coq Require Import List Bool Arith Lia.
From Verif Require Import ArrayModel.
Import ListNotations.

(** An array of the values [xs]. *)
Definition holds (xs : list nat) : list cell := map (fun x => Live (Some x)) xs.

(** Each of the first [n] elements once, in order. *)
Definition each (f : nat -> event) (n : nat) : list event := map f (seq 0 n).

Lemma copy_loop_ok e xs : trivial e = true -> forall i w throws, length w = length xs -> (forall f, In f throws -> f = false) ->
  copy_loop e i (length xs) throws (holds xs) w = Ok (holds xs) (map Copied (seq i (length xs))).
Proof.
  intro T. induction xs as [|x xs IH]; intros i w throws L F; destruct w as [|c w]; try discriminate L; [reflexivity|].
  cbn [length copy_loop holds map seq]. assert (A : assign e (Some x) c = Some (Live (Some x))) by (unfold assign; rewrite T; destruct c; reflexivity).
  rewrite A. assert (H : hd false throws = false) by (destruct throws as [|f l]; [reflexivity|apply F; left; reflexivity]). rewrite H.
  fold (holds xs). rewrite IH; [reflexivity|cbn in L; lia|]. intros f Hf. destruct throws; [destruct Hf|]. apply F. right; exact Hf.
Qed.

Lemma move_loop_ok e xs : trivial e = true -> forall i w, length w = length xs ->
  move_loop e i (length xs) (holds xs) w =
  Ok (map (fun x => Live (if steals e then None else Some x)) xs, holds xs) (map Moved (seq i (length xs))).
Proof.
  intro T. induction xs as [|x xs IH]; intros i w L; destruct w as [|c w]; try discriminate L; [reflexivity|].
  cbn [length move_loop holds map seq]. assert (A : assign e (Some x) c = Some (Live (Some x))) by (unfold assign; rewrite T; destruct c; reflexivity).
  rewrite A. fold (holds xs). rewrite IH; [reflexivity|cbn in L; lia].
Qed.

Lemma destroy_loop_ok xs : forall i, destroy_loop i (length xs) (holds xs) = Ok (repeat Dead (length xs)) (map Destroyed (seq i (length xs))).
Proof.
  induction xs as [|x xs IH]; intro i; [reflexivity|]. cbn [length destroy_loop holds map seq repeat]. fold (holds xs). rewrite IH. reflexivity.
Qed.

Lemma default_loop_ok init n : forall i, default_loop i n init (repeat Dead n) = Ok (holds (repeat init n)) (map Built (seq i n)).
Proof. induction n as [|n IH]; intro i; [reflexivity|]. cbn. rewrite IH. reflexivity. Qed.

(** How far the comparison goes: up to and including the first pair that differs. *)
Fixpoint reach (eq : nat -> nat -> bool) (xs ys : list nat) : nat :=
  match xs, ys with x :: xs', y :: ys' => if eq x y then S (reach eq xs' ys') else 1 | _, _ => 0 end.

Lemma equal_loop_ok e xs : forall i ys, length ys = length xs ->
  equal_loop e i (length xs) (holds xs) (holds ys) =
  Ok (forallb (fun p => eqb e (fst p) (snd p)) (combine xs ys)) (map Compared (seq i (reach (eqb e) xs ys))).
Proof.
  induction xs as [|x xs IH]; intros i [|y ys] L; try discriminate L; [reflexivity|]. cbn [length equal_loop holds map combine forallb reach fst snd].
  fold (holds xs). fold (holds ys). destruct (eqb e x y); [|reflexivity]. rewrite IH by (cbn in L; lia). reflexivity.
Qed.

(** Copying: the new block holds the same values, each element was copied once, in order; nothing is undefined. The
    missing part of the claim is refuted below: elements that are not trivial. *)
Theorem C42_copy_partial : forall e extents xs,
  trivial e = true -> copyable e = true -> length xs = length_of extents ->
  copy_construct e extents [] (holds xs) (allocate extents) = Ok (holds xs) (each Copied (length_of extents)).
Proof.
  intros e extents xs T C L. unfold copy_construct, each. rewrite C, <- L. rewrite (copy_loop_ok e xs T 0 (allocate extents) []).
  - reflexivity.
  - unfold allocate. rewrite repeat_length. congruence.
  - intros f [].
Qed.
Print Assumptions C42_copy_partial.

(** Moving: the new block holds the values, each element was moved once, in order. *)
Theorem C42_move_partial : forall e extents throws xs,
  trivial e = true -> movable e = true -> length xs = length_of extents ->
  exists src, move_or_copy e extents throws (holds xs) (allocate extents) = Ok (src, holds xs) (each Moved (length_of extents)) /\
    (steals e = false -> src = holds xs).
Proof.
  intros e extents throws xs T M L. unfold move_or_copy, each. rewrite M, <- L. rewrite (move_loop_ok e xs T 0 (allocate extents)).
  - eexists. split; [reflexivity|]. intros ->. reflexivity.
  - unfold allocate. rewrite repeat_length. congruence.
Qed.
Print Assumptions C42_move_partial.

(** Destroying an array of objects that need it: each once, in order, and none is left. *)
Theorem C42_destroy : forall e extents xs, trivial e = false -> length xs = length_of extents ->
  destroy e extents (holds xs) = Ok (allocate extents) (each Destroyed (length_of extents)).
Proof. intros e extents xs T L. unfold destroy, allocate, each. rewrite T, <- L. apply destroy_loop_ok. Qed.
Print Assumptions C42_destroy.

(** Default construction of such an array: each once, in order. *)
Theorem C42_default_construct : forall e extents init, trivial e = false ->
  default_construct e extents init (allocate extents) = Ok (holds (repeat init (length_of extents))) (each Built (length_of extents)).
Proof. intros e extents init T. unfold default_construct, allocate. rewrite T. apply default_loop_ok. Qed.
Print Assumptions C42_default_construct.

(** Trivial elements are not constructed one by one, but are there. *)
Theorem C42_default_trivial : forall e extents init, trivial e = true ->
  exists xs, length xs = length_of extents /\ default_construct e extents init (allocate extents) = Ok (holds xs) [].
Proof.
  intros e extents init T. exists (repeat 0 (length_of extents)). split; [apply repeat_length|].
  unfold default_construct, allocate, holds. rewrite T. f_equal. induction (length_of extents) as [|n IH]; cbn; congruence.
Qed.
Print Assumptions C42_default_trivial.

(** Comparing two arrays of one type: true iff all pairs are equal, looking at each pair at most once, in order, until
    the first that differs. *)
Theorem C42_compare : forall e extents xs ys,
  comparable e = true -> length xs = length_of extents -> length ys = length_of extents ->
  exists k, compare_eq e extents false (holds xs) (holds ys)
            = Ok (forallb (fun p => eqb e (fst p) (snd p)) (combine xs ys)) (each Compared k) /\ k <= length_of extents /\
            (forall i x y, i < pred k -> nth_error xs i = Some x -> nth_error ys i = Some y -> eqb e x y = true).
Proof.
  intros e extents xs ys C L1 L2. exists (reach (eqb e) xs ys). unfold compare_eq, each. rewrite C, <- L1.
  split; [apply equal_loop_ok; congruence|]. rewrite L1, <- L2 in *. clear C L2. split.
  - revert ys L1. induction xs as [|x xs IH]; intros [|y ys] L; try discriminate L; cbn; [lia|]. destruct (eqb e x y); [|lia].
    specialize (IH ys ltac:(cbn in L; lia)). lia.
  - intros i. revert ys L1 i. induction xs as [|x xs IH]; intros [|y ys] L [|i] a b; try discriminate L; cbn; try lia; try discriminate.
    + intros K E1 E2. injection E1 as <-. injection E2 as <-. destruct (eqb e x y); [reflexivity|cbn in K; lia].
    + intros K E1 E2. destruct (eqb e x y); [|cbn in K; lia]. eapply (IH ys ltac:(cbn in L; lia) i); [cbn in K; lia|exact E1|exact E2].
Qed.
Print Assumptions C42_compare.

Definition ints : elem := Elem true true true false true true Nat.eqb.
Definition strings : elem := Elem false true true true false true Nat.eqb.

(** int[2][3]. *)
Example copy_case : copy_construct ints [2; 3] [] (holds [1; 2; 3; 4; 5; 6]) (allocate [2; 3])
  = Ok (holds [1; 2; 3; 4; 5; 6]) [Copied 0; Copied 1; Copied 2; Copied 3; Copied 4; Copied 5].
Proof. reflexivity. Qed.
Example move_case : move_or_copy ints [3] [] (holds [7; 8; 9]) (allocate [3]) = Ok (holds [7; 8; 9], holds [7; 8; 9]) [Moved 0; Moved 1; Moved 2].
Proof. reflexivity. Qed.
Example destroy_case : destroy strings [2] (holds [7; 8]) = Ok [Dead; Dead] [Destroyed 0; Destroyed 1].
Proof. reflexivity. Qed.
Example default_case : default_construct strings [2] 0 (allocate [2]) = Ok (holds [0; 0]) [Built 0; Built 1].
Proof. reflexivity. Qed.
Example compare_case : compare_eq ints [3] false (holds [1; 2; 3]) (holds [1; 5; 3]) = Ok false [Compared 0; Compared 1].
Proof. reflexivity. Qed.

(** The claim fails for elements that are not trivial: std::copy and std::move assign to elements that do not exist.
    Any such array of at least one element, e.g. of std::string, put into a variant by copy or move: *)
Theorem C42_assigns_to_dead_storage_refuted : forall e extents throws xs,
  trivial e = false -> copyable e = true -> movable e = true -> 0 < length_of extents -> length xs = length_of extents ->
  copy_construct e extents throws (holds xs) (allocate extents) = UB /\
  move_or_copy e extents throws (holds xs) (allocate extents) = UB.
Proof.
  intros e extents throws xs T C M P L. unfold copy_construct, move_or_copy, allocate. rewrite C, M.
  destruct (length_of extents) as [|n]; [lia|]. destruct xs as [|x xs]; [discriminate|]. cbn. rewrite T. auto.
Qed.
Print Assumptions C42_assigns_to_dead_storage_refuted.
Example assigns_case : copy_construct strings [2] [] (holds [7; 8]) (allocate [2]) = UB.
Proof. reflexivity. Qed.

(** The exception specification asks about the copy constructor, the code runs the copy assignment. *)
Theorem C42_assignment_throws_terminate_refuted : exists e extents throws xs w,
  copyable e = true /\ length xs = length_of extents /\ length w = length_of extents /\ (forall c, In c w -> c <> Dead) /\
  copy_construct e extents throws (holds xs) w = Term.
Proof.
  exists (Elem false true true false true true Nat.eqb), [2], [false; true], [1; 2], (holds [0; 0]).
  repeat split. intros c [<-|[<-|[]]]; discriminate.
Qed.
Print Assumptions C42_assignment_throws_terminate_refuted.

Lemma disjoint_nodup {A} (l l' : list A) : NoDup l -> NoDup l' -> (forall x, In x l -> ~ In x l') -> NoDup (l ++ l').
Proof.
  intros H H' D. induction H as [|x l Hx H IH]; [exact H'|]. cbn. constructor.
  - rewrite in_app_iff. intros [I|I]; [contradiction|]. apply (D x); [left; reflexivity|exact I].
  - apply IH. intros y I. apply D. right. exact I.
Qed.

(** The number of elements is the number of valid indices. *)
Theorem C42_elements : forall extents, exists l,
  NoDup l /\ (forall t, In t l <-> Forall2 lt t extents) /\ length l = length_of extents.
Proof.
  induction extents as [|n r (l & N & I & L)].
  - exists [[]]. split; [repeat constructor; intros []|]. split; [|reflexivity]. intro t. split.
    + intros [<-|[]]. constructor.
    + intro H. inversion H. left. reflexivity.
  - exists (flat_map (fun i => map (cons i) l) (seq 0 n)). split; [|split].
    + clear I L. induction (seq_NoDup n 0) as [|i s Hi Hs IH]; [constructor|]. cbn. apply disjoint_nodup.
      * clear -N. induction N as [|t l Ht N IH]; [constructor|]. cbn. constructor; [|exact IH]. intro H. apply in_map_iff in H.
        destruct H as (u & E & H). injection E as ->. contradiction.
      * exact IH.
      * intros t H1 H2. apply in_map_iff in H1. destruct H1 as (u & <- & _). apply in_flat_map in H2.
        destruct H2 as (j & Hj & H2). apply in_map_iff in H2. destruct H2 as (v & E & _). injection E as -> _. contradiction.
    + intro t. rewrite in_flat_map. split.
      * intros (i & Hi & H). apply in_map_iff in H. destruct H as (u & <- & Hu). apply in_seq in Hi. constructor; [lia|]. apply I. exact Hu.
      * intro H. inversion H as [|i n' u r' Hi Hu]; subst. exists i. split; [apply in_seq; lia|]. apply in_map. apply I. exact Hu.
    + change (length_of (n :: r)) with (n * length_of r). rewrite <- L. clear I L N. generalize 0. induction n as [|n IH]; intro k; [reflexivity|]. cbn. rewrite app_length, map_length, IH. reflexivity.
Qed.
Print Assumptions C42_elements.

(** An array compared with itself: what the comparison of its elements with themselves gives, if each is equal to itself;
    elements without an operator==: an exception. *)
Theorem C42_compare_same : forall e extents same xs ys, length xs = length_of extents -> length ys = length_of extents ->
  (same = true -> xs = ys) -> (forall x, In x xs -> eqb e x x = true) ->
  if comparable e
  then exists l, compare_eq e extents same (holds xs) (holds ys) = Ok (forallb (fun p => eqb e (fst p) (snd p)) (combine xs ys)) l
  else exists a l, compare_eq e extents same (holds xs) (holds ys) = Exn a l.
Proof.
  intros e extents same xs ys L1 L2 S R. destruct (comparable e) eqn:C; [|unfold compare_eq; rewrite C; eauto].
  destruct same; [|destruct (C42_compare e extents xs ys C L1 L2) as (k & -> & _); eauto].
  rewrite <- (S eq_refl). unfold compare_eq. rewrite C. exists []. f_equal. symmetry. clear -R.
  induction xs as [|x xs IH]; [reflexivity|]. cbn. rewrite (R x) by (left; reflexivity). apply IH. intros y H. apply R. right. exact H.
Qed.
Print Assumptions C42_compare_same.

Example C42_elements_case : length_of [2; 3] = 6 /\ Forall2 lt [1; 2] [2; 3] /\
  compare_eq (Elem true true true false true true Nat.eqb) [2; 3] true (holds [1; 2; 3; 4; 5; 6]) (holds [1; 2; 3; 4; 5; 6]) = Ok true [].
Proof. split; [reflexivity|]. split; [repeat constructor|reflexivity]. Qed.
