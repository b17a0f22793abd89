(** C21 and C22: variants as values, and what becomes of their contents. *)
From Coq Require Import List Bool Arith Lia Permutation.
From Verif Require Import Util DeferModel DeferProofs VarModel VarSpec VarProofs.
Import ListNotations.

(** ** C21 *)

(** Whatever the statements and whichever copies throw, the program runs without undefined behaviour and without
    terminate, the variants hold at the end what the same statements on plain values give, a statement that threw
    changed nothing, and only statements that copy a value throw. *)
Theorem C21_value_semantics : forall n outside failures p,
  uses safe p -> (forall o, In o p -> no_self_swap o) ->
  exists vs thrown s,
    run p (fst (begin n outside failures)) (snd (begin n outside failures)) = Ok (vs, thrown) s /\
    abs s vs = meaning_all p thrown (repeat None n, outside) /\
    length thrown = length p /\
    (forall k o, nth_error p k = Some o -> nth_error thrown k = Some true -> copies o).
Proof.
  intros n outside failures p HU HS. destruct (run_begin safe p n outside failures (fun t H => H) HU (or_introl HS)) as (sc & th & s & E & _ & A & L & T & _).
  exists sc, th, s. auto.
Qed.
Print Assumptions C21_value_semantics.

(** A variant says that it is empty if and only if it holds nothing. *)
Theorem C21_empty : forall n outside failures p vs thrown s i v,
  uses safe p -> (forall o, In o p -> no_self_swap o) ->
  run p (fst (begin n outside failures)) (snd (begin n outside failures)) = Ok (vs, thrown) s ->
  nth_error vs i = Some (Some v) ->
  (is_empty v = true <-> lives (meaning_all p thrown (repeat None n, outside)) i = Some None).
Proof.
  intros n outside failures p vs thrown s i v HU HS E Hi.
  destruct (run_begin safe p n outside failures (fun t H => H) HU (or_introl HS)) as (sc & th & s' & E' & I & A & _).
  rewrite E in E'. injection E' as <- <- <-. rewrite <- A. unfold lives, abs. cbn [fst]. rewrite nth_error_map, Hi. cbn [option_map].
  pose proof (i_wf _ _ _ I) as W. rewrite Forall_forall in W.
  assert (Hv : In v (live vs)).
  { clear - Hi. revert i Hi. induction vs as [|[w|] l IH]; intros [|i] Hi; cbn in *; try discriminate.
    - injection Hi as ->. left; reflexivity.
    - right. eapply IH; exact Hi.
    - eapply IH; exact Hi. }
  specialize (W v Hv). unfold wf in W. unfold is_empty, cont. clear Hi Hv. destruct v as [m y]. cbn [mgr st] in *.
  destruct m as [t|]; [|split; reflexivity].
  split; [discriminate|]. intro H. exfalso.
  destruct W as [(_ & e & -> & _)|(_ & W)]; [discriminate H|].
  destruct (shape_of t); [destruct W as (o & -> & (x & Ex) & _)|destruct W as (b & o & -> & Hb & (x & Ex) & _)|
    destruct W as (b & o & -> & Hb & (x & Ex) & _)|destruct W]; cbn in H; try rewrite Hb in H; rewrite Ex in H; discriminate.
Qed.
Print Assumptions C21_empty.

(** Swapping a variant with itself does no harm either if all small types are plain. *)
Theorem C21_self_swap : forall n outside failures p,
  uses (fun t => safe t /\ swappable t) p ->
  exists vs thrown s,
    run p (fst (begin n outside failures)) (snd (begin n outside failures)) = Ok (vs, thrown) s /\
    abs s vs = meaning_all p thrown (repeat None n, outside).
Proof.
  intros n outside failures p HU.
  destruct (run_begin _ p n outside failures (fun t H => proj1 H) HU (or_intror (fun t H => proj2 H))) as (sc & th & s & E & _ & A & _).
  exists sc, th, s. auto.
Qed.
Print Assumptions C21_self_swap.

(** A small owning type with a move constructor, a large owning one whose copy may throw, a large one that only
    moves, an array of plain elements, a small plain type. *)
Definition small : ty := Ty Inplace true true true true.
Definition large : ty := Ty Heap true true true true.
Definition only_moves : ty := Ty Heap true false true false.
Definition numbers : ty := Ty Array false true true false.
Definition plain_int : ty := Ty Inplace false true false false.

(** Copies, moves, swaps, an assignment whose copy throws, references and writes. *)
Definition medley : list op :=
  [Make 0 small 1 true; CopyNew 1 0; Write 0 7; Make 2 large 2 true; CopyAssign 1 2; Assign 1 numbers 5 false;
   MoveNew 3 2; Swap 0 3; MakeRef 4 1; CopyAssign 2 4; Write 2 9; MoveAssign 1 0; CopyAssign 0 1; CopyAssign 0 1; Clear 3;
   Drop 0; Drop 1; Drop 2; Drop 3; Drop 4].

Example medley_safe : uses safe medley /\ forall o, In o medley -> no_self_swap o.
Proof.
  split.
  - intros o t Ho Ht. cbn in Ho.
    repeat (destruct Ho as [<-|Ho]; [cbn in Ht; try (destruct Ht as [<-|[]]); try destruct Ht;
      (split; [discriminate|split; [cbn; auto|split; [cbn; auto; discriminate|cbn; auto; discriminate]]])|]).
    destruct Ho.
  - intros o Ho. cbn in Ho. repeat (destruct Ho as [<-|Ho]; [cbn; auto; discriminate|]). destruct Ho.
Qed.

(** The first fallible copy (of 0 into 1) succeeds, the second (of 2 into 1) throws, the third throws. *)
Example medley_runs :
  match run medley (fst (begin 5 [3; 4] [false; true; true])) (snd (begin 5 [3; 4] [false; true; true])) with
  | Ok (vs, thrown) s =>
      thrown = [false; false; false; false; true; false; false; false; false; false; false; false; true; false; false; false;
                false; false; false; false] /\ ext s = [3; 9]
  | _ => False
  end.
Proof. vm_compute. auto. Qed.

(** Half way: what the variants hold. *)
Example medley_half :
  match run (firstn 12 medley) (fst (begin 5 [3; 4] [false; true; true])) (snd (begin 5 [3; 4] [false; true; true])) with
  | Ok (vs, _) s => abs s vs = ([Some None; Some (Some (Own large 2)); Some (Some (Alias 1)); Some (Some (Own small 7)); Some (Some (Alias 1))], [3; 9])
  | _ => False
  end.
Proof. vm_compute. reflexivity. Qed.

(** The claim fails without the guards. Swapping a variant with itself constructs a small object from itself: *)
Theorem C21_self_swap_refuted : forall t, safe t -> ~ swappable t ->
  run [Make 0 t 1 true; Swap 0 0] (fst (begin 1 [] [])) (snd (begin 1 [] [])) = UB.
Proof.
  intros [sh ow co stl fa] (H1 & H2 & H3 & H4) N. unfold swappable in N. cbn in *.
  destruct sh; try (exfalso; apply N; discriminate). specialize (H4 eq_refl).
  destruct stl; [destruct ow, fa; reflexivity|]. rewrite (H4 eq_refl). destruct ow; [|exfalso; apply N; auto].
  destruct H2 as [->|H2]; [reflexivity|discriminate].
Qed.
Print Assumptions C21_self_swap_refuted.

Example C21_self_swap_small : safe small /\ ~ swappable small.
Proof.
  split; [split; [discriminate|split; [cbn; auto|split; cbn; auto; discriminate]]|].
  intro H. destruct (H eq_refl) as [H' _]. discriminate H'.
Qed.

(** A program that swaps variants holding large, referred and plain contents with themselves, and what it leaves. *)
Definition selves : list op := [Make 0 large 1 true; Swap 0 0; Make 1 plain_int 2 false; Swap 1 1; MakeRef 2 0; Swap 2 2; New 3; Swap 3 3].
Example C21_self_swap_case : uses (fun t => safe t /\ swappable t) selves /\
  match run selves (fst (begin 4 [3] [])) (snd (begin 4 [3] [])) with
  | Ok (vs, _) s => abs s vs = ([Some (Some (Own large 1)); Some (Some (Own plain_int 2)); Some (Some (Alias 0)); Some None], [3]) /\
      map (option_map is_empty) vs = [Some false; Some false; Some false; Some true]
  | _ => False
  end.
Proof.
  split; [|vm_compute; auto]. intros o t Ho Ht. cbn in Ho.
  repeat (destruct Ho as [<-|Ho]; [cbn in Ht; try (destruct Ht as [<-|[]]); try destruct Ht;
      (split; [split; [discriminate|split; [cbn; auto|split; [cbn; auto; discriminate|cbn; auto; discriminate]]]|
        intro; try discriminate; cbn; auto])|]).
  destruct Ho.
Qed.

(** and a small type without a move constructor, whose copy throws, ends the program: assigning to a variant that
    holds one, even something that cannot fail itself. *)
Theorem C21_terminate_refuted : exists p t failures,
  uses (fun u => u = t \/ u = plain_int) p /\ copyable t = true /\ (forall o, In o p -> no_self_swap o) /\
  run p (fst (begin 1 [] failures)) (snd (begin 1 [] failures)) = Term.
Proof.
  exists [Make 0 (Ty Inplace true true false true) 1 false; Assign 0 plain_int 2 false], (Ty Inplace true true false true), [false; true].
  split; [|split; [reflexivity|split; [|reflexivity]]].
  - intros o t [<-|[<-|[]]] [<-|[]]; auto.
  - intros o [<-|[<-|[]]]; exact I.
Qed.
Print Assumptions C21_terminate_refuted.

(** ** C22 *)

(** At every moment nothing has been released or freed twice, or without having been made. *)
Theorem C22_never_twice : forall n outside failures p vs thrown s,
  uses safe p -> (forall o, In o p -> no_self_swap o) ->
  run p (fst (begin n outside failures)) (snd (begin n outside failures)) = Ok (vs, thrown) s ->
  NoDup (released s) /\ NoDup (freed s) /\
  (forall r, In r (released s) -> r < acquired s) /\ (forall b, In b (freed s) -> b < length (heap s)).
Proof.
  intros n outside failures p vs thrown s HU HS E. destruct (run_begin safe p n outside failures (fun t H => H) HU (or_introl HS)) as (sc & th & s' & E' & I & _).
  rewrite E' in E. injection E as -> -> ->. eapply inv_nodup. exact I.
Qed.
Print Assumptions C22_never_twice.

(** What a living variant holds has not been released or freed, and no two variants share a block. *)
Theorem C22_not_before : forall n outside failures p vs thrown s i v,
  uses safe p -> (forall o, In o p -> no_self_swap o) ->
  run p (fst (begin n outside failures)) (snd (begin n outside failures)) = Ok (vs, thrown) s ->
  nth_error vs i = Some (Some v) ->
  (forall o, st v = In_ o -> forall r, res o = Some r -> r < acquired s /\ ~ In r (released s)) /\
  (forall b, st v = Ptr b -> ~ In b (freed s) /\
     exists o, block s b = Some o /\ forall r, res o = Some r -> r < acquired s /\ ~ In r (released s)) /\
  (forall j w, j <> i -> nth_error vs j = Some (Some w) -> forall b, st v = Ptr b -> st w <> Ptr b).
Proof.
  intros n outside failures p vs thrown s i v HU HS E Hi. destruct (run_begin safe p n outside failures (fun t H => H) HU (or_introl HS)) as (sc & th & s' & E' & I & _).
  rewrite E' in E. injection E as -> -> ->. eapply inv_held; eassumption.
Qed.
Print Assumptions C22_not_before.

(** When every variant is gone, everything made has been given back exactly once: for contents whose small owning
    types have move constructors and whose heap types have copy constructors that do not throw. *)
Theorem C22_exactly_once : forall n outside failures p vs thrown s,
  uses (fun t => safe t /\ leak_free t /\ sure_copy t) p -> (forall o, In o p -> no_self_swap o) ->
  run p (fst (begin n outside failures)) (snd (begin n outside failures)) = Ok (vs, thrown) s -> all_gone vs ->
  Permutation (released s) (seq 0 (acquired s)) /\ Permutation (freed s) (seq 0 (length (heap s))).
Proof.
  intros n outside failures p vs thrown s HU HS E G.
  destruct (run_begin _ p n outside failures (fun t H => proj1 H) HU (or_introl HS)) as (sc & th & s' & E' & I & _ & _ & _ & L & B & _).
  rewrite E' in E. injection E as -> -> ->. destruct (inv_gone _ _ _ I G) as [P1 P2].
  rewrite L in P1 by (intros t H; apply H). rewrite B in P2 by (intros t H; apply H). rewrite !app_nil_r in *. auto.
Qed.
Print Assumptions C22_exactly_once.

(** The same for all heap types, if no statement threw. *)
Theorem C22_exactly_once_quiet : forall n outside failures p vs thrown s,
  uses (fun t => safe t /\ leak_free t) p -> (forall o, In o p -> no_self_swap o) ->
  run p (fst (begin n outside failures)) (snd (begin n outside failures)) = Ok (vs, thrown) s -> all_gone vs ->
  (forall f, In f thrown -> f = false) ->
  Permutation (released s) (seq 0 (acquired s)) /\ Permutation (freed s) (seq 0 (length (heap s))).
Proof.
  intros n outside failures p vs thrown s HU HS E G F.
  destruct (run_begin _ p n outside failures (fun t H => proj1 H) HU (or_introl HS)) as (sc & th & s' & E' & I & _ & _ & _ & L & _ & B).
  rewrite E' in E. injection E as -> -> ->. destruct (inv_gone _ _ _ I G) as [P1 P2].
  rewrite L in P1 by (intros t H; apply H). rewrite B in P2 by exact F. rewrite !app_nil_r in *. auto.
Qed.
Print Assumptions C22_exactly_once_quiet.

(** Even when heap copies throw, what the contents own is given back exactly once; only blocks can be missing. *)
Theorem C22_resources_exactly_once : forall n outside failures p vs thrown s,
  uses (fun t => safe t /\ leak_free t) p -> (forall o, In o p -> no_self_swap o) ->
  run p (fst (begin n outside failures)) (snd (begin n outside failures)) = Ok (vs, thrown) s -> all_gone vs ->
  Permutation (released s) (seq 0 (acquired s)).
Proof.
  intros n outside failures p vs thrown s HU HS E G.
  destruct (run_begin _ p n outside failures (fun t H => proj1 H) HU (or_introl HS)) as (sc & th & s' & E' & I & _ & _ & _ & L & _).
  rewrite E' in E. injection E as -> -> ->. destruct (inv_gone _ _ _ I G) as [P1 P2].
  rewrite L in P1 by (intros t H; apply H). rewrite !app_nil_r in *. auto.
Qed.
Print Assumptions C22_resources_exactly_once.

(** In [medley] all variants are dropped; a copy of a large object threw. *)
Example medley_accounts :
  match run medley (fst (begin 5 [3; 4] [false; true; true])) (snd (begin 5 [3; 4] [false; true; true])) with
  | Ok (vs, thrown) s => vs = repeat None 5 /\ acquired s = 4 /\ length (released s) = 4 /\ length (heap s) = 5 /\ length (freed s) = 3
  | _ => False
  end.
Proof. vm_compute. repeat split. Qed.

Example medley_leak_free : uses (fun t => safe t /\ leak_free t) medley.
Proof.
  intros o t Ho Ht. split; [exact (proj1 medley_safe o t Ho Ht)|]. cbn in Ho.
  repeat (destruct Ho as [<-|Ho]; [cbn in Ht; try (destruct Ht as [<-|[]]); try destruct Ht; intros H1 H2; cbn in *; congruence|]).
  destruct Ho.
Qed.

(** With copies that never throw nothing at all is missing. *)
Definition steady : ty := Ty Heap true true true false.
Example steady_case :
  let p := [Make 0 steady 1 true; CopyNew 1 0; Make 2 small 2 true; Swap 1 2; CopyAssign 0 1; MoveAssign 2 0; Drop 0; Drop 1; Drop 2] in
  uses (fun t => safe t /\ leak_free t /\ sure_copy t) p /\
  match run p (fst (begin 3 [] [false])) (snd (begin 3 [] [false])) with
  | Ok (vs, thrown) s => all_gone vs /\ acquired s = 4 /\ length (heap s) = 2
  | _ => False
  end.
Proof.
  split.
  - intros o t Ho Ht. cbn in Ho.
    repeat (destruct Ho as [<-|Ho]; [cbn in Ht; try (destruct Ht as [<-|[]]); try destruct Ht;
      (split; [split; [discriminate|split; [cbn; auto|split; [cbn; auto; discriminate|cbn; auto; discriminate]]]|
       split; [intros H1 H2; cbn in *; congruence|intro H1; cbn in *; auto; congruence]])|]).
    destruct Ho.
  - cbn. split; [|split; reflexivity]. intros [|[|[|[|i]]]] v; discriminate.
Qed.

(** The claim fails in general. A small owning type with a copy constructor only: moving a variant leaks. *)
Theorem C22_copy_only_leaks_refuted : exists p vs thrown s,
  uses safe p /\ (forall o, In o p -> no_self_swap o) /\ (forall f, In f thrown -> f = false) /\
  run p (fst (begin 2 [] [])) (snd (begin 2 [] [])) = Ok (vs, thrown) s /\ all_gone vs /\
  exists r, r < acquired s /\ ~ In r (released s).
Proof.
  exists [Make 0 (Ty Inplace true true false false) 1 false; MoveNew 1 0; Drop 0; Drop 1].
  eexists. eexists. eexists. split; [|split; [|split; [|split; [reflexivity|split]]]].
  - intros o t Ho Ht. cbn in Ho. repeat (destruct Ho as [<-|Ho]; [cbn in Ht; try (destruct Ht as [<-|[]]); try destruct Ht;
      (split; [discriminate|split; [cbn; auto|split; [cbn; auto; discriminate|cbn; auto]]])|]). destruct Ho.
  - intros o Ho. cbn in Ho. repeat (destruct Ho as [<-|Ho]; [exact I|]). destruct Ho.
  - intros f Hf. cbn in Hf. repeat (destruct Hf as [<-|Hf]; [reflexivity|]). destruct Hf.
  - intros [|[|[|i]]] v; cbn; discriminate.
  - exists 0. cbn. split; [lia|]. intros [H|[]]. discriminate.
Qed.
Print Assumptions C22_copy_only_leaks_refuted.

(** A copy of a large object that throws leaks the block. *)
Theorem C22_throwing_copy_leaks_refuted : exists p failures vs thrown s,
  uses safe p /\ uses leak_free p /\ (forall t, uses (fun u => u = t) p -> copyable t = true) /\
  run p (fst (begin 2 [] failures)) (snd (begin 2 [] failures)) = Ok (vs, thrown) s /\ all_gone vs /\
  exists b, b < length (heap s) /\ ~ In b (freed s).
Proof.
  exists [Make 0 large 1 true; CopyNew 1 0; Drop 0], [true]. eexists. eexists. eexists.
  split; [|split; [|split; [|split; [reflexivity|split]]]].
  - intros o t Ho Ht. cbn in Ho. repeat (destruct Ho as [<-|Ho]; [cbn in Ht; try (destruct Ht as [<-|[]]); try destruct Ht;
      (split; [discriminate|split; [cbn; auto|split; [cbn; auto; discriminate|cbn; auto; discriminate]]])|]). destruct Ho.
  - intros o t Ho Ht. cbn in Ho. repeat (destruct Ho as [<-|Ho]; [cbn in Ht; try (destruct Ht as [<-|[]]); try destruct Ht;
      intros H1 H2; cbn in *; congruence|]). destruct Ho.
  - intros t H. rewrite <- (H _ large (or_introl eq_refl) (or_introl eq_refl)). reflexivity.
  - intros [|[|[|i]]] v; cbn; discriminate.
  - exists 1. cbn. split; [lia|]. intros [H|[]]. discriminate.
Qed.
Print Assumptions C22_throwing_copy_leaks_refuted.

(** Copying a variant that holds a large object that can only be moved throws and leaks a block. *)
Theorem C22_move_only_leaks_refuted : exists p vs s,
  uses (fun t => t = only_moves) p /\
  run p (fst (begin 2 [] [])) (snd (begin 2 [] [])) = Ok (vs, [false; true; false]) s /\ all_gone vs /\
  exists b, b < length (heap s) /\ ~ In b (freed s).
Proof.
  exists [Make 0 only_moves 1 true; CopyNew 1 0; Drop 0]. eexists. eexists.
  split; [|split; [reflexivity|split]].
  - intros o t Ho Ht. cbn in Ho. repeat (destruct Ho as [<-|Ho]; [cbn in Ht; try (destruct Ht as [<-|[]]); try destruct Ht; reflexivity|]). destruct Ho.
  - intros [|[|[|i]]] v; cbn; discriminate.
  - exists 1. cbn. split; [lia|]. intros [H|[]]. discriminate.
Qed.
Print Assumptions C22_move_only_leaks_refuted.

(** Objects, as opposed to what they own: a small object that is moved is never destroyed, so even for types with
    move constructors more objects are constructed than destroyed. *)
Theorem C22_objects_destroyed_refuted : exists p vs thrown s,
  uses (fun t => safe t /\ leak_free t) p /\
  run p (fst (begin 2 [] [])) (snd (begin 2 [] [])) = Ok (vs, thrown) s /\ all_gone vs /\
  (forall f, In f thrown -> f = false) /\ ended s < built s.
Proof.
  exists [Make 0 small 1 true; MoveNew 1 0; Drop 0; Drop 1]. eexists. eexists. eexists.
  split; [|split; [reflexivity|split; [|split]]].
  - intros o t Ho Ht. cbn in Ho. repeat (destruct Ho as [<-|Ho]; [cbn in Ht; try (destruct Ht as [<-|[]]); try destruct Ht;
      (split; [split; [discriminate|split; [cbn; auto|split; [cbn; auto; discriminate|cbn; auto; discriminate]]]|intros H1 H2; reflexivity])|]). destruct Ho.
  - intros [|[|[|i]]] v; cbn; discriminate.
  - intros f Hf. cbn in Hf. repeat (destruct Hf as [<-|Hf]; [reflexivity|]). destruct Hf.
  - cbn. lia.
Qed.
Print Assumptions C22_objects_destroyed_refuted.
