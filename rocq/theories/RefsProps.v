(** C56: references into variants. *)
From Coq Require Import List Bool Arith Lia Permutation.
From Verif Require Import DeferModel DeferProofs VarModel VarSpec VarProofs VarProps RefsModel RefsSpec RefsProofs.
Import ListNotations.

(** A reference taken after program [p], and used after a further program [q]. *)
Definition taken (p : list op) n outside failures (vs : scope) (s : store) : Prop :=
  exists thrown, run p (fst (begin n outside failures)) (snd (begin n outside failures)) = Ok (vs, thrown) s.

Definition fine (p : list op) : Prop := uses safe p /\ forall o, In o p -> no_self_swap o.

Lemma taken_inv p n outside failures vs s : fine p -> taken p n outside failures vs s -> inv safe s (live vs).
Proof.
  intros [U N] (th & E). destruct (run_begin safe p n outside failures (fun t H => H) U (or_introl N)) as (sc & th' & s' & E' & I & _).
  rewrite E in E'. injection E' as <- <- <-. exact I.
Qed.

(** A reference to an object on the heap belongs to the object: while some variant holds it, whatever happened since, the
    reference reads and writes the content of that variant; when none does any more, using it is undefined. *)
Theorem C56_follows_the_object : forall p n outside failures vs s i t b,
  fine p -> taken p n outside failures vs s -> take vs i = Some (Reference t (Block b)) ->
  forall q, fine q -> exists vs' thrown s',
    run q vs s = Ok (vs', thrown) s' /\
    let after := meaning_all q thrown (abs s vs) in
    match follow_all q thrown (abs s vs) i with
    | Some k =>
        load (Reference t (Block b)) vs' s' = seen after k /\ seen after k <> None /\
        forall x, save (Reference t (Block b)) x vs' s' = exec (Write k x) vs' s'
    | None => load (Reference t (Block b)) vs' s' = None /\ forall x, save (Reference t (Block b)) x vs' s' = UB
    end.
Proof.
  intros p n outside failures vs s i t b Fp T K q Fq. pose proof (taken_inv _ _ _ _ _ _ Fp T) as I.
  destruct (run_ok safe (fun t H => H) q vs s I (proj1 Fq) (or_introl (proj2 Fq))) as (vs' & th & s' & E & I' & A & _).
  exists vs', th, s'. split; [exact E|]. cbv zeta. rewrite <- A.
  destruct (take_kind _ _ _ _ _ (fun t H => H) I K) as (v & Hv & _ & _ & o & x & Ev & _).
  pose proof (run_follow safe (fun t H => H) q vs s vs' th s' i b I (proj1 Fq) (proj2 Fq) E (ex_intro _ v (conj Hv Ev))) as F.
  destruct (follow_all q th (abs s vs) i) as [k|].
  - destruct (block_reads safe s' vs' k b t (fun t H => H) I' F) as (y & L & S & W). rewrite L, S. repeat split; [discriminate|exact W].
  - apply freed_reads. exact F.
Qed.
Print Assumptions C56_follows_the_object.

(** A large object handed on twice and then dropped. *)
Definition handed_on : list op := [MoveNew 1 0; Make 0 small 7 true; Swap 1 2; Write 2 9].
Example handed_on_case :
  fine [Make 0 large 4 true; New 2] /\ fine handed_on /\
  match run [Make 0 large 4 true; New 2] (fst (begin 3 [] [])) (snd (begin 3 [] [])) with
  | Ok (vs, _) s =>
      take vs 0 = Some (Reference large (Block 0)) /\
      match run handed_on vs s with
      | Ok (vs', th) s' => follow_all handed_on th (abs s vs) 0 = Some 2 /\ load (Reference large (Block 0)) vs' s' = Some 9
      | _ => False
      end /\
      match run (handed_on ++ [Assign 2 plain_int 1 false]) vs s with
      | Ok (vs', th) s' => follow_all (handed_on ++ [Assign 2 plain_int 1 false]) th (abs s vs) 0 = None /\ load (Reference large (Block 0)) vs' s' = None
      | _ => False
      end
  | _ => False
  end.
Proof.
  split; [|split; [|vm_compute; repeat split]].
  - split; [|intros o [<-|[<-|[]]]; exact I]. intros o t [<-|[<-|[]]] Ht; cbn in Ht; [|destruct Ht]. destruct Ht as [<-|[]].
    split; [discriminate|split; [cbn; auto|split; cbn; auto; discriminate]].
  - split.
    + intros o t [<-|[<-|[<-|[<-|[]]]]] Ht; cbn in Ht; try (destruct Ht; fail). destruct Ht as [<-|[]].
      split; [discriminate|split; [cbn; auto|split; cbn; auto; discriminate]].
    + intros o [<-|[<-|[<-|[<-|[]]]]]; cbn; auto; try discriminate.
Qed.

(** References of any kind, as long as the variant itself is left alone (it may be read, copied and written to): whatever is
    done to other variants, they read and write its content. *)
Theorem C56_stays_valid : forall p n outside failures vs s i r,
  fine p -> taken p n outside failures vs s -> take vs i = Some r ->
  forall q, fine q -> (forall o, In o q -> leaves o i) -> exists vs' thrown s',
    run q vs s = Ok (vs', thrown) s' /\
    load r vs' s' = seen (meaning_all q thrown (abs s vs)) i /\ load r vs' s' <> None /\
    forall x, save r x vs' s' = exec (Write i x) vs' s'.
Proof.
  intros p n outside failures vs s i r Fp T K q Fq L. pose proof (taken_inv _ _ _ _ _ _ Fp T) as I.
  destruct (take_kind _ _ _ _ _ (fun t H => H) I K) as (v & Hv & Em & H).
  destruct r as [t [j|b|e]]; cbn [r_ty r_at] in *.
  - destruct H as (-> & Es & o & x & Ev & Ex).
    destruct (run_ok safe (fun t H => H) q vs s I (proj1 Fq) (or_introl (proj2 Fq))) as (vs' & th & s' & E & I' & A & _).
    exists vs', th, s'. split; [exact E|]. rewrite <- A.
    assert (H0 : lives (abs s vs) i = Some (Some (Own t x))) by (rewrite lives_abs, Hv; cbn; unfold cont; rewrite Em, Ev, Ex; reflexivity).
    destruct (meaning_all_leaves q th _ _ _ L H0) as [(d & Hd & Sd) _]. rewrite <- A in Hd. destruct d as [[u y|]|]; cbn in Sd; try destruct Sd.
    destruct (within_reads safe s' vs' i t y (fun t H => H) I' Es Hd) as [L1 L2]. rewrite L1. unfold seen. rewrite Hd.
    repeat split; [discriminate|exact L2].
  - destruct (C56_follows_the_object p n outside failures vs s i t b Fp T K q Fq) as (vs' & th & s' & E & C). exists vs', th, s'. split; [exact E|].
    destruct H as (_ & o & x & Ev & Hb & Ex).
    assert (H0 : lives (abs s vs) i = Some (Some (Own t x))) by (rewrite lives_abs, Hv; cbn; unfold cont; rewrite Em, Ev, Hb, Ex; reflexivity).
    rewrite (proj2 (meaning_all_leaves q th _ _ _ L H0)) in C. cbv zeta in C. destruct C as (C1 & C2 & C3). rewrite C1. auto.
  - destruct H as (Ev & Le).
    destruct (run_ok safe (fun t H => H) q vs s I (proj1 Fq) (or_introl (proj2 Fq))) as (vs' & th & s' & E & I' & A & _).
    exists vs', th, s'. split; [exact E|]. rewrite <- A.
    assert (H0 : lives (abs s vs) i = Some (Some (Alias e))) by (rewrite lives_abs, Hv; cbn; unfold cont; rewrite Em, Ev; reflexivity).
    destruct (meaning_all_leaves q th _ _ _ L H0) as [(d & Hd & Sd) _]. rewrite <- A in Hd. destruct d as [[u y|f]|]; cbn in Sd; try destruct Sd.
    rewrite lives_abs in Hd. destruct (alive vs' i) as [w|] eqn:Ew; [|discriminate]. cbn in Hd. injection Hd as Hd.
    assert (Hw : In w (live vs')) by (apply in_live; eapply nth_error_In; apply alive_nth; exact Ew).
    destruct (cont_alias safe s' vs' w e (fun t H => H) I' Hw Hd) as (u & Eu & Es & Le').
    unfold load, save, seen. cbn [r_at exec]. rewrite lives_abs, Ew. cbn [option_map]. rewrite Hd. cbn [abs snd].
    split; [reflexivity|]. split; [apply nth_error_Some; exact Le'|]. intro x. destruct w as [m y]. cbn in Eu, Es. subst m y.
    apply Nat.ltb_lt in Le'. rewrite Le'. reflexivity.
Qed.
Print Assumptions C56_stays_valid.

(** A small one while its variant is copied from, written to and others come and go. *)
Definition around : list op := [CopyNew 1 0; Write 0 5; MoveNew 2 1; Assign 2 large 3 true; Drop 2; Swap 1 3].
Example around_case :
  fine [Make 0 small 4 true; New 3] /\ fine around /\ (forall o, In o around -> leaves o 0) /\
  match run [Make 0 small 4 true; New 3] (fst (begin 4 [] [])) (snd (begin 4 [] [])) with
  | Ok (vs, _) s =>
      take vs 0 = Some (Reference small (Within 0)) /\
      match run around vs s with Ok (vs', _) s' => load (Reference small (Within 0)) vs' s' = Some 5 | _ => False end
  | _ => False
  end.
Proof.
  split; [|split; [|split; [|vm_compute; repeat split]]].
  - split; [|intros o [<-|[<-|[]]]; exact I]. intros o t [<-|[<-|[]]] Ht; cbn in Ht; [|destruct Ht]. destruct Ht as [<-|[]].
    split; [discriminate|split; [cbn; auto|split; cbn; auto; discriminate]].
  - split.
    + intros o t [<-|[<-|[<-|[<-|[<-|[<-|[]]]]]]] Ht; cbn in Ht; try (destruct Ht; fail). destruct Ht as [<-|[]].
      split; [discriminate|split; [cbn; auto|split; cbn; auto; discriminate]].
    + intros o [<-|[<-|[<-|[<-|[<-|[<-|[]]]]]]]; cbn; auto; try discriminate.
  - intros o [<-|[<-|[<-|[<-|[<-|[<-|[]]]]]]]; cbn; auto; try discriminate.
Qed.

(** Small objects stay where they are: a reference to one reads, after any program, what its variant then holds if that is
    of the same type, and using it is undefined if not. *)
Theorem C56_small_stays_with_the_variant : forall p n outside failures vs s i t j,
  fine p -> taken p n outside failures vs s -> take vs i = Some (Reference t (Within j)) ->
  forall q, fine q -> exists vs' thrown s',
    run q vs s = Ok (vs', thrown) s' /\
    let after := meaning_all q thrown (abs s vs) in
    (type_held after i = Some t ->
     load (Reference t (Within j)) vs' s' = seen after i /\ seen after i <> None /\
     forall x, save (Reference t (Within j)) x vs' s' = exec (Write i x) vs' s') /\
    (type_held after i <> Some t ->
     load (Reference t (Within j)) vs' s' = None /\ forall x, save (Reference t (Within j)) x vs' s' = UB).
Proof.
  intros p n outside failures vs s i t j Fp T K q Fq. pose proof (taken_inv _ _ _ _ _ _ Fp T) as I.
  destruct (take_kind _ _ _ _ _ (fun t H => H) I K) as (v & Hv & Em & -> & Es & _). cbn [r_ty] in *.
  destruct (run_ok safe (fun t H => H) q vs s I (proj1 Fq) (or_introl (proj2 Fq))) as (vs' & th & s' & E & I' & A & _).
  exists vs', th, s'. split; [exact E|]. cbv zeta. rewrite <- A. unfold type_held, seen. split.
  - destruct (lives (abs s' vs') i) as [[[u x|]|]|] eqn:L; try discriminate.
    intro H. injection H as ->. destruct (within_reads safe s' vs' i t x (fun t H => H) I' Es L) as [W1 W2]. split; [exact W1|]. split; [discriminate|exact W2].
  - intro H. rewrite lives_abs in H. unfold load, save. cbn [r_at r_ty].
    destruct (alive vs' i) as [[[u|] y]|] eqn:Ew; try (split; reflexivity). destruct y as [|o|b|e]; try (split; reflexivity).
    destruct (ty_eq_dec u t) as [->|N]; [|split; reflexivity]. exfalso. apply H. cbn [option_map]. unfold cont. cbn [mgr st].
    pose proof (inv_at _ _ _ _ _ I' Ew) as [W _ _]. inversion W as [|? ? Wv _]. subst. unfold wf in Wv. cbn [mgr st] in Wv.
    destruct Wv as [(_ & e & D & _)|(_ & D)]; [discriminate|]. rewrite Es in D. destruct D as (o' & D & (x & Ex) & _). injection D as <-.
    rewrite Ex. reflexivity.
Qed.
Print Assumptions C56_small_stays_with_the_variant.

(** So a reference to a small object does not follow it: after a move nothing is there, after a swap with a variant of the
    same type the reference reads the other object. *)
Theorem C56_small_follows_refuted :
  (exists p q vs s vs' th s' r, fine p /\ fine q /\ taken p 2 [] [] vs s /\ take vs 0 = Some r /\ run q vs s = Ok (vs', th) s' /\
     follow_all q th (abs s vs) 0 = Some 1 /\ seen (abs s' vs') 1 = Some 4 /\ load r vs' s' = None) /\
  (exists p q vs s vs' th s' r, fine p /\ fine q /\ taken p 2 [] [] vs s /\ take vs 0 = Some r /\ run q vs s = Ok (vs', th) s' /\
     follow_all q th (abs s vs) 0 = Some 1 /\ seen (abs s' vs') 1 = Some 4 /\ load r vs' s' = Some 5).
Proof.
  assert (S : safe small) by (split; [discriminate|split; [cbn; auto|split; cbn; auto; discriminate]]).
  split.
  - exists [Make 0 small 4 true], [MoveNew 1 0]. eexists. eexists. eexists. eexists. eexists. exists (Reference small (Within 0)).
    split; [split; [intros o t [<-|[]] [<-|[]]; exact S|intros o [<-|[]]; exact I]|].
    split; [split; [intros o t [<-|[]] []|intros o [<-|[]]; exact I]|].
    split; [eexists; reflexivity|]. repeat split.
  - exists [Make 0 small 4 true; Make 1 small 5 true], [Swap 0 1]. eexists. eexists. eexists. eexists. eexists. exists (Reference small (Within 0)).
    split; [split; [intros o t [<-|[<-|[]]] [<-|[]]; exact S|intros o [<-|[<-|[]]]; exact I]|].
    split; [split; [intros o t [<-|[]] []|intros o [<-|[]]; cbn; discriminate]|].
    split; [eexists; reflexivity|]. repeat split.
Qed.
Print Assumptions C56_small_follows_refuted.

(** Contents of different variants are different objects: writing through a reference to one is not seen through a reference
    to another, unless both variants refer to the same object outside. *)
Theorem C56_apart : forall p n outside failures vs s i j r q,
  fine p -> taken p n outside failures vs s -> i <> j -> take vs i = Some r -> take vs j = Some q ->
  ((exists e, r_at r = Outside e) \/ r_at r <> r_at q) /\
  (r_at r <> r_at q -> forall x, exists vs' s', save r x vs s = Ok vs' s' /\ load r vs' s' = Some x /\ load q vs' s' = load q vs s).
Proof.
  intros p n outside failures vs s i j r q Fp T N Ki Kj. pose proof (taken_inv _ _ _ _ _ _ Fp T) as I.
  destruct (take_kind _ _ _ _ _ (fun t H => H) I Ki) as (v & Hv & Ev & Hi).
  destruct (take_kind _ _ _ _ _ (fun t H => H) I Kj) as (w & Hw & Ew & Hj).
  destruct (inv_held safe s vs i v I (alive_nth _ _ _ Hv)) as (_ & HB & HO).
  split.
  - destruct r as [t [a|a|a]], q as [u [b|b|b]]; cbn [r_at r_ty] in *; try (right; congruence); try (left; eexists; reflexivity).
    + right. destruct Hi as [-> _], Hj as [-> _]. congruence.
    + right. intro E. injection E as ->. destruct Hi as (_ & _ & _ & Sv & _), Hj as (_ & _ & _ & Sw & _).
      exact (HO j w (not_eq_sym N) (alive_nth _ _ _ Hw) b Sv Sw).
  - intros D x. destruct r as [t [a|a|a]], q as [u [b|b|b]]; cbn [r_at r_ty] in *; unfold save, load; cbn [r_at r_ty].
    + destruct Hi as (-> & _ & o & y & So & _), Hj as (-> & _). destruct v as [m z]. cbn in Ev, So. subst m z. rewrite Hv.
      destruct (ty_eq_dec t t) as [_|K]; [|congruence]. eexists. eexists. split; [reflexivity|].
      rewrite alive_same by (eapply alive_len; exact Hv). rewrite alive_other by exact N. destruct (ty_eq_dec t t); [|congruence]. auto.
    + destruct Hi as (-> & _ & o & y & So & _). destruct v as [m z]. cbn in Ev, So. subst m z. rewrite Hv.
      destruct (ty_eq_dec t t) as [_|K]; [|congruence]. eexists. eexists. split; [reflexivity|].
      rewrite alive_same by (eapply alive_len; exact Hv). destruct (ty_eq_dec t t); [|congruence]. auto.
    + destruct Hi as (-> & _ & o & y & So & _). destruct v as [m z]. cbn in Ev, So. subst m z. rewrite Hv.
      destruct (ty_eq_dec t t) as [_|K]; [|congruence]. eexists. eexists. split; [reflexivity|].
      rewrite alive_same by (eapply alive_len; exact Hv). destruct (ty_eq_dec t t); [|congruence]. auto.
    + destruct Hi as (_ & o & y & So & Hb & _). rewrite Hb. eexists. eexists. split; [reflexivity|]. split; [|reflexivity].
      unfold block in *. cbn [with_heap heap freed]. destruct (in_dec Nat.eq_dec a (freed s)); [discriminate|].
      rewrite put_same; [reflexivity|]. apply nth_error_Some. destruct (nth_error (heap s) a); congruence.
    + destruct Hi as (_ & o & y & So & Hb & _). rewrite Hb. eexists. eexists. split; [reflexivity|]. split.
      * unfold block in *. cbn [with_heap heap freed]. destruct (in_dec Nat.eq_dec a (freed s)); [discriminate|].
        rewrite put_same; [reflexivity|]. apply nth_error_Some. destruct (nth_error (heap s) a); congruence.
      * rewrite block_put_other by congruence. reflexivity.
    + destruct Hi as (_ & o & y & So & Hb & _). rewrite Hb. eexists. eexists. split; [reflexivity|]. split; [|reflexivity].
      unfold block in *. cbn [with_heap heap freed]. destruct (in_dec Nat.eq_dec a (freed s)); [discriminate|].
      rewrite put_same; [reflexivity|]. apply nth_error_Some. destruct (nth_error (heap s) a); congruence.
    + destruct Hi as (So & L). apply Nat.ltb_lt in L as L'. rewrite L'. eexists. eexists. split; [reflexivity|]. split; [|reflexivity]. cbn. apply put_same. exact L.
    + destruct Hi as (So & L). apply Nat.ltb_lt in L as L'. rewrite L'. eexists. eexists. split; [reflexivity|]. split; [|reflexivity]. cbn. apply put_same. exact L.
    + destruct Hi as (So & L). apply Nat.ltb_lt in L as L'. rewrite L'. eexists. eexists. split; [reflexivity|]. split.
      * cbn. apply put_same. exact L.
      * cbn. apply put_other. congruence.
Qed.
Print Assumptions C56_apart.

(** A copy of a large object, and two variants referring to one object outside. *)
Example apart_case :
  let p := [Make 0 large 4 true; CopyNew 1 0; MakeRef 2 0; CopyNew 3 2] in
  fine p /\
  match run p (fst (begin 4 [6] [])) (snd (begin 4 [6] [])) with
  | Ok (vs, _) s =>
      take vs 0 = Some (Reference large (Block 0)) /\ take vs 1 = Some (Reference large (Block 1)) /\
      take vs 2 = Some (Reference ref_ty (Outside 0)) /\ take vs 3 = Some (Reference ref_ty (Outside 0))
  | _ => False
  end.
Proof.
  cbv zeta. split; [|vm_compute; repeat split]. split.
  - intros o t [<-|[<-|[<-|[<-|[]]]]] Ht; cbn in Ht; try (destruct Ht; fail). destruct Ht as [<-|[]].
    split; [discriminate|split; [cbn; auto|split; cbn; auto; discriminate]].
  - intros o [<-|[<-|[<-|[<-|[]]]]]; exact I.
Qed.
