(** Proofs about TempModel.v. *)
From Coq Require Import NArith List Bool Arith Lia Permutation.
From Verif Require Import TypesModel TypesSpec InheritModel InheritSpec AccModel TypesProofs AccSpec AccProofs TempModel TempSpec.
Import ListNotations.

(** ** Lists *)
Lemma remove_head (i : nat) l : ~ In i l -> remove Nat.eq_dec i (i :: l) = l.
Proof. intros H. cbn. destruct (Nat.eq_dec i i) as [_|N]; [apply notin_remove; exact H|congruence]. Qed.

Lemma remove_middle (i : nat) a l : NoDup (a ++ i :: l) -> remove Nat.eq_dec i (a ++ i :: l) = a ++ l.
Proof.
  intros H. rewrite remove_app, remove_head; [|apply NoDup_remove_2 in H; intro; apply H; apply in_or_app; auto].
  f_equal. apply notin_remove. apply NoDup_remove_2 in H. intro; apply H; apply in_or_app; auto.
Qed.

(** ** States *)
Lemma fresh_made s : fresh s -> fresh (St (next s :: live s) (blocks s) (S (next s)) (clock s) (left s)).
Proof.
  intros (N & B & L). split; [|split]; cbn.
  - constructor; [|exact N]. intro H. specialize (L (next s) (or_introl H)). lia.
  - exact B.
  - intros i [[<-|H]|H]; [lia|specialize (L i (or_introl H)); lia|specialize (L i (or_intror H)); lia].
Qed.

Lemma fresh_alloc s : fresh s -> fresh (St (live s) (next s :: blocks s) (S (next s)) (clock s) (left s)).
Proof.
  intros (N & B & L). split; [|split]; cbn.
  - exact N.
  - constructor; [|exact B]. intro H. specialize (L (next s) (or_intror H)). lia.
  - intros i [H|[<-|H]]; [specialize (L i (or_introl H)); lia|lia|specialize (L i (or_intror H)); lia].
Qed.

(** A computation that accounts for what it does; [new] is what its result stands for. *)
Definition ok {A} (new newb : A -> list nat) (m : M A) : Prop :=
  forall s r s', fresh s -> m s = (r, s') -> ended r ->
    fresh s' /\ exists lost, accounted (match r with Val a => new a | _ => [] end) (match r with Val a => newb a | _ => [] end) lost s s'.

Definition none {A} (_ : A) : list nat := [].

Lemma ok_ret {A} (a : A) n nb : n a = [] -> nb a = [] -> ok n nb (ret a).
Proof. intros H1 H2 s r s' F E _. injection E as <- <-. split; [exact F|]. exists []. rewrite H1, H2. repeat split. Qed.
Lemma ok_raise {A} x (n nb : A -> list nat) : ok n nb (raise x).
Proof. intros s r s' F E _. injection E as <- <-. split; [exact F|]. exists []. repeat split. Qed.
Lemma ok_undefined {A} (n nb : A -> list nat) : ok n nb (undefined).
Proof. intros s r s' F E D. injection E as <- <-. destruct D. Qed.
Lemma ok_terminated {A} (n nb : A -> list nat) : ok n nb (fun s => (Terminated, s)).
Proof. intros s r s' F E D. injection E as <- <-. destruct D. Qed.
Lemma ok_of_out {A} x (o : out A) : ok none none (of_out x o).
Proof. destruct o; cbn; [(apply ok_ret; reflexivity)|apply ok_raise|apply ok_undefined|apply ok_terminated|]. intros s r s' F E D. injection E as <- <-. destruct D. Qed.
Lemma ok_user w : ok none none (user_call w).
Proof.
  intros s r s' F E _. injection E as <- <-. split; [exact F|]. exists []. destruct (w_throws w (clock s)); repeat split.
Qed.
Lemma ok_tick : ok none none tick.
Proof. intros s r s' F E _. injection E as <- <-. split; [exact F|]. exists []. repeat split. Qed.
Lemma ok_made : ok (fun i => [i]) none made.
Proof. intros s r s' F E _. injection E as <- <-. split; [apply fresh_made, F|]. exists []. repeat split. Qed.

(** Something that makes nothing, then something else. *)
Lemma ok_bind {A B} (m : M A) (f : A -> M B) n nb : ok none none m -> (forall a, ok n nb (f a)) -> ok n nb (bindM m f).
Proof.
  intros Hm Hf s r s' F E D. unfold bindM in E. destruct (m s) as [r1 s1] eqn:E1. specialize (Hm s r1 s1 F E1).
  destruct r1 as [a|x| | |]; try (injection E as <- <-; contradiction); [|injection E as <- <-; exact (Hm I)].
  destruct (Hm I) as (F1 & l1 & L1 & V1 & B1). destruct (Hf a s1 r s' F1 E D) as (F2 & l2 & L2 & V2 & B2).
  split; [exact F2|]. exists (l2 ++ l1). cbn in *. split; [|split].
  - rewrite L2, L1. apply app_assoc.
  - rewrite V2, V1. unfold none. cbn. now rewrite <- !app_assoc.
  - rewrite B2, B1. reflexivity.
Qed.

(** Something that makes something, renamed. *)
Lemma ok_map {A B} (m : M A) (g : A -> B) n nb n' nb' : ok n nb m -> (forall a, n' (g a) = n a) -> (forall a, nb' (g a) = nb a) ->
  ok n' nb' (bindM m (fun a => ret (g a))).
Proof.
  intros Hm H1 H2 s r s' F E D. unfold bindM in E. destruct (m s) as [r1 s1] eqn:E1. specialize (Hm s r1 s1 F E1).
  destruct r1 as [a|x| | |]; try (injection E as <- <-; contradiction).
  - injection E as <- <-. rewrite H1, H2. exact (Hm I).
  - injection E as <- <-. exact (Hm I).
Qed.

Lemma destroy_head i L s r s' : fresh s -> live s = i :: L -> destroy i s = (r, s') ->
  r = Val tt /\ s' = St L (blocks s) (next s) (clock s) (left s) /\ fresh s'.
Proof.
  intros (N & B & F) V E. unfold destroy in E. rewrite V in E.
  destruct (in_dec Nat.eq_dec i (i :: L)) as [_|H]; [|destruct H; left; reflexivity].
  injection E as <- <-. rewrite V in N. inversion N; subst.
  assert (R : remove Nat.eq_dec i (i :: L) = L) by (apply remove_head; assumption). cbn in R. rewrite R.
  split; [reflexivity|]. split; [reflexivity|]. split; [|split]; cbn; [assumption|exact B|]. intros j [H|H]; apply F; [left; rewrite V; right; exact H|right; exact H].
Qed.

Lemma destroy_middle a i L s r s' : fresh s -> live s = a ++ i :: L -> destroy i s = (r, s') ->
  r = Val tt /\ s' = St (a ++ L) (blocks s) (next s) (clock s) (left s) /\ fresh s'.
Proof.
  intros (N & B & F) V E. unfold destroy in E. rewrite V in E.
  destruct (in_dec Nat.eq_dec i (a ++ i :: L)) as [_|H]; [|destruct H; apply in_or_app; right; left; reflexivity].
  injection E as <- <-. rewrite V in N. rewrite remove_middle by exact N.
  split; [reflexivity|]. split; [reflexivity|]. split; [|split]; cbn; [eapply NoDup_remove_1; exact N|exact B|].
  intros j [H|H]; apply F; [left; rewrite V; apply in_app_iff in H; apply in_app_iff; cbn; tauto|right; exact H].
Qed.

Lemma dealloc_head i L s r s' : fresh s -> blocks s = i :: L -> deallocate i s = (r, s') ->
  r = Val tt /\ s' = St (live s) L (next s) (clock s) (left s) /\ fresh s'.
Proof.
  intros (N & B & F) V E. unfold deallocate in E. rewrite V in E.
  destruct (in_dec Nat.eq_dec i (i :: L)) as [_|H]; [|destruct H; left; reflexivity].
  injection E as <- <-. rewrite V in B. inversion B; subst.
  assert (R : remove Nat.eq_dec i (i :: L) = L) by (apply remove_head; assumption). cbn in R. rewrite R.
  split; [reflexivity|]. split; [reflexivity|]. split; [|split]; cbn; [exact N|assumption|]. intros j [H|H]; apply F; [left; exact H|right; rewrite V; right; exact H].
Qed.

Lemma fin_destroy {A} (n : A -> list nat) m i L s r s' : ok n none m -> fresh s -> live s = i :: L ->
  finally m (destroy i) s = (r, s') -> ended r ->
  fresh s' /\ exists lost, left s' = lost ++ left s /\ live s' = (match r with Val a => n a | _ => [] end) ++ lost ++ L /\ blocks s' = blocks s.
Proof.
  intros Hm F V E D. unfold finally in E. destruct (m s) as [r1 s1] eqn:E1. specialize (Hm s r1 s1 F E1).
  destruct r1 as [a|x| | |]; try (injection E as <- <-; contradiction).
  - destruct (Hm I) as (F1 & l & L1 & V1 & B1). unfold bindM in E. destruct (destroy i s1) as [r2 s2] eqn:E2.
    rewrite V in V1. rewrite app_assoc in V1. destruct (destroy_middle _ _ _ _ _ _ F1 V1 E2) as (-> & -> & F2).
    injection E as <- <-. split; [exact F2|]. exists l. cbn. split; [exact L1|]. split; [now rewrite <- app_assoc|exact B1].
  - destruct (Hm I) as (F1 & l & L1 & V1 & B1). unfold bindM in E. destruct (destroy i s1) as [r2 s2] eqn:E2.
    rewrite V in V1. rewrite app_assoc in V1. destruct (destroy_middle _ _ _ _ _ _ F1 V1 E2) as (-> & -> & F2).
    injection E as <- <-. split; [exact F2|]. exists l. cbn. split; [exact L1|]. split; [reflexivity|exact B1].
Qed.

Lemma ok_functor f c : ok (fun r => match r with Some (i, _) => [i] | None => [] end) none (invoke_functor f c).
Proof.
  apply ok_bind; [exact ok_tick|]. intros t. destruct f as [f|f].
  - destruct (f c t) as [v|]; [|(apply ok_ret; reflexivity)].
    apply (ok_map made (fun i => Some (i, v)) (fun i => [i]) none); [exact ok_made| |]; reflexivity.
  - destruct (f c t) as [[v [|]]|]; [| |apply ok_raise].
    + apply (ok_map made (fun i => Some (i, v)) (fun i => [i]) none); [exact ok_made| |]; reflexivity.
    + intros s r s' F E _. unfold bindM, made, reported, ret in E. cbn in E. injection E as <- <-.
      split; [destruct (fresh_made s F) as (A & B & C); split; [exact A|split; [exact B|exact C]]|]. exists [next s]. repeat split.
Qed.

Lemma ok_convert w c a b : ok (fun r => match r with Some (i, _) => [i] | None => [] end) none (convert w c a b).
Proof. unfold convert. destruct (w_functor w (full_decay a) (full_decay b)); [apply ok_functor|(apply ok_ret; reflexivity)]. Qed.

Lemma ok_copy w T : ok (fun i => [i]) none (copy_construct w T).
Proof. unfold copy_construct. destruct (e_copies (w_env w) T); [apply ok_bind; [apply ok_user|intros _; exact ok_made]|apply ok_raise]. Qed.

(** A thing made in the first part is kept by the second, which makes nothing itself but may turn it down without result. *)
Lemma ok_pass {A B} (m : M A) (f : A -> M B) n n' : ok n none m ->
  (forall a s r s', f a s = (r, s') -> ended r -> s' = s /\ match r with Val b => n' b = n a | _ => n a = [] end) -> ok n' none (bindM m f).
Proof.
  intros Hm Hf s r s' F E D. unfold bindM in E. destruct (m s) as [r1 s1] eqn:E1. specialize (Hm s r1 s1 F E1).
  destruct r1 as [a|x| | |]; try (injection E as <- <-; contradiction).
  - destruct (Hm I) as (F1 & l & L & V & B1). destruct (Hf a s1 r s' E D) as [-> K]. split; [exact F1|]. exists l.
    destruct r as [b|x| | |]; try destruct D; [rewrite K; split; [exact L|split; [exact V|exact B1]]|].
    rewrite K in V. split; [exact L|split; [exact V|exact B1]].
  - injection E as <- <-. exact (Hm I).
Qed.

Lemma ok_buffer w c from T : ok (fun r => [fst r]) none (into_buffer w c from T).
Proof.
  assert (C : forall g, ok (fun r : nat * got => [fst r]) none (let! i := copy_construct w T in ret (i, g))).
  { intros g. apply (ok_map _ (fun i => (i, g)) (fun i => [i]) none); [apply ok_copy| |]; reflexivity. }
  assert (O : ok (fun r : nat * got => [fst r]) none
                 (let! r := convert w c from (mkQ RNone T) in match r with Some (i, v) => ret (i, Converted v) | None => raise Bad_convert end)).
  { eapply ok_pass; [apply ok_convert|]. intros [[i v]|] s r s' E _; injection E as <- <-; split; reflexivity. }
  unfold into_buffer. destruct (compat from (mkQ RNone T)); [|exact O|apply ok_terminated].
  destruct (same_decay _ _); [apply C|].
  destruct (tag_of _) as [|k|k]; [exact O| |].
  - destruct (isClass _); [|exact O]. apply ok_bind; [apply ok_of_out|]. intros [x|]; [apply C|exact O].
  - destruct (isClassPtr _); [|exact O]. apply ok_bind; [apply ok_of_out|]. intros [x|]; [apply C|exact O].
Qed.

(** Make one thing, use it, destroy it at the end. *)
Lemma ok_use {A B} (m : M A) (id : A -> nat) (body : A -> M B) n : ok (fun a => [id a]) none m -> (forall a, ok n none (body a)) ->
  ok n none (bindM m (fun a => finally (body a) (destroy (id a)))).
Proof.
  intros Hm Hb s r s' F E D. unfold bindM in E. destruct (m s) as [r1 s1] eqn:E1. specialize (Hm s r1 s1 F E1).
  destruct r1 as [a|x| | |]; try (injection E as <- <-; contradiction).
  - destruct (Hm I) as (F1 & l & L & V & B1). cbn in V.
    destruct (fin_destroy n (body a) (id a) (l ++ live s) s1 r s' (Hb a) F1 V E D) as (F2 & l2 & L2 & V2 & B2).
    split; [exact F2|]. exists (l2 ++ l). split; [rewrite L2, L; apply app_assoc|]. split; [now rewrite V2, <- app_assoc|].
    rewrite B2, B1. destruct r; reflexivity.
  - injection E as <- <-. exact (Hm I).
Qed.

Lemma bindM_ext {A B} (m : M A) (f g : A -> M B) s : (forall a s, f a s = g a s) -> bindM m f s = bindM m g s.
Proof. intros H. unfold bindM. destruct (m s) as [[a|x| | |] s1]; auto. Qed.

Lemma ok_to w k v T : ok (fun r => [fst r]) none (to w k v T).
Proof.
  unfold to. destruct v as [c|]; [|apply ok_raise].
  set (m := into_buffer w c (type_id c (if k then ALrefConst else ALref)) T).
  assert (E : forall s, bindM m (fun r => let (i, g) := r in finally (let! _ := user_call w in let! j := made in ret (j, g)) (destroy i)) s
            = bindM m (fun r => finally (let! _ := user_call w in let! j := made in ret (j, snd r)) (destroy (fst r))) s).
  { intros s. apply bindM_ext. intros [i g] s0. reflexivity. }
  assert (K : ok (fun r : nat * got => [fst r]) none
     (bindM m (fun r => finally (let! _ := user_call w in let! j := made in ret (j, snd r)) (destroy (fst r))))).
  { apply (ok_use m fst). { apply ok_buffer. } intros [i g]. apply ok_bind; [apply ok_user|]. intros _.
    apply (ok_map made (fun j => (j, g)) (fun i => [i]) none); [exact ok_made| |]; reflexivity. }
  intros s r s' F Er D. rewrite E in Er. exact (K s r s' F Er D).
Qed.

Lemma ok_comparing w b o : ok none none (comparing w b o).
Proof.
  apply ok_bind; [apply ok_of_out|]. intros x. destruct b; [(apply ok_ret; reflexivity)|]. apply ok_bind; [apply ok_user|]. intros _. (apply ok_ret; reflexivity).
Qed.

Lemma ok_equal w a b : ok none none (equal w a b).
Proof.
  unfold equal. destruct (compat _ _); [|(apply ok_ret; reflexivity)|apply ok_terminated]. destruct (same_decay _ _); [apply ok_comparing|(apply ok_ret; reflexivity)].
Qed.

(** A converted object compared and destroyed. *)
Lemma ok_compared {A} w c a b (bad : bool) (cmp : nat -> M A) (none_ : M A) :
  (forall x, ok none none (cmp x)) -> ok none none none_ ->
  ok none none (let! r := convert w c a b in
    match r with Some (i, x) => if bad then undefined else finally (cmp x) (destroy i) | None => none_ end).
Proof.
  intros Hc Hn s r s' F E D. unfold bindM in E. destruct (convert w c a b s) as [r1 s1] eqn:E1.
  pose proof (ok_convert w c a b s r1 s1 F E1) as K.
  destruct r1 as [[[i x]|]|x| | |]; try (injection E as <- <-; contradiction).
  - destruct (K I) as (F1 & l & L & V & B1). destruct bad; [injection E as <- <-; destruct D|].
    destruct (fin_destroy none (cmp x) i (l ++ live s) s1 r s' (Hc x) F1 V E D) as (F2 & l2 & L2 & V2 & B2).
    split; [exact F2|]. exists (l2 ++ l). split; [rewrite L2, L; apply app_assoc|]. split; [now rewrite V2, <- app_assoc|].
    rewrite B2, B1. destruct r; reflexivity.
  - destruct (K I) as (F1 & l & L & V & B1). destruct (Hn s1 r s' F1 E D) as (F2 & l2 & L2 & V2 & B2).
    split; [exact F2|]. exists (l2 ++ l). split; [rewrite L2, L; apply app_assoc|]. split; [rewrite V2, V; cbn; now rewrite <- app_assoc|].
    rewrite B2, B1. reflexivity.
  - injection E as <- <-. exact (K I).
Qed.

Lemma ok_block {A} (m : M A) : ok none none m -> ok none none (let! p := allocate in finally m (deallocate p)).
Proof.
  intros Hm s r s' F E D. unfold bindM, allocate in E. set (s1 := St (live s) (next s :: blocks s) (S (next s)) (clock s) (left s)) in *.
  assert (F1 : fresh s1) by apply fresh_alloc, F. unfold finally in E. destruct (m s1) as [r2 s2] eqn:E2. specialize (Hm s1 r2 s2 F1 E2).
  destruct r2 as [a|x| | |]; try (injection E as <- <-; contradiction).
  - destruct (Hm I) as (F2 & l & L & V & B). unfold bindM in E. destruct (deallocate (next s) s2) as [r3 s3] eqn:E3.
    destruct (dealloc_head _ _ _ _ _ F2 B E3) as (-> & -> & F3). injection E as <- <-. split; [exact F3|]. exists l. split; [exact L|]. split; [exact V|reflexivity].
  - destruct (Hm I) as (F2 & l & L & V & B). unfold bindM in E. destruct (deallocate (next s) s2) as [r3 s3] eqn:E3.
    destruct (dealloc_head _ _ _ _ _ F2 B E3) as (-> & -> & F3). injection E as <- <-. split; [exact F3|]. exists l. split; [exact L|]. split; [exact V|reflexivity].
Qed.

Lemma ok_eq w v b T : ok none none (eq w v b T).
Proof.
  unfold eq. destruct v as [a|]; [|(apply ok_ret; reflexivity)]. apply ok_bind; [apply ok_equal|]. intros [|]; [(apply ok_ret; reflexivity)|]. cbv zeta.
  set (back := if has_converter w (mkQ RNone T) (type_id a ANone) then _ else _).
  assert (B : ok none none back).
  { unfold back. destruct (has_converter _ _ _); [|(apply ok_ret; reflexivity)]. apply ok_block.
    apply (ok_compared w b (mkQ RNone T) (type_id a ANone) (is_array (stored a)) (fun x => compare_value w (stored a) a x) (ret false)).
    - intros x. apply ok_comparing.
    - (apply ok_ret; reflexivity). }
  clearbody back. destruct (has_converter _ _ _); [|exact B].
  apply (ok_compared w a (type_id a ANone) (mkQ RNone T) (is_array T) (fun x => compare_value w T b x) back); [intros x; apply ok_comparing|exact B].
Qed.

(** ** Nothing is left if no converter reports *)
Definition quiet {A} (m : M A) : Prop := forall s r s', m s = (r, s') -> ended r -> left s' = left s.

Lemma quiet_bind {A B} (m : M A) (f : A -> M B) : quiet m -> (forall a, quiet (f a)) -> quiet (bindM m f).
Proof.
  intros Hm Hf s r s' E D. unfold bindM in E. destruct (m s) as [r1 s1] eqn:E1. specialize (Hm s r1 s1 E1).
  destruct r1 as [a|x| | |]; try (injection E as <- <-; contradiction); [|injection E as <- <-; exact (Hm I)].
  rewrite (Hf a s1 r s' E D). exact (Hm I).
Qed.
Lemma quiet_finally {A} (m : M A) f : quiet m -> quiet f -> quiet (finally m f).
Proof.
  intros Hm Hf s r s' E D. unfold finally in E. destruct (m s) as [r1 s1] eqn:E1. specialize (Hm s r1 s1 E1).
  destruct r1 as [a|x| | |]; try (injection E as <- <-; contradiction).
  - assert (Q : quiet (let! _ := f in ret a)) by (apply quiet_bind; [exact Hf|]; intros [] t q t' K _; injection K as <- <-; reflexivity).
    rewrite (Q s1 r s' E D). exact (Hm I).
  - assert (Q : quiet (let! _ := f in @raise A x)) by (apply quiet_bind; [exact Hf|]; intros [] t q t' K _; injection K as <- <-; reflexivity).
    rewrite (Q s1 r s' E D). exact (Hm I).
Qed.
Ltac quiet_tac := intros s r s' E _; cbn in E; injection E as <- <-; reflexivity.
Lemma quiet_ret {A} (a : A) : quiet (ret a). Proof. quiet_tac. Qed.
Lemma quiet_raise {A} x : quiet (@raise A x). Proof. quiet_tac. Qed.
Lemma quiet_made : quiet made. Proof. quiet_tac. Qed.
Lemma quiet_allocate : quiet allocate. Proof. quiet_tac. Qed.
Lemma quiet_tick : quiet tick. Proof. quiet_tac. Qed.
Lemma quiet_user w : quiet (user_call w). Proof. quiet_tac. Qed.
Lemma quiet_undefined {A} : quiet (@undefined A). Proof. quiet_tac. Qed.
Lemma quiet_of_out {A} x (o : out A) : quiet (of_out x o). Proof. destruct o; quiet_tac. Qed.
Lemma quiet_destroy i : quiet (destroy i).
Proof. intros s r s' E _. unfold destroy in E. destruct (in_dec _ _ _); injection E as <- <-; reflexivity. Qed.
Lemma quiet_deallocate i : quiet (deallocate i).
Proof. intros s r s' E _. unfold deallocate in E. destruct (in_dec _ _ _); injection E as <- <-; reflexivity. Qed.
Lemma quiet_copy w T : quiet (copy_construct w T).
Proof. unfold copy_construct. destruct (e_copies _ _); [apply quiet_bind; [apply quiet_user|intros _; apply quiet_made]|apply quiet_raise]. Qed.
Lemma quiet_convert w c a b : plain_converters w -> quiet (convert w c a b).
Proof.
  intros P. unfold convert. destruct (w_functor w (full_decay a) (full_decay b)) as [[f|f]|] eqn:E; [|destruct (P _ _ _ E)|apply quiet_ret].
  apply quiet_bind; [apply quiet_tick|]. intros t. destruct (f c t); [|apply quiet_ret]. apply quiet_bind; [apply quiet_made|]. intros i. apply quiet_ret.
Qed.
Lemma quiet_buffer w c from T : plain_converters w -> quiet (into_buffer w c from T).
Proof.
  intros P.
  assert (C : forall g, quiet (let! i := copy_construct w T in ret (i, g : got))) by (intros g; apply quiet_bind; [apply quiet_copy|intros i; apply quiet_ret]).
  assert (O : quiet (let! r := convert w c from (mkQ RNone T) in match r with Some (i, v) => ret (i, Converted v) | None => raise Bad_convert end))
    by (apply quiet_bind; [apply quiet_convert, P|intros [[i v]|]; [apply quiet_ret|apply quiet_raise]]).
  unfold into_buffer. destruct (compat from (mkQ RNone T)); [|exact O|intros s r s' E D; injection E as <- <-; destruct D].
  destruct (same_decay _ _); [apply C|]. destruct (tag_of _) as [|k|k]; [exact O| |].
  - destruct (isClass _); [|exact O]. apply quiet_bind; [apply quiet_of_out|]. intros [x|]; [apply C|exact O].
  - destruct (isClassPtr _); [|exact O]. apply quiet_bind; [apply quiet_of_out|]. intros [x|]; [apply C|exact O].
Qed.
Lemma quiet_to w k v T : plain_converters w -> quiet (to w k v T).
Proof.
  intros P. unfold to. destruct v as [c|]; [|apply quiet_raise]. apply quiet_bind; [apply quiet_buffer, P|]. intros [i g].
  apply quiet_finally; [|apply quiet_destroy]. apply quiet_bind; [apply quiet_user|]. intros _. apply quiet_bind; [apply quiet_made|]. intros j. apply quiet_ret.
Qed.
Lemma quiet_comparing w b o : quiet (comparing w b o).
Proof. apply quiet_bind; [apply quiet_of_out|]. intros x. destruct b; [apply quiet_ret|]. apply quiet_bind; [apply quiet_user|]. intros _. apply quiet_ret. Qed.
Lemma quiet_eq w v b T : plain_converters w -> quiet (eq w v b T).
Proof.
  intros P. unfold eq. destruct v as [a|]; [|apply quiet_ret]. apply quiet_bind.
  { unfold equal. destruct (compat _ _); [|apply quiet_ret|intros s r s' E D; injection E as <- <-; destruct D]. destruct (same_decay _ _); [apply quiet_comparing|apply quiet_ret]. }
  intros [|]; [apply quiet_ret|]. cbv zeta. set (back := if has_converter w (mkQ RNone T) (type_id a ANone) then _ else _).
  assert (B : quiet back).
  { unfold back. destruct (has_converter _ _ _); [|apply quiet_ret]. apply quiet_bind; [apply quiet_allocate|]. intros p.
    apply quiet_finally; [|apply quiet_deallocate]. apply quiet_bind; [apply quiet_convert, P|]. intros [[i x]|]; [|apply quiet_ret].
    destruct (is_array _); [apply quiet_undefined|]. apply quiet_finally; [apply quiet_comparing|apply quiet_destroy]. }
  clearbody back. destruct (has_converter _ _ _); [|exact B]. apply quiet_bind; [apply quiet_convert, P|]. intros [[i x]|]; [|exact B].
  destruct (is_array _); [apply quiet_undefined|]. apply quiet_finally; [apply quiet_comparing|apply quiet_destroy].
Qed.

(** ** What converters do *)
Lemma convert_spec w c a b s r s' : convert w c a b s = (r, s') ->
  (no_converter w (full_decay a) (full_decay b) /\ r = Val None /\ s' = s) \/
  (exists v i, converts w (full_decay a) (full_decay b) c (clock s) (Accepts v) /\ r = Val (Some (i, v)) /\ left s' = left s /\ clock s' = S (clock s)) \/
  (converts w (full_decay a) (full_decay b) c (clock s) (Gives_up false) /\ r = Val None /\ left s' = left s /\ clock s' = S (clock s)) \/
  (exists i, converts w (full_decay a) (full_decay b) c (clock s) (Gives_up true) /\ r = Val None /\ left s' = i :: left s /\ clock s' = S (clock s)) \/
  (converts w (full_decay a) (full_decay b) c (clock s) Throws /\ r = Raise Users /\ left s' = left s /\ clock s' = S (clock s)).
Proof.
  unfold convert, no_converter. destruct (w_functor w (full_decay a) (full_decay b)) as [[f|f]|] eqn:E.
  - unfold invoke_functor, bindM, tick, made, ret. cbn [clock live blocks next left]. destruct (f c (clock s)) as [v|] eqn:Ef; intros K; injection K as <- <-.
    + right. left. exists v, (next s). split; [eapply ConvValue; eauto|repeat split].
    + do 2 right. left. split; [eapply ConvCaught; eauto|repeat split].
  - unfold invoke_functor, bindM, tick, made, ret, reported, raise. cbn [clock live blocks next left]. destruct (f c (clock s)) as [[v [|]]|] eqn:Ef; intros K; injection K as <- <-.
    + right. left. exists v, (next s). split; [eapply ConvReported; eauto|repeat split].
    + do 3 right. left. exists (next s). split; [eapply ConvRefused; eauto|repeat split].
    + do 4 right. split; [eapply ConvThrown; eauto|repeat split].
  - intros K. injection K as <- <-. left. repeat split.
Qed.

(** A converter does one thing at a time. *)
Lemma converts_unique w a b c t x y : converts w a b c t x -> converts w a b c t y -> x = y.
Proof. intros H K. inversion H; inversion K; subst; congruence. Qed.
Lemma converts_some w a b c t x : converts w a b c t x -> w_functor w a b <> None.
Proof. intros H. inversion H; congruence. Qed.

(** ** The first part of to *)

(** How it can end. *)
Inductive buffer_end (w : world) (c : content) (from : qty) (T : ty) (s : st) : res (nat * got) -> st -> Prop :=
| EndCopy g i s' : e_copies (w_env w) T = true -> w_throws w (clock s) = false -> clock s' = S (clock s) -> left s' = left s ->
    (forall v, g <> Converted v) -> buffer_end w c from T s (Val (i, g)) s'
| EndCopyThrows s' : e_copies (w_env w) T = true -> w_throws w (clock s) = true -> left s' = left s -> buffer_end w c from T s (Raise Users) s'
| EndNoCopy s' : e_copies (w_env w) T = false -> left s' = left s -> buffer_end w c from T s (Raise Not_possible) s'
| EndConverted v i s' : converts w (full_decay from) (known_as_type T) c (clock s) (Accepts v) -> clock s' = S (clock s) -> left s' = left s ->
    buffer_end w c from T s (Val (i, Converted v)) s'
| EndNoConverter s' : no_converter w (full_decay from) (known_as_type T) -> left s' = left s -> buffer_end w c from T s (Raise Bad_convert) s'
| EndGaveUp s' : converts w (full_decay from) (known_as_type T) c (clock s) (Gives_up false) -> left s' = left s -> buffer_end w c from T s (Raise Bad_convert) s'
| EndRefused i s' : converts w (full_decay from) (known_as_type T) c (clock s) (Gives_up true) -> left s' = i :: left s ->
    buffer_end w c from T s (Raise Bad_convert) s'
| EndThrew s' : converts w (full_decay from) (known_as_type T) c (clock s) Throws -> left s' = left s -> buffer_end w c from T s (Raise Users) s'.

Lemma cast_imp_no_throw e c k : cast_imp e c k <> Throw.
Proof.
  unfold cast_imp, class_info. destruct (is_array (stored c)); cbn [bind]; [discriminate|].
  assert (R : forall d x, (if e_registered e d && e_registered e k then of_res (cast (e_graph e) (fuel e) d k x) else Got None) <> Throw).
  { intros d x. destruct (_ && _); [|discriminate]. destruct (cast _ _ _ _ _); discriminate. }
  destruct (tag_of _) as [|j|j]; cbn [bind]; [discriminate| |].
  - destruct (e_declares e j); [destruct (e_dyn e j (c_at c))|]; cbn [bind]; apply R.
  - destruct (e_declares e j); [destruct (c_ptr c); [destruct (e_dyn e j n)|]|]; cbn [bind]; try apply R. discriminate.
Qed.

Lemma buffer_cases w c from T s r s' : into_buffer w c from T s = (r, s') -> ended r -> buffer_end w c from T s r s'.
Proof.
  assert (C : forall g r s', (let! i := copy_construct w T in ret (i, g : got)) s = (r, s') -> ended r -> (forall v, g <> Converted v) -> buffer_end w c from T s r s').
  { intros g r0 s0 E D N. unfold copy_construct in E. destruct (e_copies (w_env w) T) eqn:Ec.
    - unfold bindM, user_call in E. destruct (w_throws w (clock s)) eqn:Et; injection E as <- <-; [apply EndCopyThrows|apply EndCopy]; auto.
    - injection E as <- <-. apply EndNoCopy; auto. }
  assert (O : forall r s', (let! r := convert w c from (mkQ RNone T) in match r with Some (i, v) => ret (i, Converted v) | None => raise Bad_convert end) s = (r, s') ->
              buffer_end w c from T s r s').
  { intros r0 s0 E. unfold bindM in E. destruct (convert w c from (mkQ RNone T) s) as [r1 s1] eqn:E1.
    destruct (convert_spec _ _ _ _ _ _ _ E1) as [(N & -> & ->)|[(v & i & K & -> & L & Cl)|[(K & -> & L & Cl)|[(i & K & -> & L & Cl)|(K & -> & L & Cl)]]]];
      injection E as <- <-; [apply EndNoConverter|eapply EndConverted|apply EndGaveUp|eapply EndRefused|apply EndThrew]; eauto. }
  unfold into_buffer. destruct (compat from (mkQ RNone T)); intros E D; [|apply O, E|injection E as <- <-; contradiction].
  destruct (same_decay _ _); [eapply C; [exact E|exact D|intros v; destruct (is_array _); discriminate]|].
  destruct (tag_of _) as [|k|k]; [apply O, E| |].
  - destruct (isClass _); [|apply O, E]. unfold bindM at 1 in E. pose proof (cast_imp_no_throw (w_env w) c k) as NT.
    destruct (cast_imp (w_env w) c k) as [[x|]| | | |]; cbn [of_out ret undefined] in E; try (injection E as <- <-; contradiction); [|apply O, E].
    eapply C; [exact E|exact D|discriminate].
  - destruct (isClassPtr _); [|apply O, E]. unfold bindM at 1 in E. pose proof (cast_imp_no_throw (w_env w) c k) as NT.
    destruct (cast_imp (w_env w) c k) as [[x|]| | | |]; cbn [of_out ret undefined] in E; try (injection E as <- <-; contradiction); [|apply O, E].
    eapply C; [exact E|exact D|discriminate].
Qed.

(** What to adds: the move out of the buffer. *)
Lemma to_inv w k c T s r s' : fresh s -> to w k (Some c) T s = (r, s') -> ended r ->
  exists r1 s1, buffer_end w c (type_id c (if k then ALrefConst else ALref)) T s r1 s1 /\ left s' = left s1 /\
    match r1 with
    | Val (i, g) => (w_throws w (S (clock s)) = false /\ exists j, r = Val (j, g)) \/ (w_throws w (S (clock s)) = true /\ r = Raise Users)
    | Raise x => r = Raise x
    | _ => False
    end.
Proof.
  intros F E D. unfold to in E. unfold bindM at 1 in E. set (m := into_buffer w c _ T) in *. destruct (m s) as [r1 s1] eqn:E1.
  assert (K : ended r1) by (destruct r1; try exact I; injection E as <- <-; contradiction).
  pose proof (buffer_cases _ _ _ _ _ _ _ E1 K) as B. destruct (ok_buffer w c _ T s r1 s1 F E1 K) as (F1 & l & L & V & _).
  exists r1, s1. split; [exact B|]. destruct r1 as [[i g]|x| | |]; try contradiction; [|injection E as <- <-; auto].
  assert (C1 : clock s1 = S (clock s)) by (inversion B; assumption). unfold finally in E. unfold bindM at 1, user_call in E. rewrite C1 in E.
  destruct (w_throws w (S (clock s))) eqn:T1.
  - unfold bindM in E. match type of E with context [destroy i ?st] => set (s2 := st) in *; destruct (destroy i s2) as [r3 s3] eqn:E3 end.
    destruct (destroy_head i (l ++ live s) s2 r3 s3 F1 V E3) as (-> & -> & _). injection E as <- <-. split; [reflexivity|]. right. auto.
  - unfold bindM at 1 2 in E. cbn [made ret live blocks next clock left] in E. unfold bindM in E.
    match type of E with context [destroy i ?st] => set (s2 := st) in *; destruct (destroy i s2) as [r3 s3] eqn:E3 end.
    assert (F2 : fresh s2). { unfold s2. exact (fresh_made (St (live s1) (blocks s1) (next s1) (S (clock s1)) (left s1)) F1). }
    assert (V2 : live s2 = [next s1] ++ i :: (l ++ live s)) by (cbn; cbn in V; rewrite V; reflexivity).
    destruct (destroy_middle [next s1] i (l ++ live s) s2 r3 s3 F2 V2 E3) as (-> & -> & _). injection E as <- <-.
    split; [reflexivity|]. left. split; [reflexivity|]. eauto.
Qed.

(** ** to answers as in AccModel.v *)
Definition matches {A B} (P : A -> B -> Prop) (o : out A) (r : res B) : Prop :=
  match o with
  | Got a => exists b, r = Val b /\ P a b
  | Throw => exists x, r = Raise x
  | Undef => r = Undefined | Term => r = Terminated | Loop => r = Endless
  end.

Lemma buffer_refines w c from T s :
  matches (fun g p => snd p = g) (metafunc_to (at_moment w (clock s)) c from T) (fst (into_buffer w c from T s)).
Proof.
  set (e := at_moment w (clock s)).
  assert (C : forall g, matches (fun g p => snd p = g) (if e_copies e T then Got g else Throw) (fst ((let! i := copy_construct w T in ret (i, g : got)) s))).
  { intros g. unfold e, at_moment. cbn [e_copies]. unfold copy_construct. destruct (e_copies (w_env w) T); cbn [andb]; [|eexists; reflexivity].
    unfold bindM, user_call. destruct (w_throws w (clock s)); cbn [negb matches]; [eexists; reflexivity|]. eexists. split; reflexivity. }
  assert (O : matches (fun g p => snd p = g) (bind (AccModel.convert e c from (mkQ RNone T)) (fun r => match r with Some v => Got (Converted v) | None => Throw end))
    (fst ((let! r := convert w c from (mkQ RNone T) in match r with Some (i, v) => ret (i, Converted v) | None => raise Bad_convert end) s))).
  { unfold AccModel.convert, convert, e, at_moment. cbn [e_conv].
    destruct (w_functor w (full_decay from) (full_decay (mkQ RNone T))) as [[f|f]|]; [| |eexists; reflexivity];
      unfold invoke_functor, bindM, tick, made, reported; cbn [clock converts_at].
    - destruct (f c (clock s)); cbn [bind]; [eexists; split; reflexivity|eexists; reflexivity].
    - destruct (f c (clock s)) as [[v [|]]|]; cbn [bind]; [eexists; split; reflexivity|eexists; reflexivity|eexists; reflexivity]. }
  unfold metafunc_to, into_buffer, when_compatible. destruct (compat from (mkQ RNone T)); [|exact O|reflexivity].
  destruct (same_decay _ _); [apply C|].
  change (cast_imp e c) with (cast_imp (w_env w) c).
  destruct (tag_of _) as [|k|k]; [exact O| |].
  - destruct (isClass _); [|exact O]. destruct (cast_imp (w_env w) c k) as [[x|]| | | |]; cbn [bind]; [apply C|exact O| | | |]; unfold bindM, of_out; try reflexivity. eexists; reflexivity.
  - destruct (isClassPtr _); [|exact O]. destruct (cast_imp (w_env w) c k) as [[x|]| | | |]; cbn [bind]; [apply C|exact O| | | |]; unfold bindM, of_out; try reflexivity. eexists; reflexivity.
Qed.

Lemma to_refines w k v T s : fresh s ->
  matches (fun g p => snd p = g)
    (match v_to (at_moment w (clock s)) k v T with Got g => if w_throws w (S (clock s)) then Throw else Got g | o => o end)
    (fst (to w k v T s)).
Proof.
  intros F. destruct v as [c|]; [|eexists; reflexivity]. unfold v_to, to. set (from := type_id c _).
  pose proof (buffer_refines w c from T s) as R. unfold bindM at 1. destruct (into_buffer w c from T s) as [r1 s1] eqn:E1. cbn [fst] in R.
  destruct (metafunc_to _ c from T) as [g| | | |]; cbn [matches] in R.
  - destruct R as ([i g'] & -> & G). cbn in G. subst g'.
    destruct (ok_buffer w c from T s _ _ F E1 I) as (F1 & l & L & V & _). pose proof (buffer_cases _ _ _ _ _ _ _ E1 I) as B.
    assert (C1 : clock s1 = S (clock s)) by (inversion B; assumption). unfold finally. unfold bindM at 1, user_call. rewrite C1.
    destruct (w_throws w (S (clock s))) eqn:T1.
    + unfold bindM. match goal with |- context [destroy i ?st] => set (s2 := st) in *; destruct (destroy i s2) as [r3 s3] eqn:E3 end.
      destruct (destroy_head i (l ++ live s) s2 r3 s3 F1 V E3) as (-> & -> & _). exists Users. reflexivity.
    + unfold bindM at 1 2. cbn [made ret live blocks next clock left]. unfold bindM.
      match goal with |- context [destroy i ?st] => set (s2 := st) in *; destruct (destroy i s2) as [r3 s3] eqn:E3 end.
      assert (F2 : fresh s2). { unfold s2. exact (fresh_made (St (live s1) (blocks s1) (next s1) (S (clock s1)) (left s1)) F1). }
      assert (V2 : live s2 = [next s1] ++ i :: (l ++ live s)) by (cbn; cbn in V; rewrite V; reflexivity).
      destruct (destroy_middle [next s1] i (l ++ live s) s2 r3 s3 F2 V2 E3) as (-> & -> & _). exists (next s1, g). split; reflexivity.
  - destruct R as (x & ->). exists x. reflexivity.
  - subst r1. reflexivity.
  - subst r1. reflexivity.
  - subst r1. reflexivity.
Qed.

(** Under the usual conditions there is always an answer or an exception. *)
Lemma v_to_total e cv c T : wf_env e -> usable (c_src c) -> usable T -> not_null c ->
  (exists g, v_to e cv (Some c) T = Got g) \/ v_to e cv (Some c) T = Throw.
Proof.
  intros Hw Hu HT Hn. pose proof (usable_arrays _ Hu) as Hp. pose proof (usable_held c Hu) as Hh.
  unfold v_to, metafunc_to. rewrite (type_id_exp c cv Hp).
  assert (Uf : usable (q_ty (exp_of cv (held c)))) by (unfold exp_of; destruct cv; cbn; auto using usable_constify).
  set (O := bind _ _). assert (K : (exists g, O = Got g) \/ O = Throw).
  { unfold O, AccModel.convert. destruct (e_conv e _ _) as [f|]; [|right; reflexivity]. destruct (f c); cbn [bind]; eauto. }
  clearbody O. assert (C : forall g, (exists g', copied e T g = Got g') \/ copied e T g = Throw) by (intros g; unfold copied; destruct (e_copies e T); eauto).
  unfold when_compatible. destruct (compat _ _) eqn:Hc; [|exact K|].
  - destruct (same_decay _ _); [apply C|]. destruct (cast_imp_spec e c 0 Hw Hp) as (_ & _ & _). destruct (tag_of (mkQ RNone T)) as [|k|k]; [exact K| |].
    + destruct (isClass _); [|exact K]. destruct (cast_imp_spec e c k Hw Hp) as (_ & C2 & _). destruct (C2 Hn) as ([z|] & ->); cbn [bind]; [apply C|exact K].
    + destruct (isClassPtr _); [|exact K]. destruct (cast_imp_spec e c k Hw Hp) as (_ & C2 & _). destruct (C2 Hn) as ([z|] & ->); cbn [bind]; [apply C|exact K].
  - exfalso. revert Hc. apply compat_no_term; [apply Uf|apply HT].
Qed.

Lemma to_ended w k v T s : fresh s -> wf_env (w_env w) -> usable T -> (forall c, v = Some c -> usable (c_src c) /\ not_null c) -> ended (fst (to w k v T s)).
Proof.
  intros F Hw HT Hc. pose proof (to_refines w k v T s F) as R.
  assert (K : (exists g, v_to (at_moment w (clock s)) k v T = Got g) \/ v_to (at_moment w (clock s)) k v T = Throw).
  { destruct v as [c|]; [|right; reflexivity]. destruct (Hc c eq_refl) as [U N]. apply v_to_total; auto. }
  destruct K as [[g E]|E]; rewrite E in R; cbn [matches] in R.
  - destruct (w_throws w (S (clock s))); [destruct R as [x ->]|destruct R as (b & -> & _)]; exact I.
  - destruct R as [x ->]. exact I.
Qed.

(** ** Comparison *)
Lemma known_as_exp c (k : bool) : usable (c_src c) -> full_decay (type_id c (if k then ALrefConst else ALref)) = known_as c.
Proof.
  intros U. rewrite (type_id_exp c k (usable_arrays _ U)). unfold exp_of, known_as. destruct k; [apply full_decay_constify|reflexivity].
Qed.
Lemma known_as_self c : usable (c_src c) -> full_decay (type_id c ANone) = known_as c.
Proof. intros U. change ANone with (from_attr RefR). rewrite (type_id_expression c RefR U). reflexivity. Qed.
Lemma known_as_passed b T : passed b T -> known_as b = known_as_type T.
Proof. intros [H _]. unfold known_as, known_as_type. rewrite H. apply full_decay_constify. Qed.

Lemma equal_other w a b s : usable (c_src a) -> usable (c_src b) -> known_as a <> known_as b -> equal w a b s = (Val false, s).
Proof.
  intros Ua Ub N. pose proof (usable_arrays _ Ua) as Pa. pose proof (usable_arrays _ Ub) as Pb. unfold equal.
  rewrite (type_id_const a Pa), (type_id_const b Pb). destruct (compat _ _) eqn:Hc; [|reflexivity|].
  - destruct (same_decay _ _) eqn:E; [|reflexivity]. exfalso. apply same_decay_iff in E. apply N.
    unfold exp_const in E. rewrite !(full_decay_constify RL RNone) in E. unfold known_as. congruence.
  - exfalso. revert Hc. apply compat_no_term; unfold exp_const; cbn [q_ty].
    + apply (usable_constify _ (usable_held b Ub)).
    + apply (usable_constify _ (usable_held a Ua)).
Qed.

Lemma convert_accepts w c a b s v : converts w (full_decay a) (full_decay b) c (clock s) (Accepts v) ->
  convert w c a b s = (Val (Some (next s, v)), St (next s :: live s) (blocks s) (S (next s)) (S (clock s)) (left s)).
Proof.
  intros H. unfold convert, invoke_functor, bindM, tick. inversion H as [f v' Ef Ev| |f v' Ef Ev| |]; subst; rewrite Ef; cbn [clock]; rewrite Ev; reflexivity.
Qed.
Lemma convert_vain w c a b s t : in_vain w (full_decay a) (full_decay b) c (clock s) t ->
  exists s', convert w c a b s = (Val None, s') /\ clock s' = t.
Proof.
  intros H. unfold convert, invoke_functor, bindM, tick.
  inversion H as [N|k K]; subst; [rewrite N; exists s; split; reflexivity|].
  inversion K as [|f Ef Ev| |f v Ef Ev|]; subst; rewrite Ef; cbn [clock]; rewrite Ev; eexists; split; reflexivity.
Qed.
Lemma converts_has w c a b t x : converts w (full_decay a) (full_decay b) c t x -> has_converter w a b = true.
Proof. intros H. apply converts_some in H. unfold has_converter. destruct (w_functor _ _ _); [reflexivity|congruence]. Qed.

Lemma compare_says w T c v r s : calm w -> says w T c v r ->
  compare_value w T c v s = (Val r, St (live s) (blocks s) (next s) (S (clock s)) (left s)).
Proof.
  intros C (cmp & x & l & E & V & ->). unfold compare_value, comparing. rewrite element_scalar, E, V. unfold bindM, user_call. cbn [of_out ret].
  rewrite C. reflexivity.
Qed.

(** A comparison, then the end of the temporary. *)
Lemma compare_then_destroy w T c v r i L s : calm w -> says w T c v r -> fresh s -> live s = i :: L ->
  exists s', finally (compare_value w T c v) (destroy i) s = (Val r, s') /\ fresh s' /\ live s' = L /\ blocks s' = blocks s.
Proof.
  intros C S F V. unfold finally. rewrite (compare_says _ _ _ _ _ s C S). unfold bindM.
  match goal with |- context [destroy i ?st] => set (s2 := st); destruct (destroy i s2) as [r3 s3] eqn:E3 end.
  destruct (destroy_head i L s2 r3 s3 F V E3) as (-> & -> & F2). eexists. split; [reflexivity|]. split; [exact F2|]. split; reflexivity.
Qed.

Lemma eq_answer w a b T s r : calm w -> fresh s -> usable (c_src a) -> passed b T -> known_as a <> known_as_type T ->
  is_array (held a) = false -> is_array T = false -> eq_says w a b T (clock s) r -> fst (eq w (Some a) b T s) = Val r.
Proof.
  intros C F U P N Ia It H. pose proof (usable_arrays _ U) as Pl. unfold eq. unfold bindM at 1.
  rewrite equal_other; [|exact U|apply P|rewrite (known_as_passed _ _ P); exact N]. cbv zeta. rewrite (stored_held a Pl), Ia, It.
  set (back := if has_converter w (mkQ RNone T) (type_id a ANone) then _ else _).
  assert (BV : forall s, fresh s -> (exists t'', in_vain w (full_decay (mkQ RNone T)) (full_decay (type_id a ANone)) b (clock s) t'') -> fst (back s) = Val false).
  { intros s0 F0 [t'' V]. unfold back. destruct (has_converter _ _ _); [|reflexivity]. unfold bindM at 1, allocate.
    set (s1 := St (live s0) (next s0 :: blocks s0) (S (next s0)) (clock s0) (left s0)).
    assert (F1 : fresh s1) by apply fresh_alloc, F0. unfold finally at 1. unfold bindM at 1.
    destruct (convert_vain w b (mkQ RNone T) (type_id a ANone) s1 t'' V) as (s2 & E2 & C2). rewrite E2. cbn [ret].
    destruct (ok_convert w b _ _ s1 _ _ F1 E2 I) as (F2 & l & _ & _ & B2). unfold bindM. destruct (deallocate (next s0) s2) as [r3 s3] eqn:E3.
    destruct (dealloc_head _ _ _ _ _ F2 B2 E3) as (-> & _ & _). reflexivity. }
  assert (BA : forall s x q, fresh s -> converts w (full_decay (mkQ RNone T)) (full_decay (type_id a ANone)) b (clock s) (Accepts x) -> says w (held a) a x q -> fst (back s) = Val q).
  { intros s0 x q F0 K Sy. unfold back. rewrite (converts_has _ _ _ _ _ _ K). unfold bindM at 1, allocate.
    set (s1 := St (live s0) (next s0 :: blocks s0) (S (next s0)) (clock s0) (left s0)).
    assert (F1 : fresh s1) by apply fresh_alloc, F0. unfold finally at 1. unfold bindM at 1. rewrite (convert_accepts w b _ _ s1 x K).
    match goal with |- context [finally _ _ ?st] => set (s2 := st) end. assert (F2 : fresh s2) by exact (fresh_made (St (live s1) (blocks s1) (next s1) (S (clock s1)) (left s1)) F1).
    destruct (compare_then_destroy w (held a) a x q (next s1) (live s1) s2 C Sy F2 eq_refl) as (s3 & E3 & F3 & V3 & B3). rewrite E3.
    unfold bindM. destruct (deallocate (next s0) s3) as [r4 s4] eqn:E4. destruct (dealloc_head _ (blocks s0) _ _ _ F3 B3 E4) as (-> & _ & _). reflexivity. }
  clearbody back. clear N. destruct H as [x q K Sy|t' x q V K Sy|t' t'' V V2]; change (known_as_type T) with (full_decay (mkQ RNone T)) in *;
    rewrite <- (known_as_self a U) in *.
  - rewrite (converts_has _ _ _ _ _ _ K). unfold bindM. rewrite (convert_accepts _ _ _ _ _ _ K).
    match goal with |- context [finally _ _ ?st] => set (s2 := st) end. assert (F2 : fresh s2) by exact (fresh_made (St (live s) (blocks s) (next s) (Datatypes.S (clock s)) (left s)) F).
    destruct (compare_then_destroy w T b x q (next s) (live s) s2 C Sy F2 eq_refl) as (s3 & E3 & _). rewrite E3. reflexivity.
  - destruct (convert_vain _ _ _ _ _ _ V) as (s1 & E1 & C1). destruct (ok_convert w a _ _ s _ _ F E1 I) as (F1 & _).
    destruct (has_converter w (type_id a ANone) (mkQ RNone T)) eqn:Hc.
    + unfold bindM. rewrite E1. eapply BA; [exact F1|rewrite C1; exact K|exact Sy].
    + inversion V as [Nc|k Kc]; [subst|rewrite (converts_has _ _ _ _ _ _ Kc) in Hc; discriminate]. eapply BA; [exact F|congruence || (rewrite H; exact K)|exact Sy].
  - destruct (convert_vain _ _ _ _ _ _ V) as (s1 & E1 & C1). destruct (ok_convert w a _ _ s _ _ F E1 I) as (F1 & _).
    destruct (has_converter w (type_id a ANone) (mkQ RNone T)) eqn:Hc.
    + unfold bindM. rewrite E1. apply BV; [exact F1|rewrite C1; exists t''; exact V2].
    + inversion V as [Nc|k Kc]; [subst|rewrite (converts_has _ _ _ _ _ _ Kc) in Hc; discriminate]. apply BV; [exact F|exists t''; rewrite H; exact V2].
Qed.

Lemma equal_refines w a b s : calm w -> matches (fun x y => x = y) (v_eq (w_env w) (Some a) (Some b)) (fst (equal w a b s)).
Proof.
  intros C. unfold v_eq, when_compatible, equal. destruct (compat _ _); [|exists false; split; reflexivity|reflexivity].
  destruct (same_decay _ _); [|exists false; split; reflexivity]. unfold comparing, bindM, user_call.
  destruct (compare_eq _ a b) as [x| | | |]; cbn [of_out ret raise undefined matches]; try reflexivity.
  - destruct (c_at a =? c_at b); [|rewrite C]; exists x; split; reflexivity.
  - eexists; reflexivity.
Qed.

Lemma eq_true w a b T s : calm w -> v_eq (w_env w) (Some a) (Some b) = Got true -> fst (eq w (Some a) b T s) = Val true.
Proof.
  intros C E. unfold eq, bindM. pose proof (equal_refines w a b s C) as R. rewrite E in R. destruct R as (q & R & <-).
  destruct (equal w a b s) as [r s1]. cbn in R. subst r. reflexivity.
Qed.
Lemma eq_false w a b T s : calm w -> v_eq (w_env w) (Some a) (Some b) = Got false -> usable (c_src a) ->
  no_converter w (known_as a) (known_as_type T) -> no_converter w (known_as_type T) (known_as a) -> fst (eq w (Some a) b T s) = Val false.
Proof.
  intros C E U N1 N2. unfold eq, bindM at 1. pose proof (equal_refines w a b s C) as R. rewrite E in R. destruct R as (q & R & <-).
  destruct (equal w a b s) as [r s1]. cbn in R. subst r. cbv zeta. unfold has_converter. rewrite (known_as_self a U).
  unfold no_converter, known_as_type in *. rewrite N1, N2. reflexivity.
Qed.

(** ** Exceptions of eq *)
Definition raises {A} (P : exn -> Prop) (m : M A) : Prop := forall s x s', m s = (Raise x, s') -> P x.
Lemma raises_bind {A B} P (m : M A) (f : A -> M B) : raises P m -> (forall a, raises P (f a)) -> raises P (bindM m f).
Proof.
  intros Hm Hf s x s' E. unfold bindM in E. destruct (m s) as [[a|y| | |] s1] eqn:E1; try discriminate.
  - exact (Hf _ _ _ _ E).
  - injection E as <- <-. exact (Hm _ _ _ E1).
Qed.
Lemma raises_finally {A} P (m : M A) i : raises P m -> raises P (finally m (destroy i)).
Proof.
  intros Hm s x s' E. unfold finally in E. destruct (m s) as [[a|y| | |] s1] eqn:E1; try discriminate; unfold bindM, destroy in E;
    destruct (in_dec _ _ _); try discriminate. injection E as <- <-. exact (Hm _ _ _ E1).
Qed.
Lemma raises_finally' {A} P (m : M A) i : raises P m -> raises P (finally m (deallocate i)).
Proof.
  intros Hm s x s' E. unfold finally in E. destruct (m s) as [[a|y| | |] s1] eqn:E1; try discriminate; unfold bindM, deallocate in E;
    destruct (in_dec _ _ _); try discriminate. injection E as <- <-. exact (Hm _ _ _ E1).
Qed.
Lemma raises_ret {A} P (a : A) : raises P (ret a). Proof. intros s x s' E. discriminate. Qed.
Lemma raises_undefined {A} P : raises P (@undefined A). Proof. intros s x s' E. discriminate. Qed.

Lemma compare_eq_throw e a b : compare_eq e a b = Throw -> e_cmp e (remove_all_cv (element (stored a))) = None.
Proof.
  unfold compare_eq. destruct (e_cmp e _) as [cmp|]; [|reflexivity]. destruct (_ =? _); [discriminate|].
  assert (L : forall n x y, equal_loop cmp n x y <> Throw).
  { induction n as [|n IH]; intros x y; [discriminate|]. cbn. destruct x, y; try discriminate. destruct (cmp _ _); [apply IH|discriminate]. }
  destruct (is_array (stored a)); [intros E; destruct (L _ _ _ E)|]. destruct (is_array (stored b)); [discriminate|].
  destruct (c_vals a), (c_vals b); discriminate.
Qed.

Lemma eq_raises w a b T : usable (c_src a) -> raises (eq_cause w a b T) (eq w (Some a) b T).
Proof.
  intros U. pose proof (usable_arrays _ U) as Pl. set (P := eq_cause w a b T).
  assert (Cu : raises P (user_call w)).
  { intros s x s' E. unfold user_call in E. destruct (w_throws w (clock s)) eqn:Et; [|discriminate]. injection E as <- _. exists (clock s). auto. }
  assert (Co : forall same o, (o = Throw -> P Not_possible) -> raises P (comparing w same o)).
  { intros same o H. apply raises_bind.
    - intros s x s' E. destruct o; try discriminate. injection E as <- _. exact (H eq_refl).
    - intros q. destruct same; [apply raises_ret|]. apply raises_bind; [exact Cu|intros _; apply raises_ret]. }
  assert (Cv : forall t c v, (e_cmp (w_env w) (scalar t) = None -> P Not_possible) -> raises P (compare_value w t c v)).
  { intros t c v H. apply Co. rewrite element_scalar. destruct (e_cmp (w_env w) (scalar t)); [destruct (c_vals c); discriminate|auto]. }
  unfold eq. apply raises_bind.
  - unfold equal. destruct (compat _ _); [|apply raises_ret|intros s x s' E; discriminate]. destruct (same_decay _ _); [|apply raises_ret].
    apply Co. intros E. apply compare_eq_throw in E. rewrite element_scalar, (stored_held a Pl) in E. left. exact E.
  - intros [|]; [apply raises_ret|]. cbv zeta. rewrite (stored_held a Pl).
    set (back := if has_converter w (mkQ RNone T) (type_id a ANone) then _ else _).
    assert (B : raises P back).
    { unfold back. destruct (has_converter _ _ _); [|apply raises_ret]. apply raises_bind; [intros s x s' E; discriminate|]. intros p. apply raises_finally'.
      apply raises_bind.
      - intros s x s' E. destruct (convert_spec _ _ _ _ _ _ _ E) as [(_ & K & _)|[(v & i & _ & K & _)|[(_ & K & _)|[(i & _ & K & _)|(K & K' & _)]]]]; try discriminate.
        injection K' as ->. rewrite (known_as_self a U) in K. exists (clock s). auto.
      - intros [[i x]|]; [|apply raises_ret]. destruct (is_array _); [apply raises_undefined|]. apply raises_finally, Cv. intros E. left. exact E. }
    clearbody back. destruct (has_converter _ _ _); [|exact B]. apply raises_bind.
    + intros s x s' E. destruct (convert_spec _ _ _ _ _ _ _ E) as [(_ & K & _)|[(v & i & _ & K & _)|[(_ & K & _)|[(i & _ & K & _)|(K & K' & _)]]]]; try discriminate.
      injection K' as ->. rewrite (known_as_self a U) in K. exists (clock s). auto.
    + intros [[i x]|]; [|exact B]. destruct (is_array _); [apply raises_undefined|]. apply raises_finally, Cv. intros E. right. exact E.
Qed.

(** ** Assignment of the result *)
Lemma destroy_any i s r s' : fresh s -> In i (live s) -> destroy i s = (r, s') ->
  r = Val tt /\ Permutation (i :: live s') (live s) /\ fresh s' /\ blocks s' = blocks s /\ left s' = left s.
Proof.
  intros F H E. destruct (in_split _ _ H) as (a & L & V). destruct (destroy_middle _ _ _ _ _ _ F V E) as (-> & -> & F').
  split; [reflexivity|]. cbn [live blocks left]. split; [rewrite V; apply Permutation_middle|]. auto.
Qed.

Lemma end_of_any o s r s' : fresh s -> (forall i, o = Some i -> In i (live s)) -> end_of o s = (r, s') ->
  r = Val tt /\ Permutation (one o ++ live s') (live s) /\ fresh s' /\ blocks s' = blocks s /\ left s' = left s.
Proof.
  intros F H E. destruct o as [i|]; [exact (destroy_any i s r s' F (H i eq_refl) E)|]. injection E as <- <-. repeat split; auto; apply F.
Qed.

Lemma convert_slot w v T s r s' : fresh s -> (forall i, owned v = Some i -> In i (live s)) -> v_convert w v T s = (r, s') -> ended r ->
  fresh s' /\ blocks s' = blocks s /\ exists lost, left s' = lost ++ left s /\
  match r with
  | Val v' => exists i j g s1, to w false (holds v) T s = (Val (i, g), s1) /\ v' = Slot (Some (w_object w T g)) (Some j) /\
                Permutation (one (owned v) ++ live s') (j :: lost ++ live s)
  | _ => live s' = lost ++ live s
  end.
Proof.
  intros F O E D. unfold v_convert in E. unfold bindM at 1 in E. destruct (to w false (holds v) T s) as [r1 s1] eqn:E1.
  destruct r1 as [[i g]|x| | |]; try (injection E as <- <-; contradiction).
  - destruct (ok_to w false (holds v) T s _ _ F E1 I) as (F1 & l & L1 & V1 & B1). cbn in V1, B1. unfold none in B1. cbn in B1.
    unfold finally in E. unfold bindM at 1, user_call in E. destruct (w_throws w (clock s1)) eqn:T1.
    + unfold bindM in E. match type of E with context [destroy i ?st] => set (s2 := st) in *; destruct (destroy i s2) as [r3 s3] eqn:E3 end.
      destruct (destroy_head i (l ++ live s) s2 r3 s3 F1 V1 E3) as (-> & -> & F3). injection E as <- <-.
      split; [exact F3|]. split; [exact B1|]. exists l. split; [exact L1|reflexivity].
    + unfold bindM at 1 in E. unfold bindM at 1, made in E. cbn [live blocks next clock left] in E.
      set (s2 := St (next s1 :: live s1) (blocks s1) (S (next s1)) (S (clock s1)) (left s1)) in *.
      assert (F2 : fresh s2) by exact (fresh_made (St (live s1) (blocks s1) (next s1) (S (clock s1)) (left s1)) F1).
      assert (O2 : forall o, owned v = Some o -> In o (live s2)).
      { intros o Ho. cbn. right. rewrite V1. right. apply in_or_app. right. exact (O o Ho). }
      unfold bindM at 1 in E. destruct (end_of (owned v) s2) as [r3 s3] eqn:E3. destruct (end_of_any _ _ _ _ F2 O2 E3) as (-> & P3 & F3 & B3 & L3).
      cbn [ret] in E. assert (In3 : In i (live s3)).
      { destruct (owned v) as [o|] eqn:Ho.
        - cbn in P3. assert (K : In i (o :: live s3)). { eapply Permutation_in; [apply Permutation_sym, P3|]. right. rewrite V1. left. reflexivity. }
          destruct K as [K|K]; [|exact K]. subst o. exfalso. destruct F1 as (N & _ & _). rewrite V1 in N. inversion N as [|? ? Hn _]; subst.
          apply Hn. apply in_or_app. right. exact (O i eq_refl).
        - eapply Permutation_in; [apply Permutation_sym, P3|]. right. rewrite V1. left. reflexivity. }
      unfold bindM in E. destruct (destroy i s3) as [r4 s4] eqn:E4. destruct (destroy_any _ _ _ _ F3 In3 E4) as (-> & P4 & F4 & B4 & L4).
      injection E as <- <-. split; [exact F4|]. split; [rewrite B4, B3; exact B1|]. exists l. split; [rewrite L4, L3; exact L1|].
      exists i, (next s1), g, s1. split; [reflexivity|]. split; [reflexivity|].
      apply (Permutation_cons_inv (a := i)). transitivity (one (owned v) ++ i :: live s4); [apply Permutation_middle|].
      rewrite P4. rewrite P3. cbn [live s2]. rewrite V1. apply perm_swap.
  - injection E as <- <-. destruct (ok_to w false (holds v) T s _ _ F E1 I) as (F1 & l & L1 & V1 & B1).
    split; [exact F1|]. split; [exact B1|]. exists l. split; [exact L1|exact V1].
Qed.

(** ** Programs *)
Lemma owners_put vs i v v' : nth_error vs i = Some v -> Permutation (one (owned v') ++ owners vs) (one (owned v) ++ owners (put vs i v')).
Proof.
  revert i. induction vs as [|x vs IH]; intros i H; [destruct i; discriminate|]. destruct i as [|i].
  - injection H as ->. cbn [put owners flat_map]. fold (owners vs). fold (one (owned v)) (one (owned v')).
    rewrite !app_assoc. apply Permutation_app_tail, Permutation_app_comm.
  - cbn [nth_error] in H. cbn [put owners flat_map]. fold (owners vs) (owners (put vs i v')) (one (owned x)).
    rewrite (Permutation_app_comm (one (owned x)) (owners vs)), (Permutation_app_comm (one (owned x)) (owners (put vs i v'))), !app_assoc.
    apply Permutation_app_tail, IH, H.
Qed.
Lemma owners_in vs i v o : nth_error vs i = Some v -> owned v = Some o -> In o (owners vs).
Proof.
  intros H E. unfold owners. apply in_flat_map. exists v. split; [eapply nth_error_In; exact H|]. rewrite E. left. reflexivity.
Qed.

Definition inv (vs : list slot) (s : st) : Prop := fresh s /\ blocks s = [] /\ Permutation (live s) (owners vs ++ left s).

Lemma inv_owned vs s i v : inv vs s -> nth_error vs i = Some v -> forall o, owned v = Some o -> In o (live s).
Proof.
  intros (_ & _ & P) H o E. eapply Permutation_in; [apply Permutation_sym, P|]. apply in_or_app. left. eapply owners_in; eassumption.
Qed.
Lemma inv_more vs s s' lost : inv vs s -> fresh s' -> blocks s' = blocks s -> left s' = lost ++ left s -> live s' = lost ++ live s -> inv vs s'.
Proof.
  intros (F & B & P) F' B' L V. split; [exact F'|]. split; [congruence|]. rewrite V, L, P, !app_assoc. apply Permutation_app_tail, Permutation_app_comm.
Qed.
Lemma inv_replace vs s s' i v v' lost : inv vs s -> nth_error vs i = Some v -> fresh s' -> blocks s' = blocks s -> left s' = lost ++ left s ->
  Permutation (one (owned v) ++ live s') (one (owned v') ++ lost ++ live s) -> inv (put vs i v') s'.
Proof.
  intros (F & B & P) H F' B' L Q. split; [exact F'|]. split; [congruence|].
  apply (Permutation_app_inv_l (one (owned v))). rewrite Q, P, L.
  transitivity ((one (owned v') ++ owners vs) ++ lost ++ left s).
  - rewrite <- app_assoc. apply Permutation_app_head. rewrite !app_assoc. apply Permutation_app_tail, Permutation_app_comm.
  - rewrite (owners_put vs i v v' H). rewrite <- app_assoc. reflexivity.
Qed.

Lemma exec_inv w x vs s r s' : inv vs s -> exec w x vs s = (r, s') -> ended r -> inv (match r with Val vs' => vs' | _ => vs end) s'.
Proof.
  intros H E D. pose proof H as (F & B & P).
  assert (Same : forall j, nth_error vs j = None -> (Val vs, s) = (r, s') -> inv (match r with Val vs' => vs' | _ => vs end) s')
    by (intros j _ K; injection K as <- <-; exact H).
  destruct x as [j c|j T|j T|j T|j b T|j]; cbn [exec] in E; (destruct (nth_error vs j) as [v|] eqn:Ev; [|exact (Same j Ev E)]).
  - destruct (c_form c).
    + unfold bindM at 1 in E. destruct (copy_construct w (c_src c) s) as [r1 s1] eqn:E1. pose proof (ok_copy w (c_src c) s r1 s1 F E1) as K.
      destruct r1 as [k|y| | |]; try (injection E as <- <-; contradiction).
      * destruct (K I) as (F1 & l & L1 & V1 & B1). unfold none in B1. cbn in V1, B1.
        assert (O1 : forall o, owned v = Some o -> In o (live s1)). { intros o Ho. rewrite V1. right. apply in_or_app. right. eapply inv_owned; eassumption. }
        unfold bindM in E. destruct (end_of (owned v) s1) as [r2 s2] eqn:E2. destruct (end_of_any _ _ _ _ F1 O1 E2) as (-> & P2 & F2 & B2 & L2).
        injection E as <- <-. apply (inv_replace vs s s2 j v _ l H Ev F2); [congruence|congruence|]. cbn [owned one]. rewrite P2, V1. reflexivity.
      * injection E as <- <-. destruct (K I) as (F1 & l & L1 & V1 & B1). eapply inv_more; eassumption.
    + unfold bindM in E. destruct (end_of (owned v) s) as [r2 s2] eqn:E2.
      destruct (end_of_any _ _ _ _ F (inv_owned _ _ _ _ H Ev) E2) as (-> & P2 & F2 & B2 & L2).
      injection E as <- <-. apply (inv_replace vs s s2 j v _ [] H Ev F2 B2 L2). exact P2.
  - unfold bindM in E. destruct (v_convert w v T s) as [r1 s1] eqn:E1. pose proof (convert_slot w v T s r1 s1 F (inv_owned _ _ _ _ H Ev) E1) as K.
    destruct r1 as [v'|y| | |]; try (injection E as <- <-; contradiction).
    + injection E as <- <-. destruct (K I) as (F1 & B1 & l & L1 & (i & k & g & s0 & _ & -> & P1)). eapply inv_replace; eauto.
    + injection E as <- <-. destruct (K I) as (F1 & B1 & l & L1 & V1). eapply inv_more; eassumption.
  - unfold bindM, tryConvert in E. destruct (v_convert w v T s) as [r1 s1] eqn:E1. pose proof (convert_slot w v T s r1 s1 F (inv_owned _ _ _ _ H Ev) E1) as K.
    destruct r1 as [v'|y| | |]; try (injection E as <- <-; contradiction).
    + injection E as <- <-. destruct (K I) as (F1 & B1 & l & L1 & (i & k & g & s0 & _ & -> & P1)). eapply inv_replace; eauto.
    + injection E as <- <-. destruct (K I) as (F1 & B1 & l & L1 & V1). cbn [snd]. apply (inv_replace vs s s1 j v v l H Ev F1 B1 L1). now rewrite V1.
  - unfold bindM at 1 in E. destruct (to w false (holds v) T s) as [r1 s1] eqn:E1. pose proof (ok_to w false (holds v) T s r1 s1 F E1) as K.
    destruct r1 as [[i g]|y| | |]; try (injection E as <- <-; contradiction).
    + destruct (K I) as (F1 & l & L1 & V1 & B1). cbn in V1, B1. unfold none in B1. cbn in B1. unfold bindM in E. cbn [fst] in E. destruct (destroy i s1) as [r2 s2] eqn:E2.
      destruct (destroy_head i (l ++ live s) s1 r2 s2 F1 V1 E2) as (-> & -> & F2). injection E as <- <-. apply (inv_more vs s _ l H F2); auto.
    + injection E as <- <-. destruct (K I) as (F1 & l & L1 & V1 & B1). eapply inv_more; eassumption.
  - unfold bindM in E. destruct (eq w (holds v) b T s) as [r1 s1] eqn:E1. pose proof (ok_eq w (holds v) b T s r1 s1 F E1) as K.
    destruct r1 as [q|y| | |]; try (injection E as <- <-; contradiction); injection E as <- <-; destruct (K I) as (F1 & l & L1 & V1 & B1); eapply inv_more; eauto.
  - unfold bindM in E. destruct (end_of (owned v) s) as [r2 s2] eqn:E2.
    destruct (end_of_any _ _ _ _ F (inv_owned _ _ _ _ H Ev) E2) as (-> & P2 & F2 & B2 & L2).
    injection E as <- <-. apply (inv_replace vs s s2 j v _ [] H Ev F2 B2 L2). exact P2.
Qed.

Lemma run_inv w p : forall vs s r s', inv vs s -> run w p vs s = (r, s') -> ended r -> exists vs', r = Val vs' /\ inv vs' s'.
Proof.
  induction p as [|x p IH]; intros vs s r s' H E D; cbn [run] in E.
  - injection E as <- <-. exists vs. auto.
  - destruct (exec w x vs s) as [r1 s1] eqn:E1. pose proof (exec_inv w x vs s r1 s1 H E1) as K.
    destruct r1 as [vs1|y| | |]; try (injection E as <- <-; contradiction); exact (IH _ _ _ _ (K I) E D).
Qed.

Lemma owners_empty n : owners (repeat empty_slot n) = [].
Proof. induction n; [reflexivity|exact IHn]. Qed.
Lemma inv_start n : inv (repeat empty_slot n) start.
Proof.
  split; [split; [constructor|split; [constructor|intros i [[]|[]]]]|]. split; [reflexivity|]. rewrite owners_empty. constructor.
Qed.

Lemma put_length {A} (l : list A) i a : length (put l i a) = length l.
Proof. revert i. induction l as [|x l IH]; intros i; [reflexivity|]. destruct i; cbn; [reflexivity|now rewrite IH]. Qed.
Lemma exec_length w x vs s vs' s' : exec w x vs s = (Val vs', s') -> length vs' = length vs.
Proof.
  intros E. destruct x as [j c|j T|j T|j T|j b T|j]; cbn [exec] in E; (destruct (nth_error vs j) as [v|]; [|injection E as <- <-; reflexivity]).
  - destruct (c_form c).
    + unfold bindM in E. destruct (copy_construct w (c_src c) s) as [[k|y| | |] s1]; try discriminate. destruct (end_of (owned v) s1) as [[[]|y| | |] s2]; try discriminate.
      injection E as <- <-. apply put_length.
    + unfold bindM in E. destruct (end_of (owned v) s) as [[[]|y| | |] s2]; try discriminate. injection E as <- <-. apply put_length.
  - unfold bindM in E. destruct (v_convert w v T s) as [[v'|y| | |] s1]; try discriminate. injection E as <- <-. apply put_length.
  - unfold bindM in E. destruct (tryConvert w v T s) as [[v'|y| | |] s1]; try discriminate. injection E as <- <-. apply put_length.
  - unfold bindM in E. destruct (to w false (holds v) T s) as [[v'|y| | |] s1]; try discriminate. destruct (destroy (fst v') s1) as [[[]|y| | |] s2]; try discriminate.
    injection E as <- <-. reflexivity.
  - unfold bindM in E. destruct (eq w (holds v) b T s) as [[v'|y| | |] s1]; try discriminate. injection E as <- <-. reflexivity.
  - unfold bindM in E. destruct (end_of (owned v) s) as [[[]|y| | |] s2]; try discriminate. injection E as <- <-. apply put_length.
Qed.
Lemma run_length w p : forall vs s vs' s', run w p vs s = (Val vs', s') -> length vs' = length vs.
Proof.
  induction p as [|x p IH]; intros vs s vs' s' E; cbn [run] in E; [injection E as <- <-; reflexivity|].
  destruct (exec w x vs s) as [[vs1|y| | |] s1] eqn:E1; try discriminate.
  - rewrite (IH _ _ _ _ E). eapply exec_length; exact E1.
  - exact (IH _ _ _ _ E).
Qed.

Lemma run_app w p q : forall vs s, run w (p ++ q) vs s = (let! vs' := run w p vs in run w q vs') s.
Proof.
  induction p as [|x p IH]; intros vs s; [reflexivity|]. cbn [app run]. unfold bindM. destruct (exec w x vs s) as [[vs1|y| | |] s1]; try reflexivity; apply IH.
Qed.

Lemma put_at {A} (l r : list A) x a : put (l ++ x :: r) (length l) a = l ++ a :: r.
Proof. induction l as [|y l IH]; [reflexivity|]. cbn. now rewrite IH. Qed.

Lemma repeat_next {A} (a : A) k r : repeat a k ++ a :: r = repeat a (S k) ++ r.
Proof. induction k as [|k IH]; [reflexivity|]. cbn [repeat app] in *. now rewrite IH. Qed.

Lemma run_clear w : forall rest k s, inv (repeat empty_slot k ++ rest) s ->
  exists s', run w (map Clear (seq k (length rest))) (repeat empty_slot k ++ rest) s = (Val (repeat empty_slot (k + length rest)), s') /\ left s' = left s.
Proof.
  induction rest as [|v rest IH]; intros k s H.
  - exists s. cbn. rewrite app_nil_r, Nat.add_0_r. split; reflexivity.
  - cbn [length seq map run exec].
    assert (Ev : nth_error (repeat empty_slot k ++ v :: rest) k = Some v).
    { rewrite nth_error_app2 by (rewrite repeat_length; lia). rewrite repeat_length, Nat.sub_diag. reflexivity. }
    rewrite Ev. unfold bindM. destruct (end_of (owned v) s) as [r1 s1] eqn:E1. pose proof H as (F & B & P).
    destruct (end_of_any _ _ _ _ F (inv_owned _ _ _ _ H Ev) E1) as (-> & P1 & F1 & B1 & L1).
    pose proof (inv_replace _ s s1 k v empty_slot [] H Ev F1 B1 L1 P1) as H1. cbn [ret].
    fold empty_slot. assert (Ep : put (repeat empty_slot k ++ v :: rest) k empty_slot = repeat empty_slot (S k) ++ rest).
    { rewrite <- repeat_next. rewrite <- (put_at (repeat empty_slot k) rest v empty_slot). rewrite repeat_length. reflexivity. }
    rewrite Ep in *. destruct (IH (S k) s1 H1) as (s2 & E2 & L2). exists s2. rewrite E2. split; [now rewrite Nat.add_succ_comm|congruence].
Qed.

(** ** Nothing left in programs *)
Lemma quiet_convert_slot w v T : plain_converters w -> quiet (v_convert w v T).
Proof.
  intros P. apply quiet_bind; [apply quiet_to, P|]. intros [i g]. apply quiet_finally; [|apply quiet_destroy].
  apply quiet_bind; [apply quiet_user|]. intros _. apply quiet_bind; [apply quiet_made|]. intros j. apply quiet_bind; [|intros _; apply quiet_ret].
  destruct (owned v); [apply quiet_destroy|apply quiet_ret].
Qed.
Lemma quiet_end o : quiet (end_of o).
Proof. destruct o; [apply quiet_destroy|apply quiet_ret]. Qed.
Lemma quiet_exec w x vs : plain_converters w -> quiet (exec w x vs).
Proof.
  intros P. destruct x as [j c|j T|j T|j T|j b T|j]; cbn [exec]; (destruct (nth_error vs j) as [v|]; [|apply quiet_ret]).
  - destruct (c_form c); [apply quiet_bind; [apply quiet_copy|intros k]|]; (apply quiet_bind; [apply quiet_end|intros _; apply quiet_ret]).
  - apply quiet_bind; [apply quiet_convert_slot, P|intros v'; apply quiet_ret].
  - apply quiet_bind; [|intros v'; apply quiet_ret]. intros s r s' E D. unfold tryConvert in E. pose proof (quiet_convert_slot w v T P s) as Q.
    destruct (v_convert w v T s) as [r1 s1]. specialize (Q r1 s1 eq_refl). destruct r1; injection E as <- <-; try contradiction; apply Q; exact I.
  - apply quiet_bind; [apply quiet_to, P|]. intros r. apply quiet_bind; [apply quiet_destroy|intros _; apply quiet_ret].
  - apply quiet_bind; [apply quiet_eq, P|intros q; apply quiet_ret].
  - apply quiet_bind; [apply quiet_end|intros _; apply quiet_ret].
Qed.
Lemma quiet_run w p : plain_converters w -> forall vs, quiet (run w p vs).
Proof.
  intros P. induction p as [|x p IH]; intros vs; [apply quiet_ret|]. intros s r s' E D. cbn [run] in E. pose proof (quiet_exec w x vs P s) as Q.
  destruct (exec w x vs s) as [r1 s1]. specialize (Q r1 s1 eq_refl).
  destruct r1 as [vs1|y| | |]; try (injection E as <- <-; contradiction); rewrite (IH _ _ _ _ E D); apply Q; exact I.
Qed.

(** ** Nothing is undefined *)
Definition total {A} (m : M A) : Prop := forall s, fresh s -> ended (fst (m s)).
Lemma total_bind {A B} (m : M A) (f : A -> M B) n nb : ok n nb m -> total m -> (forall a, total (f a)) -> total (bindM m f).
Proof.
  intros O Hm Hf s F. specialize (Hm s F). unfold bindM. destruct (m s) as [r s1] eqn:E. cbn in Hm. destruct (O s r s1 F E Hm) as (F1 & _).
  destruct r; try contradiction; [apply Hf, F1|exact I].
Qed.
Lemma total_fin {A} (n : A -> list nat) m i L s : ok n none m -> total m -> fresh s -> live s = i :: L -> ended (fst (finally m (destroy i) s)).
Proof.
  intros O Hm F V. specialize (Hm s F). unfold finally. destruct (m s) as [r s1] eqn:E. cbn in Hm. destruct (O s r s1 F E Hm) as (F1 & l & _ & V1 & _).
  destruct r as [a|x| | |]; try contradiction; unfold bindM; destruct (destroy i s1) as [r2 s2] eqn:E2; rewrite V, app_assoc in V1;
    destruct (destroy_middle _ _ _ _ _ _ F1 V1 E2) as (-> & _); exact I.
Qed.
Lemma total_ret {A} (a : A) : total (ret a). Proof. intros s _. exact I. Qed.
Lemma total_convert w c a b : total (convert w c a b).
Proof.
  intros s _. destruct (convert w c a b s) as [r s'] eqn:E.
  destruct (convert_spec _ _ _ _ _ _ _ E) as [(_ & -> & _)|[(v & i & _ & -> & _)|[(_ & -> & _)|[(i & _ & -> & _)|(_ & -> & _)]]]]; exact I.
Qed.
Lemma total_comparing w same o : o <> Undef -> o <> Term -> o <> Loop -> total (comparing w same o).
Proof.
  intros U1 U2 U3 s F. unfold comparing, bindM, user_call. destruct o; cbn [of_out ret raise]; try contradiction; [|exact I].
  destruct same; [exact I|]. destruct (w_throws w (clock s)); exact I.
Qed.
Lemma total_value w T c v : c_vals c <> [] -> total (compare_value w T c v).
Proof. intros H. apply total_comparing; destruct (e_cmp _ _); destruct (c_vals c); congruence. Qed.
Lemma total_equal w a b : good a -> usable (c_src b) -> is_array (held b) = false -> c_vals b <> [] -> total (equal w a b).
Proof.
  intros (Ua & _ & Ia & Va) Ub Ib Vb s F. pose proof (usable_arrays _ Ua) as Pa. pose proof (usable_arrays _ Ub) as Pb. unfold equal. destruct (compat _ _) eqn:Hc; [|exact I|].
  - destruct (same_decay _ _); [|exact I]. apply total_comparing; [| | |exact F]; unfold compare_eq; rewrite (stored_held a Pa), (stored_held b Pb), Ia, Ib;
      destruct (e_cmp _ _); destruct (c_at a =? c_at b); destruct (c_vals a), (c_vals b); congruence.
  - exfalso. revert Hc. rewrite (type_id_const a Pa), (type_id_const b Pb). apply compat_no_term; unfold exp_const; cbn [q_ty].
    + apply (usable_constify _ (usable_held b Ub)).
    + apply (usable_constify _ (usable_held a Ua)).
Qed.
Lemma total_compared {A} w c a b (cmp : nat -> M A) (none_ : M A) :
  (forall x, ok none none (cmp x)) -> (forall x, total (cmp x)) -> total none_ ->
  total (let! r := convert w c a b in match r with Some (i, x) => if false then undefined else finally (cmp x) (destroy i) | None => none_ end).
Proof.
  intros Oc Hc Hn s F. pose proof (total_convert w c a b s F) as K. unfold bindM. destruct (convert w c a b s) as [r s1] eqn:E. cbn in K.
  destruct (ok_convert w c a b s r s1 F E K) as (F1 & l & _ & V & _). destruct r as [[[i x]|]|x| | |]; try contradiction; [|exact (Hn s1 F1)|exact I].
  exact (total_fin none (cmp x) i _ s1 (Oc x) (Hc x) F1 V).
Qed.
Lemma total_eq w v b T : (forall a, v = Some a -> good a) -> passed b T -> is_array T = false -> c_vals b <> [] -> total (eq w v b T).
Proof.
  intros G Pb It Vb. destruct v as [a|]; [|intros s F; exact I]. pose proof (G a eq_refl) as Ga. pose proof Ga as (Ua & Na & Ia & Va).
  pose proof (usable_arrays _ Ua) as Pa. unfold eq.
  assert (Ib : is_array (held b) = false) by (destruct Pb as [-> _]; rewrite constify_array; exact It).
  apply (total_bind _ _ none none); [apply ok_equal|apply total_equal; auto; apply Pb|]. intros [|]; [apply total_ret|]. cbv zeta. rewrite (stored_held a Pa), Ia, It.
  set (back := if has_converter w (mkQ RNone T) (type_id a ANone) then _ else _).
  assert (B : total back).
  { unfold back. destruct (has_converter _ _ _); [|apply total_ret]. intros s F. unfold bindM at 1, allocate.
    set (s1 := St (live s) (next s :: blocks s) (S (next s)) (clock s) (left s)). assert (F1 : fresh s1) by apply fresh_alloc, F.
    set (m := bindM (convert w b (mkQ RNone T) (type_id a ANone)) _).
    assert (Om : ok none none m) by (apply (ok_compared w b (mkQ RNone T) (type_id a ANone) false (fun x => compare_value w (held a) a x) (ret false)); [intros x; apply ok_comparing|apply ok_ret; reflexivity]).
    assert (Tm : total m) by (apply (total_compared w b (mkQ RNone T) (type_id a ANone) (fun x => compare_value w (held a) a x) (ret false)); [intros x; apply ok_comparing|intros x; apply total_value, Va|apply total_ret]).
    specialize (Tm s1 F1). unfold finally. destruct (m s1) as [r2 s2] eqn:E2. cbn in Tm. destruct (Om s1 r2 s2 F1 E2 Tm) as (F2 & l & _ & _ & B2).
    assert (B2' : blocks s2 = next s :: blocks s) by (rewrite B2; destruct r2; reflexivity).
    destruct r2; try contradiction; unfold bindM; destruct (deallocate (next s) s2) as [r3 s3] eqn:E3; destruct (dealloc_head _ _ _ _ _ F2 B2' E3) as (-> & _); exact I. }
  clearbody back. destruct (has_converter _ _ _); [|exact B].
  apply (total_compared w a (type_id a ANone) (mkQ RNone T) (fun x => compare_value w T b x) back); [intros x; apply ok_comparing|intros x; apply total_value, Vb|exact B].
Qed.

Lemma convert_total w v T s : fresh s -> (forall i, owned v = Some i -> In i (live s)) -> wf_env (w_env w) -> usable T ->
  (forall c, holds v = Some c -> good c) -> ended (fst (v_convert w v T s)).
Proof.
  intros F O Hw HT Hc. unfold v_convert. unfold bindM at 1.
  assert (Te : ended (fst (to w false (holds v) T s))) by (apply to_ended; auto; intros c E; destruct (Hc c E) as (U & N & _); auto).
  destruct (to w false (holds v) T s) as [r1 s1] eqn:E1. cbn in Te. destruct (ok_to w false (holds v) T s _ _ F E1 Te) as (F1 & l & L1 & V1 & B1).
  destruct r1 as [[i g]|x| | |]; try contradiction; [|exact I]. cbn in V1.
  unfold finally. unfold bindM at 1, user_call. destruct (w_throws w (clock s1)) eqn:T1.
  - unfold bindM. match goal with |- context [destroy i ?st] => set (s2 := st) in *; destruct (destroy i s2) as [r3 s3] eqn:E3 end.
    destruct (destroy_head i (l ++ live s) s2 r3 s3 F1 V1 E3) as (-> & _). exact I.
  - unfold bindM at 1. unfold bindM at 1, made. cbn [live blocks next clock left].
    set (s2 := St (next s1 :: live s1) (blocks s1) (S (next s1)) (S (clock s1)) (left s1)) in *.
    assert (F2 : fresh s2) by exact (fresh_made (St (live s1) (blocks s1) (next s1) (S (clock s1)) (left s1)) F1).
    assert (O2 : forall o, owned v = Some o -> In o (live s2)) by (intros o Ho; cbn; right; rewrite V1; right; apply in_or_app; right; exact (O o Ho)).
    unfold bindM at 1. destruct (end_of (owned v) s2) as [r3 s3] eqn:E3. destruct (end_of_any _ _ _ _ F2 O2 E3) as (-> & P3 & F3 & B3 & L3). cbn [ret].
    assert (In3 : In i (live s3)).
    { destruct (owned v) as [o|] eqn:Ho.
      - cbn in P3. assert (K : In i (o :: live s3)). { eapply Permutation_in; [apply Permutation_sym, P3|]. right. rewrite V1. left. reflexivity. }
        destruct K as [K|K]; [|exact K]. subst o. exfalso. destruct F1 as (N & _ & _). rewrite V1 in N. inversion N as [|? ? Hn _]; subst.
        apply Hn. apply in_or_app. right. exact (O i eq_refl).
      - eapply Permutation_in; [apply Permutation_sym, P3|]. right. rewrite V1. left. reflexivity. }
    unfold bindM. destruct (destroy i s3) as [r4 s4] eqn:E4. destruct (destroy_any _ _ _ _ F3 In3 E4) as (-> & _). exact I.
Qed.

Definition good_slots (vs : list slot) : Prop := forall v c, In v vs -> holds v = Some c -> good c.
Lemma good_put vs i v : good_slots vs -> (forall c, holds v = Some c -> good c) -> good_slots (put vs i v).
Proof.
  intros H Hv x c Hx E.
  assert (K : In x vs \/ x = v).
  { clear - Hx. revert i Hx. induction vs as [|y vs IH]; intros i Hx; [left; exact Hx|]. destruct i as [|i]; cbn in Hx.
    - destruct Hx as [<-|Hx]; [right; reflexivity|left; right; exact Hx].
    - destruct Hx as [<-|Hx]; [left; left; reflexivity|]. destruct (IH _ Hx) as [K|K]; [left; right; exact K|right; exact K]. }
  destruct K as [K| ->]; [exact (H x c K E)|exact (Hv c E)].
Qed.

Lemma exec_good w x vs s : good_world w -> good_stmt x -> good_slots vs -> inv vs s ->
  ended (fst (exec w x vs s)) /\ (forall vs' s', exec w x vs s = (Val vs', s') -> good_slots vs').
Proof.
  intros (Hw & Ho) Hx Hs H. pose proof H as (F & B & P).
  destruct x as [j c|j T|j T|j T|j b T|j]; cbn [exec good_stmt] in *; (destruct (nth_error vs j) as [v|] eqn:Ev; [|split; [exact I|intros vs' s' E; injection E as <- <-; exact Hs]]);
    pose proof (nth_error_In _ _ Ev) as Iv; pose proof (inv_owned _ _ _ _ H Ev) as O.
  - destruct (c_form c).
    + unfold bindM. destruct (copy_construct w (c_src c) s) as [r1 s1] eqn:E1.
      assert (D : ended r1). { unfold copy_construct, bindM, user_call in E1. destruct (e_copies _ _); [destruct (w_throws _ _)|]; injection E1 as <- <-; exact I. }
      destruct (ok_copy w (c_src c) s r1 s1 F E1 D) as (F1 & l & L1 & V1 & B1).
      destruct r1 as [k|y| | |]; try contradiction; [|split; [exact I|intros; discriminate]].
      assert (O1 : forall o, owned v = Some o -> In o (live s1)). { intros o Ho'. cbn in V1. rewrite V1. right. apply in_or_app. right. exact (O o Ho'). }
      destruct (end_of (owned v) s1) as [r2 s2] eqn:E2. destruct (end_of_any _ _ _ _ F1 O1 E2) as (-> & _).
      split; [exact I|]. intros vs' s' E. injection E as <- <-. apply good_put; [exact Hs|]. intros c' Ec. injection Ec as <-. exact Hx.
    + unfold bindM. destruct (end_of (owned v) s) as [r2 s2] eqn:E2. destruct (end_of_any _ _ _ _ F O E2) as (-> & _).
      split; [exact I|]. intros vs' s' E. injection E as <- <-. apply good_put; [exact Hs|]. intros c' Ec. injection Ec as <-. exact Hx.
  - unfold bindM. pose proof (convert_total w v T s F O Hw (proj1 Hx) (fun c E => Hs v c Iv E)) as K. destruct (v_convert w v T s) as [r1 s1] eqn:E1. cbn in K.
    destruct (convert_slot w v T s r1 s1 F O E1 K) as (_ & _ & l & _ & Q).
    destruct r1 as [v'|y| | |]; try contradiction; [|split; [exact I|intros; discriminate]]. split; [exact I|]. intros vs' s' E. injection E as <- <-.
    destruct Q as (i & k & g & s0 & _ & -> & _). apply good_put; [exact Hs|]. intros c' Ec. injection Ec as <-. apply Ho; apply Hx.
  - unfold bindM, tryConvert. pose proof (convert_total w v T s F O Hw (proj1 Hx) (fun c E => Hs v c Iv E)) as K. destruct (v_convert w v T s) as [r1 s1] eqn:E1. cbn in K.
    destruct (convert_slot w v T s r1 s1 F O E1 K) as (_ & _ & l & _ & Q).
    destruct r1 as [v'|y| | |]; try contradiction; (split; [exact I|]); intros vs' s' E; injection E as <- <-; cbn [snd]; (apply good_put; [exact Hs|]).
    + destruct Q as (i & k & g & s0 & _ & -> & _). intros c' Ec. injection Ec as <-. apply Ho; apply Hx.
    + intros c' Ec. exact (Hs v c' Iv Ec).
  - unfold bindM. assert (K : ended (fst (to w false (holds v) T s))) by (apply to_ended; auto; [apply Hx|]; intros c E; destruct (Hs v c Iv E) as (U & N & _); auto).
    destruct (to w false (holds v) T s) as [r1 s1] eqn:E1. cbn in K. destruct (ok_to w false (holds v) T s r1 s1 F E1 K) as (F1 & l & L1 & V1 & B1).
    destruct r1 as [[i g]|y| | |]; try contradiction; [|split; [exact I|intros; discriminate]]. cbn [fst]. destruct (destroy i s1) as [r2 s2] eqn:E2.
    destruct (destroy_head i (l ++ live s) s1 r2 s2 F1 V1 E2) as (-> & _). split; [exact I|]. intros vs' s' E. injection E as <- <-. exact Hs.
  - unfold bindM. destruct Hx as (Pb & It & Vb). pose proof (total_eq w (holds v) b T (fun a E => Hs v a Iv E) Pb It Vb s F) as K.
    destruct (eq w (holds v) b T s) as [r1 s1]. cbn in K. destruct r1 as [q|y| | |]; try contradiction; (split; [exact I|]); intros vs' s' E; [|discriminate].
    injection E as <- <-. exact Hs.
  - unfold bindM. destruct (end_of (owned v) s) as [r2 s2] eqn:E2. destruct (end_of_any _ _ _ _ F O E2) as (-> & _).
    split; [exact I|]. intros vs' s' E. injection E as <- <-. apply good_put; [exact Hs|]. intros c' Ec. discriminate.
Qed.

Lemma run_good w p : good_world w -> Forall good_stmt p -> forall vs s, good_slots vs -> inv vs s -> ended (fst (run w p vs s)).
Proof.
  intros Hw Hp. induction Hp as [|x p Hx Hp IH]; intros vs s Hs H; [exact I|]. cbn [run].
  destruct (exec_good w x vs s Hw Hx Hs H) as (D & K). destruct (exec w x vs s) as [r1 s1] eqn:E1. cbn in D. pose proof (exec_inv w x vs s r1 s1 H E1 D) as H1.
  destruct r1 as [vs1|y| | |]; try contradiction; apply IH; auto. exact (K _ _ eq_refl).
Qed.

(** ** to, seen from outside *)
Lemma to_left w k c T s r s' : fresh s -> usable (c_src c) -> to w k (Some c) T s = (r, s') -> ended r ->
  left s' = left s \/
  exists i, left s' = i :: left s /\ r = Raise Bad_convert /\ converts w (known_as c) (known_as_type T) c (clock s) (Gives_up true).
Proof.
  intros F U E D. destruct (to_inv w k c T s r s' F E D) as (r1 & s1 & B & L & R). rewrite L. rewrite <- (known_as_exp c k U).
  inversion B; subst; try (left; assumption). right. exists i. auto.
Qed.

Lemma to_causes w k c T s x s' : fresh s -> usable (c_src c) -> to w k (Some c) T s = (Raise x, s') -> to_cause w c T (clock s) x.
Proof.
  intros F U E. destruct (to_inv w k c T s _ s' F E I) as (r1 & s1 & B & L & R). pose proof (known_as_exp c k U) as K.
  inversion B; subst; try (injection R as ->); cbn [to_cause]; rewrite <- ?K; eauto;
    destruct R as [[_ [j R]]|[T1 R]]; try discriminate; injection R as ->; cbn [to_cause]; auto.
Qed.

Lemma buffer_converter w k c T s : wf_env (w_env w) -> usable (c_src c) -> usable T -> not_null c ->
  v_is (w_env w) k (Some c) (mkQ RNone T) = Got false ->
  into_buffer w c (type_id c (if k then ALrefConst else ALref)) T s =
  (let! r := convert w c (type_id c (if k then ALrefConst else ALref)) (mkQ RNone T) in match r with Some (i, v) => ret (i, Converted v) | None => raise Bad_convert end) s.
Proof.
  intros Hw Hu HT Hn H. pose proof (usable_arrays _ Hu) as Hp.
  unfold v_is, metafunc_is, into_buffer in *. set (from := type_id c _) in *. cbv zeta.
  unfold when_compatible in *. destruct (compat from (mkQ RNone T)) eqn:Hc; [|reflexivity|discriminate].
  destruct (same_decay from (mkQ RNone T)) eqn:Hd; [discriminate|].
  destruct (tag_of (mkQ RNone T)) as [|j|j] eqn:Etag; [reflexivity| |].
  - destruct (isClass (Some (info_of from))); [|reflexivity].
    destruct (inherits_spec (w_env w) c j Hw Hp Hn) as (r & Er & Hr). rewrite Er in H. injection H as ->.
    destruct (cast_imp_spec (w_env w) c j Hw Hp) as (C1 & C2 & _). destruct (C2 Hn) as ([z|] & E); rewrite E; cbn [of_out]; unfold bindM at 1; cbn [ret]; [|reflexivity].
    exfalso. assert (false = true) by (apply Hr; exists z; apply C1, E). discriminate.
  - destruct (isClassPtr (Some (info_of from))); [|reflexivity].
    destruct (inherits_spec (w_env w) c j Hw Hp Hn) as (r & Er & Hr). rewrite Er in H. injection H as ->.
    destruct (cast_imp_spec (w_env w) c j Hw Hp) as (C1 & C2 & _). destruct (C2 Hn) as ([z|] & E); rewrite E; cbn [of_out]; unfold bindM at 1; cbn [ret]; [|reflexivity].
    exfalso. assert (false = true) by (apply Hr; exists z; apply C1, E). discriminate.
Qed.

Lemma to_converter w k c T s : fresh s -> wf_env (w_env w) -> usable (c_src c) -> usable T -> not_null c ->
  v_is (w_env w) k (Some c) (mkQ RNone T) = Got false ->
  (forall v, converts w (known_as c) (known_as_type T) c (clock s) (Accepts v) -> w_throws w (S (clock s)) = false ->
     exists i, fst (to w k (Some c) T s) = Val (i, Converted v)) /\
  (forall t, in_vain w (known_as c) (known_as_type T) c (clock s) t -> fst (to w k (Some c) T s) = Raise Bad_convert) /\
  (converts w (known_as c) (known_as_type T) c (clock s) Throws -> fst (to w k (Some c) T s) = Raise Users).
Proof.
  intros F Hw Hu HT Hn H. pose proof (buffer_converter w k c T s Hw Hu HT Hn H) as B. rewrite <- (known_as_exp c k Hu).
  change (known_as_type T) with (full_decay (mkQ RNone T)). set (from := type_id c _) in *. split; [|split].
  - intros v K T1. pose proof (to_refines w k (Some c) T s F) as R. rewrite T1 in R.
    assert (E : v_to (at_moment w (clock s)) k (Some c) T = Got (Converted v)).
    { rewrite (is_false_to (at_moment w (clock s)) k c T Hw Hu HT Hn H). cbn [e_conv at_moment].
      unfold from in K. rewrite (known_as_exp c k Hu) in K. unfold known_as in K.
      inversion K as [f v' Ef Ev| |f v' Ef Ev| |]; subst; rewrite Ef; cbn [converts_at]; rewrite Ev; reflexivity. }
    rewrite E in R. destruct R as ([i g] & -> & G). cbn in G. subst g. eauto.
  - intros t V. unfold to. fold from. unfold bindM at 1. rewrite B. unfold bindM at 1. destruct (convert_vain _ _ _ _ _ _ V) as (s1 & E1 & _). rewrite E1. reflexivity.
  - intros K. unfold to. fold from. unfold bindM at 1. rewrite B. unfold bindM at 1, convert, invoke_functor, bindM, tick.
    inversion K as [| | | |f Ef Ev]; subst. rewrite Ef. cbn [clock]. rewrite Ev. reflexivity.
Qed.

Lemma to_is w k c T s : fresh s -> wf_env (w_env w) -> usable (c_src c) -> usable T -> is_array T = false -> not_null c ->
  v_is (w_env w) k (Some c) (mkQ RNone T) = Got true -> e_copies (w_env w) T = true -> w_throws w (clock s) = false -> w_throws w (S (clock s)) = false ->
  exists i g, fst (to w k (Some c) T s) = Val (i, g) /\ denotes (w_env w) c T g.
Proof.
  intros F Hw Hu HT Ia Hn H Ec T0 T1. pose proof (to_refines w k (Some c) T s F) as R. rewrite T1 in R.
  assert (Ec' : e_copies (at_moment w (clock s)) T = true) by (cbn; rewrite Ec, T0; reflexivity).
  destruct (is_to (at_moment w (clock s)) k c T Hw Hu HT Ia Hn H Ec') as (g & E & G). rewrite E in R. destruct R as ([i g'] & R & Eg). cbn in Eg. subst g'.
  exists i, g. split; [exact R|]. destruct G as [G|t n c' v' t' G1 G2 G3|i0 j z G1 G2 G3|i0 j z G1 G2 G3].
  - apply DenSame, G.
  - eapply DenFirst; eassumption.
  - eapply DenPart; try eassumption.
    destruct G3 as (d & y & fs & O & G3). exists d, y, fs. split; [|exact G3]. destruct O as [? ? ? O1 O2|? ? ? ? O1 O2 O3];
      [eapply ObjClass; [exact O1|]; destruct O2; [apply KnownStatic|apply (KnownDynamic (w_env w))]; assumption
      |eapply ObjPointer; [exact O1|exact O2|]; destruct O3; [apply KnownStatic|apply (KnownDynamic (w_env w))]; assumption].
  - eapply DenPointer; try eassumption.
    destruct G3 as (d & y & fs & O & G3). exists d, y, fs. split; [|exact G3]. destruct O as [? ? ? O1 O2|? ? ? ? O1 O2 O3];
      [eapply ObjClass; [exact O1|]; destruct O2; [apply KnownStatic|apply (KnownDynamic (w_env w))]; assumption
      |eapply ObjPointer; [exact O1|exact O2|]; destruct O3; [apply KnownStatic|apply (KnownDynamic (w_env w))]; assumption].
Qed.

(** ** One converter *)
Lemma says_same w v b T x r : stands_for v b T -> says w T b x r <-> says w (held v) v x r.
Proof. intros (_ & _ & H & V). unfold says. rewrite H, V. reflexivity. Qed.

Lemma eq_symmetric w a a2 TA b b2 TB s s2 ans : calm w -> fresh s -> fresh s2 -> stands_for a a2 TA -> stands_for b2 b TB ->
  known_as_type TA <> known_as_type TB -> is_array TA = false -> is_array TB = false ->
  no_converter w (known_as_type TB) (known_as_type TA) ->
  (forall t x, converts w (known_as_type TA) (known_as_type TB) a t x <-> x = ans) ->
  (forall t x, converts w (known_as_type TA) (known_as_type TB) a2 t x <-> x = ans) ->
  match ans with Accepts x => exists r, says w TB b x r | Gives_up _ => True | Throws => False end ->
  exists r, fst (eq w (Some a) b TB s) = Val r /\ fst (eq w (Some b2) a2 TA s2) = Val r.
Proof.
  intros C F F2 Sa Sb N Ia Ib N2 H1 H2 K.
  assert (Ka : known_as a = known_as_type TA) by (unfold known_as, known_as_type; destruct Sa as (_ & _ & -> & _); reflexivity).
  assert (Kb : known_as b2 = known_as_type TB) by (unfold known_as, known_as_type; destruct Sb as (_ & _ & -> & _); reflexivity).
  assert (A1 : forall r, eq_says w a b TB (clock s) r -> fst (eq w (Some a) b TB s) = Val r).
  { intros r. apply eq_answer; auto; try apply Sa; try apply Sb; [rewrite Ka; exact N|]. destruct Sa as (_ & _ & -> & _). exact Ia. }
  assert (A2 : forall r, eq_says w b2 a2 TA (clock s2) r -> fst (eq w (Some b2) a2 TA s2) = Val r).
  { intros r. apply eq_answer; auto; try apply Sa; try apply Sb; [rewrite Kb; congruence|]. destruct Sb as (_ & _ & -> & _). exact Ib. }
  destruct ans as [x|g|]; [|exists false|contradiction].
  - destruct K as (r & K). exists r. split.
    + apply A1. eapply SaysThere; [|exact K]. rewrite Ka. apply H1. reflexivity.
    + apply A2. eapply SaysBack; [apply VainNone; rewrite Kb; exact N2| |apply (says_same w b2 b TB x r Sb), K]. rewrite Kb. apply H2. reflexivity.
  - split.
    + apply A1. eapply SaysNothing; [eapply VainGaveUp; rewrite Ka; apply H1; reflexivity|]. rewrite Ka. apply VainNone, N2.
    + apply A2. eapply SaysNothing; [apply VainNone; rewrite Kb; exact N2|]. rewrite Kb. eapply VainGaveUp. apply H2. reflexivity.
Qed.

Lemma buffer_is w k c T s : wf_env (w_env w) -> usable (c_src c) -> usable T -> not_null c ->
  v_is (w_env w) k (Some c) (mkQ RNone T) = Got true ->
  exists g, into_buffer w c (type_id c (if k then ALrefConst else ALref)) T s = (let! i := copy_construct w T in ret (i, g)) s.
Proof.
  intros Hw Hu HT Hn H. pose proof (usable_arrays _ Hu) as Hp.
  unfold v_is, metafunc_is, into_buffer in *. set (from := type_id c _) in *. cbv zeta.
  unfold when_compatible in *. destruct (compat from (mkQ RNone T)) eqn:Hc; [|discriminate|discriminate].
  destruct (same_decay from (mkQ RNone T)) eqn:Hd; [eexists; reflexivity|].
  destruct (tag_of (mkQ RNone T)) as [|j|j] eqn:Etag; [discriminate| |].
  - destruct (isClass (Some (info_of from))); [|discriminate].
    destruct (inherits_spec (w_env w) c j Hw Hp Hn) as (r & Er & Hr). rewrite Er in H. injection H as ->.
    destruct (proj1 Hr eq_refl) as [z Hz]. rewrite (proj2 (proj1 (cast_imp_spec (w_env w) c j Hw Hp) z) Hz). cbn [of_out]. unfold bindM at 1. cbn [ret].
    eexists. reflexivity.
  - destruct (isClassPtr (Some (info_of from))); [|discriminate].
    destruct (inherits_spec (w_env w) c j Hw Hp Hn) as (r & Er & Hr). rewrite Er in H. injection H as ->.
    destruct (proj1 Hr eq_refl) as [z Hz]. rewrite (proj2 (proj1 (cast_imp_spec (w_env w) c j Hw Hp) z) Hz). cbn [of_out]. unfold bindM at 1. cbn [ret].
    eexists. reflexivity.
Qed.

Lemma to_is_fails w k c T s : fresh s -> wf_env (w_env w) -> usable (c_src c) -> usable T -> not_null c ->
  v_is (w_env w) k (Some c) (mkQ RNone T) = Got true ->
  (e_copies (w_env w) T = false -> fst (to w k (Some c) T s) = Raise Not_possible) /\
  (e_copies (w_env w) T = true -> w_throws w (clock s) = true \/ w_throws w (S (clock s)) = true -> fst (to w k (Some c) T s) = Raise Users).
Proof.
  intros F Hw Hu HT Hn H. destruct (buffer_is w k c T s Hw Hu HT Hn H) as (g & B). split.
  - intros Ec. unfold to. unfold bindM at 1. rewrite B. unfold copy_construct. rewrite Ec. reflexivity.
  - intros Ec Ht. unfold to. unfold bindM at 1. rewrite B. unfold copy_construct. rewrite Ec. unfold bindM at 1. unfold bindM at 1, user_call. destruct (w_throws w (clock s)) eqn:T0; [reflexivity|].
    destruct Ht as [Ht|Ht]; [discriminate|]. cbn [made ret live blocks next clock left]. unfold finally. unfold bindM at 1, user_call. cbn [clock]. rewrite Ht.
    unfold bindM. match goal with |- context [destroy (next s) ?st] => set (s2 := st); destruct (destroy (next s) s2) as [r3 s3] eqn:E3 end.
    destruct (destroy_head (next s) (live s) s2 r3 s3 (fresh_made (St (live s) (blocks s) (next s) (S (S (clock s))) (left s)) F) eq_refl E3) as (-> & _). reflexivity.
Qed.
