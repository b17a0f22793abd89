(** C59: threads do not block each other for ever. *)
From Coq Require Import List Bool Arith Lia.
From Verif Require Import DeferModel RaceModel RaceSpec RaceProofs RaceProps BlockSpec BlockProofs BlockEnds BlockKeeps BlockSafe.
Import ListNotations.

(** All are done, the process has crashed, or somebody can go on. *)
Definition goes_on (writers_first : bool) (s : state) : Prop :=
  (forall p, In p (threads s) -> finished p) \/ In Crash (threads s) \/ exists i, can_go writers_first s i.

Lemma tidy_goes_on L defs w s : tidy L defs s -> goes_on w s.
Proof.
  intro T. destruct (ended_dec (threads s)) as [[D|C]|[(i & p & Hp & Np) C]]; [left; exact D|right; left; exact C|]. right. right.
  destruct (wants p) as [[g m]|] eqn:Ew.
  - destruct p as [| |g0 m0 p0| | | | | | | | | ]; try discriminate Ew. cbn in Ew. injection Ew as -> ->.
    apply (someone_goes L defs w s T C (S (height L g)) g (Nat.lt_succ_diag_r _)). exists i, m, p0. exact Hp.
  - exists i, p. split; [exact Hp|]. split; [exact Np|]. split; [intros ->; exact (C i Hp)|]. intros g m E. congruence.
Qed.

(** ** As long as the registry is in order *)

(** Clients of any kind, with visitors and deferred definitions that work below what they are called from: if the
    registry was in order so far, some thread can go on, also if readers have to let writers first. *)
Theorem C59_somebody_goes_on : forall L defs m a n clients sched w,
  (forall c, In c clients -> gentle L None c) ->
  (forall k, layered L defs (exec defs (start m a n clients) (firstn k sched))) ->
  goes_on w (exec defs (start m a n clients) sched) /\ ~ blocked w (exec defs (start m a n clients) sched).
Proof.
  intros L defs m a n clients sched w G Ly.
  assert (T : tidy L defs (exec defs (start m a n clients) sched)) by (apply exec_tidy; [apply start_tidy; exact G|exact Ly]).
  split; [exact (tidy_goes_on L defs w _ T)|exact (tidy_not_blocked L defs w _ T)].
Qed.
Print Assumptions C59_somebody_goes_on.

(** The registry stays in order by itself if clients and definitions register into the containers of the start. *)
Theorem C59_orderly : forall L defs m a n clients sched w,
  fresh L n -> layered L defs (start m a n clients) ->
  (forall d c, only (fun _ => orderly L defs) [] (defs d c)) ->
  (forall c, In c clients -> only (fun _ => orderly L defs) [] c /\ gentle L None c) ->
  goes_on w (exec defs (start m a n clients) sched) /\ ~ blocked w (exec defs (start m a n clients) sched).
Proof.
  intros L defs m a n clients sched w F Ly D C. apply (C59_somebody_goes_on L); [intros c Hc; exact (proj2 (C c Hc))|].
  intro k. set (weaker := fun (w : list lst) a (O : orderly L defs a) => conj O (fun f : False => match f return ~ defers a with end)).
  apply (kept_layered L defs n False (fun _ => 0)). apply exec_kept; [exact F|intros []| |].
  - intros d c. right. exact (proj1 (only_weaken _ _ weaker) _ _ (D d c)).
  - apply start_kept; [exact F|intros []| |exact Ly|intros l []|].
    + intros d c. right. exact (proj1 (only_weaken _ _ weaker) _ _ (D d c)).
    + intros c Hc. exact (proj1 (only_weaken _ _ weaker) _ _ (proj1 (C c Hc))).
Qed.
Print Assumptions C59_orderly.

(** ** Without deferred definitions *)

(** The layers of a registry whose nesting and whose inheritance are both in order. *)
Definition two_orders (nest : nat -> nat) (top : nat) (below types : nat -> nat) : layers :=
  Layers nest (fun c => S top + below c) (fun t => S top + types t) (fun _ => 0).

Lemma two_orders_layered nest top below types defs s : no_definition s -> nested nest top s -> ranked below types s ->
  layered (two_orders nest top below types) defs s.
Proof.
  intros N [T I] [B M]. split; [|split; [|split]]; cbn.
  - intros c k n i Hi. split; cbn; [exact (I c k n i Hi)|lia].
  - intros c t b Hb. specialize (B c t b Hb). lia.
  - intros t d Hd. specialize (M t d Hd). specialize (T d). unfold lower. cbn. lia.
  - intros c d Hd. rewrite (N c) in Hd. discriminate.
Qed.

Lemma plain_gentle L :
  (forall c inside limit, plain inside c -> (if inside : bool then fits limit 1 else limit = None) -> gentle L limit c) /\
  (forall a inside limit, plain_api inside a -> (if inside : bool then fits limit 1 else limit = None) -> gentle_api L limit a).
Proof.
  apply client_api_ind; cbn [plain plain_api gentle gentle_api]; try tauto;
    try (intros; match goal with H : ?i = false, F : if ?i then _ else _ |- _ => rewrite H in F; rewrite F end; split; exact I);
    try (intros; match goal with F : if ?i then fits ?l 1 else _ |- _ =>
           split; [|exact I]; destruct i; [destruct l; cbn in F |- *; [lia|exact I]|rewrite F; exact I] end).
  - intros a IHa k IHk inside limit [A B] F. split; [exact (IHa inside limit A F)|]. intros v _. exact (IHk v inside limit (B v) F).
  - intros c f IHf inside limit [E V] F. rewrite E in F. rewrite F. split; [exact I|]. intros i _.
    apply (IHf i true); [apply V|]. cbn. lia.
  - intros c f IHf inside limit [E V] F. rewrite E in F. rewrite F. split; [exact I|]. intros i _.
    apply (IHf i true); [apply V|]. cbn. lia.
  - intros x f IHf inside limit [E V] F. rewrite E in F. rewrite F. split; [exact I|]. intros n i.
    apply (IHf n i true); [apply V|]. cbn. lia.
Qed.

(** Without definitions, and with visitors that look up types at most, all that matters is that containers are nested
    properly and no class is among its own bases. *)
Theorem C59_plain : forall defs m a n clients sched w,
  (forall c, In c clients -> plain false c) ->
  (exists nest top below types, forall k, let s := exec defs (start m a n clients) (firstn k sched) in
     no_definition s /\ nested nest top s /\ ranked below types s) ->
  goes_on w (exec defs (start m a n clients) sched) /\ ~ blocked w (exec defs (start m a n clients) sched).
Proof.
  intros defs m a n clients sched w P (nest & top & below & types & H).
  apply (C59_somebody_goes_on (two_orders nest top below types)).
  - intros c Hc. apply (proj1 (plain_gentle _) c false); [apply P; exact Hc|reflexivity].
  - intro k. destruct (H k) as (A & B & C). apply two_orders_layered; assumption.
Qed.
Print Assumptions C59_plain.

Lemma upto_length f n : length (upto f n) = n.
Proof. induction n as [|n IH]; [reflexivity|]. cbn. rewrite app_length, IH. cbn. lia. Qed.
Lemma upto_firstn f n : forall k, exists j, firstn k (upto f n) = upto f j.
Proof.
  induction n as [|n IH]; intro k; [exists 0; destruct k; reflexivity|]. destruct (le_lt_dec (S n) k) as [H|H].
  - exists (S n). apply firstn_all2. rewrite upto_length. exact H.
  - destruct (IH k) as [j E]. exists j. cbn [upto]. rewrite firstn_app, upto_length, E. replace (k - n) with 0 by lia.
    cbn. apply app_nil_r.
Qed.

(** Then they all come to an end, whatever the schedule, if every thread has its turn again and again. *)
Theorem C59_ends : forall defs m a n clients f,
  (forall c, In c clients -> plain false c) -> fair (length clients) f ->
  (exists nest top below types depth, forall k, let s := exec defs (start m a n clients) (upto f k) in
     no_definition s /\ nested nest top s /\ ranked below types s /\ housed depth s) ->
  exists k, let s := exec defs (start m a n clients) (upto f k) in
    (forall p, In p (threads s) -> finished p) \/ In Crash (threads s).
Proof.
  intros defs m a n clients f P F (nest & top & below & types & depth & H).
  set (L := two_orders nest top below types).
  assert (Ly : forall k, layered L defs (exec defs (start m a n clients) (upto f k))).
  { intro k. destruct (H k) as (A & B & C & _). apply two_orders_layered; assumption. }
  apply (all_end L defs depth (start m a n clients) f).
  - intro k. destruct (H k) as (A & B & C & D). split; [apply Ly|]. split; assumption.
  - intro k. apply exec_tidy.
    + apply start_tidy. intros c Hc. apply (proj1 (plain_gentle _) c false); [apply P; exact Hc|reflexivity].
    + intro j. destruct (upto_firstn f k j) as [i ->]. apply Ly.
  - cbn. rewrite map_length. exact F.
  - intros p Hp. cbn in Hp. apply in_map_iff in Hp. destruct Hp as (c & <- & _). apply den_halts. intros _. apply halts_done.
Qed.
Print Assumptions C59_ends.

(** Without definitions nobody dereferences a null pointer, whatever the threads do, as the bases of classes stay registered. *)
Theorem C59_no_crash : forall defs m a n clients sched,
  no_definition (start m a n clients) -> registered (start m a n clients) ->
  (forall c, In c clients -> only (fun _ a => ~ defers a) [] c) ->
  ~ In Crash (threads (exec defs (start m a n clients) sched)) /\ registered (exec defs (start m a n clients) sched).
Proof.
  intros defs m a n clients sched N R C. assert (S : sound (exec defs (start m a n clients) sched)) by (apply exec_sound, start_sound; assumption).
  split; [exact (sound_no_crash _ S)|exact (sound_bases _ S)].
Qed.
Print Assumptions C59_no_crash.

(** All of it together, from what holds at the start: all threads finish. *)
Theorem C59_orderly_ends : forall nest top below types depth defs m a n clients f,
  (let s := start m a n clients in
   no_definition s /\ nested nest top s /\ ranked below types s /\ housed depth s /\ registered s) ->
  (forall i, n <= i -> nest i = 0 /\ below i = 0) ->
  (forall c i, 0 < nest c -> n <= i -> depth c < depth i) ->
  (forall c, In c clients -> plain false c /\ only (fun _ => tame nest below types) [] c) ->
  fair (length clients) f ->
  exists k, forall p, In p (threads (exec defs (start m a n clients) (upto f k))) -> finished p.
Proof.
  intros nest top below types depth defs m a n clients f (N & I & R & H & G) New Deep C F.
  set (L := two_orders nest top below types).
  assert (Fr : fresh L n).
  { intros i Hi. destruct (New i Hi) as [A B]. cbn. rewrite A, B. split; [reflexivity|]. split; [intro t; lia|lia]. }
  assert (Wk : forall (w : list lst) b, tame nest below types b -> ok L defs True b).
  { intros w b Hb. split; [|intros _ D; destruct b; try contradiction]. destruct b; cbn in Hb |- *; try exact Logic.I; try exact Hb; [lia|contradiction]. }
  assert (Ob : forall c, In c clients -> obeys L defs True c).
  { intros c Hc. exact (proj1 (only_weaken _ _ Wk) _ _ (proj2 (C c Hc))). }
  assert (K : forall sched, kept L defs n True depth (exec defs (start m a n clients) sched)).
  { intro sched. apply exec_kept; [exact Fr|intros _; exact Deep|intros d c; left; exact Logic.I|].
    apply start_kept; [exact Fr|intros _; exact Deep|intros d c; left; exact Logic.I| | |exact Ob].
    - apply two_orders_layered; assumption.
    - intros l _. destruct l; try exact Logic.I; [exact (H i)|exact (N c)]. }
  assert (Kn : forall k, let s := exec defs (start m a n clients) (upto f k) in
                 no_definition s /\ nested nest top s /\ ranked below types s /\ housed depth s).
  { intros k s. destruct (K (upto f k)) as [Ly Ho _ _]. fold s in Ly, Ho. destruct Ly as (L1 & L2 & L3 & _). split; [|split; [|split]].
    - intro c. exact (Ho (LDefer c) Logic.I).
    - split; [exact (proj1 I)|]. intros c k' n' i Hi. exact (proj1 (L1 c k' n' i Hi)).
    - split; [intros c t b Hb; specialize (L2 c t b Hb); cbn in L2; lia|intros t d Hd; specialize (L3 t d Hd); cbn in L3; lia].
    - intros i. exact (Ho (LSelf i) Logic.I). }
  destruct (C59_ends defs m a n clients f) as [k Hk].
  - intros c Hc. exact (proj1 (C c Hc)).
  - exact F.
  - exists nest, top, below, types, depth. exact Kn.
  - exists k. destruct Hk as [Hk|Hk]; [exact Hk|]. exfalso. revert Hk. apply (C59_no_crash defs m a n clients); [exact N|exact G|].
    intros c Hc. refine (proj1 (only_weaken _ _ _) _ _ (proj2 (C c Hc))). intros w b Hb D. destruct b; contradiction.
Qed.
Print Assumptions C59_orderly_ends.

(** Who can go on gets the lock. *)
Theorem C59_gets_the_lock : forall defs s i p g m, can_go false s i -> nth_error (threads s) i = Some p -> wants p = Some (g, m) ->
  In (i, (g, m)) (held (turn defs s i)) /\ nth_error (threads (turn defs s i)) i <> Some p.
Proof.
  intros defs s i p g m (p' & E & _ & _ & C) Hp Hw. rewrite Hp in E. injection E as <-. destruct (C g m Hw) as [A _].
  apply free_available in A. destruct p as [| |g0 m0 p0| | | | | | | | | ]; try discriminate Hw. injection Hw as -> ->.
  unfold turn. rewrite Hp. cbn [step]. rewrite A. cbn [held threads]. split; [left; reflexivity|].
  assert (Hi : i < length (threads s)) by (apply nth_error_Some; congruence). intro E.
  assert (X : nth_error (put (threads s) i p0) i = Some p0).
  { clear - Hi. revert i Hi. induction (threads s) as [|x l IH]; intros [|i] Hi; cbn in *; try lia; [reflexivity|]. apply IH. lia. }
  rewrite X in E. injection E as E. revert E. clear. intro E.
  assert (N : forall q, q <> Lock g m q) by (induction q; congruence). exact (N p0 E).
Qed.
Print Assumptions C59_gets_the_lock.

(** ** Cases *)

(** RaceProps.world, with definitions pending for its two classes: the one of class 1 creates a method and makes class 2
    a base, that of class 2 creates a method and registers a type. Threads enumerate the classes and ask each for a
    method, ask class 1 for a method, and register. *)
Definition order (c : nat) : nat := match c with 0 => 3 | 1 => 2 | 2 => 1 | _ => 0 end.
Definition case_layers : layers :=
  Layers order order (fun t => match t with 11 => 2 | 12 => 1 | _ => 0 end) (fun c => match c with 0 => 6 | 1 => 5 | 2 => 4 | _ => 2 end).
Definition case_defs (d c : nat) : client :=
  match c with
  | 1 => Call (Create Method 1 40) (fun _ => once (AddBase 1 12))
  | 2 => Call (Create Method 2 41) (fun _ => once (Register 103 13))
  | _ => Stop true
  end.
Definition case_world (l : loc) : val := match l with LDefer 1 | LDefer 2 => VOpt (Some 0) | _ => world l end.
Definition case_clients : list client :=
  [once (EachClass 0 (fun i => Call (GetMember Method i 41) (fun _ => once (Count i Method))));
   Call (GetMember Method 1 41) (fun _ => once (Inherited 1 2));
   Call (Create Enum 0 30) (fun _ => Call (SetValue (Attrs 1) 7 4) (fun _ => once (Force 0)))].

Lemma order_top c : order c <= 3. Proof. do 3 (destruct c as [|c]; [cbn; lia|]). cbn. lia. Qed.

Example C59_orderly_case : forall sched w,
  goes_on w (exec case_defs (start case_world classes 20 case_clients) sched) /\
  ~ blocked w (exec case_defs (start case_world classes 20 case_clients) sched).
Proof.
  intros sched w. apply (C59_orderly case_layers).
  - intros i Hi. do 20 (destruct i as [|i]; [lia|]). cbn. split; [reflexivity|]. split; [intro t; lia|lia].
  - split; [|split; [|split]].
    + intros c k n i Hi. unfold under in Hi. cbn in Hi. destruct c as [|c]; [|contradiction]. destruct k; try contradiction.
      destruct Hi as [[= <- <-]|[[= <- <-]|[]]]; split; cbn; lia.
    + intros c t b Hb. contradiction.
    + intros t d Hd. cbn in Hd. do 11 (destruct t as [|t]; [discriminate|]).
      destruct t as [|[|t]]; cbn in Hd; try discriminate; injection Hd as <-; unfold lower; cbn; lia.
    + intros c d Hd. cbn in Hd. destruct c as [|[|[|c]]]; cbn in Hd; try discriminate; cbn; repeat (split || intro); try exact I; lia.
  - intros d c. destruct c as [|[|[|c]]]; cbn; repeat (split || intro); try exact I; lia.
  - intros c [<-|[<-|[<-|[]]]]; (split; [cbn; repeat (split || intro); try exact I; lia|]).
    + cbn. split; [|tauto]. split; [exact I|]. intros i [Hi Hr]. cbn in Hi, Hr. unfold need_items, need_bases. cbn.
      repeat split; lia.
    + cbn. tauto.
    + cbn. tauto.
Qed.

(** One of the runs: all finish, and class 1 has got its method and its base. *)
Example C59_orderly_run :
  let s := exec case_defs (start case_world classes 20 case_clients) (List.concat (repeat [0; 1; 2] 150)) in
  threads s = [Done; Done; Done] /\ map fst (rows (mem s (LItems 1 Method))) = [40] /\ rows (mem s (LBases 1)) = [(12, 2)].
Proof. vm_compute. repeat split. Qed.

(** Without definitions: a class 0 -> 1, a base 12 of class 1, look-ups in between; each thread in turn. *)
Definition plain_clients : list client :=
  [Call (CreateClass 0 31 13) (fun _ => Call (Create Method 1 40) (fun _ => once (AddBase 1 12)));
   once (EachClass 0 (fun i => Call (Qualified i) (fun _ => once (Register 103 13))));
   Call (GetMember Method 1 40) (fun _ => Call (Force 0) (fun _ => once (Inherited 1 2)))].
Definition plain_nest (c : nat) : nat := match c with 0 => 2 | 1 | 2 => 1 | _ => 0 end.
Definition plain_below (c : nat) : nat := match c with 1 => 1 | _ => 0 end.
Definition plain_types (t : nat) : nat := match t with 11 => 1 | _ => 0 end.
Definition plain_depth (c : nat) : nat := match c with 0 => 0 | 1 | 2 => 1 | _ => 2 end.

Lemma rounds : fair (length plain_clients) (fun n => n mod 3).
Proof.
  intros i n Hi. cbn in Hi. exists (i + n * 3). split; [lia|]. rewrite Nat.mod_add; [|discriminate]. apply Nat.mod_small. exact Hi.
Qed.

Lemma plain_start : let s := start world classes 20 plain_clients in
  no_definition s /\ nested plain_nest 2 s /\ ranked plain_below plain_types s /\ housed plain_depth s /\ registered s.
Proof.
  intro s. split; [intro c; reflexivity|]. split; [|split; [|split]].
  - split; [intros [|[|[|i]]]; cbn; lia|]. intros c k n i Hi. unfold under in Hi. cbn in Hi. destruct c as [|c]; [|contradiction].
    destruct k; try contradiction. destruct Hi as [[= <- <-]|[[= <- <-]|[]]]; cbn; lia.
  - split; [intros c t b Hb; contradiction|]. intros t d Hd. cbn in Hd. do 11 (destruct t as [|t]; [discriminate|]).
    destruct t as [|[|t]]; cbn in Hd; try discriminate; injection Hd as <-; cbn; lia.
  - intros i k n o H. cbn in H. destruct i as [|[|[|i]]]; cbn in H; try discriminate; injection H as _ _ <-; cbn; lia.
  - intros c t b Hb. contradiction.
Qed.

Example C59_orderly_ends_case : exists k, forall p,
  In p (threads (exec no_defs (start world classes 20 plain_clients) (upto (fun n => n mod 3) k))) -> finished p.
Proof.
  apply (C59_orderly_ends plain_nest 2 plain_below plain_types plain_depth).
  - exact plain_start.
  - intros i Hi. do 20 (destruct i as [|i]; [lia|]). split; reflexivity.
  - intros c i Hc Hi. do 20 (destruct i as [|i]; [lia|]). destruct c as [|[|[|c]]]; cbn in Hc |- *; lia.
  - intros c [<-|[<-|[<-|[]]]]; cbn; repeat (split || intro); try exact I; lia.
  - exact rounds.
Qed.

Example C59_orderly_ends_run :
  let s := exec no_defs (start world classes 20 plain_clients) (upto (fun n => n mod 3) 300) in
  threads s = [Done; Done; Done] /\ rows (mem s (LBases 1)) = [(12, 2)] /\ map fst (rows (mem s (LItems 0 Class))) = [5; 6; 31].
Proof. vm_compute. repeat split. Qed.

(** Class 2 is derived from class 1. *)
Definition crossing_bases (l : loc) : val := match l with LBases 2 => VMap [(11, 1)] | _ => world l end.

(** C59_no_crash, with visitors and a base looked up while it is added. *)
Example C59_no_crash_case : forall sched,
  ~ In Crash (threads (exec no_defs (start crossing_bases classes 20 plain_clients) sched)).
Proof.
  intro sched. refine (proj1 (C59_no_crash no_defs crossing_bases classes 20 plain_clients sched _ _ _)).
  - intro c. reflexivity.
  - intros c t b Hb. unfold under in Hb. cbn in Hb. destruct c as [|[|[|c]]]; try contradiction. destruct Hb as [[= <- <-]|[]]. discriminate.
  - intros c [<-|[<-|[<-|[]]]]; cbn; tauto.
Qed.

(** The hypothesis matters: with a base whose type has no class a look-up crashes. *)
Example C59_unregistered_base :
  In Crash (threads (exec no_defs (start (fun l => match l with LBases 1 => VMap [(15, 2)] | _ => world l end) classes 20
    [once (GetMember Method 1 40)]) (repeat 0 30))).
Proof. vm_compute. left. reflexivity. Qed.

(** ** Where they do block each other *)

(** [blocked], computed (for the cases only). *)
Definition stuck (w : bool) (s : state) : bool :=
  existsb (fun p => match p with Done => false | _ => true end) (threads s) &&
  forallb (fun p => match p with Crash => false | _ => true end) (threads s) &&
  forallb (fun p => match p with
    | Done => true
    | Lock g m _ => negb (free s g m) || (w && mode_beq m Shared &&
        existsb (fun q => match q with Lock g' Exclusive _ => lock_beq g' g | _ => false end) (threads s))
    | _ => false
    end) (threads s).

Lemma stuck_blocked w s : stuck w s = true -> blocked w s.
Proof.
  unfold stuck. rewrite !andb_true_iff, existsb_exists, !forallb_forall. intros [[(p & Hp & Np) C] B].
  split; [|split].
  - apply In_nth_error in Hp. destruct Hp as [i Hi]. exists i, p. split; [exact Hi|]. unfold finished. intros ->. discriminate.
  - intros i E. specialize (C _ (nth_error_In _ _ E)). discriminate.
  - intros i (q & E & N1 & N2 & W). specialize (B _ (nth_error_In _ _ E)). destruct q as [| |g m q| | | | | | | | | ]; try discriminate B; [congruence|].
    destruct (W g m eq_refl) as [A Wr]. apply free_available in A. rewrite A in B. cbn [negb orb] in B.
    rewrite !andb_true_iff in B. destruct B as [[-> Em] X]. apply mode_beq_eq in Em. subst m. apply existsb_exists in X.
    destruct X as (r & Hr & Er). apply In_nth_error in Hr. destruct Hr as [j Hj]. destruct r as [| |g' [|] r| | | | | | | | | ]; try discriminate Er.
    apply lock_beq_eq in Er. subst g'. exact (Wr eq_refl eq_refl j _ Hj eq_refl).
Qed.

(** Class 1 (type 11) with a nested class 3 (type 13), class 2 (type 12) with a nested class 4 (type 14); types 15 and 16
    are of no class yet. Class 1 is derived from class 3 and has a method, class 2 is derived from class 4. *)
Definition crossing : loc -> val := fun l =>
  match l with
  | LSelf 0 => VSelf Namespace 9 None
  | LSelf 1 => VSelf Class 5 (Some 0)
  | LSelf 2 => VSelf Class 6 (Some 0)
  | LSelf 3 => VSelf Class 21 (Some 1)
  | LSelf 4 => VSelf Class 22 (Some 2)
  | LItems 0 Class => VMap [(5, 1); (6, 2)]
  | LItems 1 Class => VMap [(21, 3)]
  | LItems 2 Class => VMap [(22, 4)]
  | LItems 1 Method => VMap [(40, 5)]
  | LBases 1 => VMap [(13, 3)]
  | LBases 2 => VMap [(14, 4)]
  | _ => VUnit
  end.
Definition four : aloc -> val := fun a =>
  match a with AMeta 11 => VOpt (Some 1) | AMeta 12 => VOpt (Some 2) | AMeta 13 => VOpt (Some 3) | AMeta 14 => VOpt (Some 4) | _ => VUnit end.

(** Alone, a client comes to its end. *)
Definition ends_alone (defs : nat -> nat -> client) (m : loc -> val) (a : aloc -> val) (n : nat) (c : client) : Prop :=
  exists k, threads (exec defs (start m a n [c]) (repeat 0 k)) = [Done].

(** Two visitors, each of which registers a class in the container that the other one's enumeration is of. *)
Theorem C59_visitors_refuted : exists m a n c1 c2 sched,
  ends_alone no_defs m a n c1 /\ ends_alone no_defs m a n c2 /\ blocked false (exec no_defs (start m a n [c1; c2]) sched).
Proof.
  exists crossing, four, 20, (once (EachClass 1 (fun _ => once (CreateClass 2 31 15)))),
    (once (EachClass 2 (fun _ => once (CreateClass 1 32 16)))), (List.concat (repeat [0; 1] 40)).
  split; [exists 60; vm_compute; reflexivity|]. split; [exists 60; vm_compute; reflexivity|]. apply stuck_blocked. vm_compute. reflexivity.
Qed.
Print Assumptions C59_visitors_refuted.

(** Two threads that only look up a method. Deferred definitions of the bases of the two classes each add a base to the
    other class, whose bases are being searched. *)
Theorem C59_definitions_refuted : exists defs m a n sched,
  let look_up c := once (GetMember Method c 40) in
  ends_alone defs m a n (look_up 1) /\ ends_alone defs m a n (look_up 2) /\
  blocked false (exec defs (start m a n [look_up 1; look_up 2]) sched).
Proof.
  exists (fun _ c => match c with 3 => once (AddBase 2 13) | 4 => once (AddBase 1 14) | _ => Stop true end),
    (fun l => match l with LDefer 3 | LDefer 4 => VOpt (Some 0) | LItems 1 Method => VUnit | _ => crossing l end),
    four, 20, (List.concat (repeat [0; 1] 60)).
  split; [exists 100; vm_compute; reflexivity|]. split; [exists 100; vm_compute; reflexivity|]. apply stuck_blocked. vm_compute. reflexivity.
Qed.
Print Assumptions C59_definitions_refuted.

(** A visitor of the methods of a class that asks the class for a method, and a thread that adds a method. They block each
    other if writers go first, not otherwise. *)
Theorem C59_readers_refuted : exists m a n c1 c2 sched,
  let s := exec no_defs (start m a n [c1; c2]) sched in
  ends_alone no_defs m a n c1 /\ ends_alone no_defs m a n c2 /\ blocked true s /\ can_go false s 0.
Proof.
  exists crossing, four, 20, (once (EachMethod 1 (fun _ => once (Get 1 Method 40)))), (once (Create Method 1 41)),
    (repeat 0 7 ++ repeat 1 60).
  cbv zeta. split; [exists 60; vm_compute; reflexivity|]. split; [exists 100; vm_compute; reflexivity|].
  split; [apply stuck_blocked; vm_compute; reflexivity|]. vm_compute. eexists. split; [reflexivity|]. split; [discriminate|].
  split; [discriminate|]. intros g m [= <- <-]. split; [|discriminate]. intros j m' [[= <- <-]|[]]. tauto.
Qed.
Print Assumptions C59_readers_refuted.
