(** Every thread, at every moment, has a remaining program that keeps to the locks; hence races are possible only where no
    lock is used, and what is in the tables stays. Nothing here models code of /repo. *)
From Coq Require Import List Bool Arith Lia.
From Verif Require Import Util DeferModel RaceModel RaceSpec.
Import ListNotations.

Scheme client_mut := Induction for client Sort Prop with api_mut := Induction for api Sort Prop.
Combined Scheme client_api_ind from client_mut, api_mut.

Lemma lock_beq_refl g : lock_beq g g = true.
Proof. apply internal_lock_dec_lb. reflexivity. Qed.
Lemma mode_beq_refl m : mode_beq m m = true.
Proof. destruct m; reflexivity. Qed.
Lemma loc_beq_refl l : loc_beq l l = true.
Proof. apply internal_loc_dec_lb. reflexivity. Qed.
Lemma loc_beq_eq a b : loc_beq a b = true -> a = b.
Proof. apply internal_loc_dec_bl. Qed.
Lemma lock_beq_eq a b : lock_beq a b = true -> a = b.
Proof. apply internal_lock_dec_bl. Qed.
Lemma mode_beq_eq a b : mode_beq a b = true -> a = b.
Proof. apply internal_mode_dec_bl. Qed.

(** ** Tables *)

(** The lock that guards a place. *)
Definition guard (l : loc) : option lock :=
  match l with
  | LTypes => Some KTypes | LConv => Some KConv | LItems c k => Some (KItems c k) | LBases c => Some (KBases c)
  | LDerived c => Some (KDerived c) | LNames x => Some (KNames x) | LVal x _ => Some (KNames x)
  | LInfo _ | LSelf _ | LQual _ | LDefer _ => None
  end.

Definition table (l : loc) : bool :=
  match l with LTypes | LConv | LItems _ _ | LBases _ | LDerived _ | LNames _ => true | _ => false end.
Definition append (l : loc) : bool := table l && negb (loc_beq l LConv).

Definition grow (l : loc) (old new : val) : Prop :=
  match l with
  | LConv => (exists k f, conv_of k (convs old) = None /\ new = VConv (convs old ++ [(k, f)])) \/
             (exists k, new = VConv (filter (fun r => negb (same (fst r) k)) (convs old)))
  | LNames _ => exists n, assoc n (rows old) = None /\ new = VMap (rows old ++ [(n, length (rows old))])
  | _ => exists n i, assoc n (rows old) = None /\ new = VMap (rows old ++ [(n, i)])
  end.

Lemma grow_append l old new : append l = true -> grow l old new -> exists t, rows new = rows old ++ t.
Proof.
  destruct l; cbn; try discriminate; intros _; try (intros (n & i & _ & ->); eexists; reflexivity).
  intros (n & _ & ->); eexists; reflexivity.
Qed.

Lemma growing_append l : growing l <-> append l = true.
Proof. destruct l; cbn; split; intro; try tauto; try discriminate; reflexivity. Qed.

Lemma find_app {A} (f : A -> bool) l t : find f (l ++ t) = match find f l with Some x => Some x | None => find f t end.
Proof. induction l as [|a l IH]; [reflexivity|]. cbn. destruct (f a); [reflexivity|exact IH]. Qed.

Lemma assoc_none n l : assoc n l = None -> ~ In n (map fst l).
Proof.
  unfold assoc. destruct (find _ l) eqn:E; [discriminate|]. intros _ H. apply in_map_iff in H. destruct H as (r & <- & Hr).
  apply (find_none _ _ E) in Hr. rewrite Nat.eqb_refl in Hr. discriminate.
Qed.

Lemma assoc_some n l x : assoc n l = Some x -> In (n, x) l.
Proof.
  unfold assoc. destruct (find _ l) as [[a b]|] eqn:E; [|discriminate]. cbn. intros [= <-].
  apply find_some in E. destruct E as [Hi He]. cbn in He. apply Nat.eqb_eq in He. subst. exact Hi.
Qed.

Lemma same_eq a b : same a b = true <-> a = b.
Proof.
  destruct a, b. unfold same. cbn. rewrite andb_true_iff, !Nat.eqb_eq. split; [intros [-> ->]; reflexivity|].
  intros [= -> ->]. tauto.
Qed.

Lemma conv_none k l : conv_of k l = None -> ~ In k (map fst l).
Proof.
  unfold conv_of. destruct (find _ l) eqn:E; [discriminate|]. intros _ H. apply in_map_iff in H. destruct H as (r & <- & Hr).
  apply (find_none _ _ E) in Hr. rewrite (proj2 (same_eq _ _) eq_refl) in Hr. discriminate.
Qed.

Lemma NoDup_filter_map {A B} (f : A -> B) (p : A -> bool) l : NoDup (map f l) -> NoDup (map f (filter p l)).
Proof.
  induction l as [|a l IH]; cbn; intro H; [constructor|]. inversion H as [|? ? Hn Hd]; subst.
  destruct (p a); cbn; [|apply IH; exact Hd]. constructor; [|apply IH; exact Hd].
  intro Hi. apply Hn. apply in_map_iff in Hi. destruct Hi as (x & Hx & Hf). apply filter_In in Hf.
  apply in_map_iff. exists x. tauto.
Qed.

(** One change keeps the tables proper. *)
Lemma proper_step (m m' : loc -> val) :
  (forall l, table l = true -> m' l = m l \/ grow l (m l) (m' l)) -> proper m -> proper m'.
Proof.
  intros Hg (Hn & Hi & Hc). split; [|split].
  - intros l Hl. specialize (Hn l Hl). apply growing_append in Hl. pose proof Hl as Ht. unfold append in Ht.
    apply andb_true_iff in Ht. destruct (Hg l (proj1 Ht)) as [->|G]; [exact Hn|].
    assert (G2 : exists n i, assoc n (rows (m l)) = None /\ m' l = VMap (rows (m l) ++ [(n, i)])).
    { destruct l; cbn in *; try discriminate; try exact G.
      destruct G as (n & A & B). exists n, (length (rows (m (LNames x)))). tauto. }
    destruct G2 as (n & i & A & ->). cbn. rewrite map_app. cbn. apply NoDup_snoc; [exact Hn|]. apply assoc_none. exact A.
  - intros x i r Hr. destruct (Hg (LNames x) eq_refl) as [E|(n & A & E)]; unfold row in *; rewrite E in Hr.
    + exact (Hi x i r Hr).
    + cbn in Hr. apply nth_snoc in Hr. destruct Hr as [Hr|[-> ->]]; [exact (Hi x i r Hr)|reflexivity].
  - destruct (Hg LConv eq_refl) as [->|[(k & f & A & ->)|(k & ->)]]; [exact Hc| |]; cbn.
    + rewrite map_app. cbn. apply NoDup_snoc; [exact Hc|]. apply conv_none. exact A.
    + apply NoDup_filter_map. exact Hc.
Qed.

Definition extends (m m' : loc -> val) : Prop := forall l, append l = true -> exists t, rows (m' l) = rows (m l) ++ t.

Lemma extends_refl m : extends m m.
Proof. intros l _. exists []. symmetry. apply app_nil_r. Qed.
Lemma extends_trans a b c : extends a b -> extends b c -> extends a c.
Proof.
  intros H1 H2 l Hl. destruct (H1 l Hl) as (t & Ht). destruct (H2 l Hl) as (u & Hu). exists (t ++ u).
  rewrite Hu, Ht, app_assoc. reflexivity.
Qed.
Lemma extends_step m m' : (forall l, table l = true -> m' l = m l \/ grow l (m l) (m' l)) -> extends m m'.
Proof.
  intros H l Hl. pose proof Hl as Ht. unfold append in Ht. apply andb_true_iff in Ht.
  destruct (H l (proj1 Ht)) as [->|G]; [exists []; symmetry; apply app_nil_r|]. exact (grow_append l _ _ Hl G).
Qed.

Lemma extends_row m m' l i r : append l = true -> extends m m' -> row m l i = Some r -> row m' l i = Some r.
Proof. intros Hl He. unfold row. destruct (He l Hl) as (t & ->). apply nth_prefix. Qed.
Lemma extends_under m m' l n x : append l = true -> extends m m' -> under m l n x -> under m' l n x.
Proof. intros Hl He. unfold under. destruct (He l Hl) as (t & ->). rewrite in_app_iff. tauto. Qed.
Lemma extends_length m m' l n : append l = true -> extends m m' -> n <= length (rows (m l)) -> n <= length (rows (m' l)).
Proof. intros Hl He. destruct (He l Hl) as (t & ->). rewrite app_length. lia. Qed.

(** What an answer says stays true while tables grow. *)
Lemma says_extends m m' a v : extends m m' -> says a v m -> says a v m'.
Proof.
  intros He. destruct a, v as [|b0|n0|o0|l0|l0|l0|k0 nm0 ow0|o0|]; cbn [says]; try exact (fun H => H);
    try (destruct o0 as [x0|]; [|exact (fun H => H)]);
    try (apply extends_under; [reflexivity|exact He]); try (apply extends_length; [reflexivity|exact He]).
  - destruct k; try (apply extends_under; [reflexivity|exact He]); intros (c' & Hc); exists c'; revert Hc; apply extends_under; try reflexivity; exact He.
  - destruct (row m (LItems c k) i) as [r|] eqn:E; [|discriminate].
    rewrite (extends_row m m' (LItems c k) i r eq_refl He E). exact (fun H => H).
  - intros (c' & Hc). exists c'. revert Hc. apply extends_under; [reflexivity|exact He].
  - destruct (row m (LBases c) i) as [r|] eqn:E; [|discriminate].
    rewrite (extends_row m m' (LBases c) i r eq_refl He E). exact (fun H => H).
  - destruct (row m (LDerived c) i) as [r|] eqn:E; [|discriminate].
    rewrite (extends_row m m' (LDerived c) i r eq_refl He E). exact (fun H => H).
  - intros [(b & Hb) (b' & d & Hd)]. split.
    + exists b. apply (extends_under m); [reflexivity|exact He|exact Hb].
    + exists b', d. apply (extends_under m); [reflexivity|exact He|exact Hd].
  - intros [-> H]. split; [reflexivity|].
    destruct (row m (LNames x) i) as [r|] eqn:E; [|contradiction]. rewrite (extends_row m m' (LNames x) i r eq_refl He E). discriminate.
  - destruct x0 as [y i]. intros [-> H]. split; [reflexivity|]. apply (extends_under m); [reflexivity|exact He|exact H].
  - destruct (row m (LNames x) i) as [r|] eqn:E; [|discriminate].
    rewrite (extends_row m m' (LNames x) i r eq_refl He E). exact (fun H => H).
  - intros H Hn. destruct (H Hn) as (i & Hi). exists i. apply (extends_under m); [reflexivity|exact He|exact Hi].
Qed.

(** ** Programs that keep to the locks *)

Definition hold := (lock * mode)%type.
Definition fact := (bool * loc * val)%type.

Fixpoint rem (x : hold) (l : list hold) : list hold :=
  match l with
  | [] => []
  | y :: r => if lock_beq (fst x) (fst y) && mode_beq (snd x) (snd y) then r else y :: rem x r
  end.

Lemma rem_head x l : rem x (x :: l) = l.
Proof. cbn. rewrite lock_beq_refl, mode_beq_refl. reflexivity. Qed.

Definition under_lock (H : list hold) (l : loc) : bool :=
  match guard l with Some g => existsb (fun h => lock_beq g (fst h)) H | None => false end.

(** A fact is exact while the lock is held; afterwards, the table may have grown. *)
Definition learn (H : list hold) (l : loc) (v : val) (K : list fact) : list fact :=
  if table l && under_lock H l then (true, l, v) :: K else K.
Definition fade (g : lock) (f : fact) : fact :=
  let '(e, l, v) := f in
  if e && (match guard l with Some g' => lock_beq g g' | None => false end)
  then (false, l, if append l then v else VUnit) else f.
Definition other (l : loc) (f : fact) : bool := let '(e, l', _) := f in negb (e && loc_beq l l').

Definition sat (m : loc -> val) (K : list fact) : Prop :=
  forall e l v, In (e, l, v) K -> if e then m l = v else exists t, rows (m l) = rows v ++ t.

Section Discipline.
  (** What is required of clients: no deferred definitions; no qualified names asked for; the items whose qualified names
      are known from the start; the lists of which references to values are looked at; those never changed. *)
  Variables (nodefer noqual : Prop) (warm : nat -> Prop) (governed frozen : lst -> Prop).

  Definition watched (l : loc) : Prop :=
    match l with LQual i => warm i \/ noqual | LDefer _ => nodefer | LVal x _ => governed x | _ => True end.
  Definition fixed (l : loc) : Prop :=
    match l with LInfo _ | LSelf _ | LQual _ | LDefer _ => True | LVal x _ => frozen x | _ => False end.
  Definition good (l : loc) (v : val) : Prop :=
    match l with LQual i => warm i -> path v <> [] | LDefer _ => nodefer -> opt v = None | _ => True end.

  Definition okR (H : list hold) (l : loc) : Prop :=
    watched l -> fixed l \/ exists g m, guard l = Some g /\ In (g, m) H.
  Definition okW (H : list hold) (l : loc) : Prop :=
    watched l -> ~ fixed l /\ exists g, guard l = Some g /\ In (g, Exclusive) H.
  Definition subok (q : sub) : Prop := match q with SQual _ => ~ noqual | SRun _ _ => ~ nodefer | _ => True end.

  (** Memories of the past, with the number of answers given by then. *)
  Definition past := (nat * (loc -> val))%type.

  (** What is known to be a lower bound of a table. *)
  Definition floor (B : list past) (K : list fact) (l : loc) (w : val) : Prop :=
    (exists b m, In (b, m) B /\ w = m l) \/ exists e, In (e, l, w) K.
  Definition agrees (B : list past) (K : list fact) (l : loc) (v : val) : Prop :=
    append l = true -> forall w, floor B K l w -> exists t, rows v = rows w ++ t.

  (** What the answer of a recursive function says, and denies. *)
  Definition sub_says (q : sub) (v : val) (m : loc -> val) : Prop :=
    match q, v with SMember k c n, VOpt (Some i) => exists c', under m (LItems c' k) n i | _, _ => True end.
  Definition sub_denies (B : list past) (K : list fact) (q : sub) (v : val) : Prop :=
    match q with
    | SMember k c n => exists o, v = VOpt o /\ (o = None -> forall w, floor B K (LItems c k) w -> assoc n (rows w) = None)
    | _ => True
    end.

  Definition mild (f : fact) : bool := let '(e, _, _) := f in negb e.
  Definition soft (K : list fact) : Prop := forall e l v, In (e, l, v) K -> e = false.

  Fixpoint wf (B : list past) (H : list hold) (K : list fact) (p : prog) : Prop :=
    match p with
    | Done => H = []
    | Crash => True
    | Lock g m p' => wf B ((g, m) :: H) K p'
    | Unlock g m p' => In (g, m) H /\ wf B (rem (g, m) H) (map (fade g) K) p'
    | Load l k => okR H l /\ forall v, good l v -> agrees B K l v -> wf B H (learn H l v K) (k v)
    | Store l v p' => okW H l /\ good l v /\ (table l = true -> exists old, In (true, l, old) K /\ grow l old v) /\
                      wf B H (if table l then (true, l, v) :: filter (other l) K else K) p'
    | Alloc l v p' => table l = false /\ good l v /\ wf B H K p'
    | Atomic a f k => forall v, wf B H K (k v)
    | New k => forall n, wf B H K (k n)
    | Sub q k => subok q /\
                 forall v K', soft K' -> incl (filter mild K) K' -> (forall m, sat m K' -> sub_says q v m) ->
                   sub_denies B (filter mild K) q v -> wf B H K' (k v)
    | Mark k => forall b m, wf ((b, m) :: B) H K (k b)
    | Note a b v p' => (forall m, sat m K -> says a v m) /\ (exists m, In (b, m) B /\ denies a v m) /\ shaped a v /\ wf B H K p'
    end.

  Lemma floor_mono B B' K K' l w : incl B B' -> incl K K' -> floor B K l w -> floor B' K' l w.
  Proof.
    intros HB HK [(b & m & Hi & ->)|(e & Hi)]; [left; exists b, m; split; [apply HB; exact Hi|reflexivity]|right; exists e; apply HK; exact Hi].
  Qed.
  Lemma agrees_mono B B' K K' l v : incl B B' -> incl K K' -> agrees B' K' l v -> agrees B K l v.
  Proof. intros HB HK A Hl w Hw. exact (A Hl w (floor_mono _ _ _ _ _ _ HB HK Hw)). Qed.
  Lemma sub_denies_mono B B' K K' q v : incl B B' -> incl K K' -> sub_denies B' K' q v -> sub_denies B K q v.
  Proof.
    intros HB HK. destruct q; try exact (fun x => x). intros (o & E & Ho). exists o. split; [exact E|].
    intros On w Hw. exact (Ho On w (floor_mono _ _ _ _ _ _ HB HK Hw)).
  Qed.
  Lemma mild_mono K K' : incl K K' -> incl (filter mild K) (filter mild K').
  Proof. intros Hi f Hf. apply filter_In in Hf. apply filter_In. split; [apply Hi|]; tauto. Qed.

  Lemma wf_mono p : forall B B' H K K', incl B B' -> incl K K' -> wf B H K p -> wf B' H K' p.
  Proof.
    induction p as [| |g m p IH|g m p IH|l k IH|l v p IH|l v p IH|a f k IH|k IH|q k IH|k IH|a b v p IH]; intros B B' H K K' HB Hi; cbn [wf].
    - exact (fun x => x).
    - exact (fun x => x).
    - apply IH; assumption.
    - intros [A C]. split; [exact A|]. refine (IH _ _ _ _ _ HB _ C). intros f Hf. apply in_map_iff in Hf.
      destruct Hf as (f0 & <- & Hf0). apply in_map. apply Hi. exact Hf0.
    - intros [A C]. split; [exact A|]. intros v Hv Ha. refine (IH v _ _ _ _ _ HB _ (C v Hv (agrees_mono _ _ _ _ _ _ HB Hi Ha))). unfold learn.
      destruct (table l && under_lock H l); [|exact Hi]. intros f [<-|Hf]; [left; reflexivity|right; apply Hi; exact Hf].
    - intros (A & C & D & E). split; [exact A|split; [exact C|split]].
      + intro T. destruct (D T) as (old & Ho & Hg). exists old. split; [apply Hi; exact Ho|exact Hg].
      + refine (IH _ _ _ _ _ HB _ E). destruct (table l); [|exact Hi]. intros f [<-|Hf]; [left; reflexivity|right].
        apply filter_In in Hf. apply filter_In. split; [apply Hi|]; tauto.
    - intros (A & C & D). split; [exact A|split; [exact C|]]. exact (IH _ _ _ _ _ HB Hi D).
    - intros A v. exact (IH v _ _ _ _ _ HB Hi (A v)).
    - intros A n. exact (IH n _ _ _ _ _ HB Hi (A n)).
    - intros [A C]. split; [exact A|]. intros v K2 S I2 Sy De. refine (IH v _ _ _ _ _ HB _ (C v K2 S _ Sy _)).
      + intros f Hf; exact Hf.
      + intros f Hf. apply I2. exact (mild_mono _ _ Hi f Hf).
      + exact (sub_denies_mono _ _ _ _ _ _ HB (mild_mono _ _ Hi) De).
    - intros A b m. refine (IH b _ _ _ _ _ _ Hi (A b m)). intros x [<-|Hx]; [left; reflexivity|right; apply HB; exact Hx].
    - intros (A & (m & Hm & Hd) & C & D). split; [|split; [exists m; split; [apply HB; exact Hm|exact Hd]|split; [exact C|exact (IH _ _ _ _ _ HB Hi D)]]].
      intros m0 Hs. apply A. intros e l0 v0 Hf. apply Hs. apply Hi. exact Hf.
  Qed.

  Lemma wf_more B H K K' p : incl K K' -> wf B H K p -> wf B H K' p.
  Proof. apply wf_mono. intros x Hx; exact Hx. Qed.

  (** Facts that do not fade. *)
  Lemma soft_fade g K : soft K -> map (fade g) K = K.
  Proof.
    induction K as [|[[e l] v] K IH]; intro S; [reflexivity|]. cbn [map]. rewrite IH.
    - assert (e = false) as -> by (apply (S e l v); left; reflexivity). reflexivity.
    - intros e' l' v' Hi. apply (S e' l' v'). right. exact Hi.
  Qed.
  Lemma soft_other l0 K : soft K -> filter (other l0) K = K.
  Proof.
    induction K as [|[[e l] v] K IH]; intro S; [reflexivity|]. cbn [filter].
    assert (e = false) as -> by (apply (S e l v); left; reflexivity). cbn [other andb negb]. rewrite IH; [reflexivity|].
    intros e' l' v' Hi. apply (S e' l' v'). right. exact Hi.
  Qed.
  Lemma soft_mild K : soft K -> filter mild K = K.
  Proof.
    induction K as [|[[e l] v] K IH]; intro S; [reflexivity|]. cbn [filter].
    assert (e = false) as -> by (apply (S e l v); left; reflexivity). cbn [mild negb]. rewrite IH; [reflexivity|].
    intros e' l' v' Hi. apply (S e' l' v'). right. exact Hi.
  Qed.
  Lemma soft_nil : soft [].
  Proof. intros e l v []. Qed.
  Lemma soft_cons l v K : soft K -> soft ((false, l, v) :: K).
  Proof. intros S e l0 v0 [[= <- _ _]|Hi]; [reflexivity|exact (S _ _ _ Hi)]. Qed.
  Lemma incl_cons_r (f : fact) K : incl K (f :: K).
  Proof. intros x Hx. right. exact Hx. Qed.

  (** A recursive function whose answer does not matter. *)
  Lemma sub_wf B H K q k : soft K -> subok q -> (forall v, wf B H K (k v)) -> wf B H K (Sub q k).
  Proof.
    intros S O Hk. cbn [wf]. split; [exact O|]. intros v K' _ Hi _ _. rewrite (soft_mild _ S) in Hi. exact (wf_more _ _ _ _ _ Hi (Hk v)).
  Qed.

  (** The pieces of the functions. *)
  Lemma check_wf B H K c p : soft K -> wf B H K p -> wf B H K (check c p).
  Proof.
    intros S Hp. unfold check. cbn [wf]. split; [intros _; left; exact I|]. intros v Hv _. unfold learn; cbn [table andb].
    destruct (opt v) as [d|] eqn:Ev; [|exact Hp]. cbn [wf]. intro old. destruct (flag old); [exact Hp|].
    cbn [wf]. split; [intros _; left; exact I|]. intros w Hw _. unfold learn; cbn [table andb].
    destruct (opt w) as [d'|] eqn:Ew; [|exact I].
    assert (N : ~ nodefer) by (intro N; cbn in Hv; specialize (Hv N); congruence).
    apply sub_wf; [exact S|exact N|]. intros _. cbn [wf].
    split; [intro W; contradiction (N W)|]. split; [intros _; reflexivity|].
    split; [discriminate|]. cbn [table]. intros _. exact Hp.
  Qed.

  Lemma check_item_wf B H K i p : soft K -> wf B H K p -> wf B H K (check_item i p).
  Proof.
    intros S Hp. unfold check_item. cbn [wf]. split; [intros _; left; exact I|]. intros v _ _. unfold learn; cbn [table andb].
    destruct v as [| | | | | | |k n o| |]; try exact Hp. destruct k; try exact Hp; apply check_wf; assumption.
  Qed.
  Lemma check_list_wf B H K x p : soft K -> wf B H K p -> wf B H K (check_list x p).
  Proof. intros S Hp. destruct x; cbn [check_list]; [apply check_item_wf; assumption|exact Hp]. Qed.

  Lemma okR_guarded H g m l : guard l = Some g -> okR ((g, m) :: H) l.
  Proof. intros E _. right. exists g, m. split; [exact E|left; reflexivity]. Qed.
  Lemma okW_guarded H g l : guard l = Some g -> (watched l -> ~ fixed l) -> okW ((g, Exclusive) :: H) l.
  Proof. intros E F W. split; [exact (F W)|]. exists g. split; [exact E|left; reflexivity]. Qed.
  Lemma learn_guarded H g m l v K : guard l = Some g -> table l = true -> learn ((g, m) :: H) l v K = (true, l, v) :: K.
  Proof. intros E T. unfold learn, under_lock. rewrite T, E. cbn. rewrite lock_beq_refl. reflexivity. Qed.
  Lemma fade_guarded g l v : guard l = Some g -> fade g (true, l, v) = (false, l, if append l then v else VUnit).
  Proof. intros E. unfold fade. rewrite E, lock_beq_refl. reflexivity. Qed.
  Lemma table_not_fixed l : table l = true -> ~ fixed l.
  Proof. destruct l; cbn; try discriminate; tauto. Qed.

  Lemma look_wf B H K g l k : soft K -> guard l = Some g -> table l = true ->
    (forall v, agrees B K l v -> wf B H ((false, l, if append l then v else VUnit) :: K) (k v)) -> wf B H K (look g l k).
  Proof.
    intros S E T Hk. unfold look. cbn [wf]. split; [apply okR_guarded; exact E|]. intros v _ Ha.
    rewrite (learn_guarded _ _ _ _ _ _ E T). split; [left; reflexivity|]. rewrite rem_head. cbn [map].
    rewrite (fade_guarded _ _ _ E), (soft_fade _ _ S). apply Hk. exact Ha.
  Qed.

  Lemma each_wf B H K g l body finish todo : soft K -> guard l = Some g ->
    (forall r more, wf B ((g, Shared) :: H) K more -> wf B ((g, Shared) :: H) K (body r more)) ->
    wf B H K finish -> wf B ((g, Shared) :: H) K (each g l todo body finish).
  Proof.
    intros S E Hb Hf. induction todo as [|r todo IH]; cbn [each wf].
    - split; [left; reflexivity|]. rewrite rem_head, (soft_fade _ _ S). exact Hf.
    - split; [apply okR_guarded; exact E|]. intros v _ _. apply (wf_more _ _ K).
      + unfold learn. destruct (_ && _); [apply incl_cons_r|intros x Hx; exact Hx].
      + apply Hb. exact IH.
  Qed.

  Lemma for_each_wf B H K g l body finish : soft K -> guard l = Some g ->
    (forall r more, wf B ((g, Shared) :: H) K more -> wf B ((g, Shared) :: H) K (body r more)) ->
    wf B H K finish -> wf B H K (for_each g l body finish).
  Proof.
    intros S E Hb Hf. unfold for_each. cbn [wf]. split; [apply okR_guarded; exact E|]. intros v _ _. apply (wf_more _ _ K).
    - unfold learn. destruct (_ && _); [apply incl_cons_r|intros x Hx; exact Hx].
    - apply each_wf; assumption.
  Qed.

  Lemma unlock_wf B H K g p : soft K -> wf B H K p -> wf B ((g, Shared) :: H) K (Unlock g Shared p).
  Proof. intros S Hp. cbn [wf]. split; [left; reflexivity|]. rewrite rem_head, (soft_fade _ _ S). exact Hp. Qed.

  (** A row added under the exclusive lock. *)
  Lemma add_wf B K H g l n x no yes : soft K -> guard l = Some g -> append l = true -> (forall y, l <> LNames y) ->
    (forall v y, assoc n (rows v) = Some y -> wf B H ((false, l, v) :: K) (no y)) ->
    (forall v, wf B H ((false, l, VMap (rows v ++ [(n, x)])) :: K) yes) ->
    wf B H K (Lock g Exclusive (Load l (fun v =>
       match assoc n (rows v) with
       | Some y => Unlock g Exclusive (no y)
       | None => Store l (VMap (rows v ++ [(n, x)])) (Unlock g Exclusive yes)
       end))).
  Proof.
    intros SK E A NN Hno Hyes. assert (T : table l = true) by (unfold append in A; apply andb_true_iff in A; tauto).
    cbn [wf]. split; [apply okR_guarded; exact E|]. intros v _ _.
    rewrite (learn_guarded _ _ _ _ _ _ E T). destruct (assoc n (rows v)) as [y|] eqn:Ea.
    - cbn [wf]. split; [left; reflexivity|]. rewrite rem_head. cbn [map]. rewrite (fade_guarded _ _ _ E), A, (soft_fade _ _ SK).
      apply (Hno v y Ea).
    - cbn [wf]. split; [apply okW_guarded; [exact E|intros _; apply table_not_fixed; exact T]|].
      split; [destruct l; try exact I; discriminate A|]. split.
      + intros _. exists v. split; [left; reflexivity|].
        destruct l; cbn in A |- *; try discriminate; try (exists n, x; split; [exact Ea|reflexivity]).
        exfalso. eapply NN. reflexivity.
      + rewrite T. split; [left; reflexivity|]. rewrite rem_head.
        cbn [filter other map]. rewrite loc_beq_refl. cbn [negb andb map].
        rewrite (fade_guarded _ _ _ E), A, (soft_other _ _ SK), (soft_fade _ _ SK). apply Hyes.
  Qed.

  Lemma sat_under l n x v m : append l = true -> assoc n (rows v) = Some x -> forall K, sat m ((false, l, v) :: K) -> under m l n x.
  Proof.
    intros A E K S. destruct (S false l v (or_introl eq_refl)) as (t & Ht). unfold under. rewrite Ht. apply in_or_app. left.
    apply assoc_some. exact E.
  Qed.
  Lemma sat_added l n x v m K : sat m ((false, l, VMap (rows v ++ [(n, x)])) :: K) -> under m l n x.
  Proof.
    intros S. destruct (S false l _ (or_introl eq_refl)) as (t & Ht). unfold under. rewrite Ht. cbn [rows].
    rewrite !in_app_iff. left; right; left; reflexivity.
  Qed.
  Lemma sat_length l v m K : sat m ((false, l, v) :: K) -> length (rows v) <= length (rows (m l)).
  Proof. intros S. destruct (S false l v (or_introl eq_refl)) as (t & Ht). rewrite Ht, app_length. lia. Qed.
  Lemma sat_row l v m K i r : sat m ((false, l, v) :: K) -> nth_error (rows v) i = Some r -> row m l i = Some r.
  Proof. intros S. destruct (S false l v (or_introl eq_refl)) as (t & Ht). unfold row. rewrite Ht. apply nth_prefix. Qed.

  (** What is not in a table was not there before. *)
  Lemma floor_past B K l b m : In (b, m) B -> floor B K l (m l).
  Proof. intro Hi. left. exists b, m. tauto. Qed.
  Lemma agrees_none B K l v n : append l = true -> agrees B K l v -> assoc n (rows v) = None ->
    forall w, floor B K l w -> assoc n (rows w) = None.
  Proof.
    intros A Ag E w Hw. destruct (Ag A w Hw) as (t & Ht). rewrite Ht in E. revert E. unfold assoc. rewrite find_app.
    destruct (find (fun r => fst r =? n) (rows w)); [discriminate|reflexivity].
  Qed.
  Lemma not_under l n m : assoc n (rows (m l)) = None -> forall x, ~ under m l n x.
  Proof. intros E x Hx. apply assoc_none in E. apply E. apply in_map_iff. exists (n, x). split; [reflexivity|exact Hx]. Qed.
  Lemma agrees_length B K l v b m : append l = true -> agrees B K l v -> In (b, m) B -> length (rows (m l)) <= length (rows v).
  Proof. intros A Ag Hi. destruct (Ag A _ (floor_past _ _ _ _ _ Hi)) as (t & ->). rewrite app_length. lia. Qed.
  Lemma agrees_row B K l v b m i : append l = true -> agrees B K l v -> In (b, m) B -> nth_error (rows v) i = None -> row m l i = None.
  Proof.
    intros A Ag Hi E. unfold row. apply nth_error_None. apply nth_error_None in E. pose proof (agrees_length _ _ _ _ _ _ A Ag Hi). lia.
  Qed.

  (** The answer [v] of a look-up of [n] in the table [l]; the second part: it is only denied what was not there. *)
  Definition found (B : list past) (K K' : list fact) (l : loc) (n : nat) (o : option nat) : Prop :=
    soft K' /\ incl K K' /\ (forall i m, o = Some i -> sat m K' -> under m l n i) /\
    (o = None -> n <> 0 -> forall w, floor B K l w -> assoc n (rows w) = None).

  Lemma looked B K l v n : append l = true -> soft K -> agrees B K l v -> found B K ((false, l, v) :: K) l n (assoc n (rows v)).
  Proof.
    intros A S Ag. split; [apply soft_cons; exact S|]. split; [apply incl_cons_r|]. split.
    - intros i m E Sm. exact (sat_under l n i v m A E _ Sm).
    - intros E _. exact (agrees_none _ _ _ _ _ A Ag E).
  Qed.

  Lemma item_wf B H K c k n q : soft K ->
    (forall o K', found B K K' (LItems c k) n o -> wf B H K' (q (VOpt o))) -> wf B H K (item c k n q).
  Proof.
    intros S Hq. apply check_wf; [exact S|]. destruct (n =? 0) eqn:En.
    - apply Hq. split; [exact S|]. split; [intros f Hf; exact Hf|]. split; [discriminate|]. intros _ N. apply Nat.eqb_eq in En. contradiction.
    - apply look_wf; [exact S|reflexivity|reflexivity|]. intros v Ag. apply Hq. apply (looked B K (LItems c k)); [reflexivity|exact S|exact Ag].
  Qed.
  Lemma find_method_wf B H K c k n q : soft K ->
    (forall o K', soft K' -> incl K K' -> (forall i m, o = Some i -> sat m K' -> under m (LItems c k) n i) ->
       (o = None -> forall w, floor B K (LItems c k) w -> assoc n (rows w) = None) -> wf B H K' (q (VOpt o))) ->
    wf B H K (find_method c k n q).
  Proof.
    intros S Hq. apply check_wf; [exact S|]. apply look_wf; [exact S|reflexivity|reflexivity|]. intros v Ag.
    destruct (looked B K (LItems c k) v n eq_refl S Ag) as (A1 & A2 & A3 & _). apply Hq; [exact A1|exact A2|exact A3|].
    intros E. exact (agrees_none _ _ (LItems c k) _ _ eq_refl Ag E).
  Qed.

  Lemma add_item_wf B H K c k n i q : soft K ->
    (forall v y, assoc n (rows v) = Some y -> wf B H ((false, LItems c k, v) :: K) (q false)) ->
    (forall v, wf B H ((false, LItems c k, VMap (rows v ++ [(n, i)])) :: K) (q true)) ->
    wf B H K (add_item c k n i q).
  Proof.
    intros S Hf Ht. unfold add_item. apply (add_wf B K H (KItems c k) (LItems c k) n i (fun _ => q false) (q true));
      [exact S|reflexivity|reflexivity|discriminate|exact Hf|exact Ht].
  Qed.

  (** A member may be found in a base. *)
  Definition there (c : nat) (k : category) (n i : nat) (m : loc -> val) : Prop :=
    match k with Method | Property => exists c', under m (LItems c' k) n i | _ => under m (LItems c k) n i end.
  Lemma there_own c k n i m : under m (LItems c k) n i -> there c k n i m.
  Proof. intro U. destruct k; try exact U; exists c; exact U. Qed.
  Definition got (B : list past) (K K' : list fact) (c : nat) (k : category) (n : nat) (o : option nat) : Prop :=
    soft K' /\ incl K K' /\ (forall i m, o = Some i -> sat m K' -> there c k n i m) /\
    (o = None -> n <> 0 -> forall w, floor B K (LItems c k) w -> assoc n (rows w) = None).
  Lemma found_got B K K' c k n o : found B K K' (LItems c k) n o -> got B K K' c k n o.
  Proof. intros (A1 & A2 & A3 & A4). split; [exact A1|split; [exact A2|split; [|exact A4]]]. intros i m E S. apply there_own. exact (A3 i m E S). Qed.

  Lemma search_wf B H K c k n q : soft K ->
    (forall o K', got B K K' c k n o -> wf B H K' (q (VOpt o))) -> wf B H K (search k c n q).
  Proof.
    intros S Hq.
    assert (Member : k = Method \/ k = Property -> wf B H K (Sub (SMember k c n) q)).
    { intro Hk. split; [exact I|]. rewrite (soft_mild _ S). intros v K' S' Hi Hs (o & -> & Ho). apply Hq.
      split; [exact S'|]. split; [exact Hi|]. split.
      - intros i m -> Sm. specialize (Hs m Sm). cbn [sub_says] in Hs. destruct Hk as [-> | ->]; exact Hs.
      - intros On _. exact (Ho On). }
    destruct k; cbn [search].
    - apply item_wf; [exact S|]. intros o K' F. apply Hq. apply found_got. exact F.
    - apply item_wf; [exact S|]. intros o K' F. apply Hq. apply found_got. exact F.
    - apply Member. right; reflexivity.
    - apply Member. left; reflexivity.
    - apply item_wf; [exact S|]. intros o K' F. apply Hq. apply found_got. exact F.
    - apply find_method_wf; [exact S|]. intros o K' A1 A2 A3 A4. apply Hq. split; [exact A1|]. split; [exact A2|]. split.
      + intros i m E Sm. exact (A3 i m E Sm).
      + intros On _. exact (A4 On).
  Qed.

  Lemma create_wf B H K c k n q : soft K ->
    (forall o K', soft K' -> incl K K' -> (forall i m, o = Some i -> sat m K' -> there c k n i m) -> (o = None -> n = 0) ->
                  wf B H K' (q (VOpt o))) ->
    wf B H K (create k c n q).
  Proof.
    intros S Hq. unfold create. destruct (_ && _) eqn:Ez.
    { apply Hq; [exact S|intros f Hf; exact Hf|discriminate|]. intros _. apply andb_true_iff in Ez. apply Nat.eqb_eq. tauto. }
    apply search_wf; [exact S|]. intros o K' (A1 & A2 & A3 & A4). cbn [opt]. destruct o as [i|].
    - apply Hq; [exact A1|exact A2|exact A3|discriminate].
    - cbn [wf]. intro i. split; [reflexivity|split; [exact I|]]. apply add_item_wf; [exact A1| |].
      + intros v y Ey. apply search_wf; [apply soft_cons; exact A1|]. intros o K2 (C1 & C2 & C3 & C4). apply Hq; [exact C1| |exact C3|].
        * intros f Hf. apply C2. right. apply A2. exact Hf.
        * intros On. destruct (Nat.eq_dec n 0) as [E|N]; [exact E|]. exfalso.
          rewrite (C4 On N v) in Ey; [discriminate|]. right. exists false. left. reflexivity.
      + intro w. apply Hq; [apply soft_cons; exact A1|intros f Hf; right; apply A2; exact Hf| |discriminate].
        intros j m [= <-] Sm. apply there_own. exact (sat_added _ _ _ _ _ _ Sm).
  Qed.

  Lemma create_class_wf B H K c n t q : ~ noqual -> soft K ->
    (forall o K', soft K' -> incl K K' -> (forall i m, o = Some i -> sat m K' -> under m (LItems c Class) n i) -> (o = None -> n = 0) ->
                  wf B H K' (q (VOpt o))) ->
    wf B H K (q VThrow) -> wf B H K (create_class c n t q).
  Proof.
    intros NQ S Hq Hth. unfold create_class. apply item_wf; [exact S|]. intros o K' (A1 & A2 & A3 & A4). cbn [opt].
    destruct o as [i|]; [apply Hq; [exact A1|exact A2|exact A3|discriminate]|].
    apply (wf_more _ _ K _ _ A2) in Hth.
    destruct (t =? 0); [exact Hth|]. cbn [wf]. intro m. destruct (opt m) as [j|].
    - cbn [wf]. intro m'. destruct (opt m'); [|exact I]. apply sub_wf; [exact A1|exact NQ|]. intros _. exact Hth.
    - cbn [wf]. intro i. split; [reflexivity|split; [exact I|]]. apply add_item_wf; [exact A1| |].
      + intros v y Ey. apply item_wf; [apply soft_cons; exact A1|]. intros o K2 (C1 & C2 & C3 & C4). apply Hq; [exact C1| |exact C3|].
        * intros f Hf. apply C2. right. apply A2. exact Hf.
        * intros On. destruct (Nat.eq_dec n 0) as [E|N]; [exact E|]. exfalso.
          rewrite (C4 On N v) in Ey; [discriminate|]. right. exists false. left. reflexivity.
      + intro w. cbn [wf]. intros _. apply Hq; [apply soft_cons; exact A1|intros f Hf; right; apply A2; exact Hf| |discriminate].
        intros j m' [= <-] Sm. exact (sat_added _ _ _ _ _ _ Sm).
  Qed.

  Lemma add_row_wf B K H g l n x p : soft K -> guard l = Some g -> append l = true -> (forall y, l <> LNames y) ->
    (forall v, (forall m, sat m ((false, l, v) :: K) -> exists y, under m l n y) -> wf B H ((false, l, v) :: K) p) ->
    wf B H K (add_row g l n x p).
  Proof.
    intros SK E A NN Hp. apply (add_wf B K H g l n x (fun _ => p) p); [exact SK|exact E|exact A|exact NN| |].
    - intros v y Ea. apply Hp. intros m S. exists y. exact (sat_under l n y v m A Ea _ S).
    - intros v. apply Hp. intros m S. exists x. exact (sat_added l n x v m _ S).
  Qed.

  Lemma decays_wf B H K a b no k : wf B H K no -> (forall e, wf B H K (k e)) -> wf B H K (decays a b no k).
  Proof.
    intros Hn Hk. unfold decays. destruct (_ || _); [exact Hn|]. cbn [wf]. split; [intros _; left; exact I|].
    intros x _ _. split; [intros _; left; exact I|]. intros y _ _. apply Hk.
  Qed.

  (** Calls allowed to clients. *)
  Definition allowed (within : list lst) (a : api) : Prop :=
    (defers a -> ~ nodefer) /\ (asks_name a -> ~ noqual) /\
    (forall x, sets x a -> governed x -> ~ frozen x) /\ (forall x, uses x a -> governed x -> frozen x \/ In x within).

  Definition inside (within : list lst) (H : list hold) : Prop := forall x, In x within -> exists m, In (KNames x, m) H.

  Lemma inside_cons w H h : inside w H -> inside w (h :: H).
  Proof. intros Hi x Hx. destruct (Hi x Hx) as (m & Hm). exists m. right. exact Hm. Qed.

  (** What is known when a function answers. *)
  Definition told (B : list past) (K K' : list fact) (a : api) (v : val) : Prop :=
    soft K' /\ incl K K' /\ (forall m, sat m K' -> says a v m) /\ (forall b m, In (b, m) B -> denies a v m) /\ shaped a v.

  Lemma told_same B K a v : soft K -> (forall m, says a v m) -> (forall m, denies a v m) -> shaped a v -> told B K K a v.
  Proof.
    intros S A C D. split; [exact S|]. split; [intros f Hf; exact Hf|]. split; [intros; apply A|]. split; [intros; apply C|exact D].
  Qed.
  Lemma told_more B K l w a v : soft K -> (forall m, sat m ((false, l, w) :: K) -> says a v m) ->
    (forall b m, In (b, m) B -> denies a v m) -> shaped a v -> told B K ((false, l, w) :: K) a v.
  Proof. intros S A C D. split; [apply soft_cons; exact S|]. split; [apply incl_cons_r|]. tauto. Qed.

  Ltac trivially := apply told_same; [assumption|intro; exact I|intro; exact I|exact I].

  (** Facts after the functions: enough for what the answers say. *)
  Lemma den_wf :
    (forall c w B H K q, soft K -> only allowed w c -> inside w H -> (forall b, wf B H K (q b)) -> wf B H K (den c q)) /\
    (forall a w B H K q, soft K -> only_api allowed w a -> inside w H ->
       (forall v K', told B K K' a v -> wf B H K' (q v)) -> wf B H K (den_api a q)).
  Proof.
    apply client_api_ind.
    - intros r w B H K q _ _ _ Hq. apply Hq.
    - intros a IHa k IHk w B H K q S [Ha Hk] Hi Hq. cbn [den wf]. intros b m. apply (IHa w _ H K _ S Ha Hi).
      intros v K' (A1 & A2 & A3 & A4 & A5). cbn [wf].
      split; [exact A3|]. split; [exists m; split; [left; reflexivity|]; apply (A4 b); left; reflexivity|]. split; [exact A5|].
      apply (IHk v w); [exact A1|apply Hk|exact Hi|]. intro r. apply (wf_mono _ B _ _ K); [intros x Hx; right; exact Hx|exact A2|apply Hq].
    - (* TypeByName *) intros n w B H K q S _ _ Hq. cbn [den_api]. destruct (n =? 0) eqn:En.
      { apply Hq. apply told_same; [exact S|intro; exact I| |exact I]. intros m N. apply Nat.eqb_eq in En. contradiction. }
      apply look_wf; [exact S|reflexivity|reflexivity|]. intros v Ag. apply Hq. apply told_more; [exact S| | |exact I].
      + intros m Sm. destruct (assoc n (rows v)) eqn:E; [|exact I]. exact (sat_under LTypes _ _ _ _ eq_refl E _ Sm).
      + intros b m Hb. cbn [denies]. destruct (assoc n (rows v)) eqn:E; [exact I|]. intros _. apply not_under.
        exact (agrees_none _ _ LTypes _ _ eq_refl Ag E _ (floor_past _ _ _ _ _ Hb)).
    - (* Register *) intros n d w B H K q S _ _ Hq. cbn [den_api]. unfold add_type. destruct (n =? 0) eqn:En.
      { apply Hq. apply told_same; [exact S|intro; exact I| |exact I]. intros m. apply Nat.eqb_eq. exact En. }
      cbn [wf]. split; [apply okR_guarded; reflexivity|]. intros v _ _. rewrite learn_guarded by reflexivity.
      destruct (assoc n (rows v)) as [y|] eqn:Ea.
      + cbn [wf]. split; [left; reflexivity|]. rewrite rem_head. cbn [map]. rewrite fade_guarded, (soft_fade _ _ S) by reflexivity.
        apply Hq. apply told_more; [exact S| |intros; exact I|exact I]. intros m Sm. exact (sat_under LTypes _ _ _ _ eq_refl Ea _ Sm).
      + cbn [wf]. intro t. split; [reflexivity|]. split; [exact I|]. split; [apply okW_guarded; [reflexivity|intros _ []]|].
        split; [exact I|]. split; [intros _; exists v; split; [left; reflexivity|exists n, t; split; [exact Ea|reflexivity]]|].
        cbn [table]. split; [left; reflexivity|]. rewrite rem_head. cbn [filter other map loc_beq negb andb].
        rewrite fade_guarded, (soft_other _ _ S), (soft_fade _ _ S) by reflexivity.
        apply Hq. apply told_more; [exact S| |intros; exact I|exact I]. intros m Sm. exact (sat_added LTypes _ _ _ _ _ Sm).
    - (* HasConv *) intros a b w B H K q S _ _ Hq. cbn [den_api]. apply decays_wf; [apply Hq; trivially|]. intro e.
      apply look_wf; [exact S|reflexivity|reflexivity|]. intros v _. apply Hq. apply told_more; [exact S|intros; exact I|intros; exact I|exact I].
    - (* Convert *) intros a b w B H K q S _ _ Hq. cbn [den_api]. apply decays_wf; [apply Hq; trivially|]. intro e.
      apply look_wf; [exact S|reflexivity|reflexivity|]. intros v _. apply Hq. apply told_more; [exact S|intros; exact I|intros; exact I|exact I].
    - (* RegConv *) intros a b f w B H K q S _ _ Hq. cbn [den_api]. apply decays_wf; [apply Hq; trivially|]. intro e.
      cbn [wf]. split; [apply okR_guarded; reflexivity|]. intros v _ _. rewrite learn_guarded by reflexivity.
      destruct (conv_of e (convs v)) as [y|] eqn:Ea.
      + cbn [wf]. split; [left; reflexivity|]. rewrite rem_head. cbn [map]. rewrite (soft_fade _ _ S). apply (wf_more _ _ K); [apply incl_cons_r|].
        apply Hq. trivially.
      + cbn [wf]. split; [apply okW_guarded; [reflexivity|intros _ []]|]. split; [exact I|].
        split; [intros _; exists v; split; [left; reflexivity|left; exists e, f; split; [exact Ea|reflexivity]]|].
        cbn [table]. split; [left; reflexivity|]. rewrite rem_head. cbn [filter other map loc_beq negb andb].
        rewrite (soft_other _ _ S), (soft_fade _ _ S). apply (wf_more _ _ K); [apply incl_cons_r|]. apply Hq. trivially.
    - (* UnregConv *) intros a b w B H K q S _ _ Hq. cbn [den_api]. apply decays_wf; [apply Hq; trivially|]. intro e.
      cbn [wf]. split; [apply okR_guarded; reflexivity|]. intros v _ _. rewrite learn_guarded by reflexivity.
      split; [apply okW_guarded; [reflexivity|intros _ []]|]. split; [exact I|].
      split; [intros _; exists v; split; [left; reflexivity|right; exists e; reflexivity]|].
      cbn [table]. split; [left; reflexivity|]. rewrite rem_head. cbn [filter other map loc_beq negb andb].
      rewrite (soft_other _ _ S), (soft_fade _ _ S). apply (wf_more _ _ K); [apply incl_cons_r|]. apply Hq. trivially.
    - (* FindClass *) intros t w B H K q S _ _ Hq. cbn [den_api]. destruct (t =? 0); [apply Hq; trivially|].
      cbn [wf]. intro v. apply Hq. trivially.
    - (* CreateClass *) intros c n t w B H K q S [(A & B0 & C & D) _] _ Hq. cbn [den_api].
      apply create_class_wf; [apply B0; exact I|exact S| |apply Hq; trivially].
      intros o K' A1 A2 A3 A4. apply Hq. split; [exact A1|]. split; [exact A2|]. split; [|split; [|exact I]].
      + intros m Sm. destruct o as [i|]; [|exact I]. exact (A3 i m eq_refl Sm).
      + intros b m _. destruct o as [i|]; [exact I|]. exact (A4 eq_refl).
    - (* Create *) intros k c n w B H K q S _ _ Hq. cbn [den_api]. apply create_wf; [exact S|].
      intros o K' A1 A2 A3 A4. apply Hq. split; [exact A1|]. split; [exact A2|]. split; [|split; [|exact I]].
      + intros m Sm. destruct o as [i|]; [|exact I]. exact (A3 i m eq_refl Sm).
      + intros b m _. destruct o as [i|]; [exact I|]. exact (A4 eq_refl).
    - (* Count *) intros c k w B H K q S _ _ Hq. cbn [den_api]. apply check_wf; [exact S|]. apply look_wf; [exact S|reflexivity|reflexivity|].
      intros v Ag. apply Hq. apply told_more; [exact S| | |exact I].
      + intros m Sm. exact (sat_length (LItems c k) _ _ _ Sm).
      + intros b m Hb. exact (agrees_length _ _ (LItems c k) _ _ _ eq_refl Ag Hb).
    - (* At *) intros c k i w B H K q S _ _ Hq. cbn [den_api]. apply check_wf; [exact S|]. apply look_wf; [exact S|reflexivity|reflexivity|].
      intros v Ag. apply Hq. apply told_more; [exact S| | |exact I].
      + intros m Sm. destruct (nth_error (rows v) i) as [r|] eqn:E; [|exact I]. cbn [option_map says].
        rewrite (sat_row (LItems c k) _ _ _ _ _ Sm E). reflexivity.
      + intros b m Hb. destruct (nth_error (rows v) i) as [r|] eqn:E; [exact I|]. exact (agrees_row _ _ (LItems c k) _ _ _ _ eq_refl Ag Hb E).
    - (* Get *) intros c k n w B H K q S _ _ Hq. cbn [den_api]. apply item_wf; [exact S|]. intros o K' (A1 & A2 & A3 & A4). apply Hq.
      split; [exact A1|]. split; [exact A2|]. split; [|split; [|exact I]].
      + intros m Sm. destruct o as [i|]; [|exact I]. exact (A3 i m eq_refl Sm).
      + intros b m Hb. destruct o as [i|]; [exact I|]. intro N. apply not_under. exact (A4 eq_refl N _ (floor_past _ _ _ _ _ Hb)).
    - (* GetMember *) intros k c n w B H K q S _ _ Hq. cbn [den_api]. destruct (n =? 0) eqn:En.
      { apply Hq. apply told_same; [exact S|intro; exact I| |exact I]. intros m N. apply Nat.eqb_eq in En. contradiction. }
      split; [exact I|]. rewrite (soft_mild _ S). intros v K' S' Hi Hs (o & -> & Ho). apply Hq.
      split; [exact S'|]. split; [exact Hi|]. split; [|split; [|exact I]].
      + intros m Sm. specialize (Hs m Sm). destruct o; exact Hs.
      + intros b m Hb. destruct o as [i|]; [exact I|]. intro N. apply not_under. exact (Ho eq_refl _ (floor_past _ _ _ _ _ Hb)).
    - (* GetConstructor *) intros c n w B H K q S _ _ Hq. cbn [den_api]. apply find_method_wf; [exact S|].
      intros o K' A1 A2 A3 A4. apply Hq. split; [exact A1|]. split; [exact A2|]. split; [|split; [|exact I]].
      + intros m Sm. destruct o as [i|]; [|exact I]. exact (A3 i m eq_refl Sm).
      + intros b m Hb. destruct o as [i|]; [exact I|]. cbn [denies]. apply not_under. exact (A4 eq_refl _ (floor_past _ _ _ _ _ Hb)).
    - (* EachClass *) intros c f IHf w B H K q S [_ Hf] Hi Hq. cbn [den_api]. apply check_wf; [exact S|].
      assert (Q : wf B H K (q VUnit)) by (apply Hq; trivially).
      apply for_each_wf; [exact S|reflexivity| |exact Q]. intros r more Hm.
      apply (IHf (snd r) w); [exact S|apply Hf|apply inside_cons; exact Hi|]. intros [|]; [exact Hm|apply unlock_wf; [exact S|exact Q]].
    - (* EachMethod *) intros c f IHf w B H K q S [_ Hf] Hi Hq. cbn [den_api]. apply check_wf; [exact S|].
      assert (Q : wf B H K (q VUnit)) by (apply Hq; trivially).
      apply for_each_wf; [exact S|reflexivity| |exact Q]. intros r more Hm.
      apply (IHf (snd r) w); [exact S|apply Hf|apply inside_cons; exact Hi|]. intros [|]; [exact Hm|apply unlock_wf; [exact S|exact Q]].
    - (* BaseCount *) intros c w B H K q S _ _ Hq. cbn [den_api]. apply check_wf; [exact S|]. apply look_wf; [exact S|reflexivity|reflexivity|].
      intros v Ag. apply Hq. apply told_more; [exact S| | |exact I].
      + intros m Sm. exact (sat_length (LBases c) _ _ _ Sm).
      + intros b m Hb. exact (agrees_length _ _ (LBases c) _ _ _ eq_refl Ag Hb).
    - (* BaseAt *) intros c i w B H K q S _ _ Hq. cbn [den_api]. apply check_wf; [exact S|]. apply look_wf; [exact S|reflexivity|reflexivity|].
      intros v Ag. destruct (nth_error (rows v) i) as [r|] eqn:E.
      + cbn [wf]. intros _. apply Hq. apply told_more; [exact S| |intros; exact I|exact I].
        intros m Sm. cbn [says]. rewrite (sat_row (LBases c) _ _ _ _ _ Sm E). reflexivity.
      + apply Hq. apply told_more; [exact S|intros; exact I| |exact I].
        intros b m Hb. exact (agrees_row _ _ (LBases c) _ _ _ _ eq_refl Ag Hb E).
    - (* DerivedCount *) intros c w B H K q S _ _ Hq. cbn [den_api]. apply check_wf; [exact S|]. apply look_wf; [exact S|reflexivity|reflexivity|].
      intros v Ag. apply Hq. apply told_more; [exact S| | |exact I].
      + intros m Sm. exact (sat_length (LDerived c) _ _ _ Sm).
      + intros b m Hb. exact (agrees_length _ _ (LDerived c) _ _ _ eq_refl Ag Hb).
    - (* DerivedAt *) intros c i w B H K q S _ _ Hq. cbn [den_api]. apply check_wf; [exact S|]. apply look_wf; [exact S|reflexivity|reflexivity|].
      intros v Ag. destruct (nth_error (rows v) i) as [r|] eqn:E.
      + apply Hq. apply told_more; [exact S| |intros; exact I|exact I].
        intros m Sm. cbn [says]. rewrite (sat_row (LDerived c) _ _ _ _ _ Sm E). reflexivity.
      + apply Hq. apply told_more; [exact S|intros; exact I| |exact I].
        intros b m Hb. exact (agrees_row _ _ (LDerived c) _ _ _ _ eq_refl Ag Hb E).
    - (* AddBase *) intros c t w B H K q S _ _ Hq. cbn [den_api]. unfold add_base. destruct (t =? 0); [apply Hq; trivially|].
      cbn [wf]. intro m. destruct (opt m) as [b|]; [|apply Hq; trivially].
      apply add_row_wf; [exact S|reflexivity|reflexivity|discriminate|]. intros v Hv.
      apply add_row_wf; [apply soft_cons; exact S|reflexivity|reflexivity|discriminate|]. intros u Hu.
      apply Hq. split; [apply soft_cons; apply soft_cons; exact S|]. split; [intros f Hf; right; right; exact Hf|].
      split; [|split; [intros; exact I|exact I]]. intros m' Sm. split.
      + apply Hv. intros e l y Hy. apply Sm. right. exact Hy.
      + exists b. exact (Hu m' Sm).
    - (* Inherited *) intros c b w B H K q S _ _ Hq. cbn [den_api]. apply sub_wf; [exact S|exact I|]. intro v. apply Hq. trivially.
    - (* Cast *) intros c b w B H K q S _ _ Hq. cbn [den_api]. apply sub_wf; [exact S|exact I|]. intro v. apply Hq. trivially.
    - (* Qualified *) intros i w B H K q S [(A & B0 & C & D) _] _ Hq. cbn [den_api]. apply sub_wf; [exact S|apply B0; exact I|]. intro v.
      apply Hq. trivially.
    - (* Size *) intros x w B H K q S _ _ Hq. cbn [den_api]. apply check_list_wf; [exact S|]. apply look_wf; [exact S|reflexivity|reflexivity|].
      intros v Ag. apply Hq. apply told_more; [exact S| | |exact I].
      + intros m Sm. exact (sat_length (LNames x) _ _ _ Sm).
      + intros b m Hb. exact (agrees_length _ _ (LNames x) _ _ _ eq_refl Ag Hb).
    - (* Value *) intros x i w B H K q S _ _ Hq. cbn [den_api]. apply check_list_wf; [exact S|]. apply look_wf; [exact S|reflexivity|reflexivity|].
      intros v Ag. apply Hq. apply told_more; [exact S| | |exact I].
      + intros m Sm. destruct (i <? length (rows v)) eqn:E; [|exact I]. split; [reflexivity|].
        apply Nat.ltb_lt in E. apply nth_error_Some. pose proof (sat_length (LNames x) _ _ _ Sm). lia.
      + intros b m Hb. destruct (i <? length (rows v)) eqn:E; [exact I|]. apply Nat.ltb_ge in E. apply nth_error_None.
        pose proof (agrees_length _ _ (LNames x) _ _ _ eq_refl Ag Hb). lia.
    - (* ValueByName *) intros x n w B H K q S _ _ Hq. cbn [den_api]. apply check_list_wf; [exact S|]. destruct (n =? 0) eqn:En.
      { apply Hq. apply told_same; [exact S|intro; exact I| |exact I]. intros m N. apply Nat.eqb_eq in En. contradiction. }
      apply look_wf; [exact S|reflexivity|reflexivity|]. intros v Ag. apply Hq. apply told_more; [exact S| | |exact I].
      + intros m Sm. destruct (assoc n (rows v)) eqn:E; [|exact I].
        split; [reflexivity|]. exact (sat_under (LNames x) _ _ _ _ eq_refl E _ Sm).
      + intros b m Hb. destruct (assoc n (rows v)) eqn:E; [exact I|]. intros _. apply not_under.
        exact (agrees_none _ _ (LNames x) _ _ eq_refl Ag E _ (floor_past _ _ _ _ _ Hb)).
    - (* Name *) intros x i w B H K q S _ _ Hq. cbn [den_api]. apply check_list_wf; [exact S|]. apply look_wf; [exact S|reflexivity|reflexivity|].
      intros v Ag. apply Hq. apply told_more; [exact S| | |exact I].
      + intros m Sm. destruct (nth_error (rows v) i) as [r|] eqn:E; [|exact I]. cbn [option_map says].
        rewrite (sat_row (LNames x) _ _ _ _ _ Sm E). reflexivity.
      + intros b m Hb. destruct (nth_error (rows v) i) as [r|] eqn:E; [exact I|]. exact (agrees_row _ _ (LNames x) _ _ _ _ eq_refl Ag Hb E).
    - (* EachValue *) intros x f IHf w B H K q S [_ Hf] Hi Hq. cbn [den_api]. apply check_list_wf; [exact S|].
      assert (Q : wf B H K (q VUnit)) by (apply Hq; trivially).
      apply for_each_wf; [exact S|reflexivity| |exact Q]. intros r more Hm.
      apply (IHf (fst r) (snd r) (x :: w)); [exact S|apply Hf| |].
      + intros y [<-|Hy]; [exists Shared; left; reflexivity|]. apply (inside_cons _ _ _ Hi). exact Hy.
      + intros [|]; [exact Hm|apply unlock_wf; [exact S|exact Q]].
    - (* SetValue *) intros x n v w B H K q S [(A & B0 & C & D) _] _ Hq. cbn [den_api]. unfold set_value.
      destruct (n =? 0) eqn:En.
      { apply Hq. apply told_same; [exact S| |intro; exact I|exact I]. intros m N. apply Nat.eqb_eq in En. contradiction. }
      cbn [wf]. split; [apply okR_guarded; reflexivity|]. intros u _ _. rewrite learn_guarded by reflexivity.
      destruct (assoc n (rows u)) as [i|] eqn:Ea.
      + cbn [wf]. split; [apply okW_guarded; [reflexivity|intro G; exact (C x eq_refl G)]|]. split; [exact I|].
        split; [discriminate|]. cbn [table]. split; [left; reflexivity|]. rewrite rem_head. cbn [map].
        rewrite fade_guarded, (soft_fade _ _ S) by reflexivity. apply Hq. apply told_more; [exact S| |intros; exact I|exact I].
        intros m Sm _. exists i. exact (sat_under (LNames x) _ _ _ _ eq_refl Ea _ Sm).
      + cbn [wf]. split; [reflexivity|]. split; [exact I|]. split; [apply okW_guarded; [reflexivity|intros _ []]|].
        split; [exact I|]. split; [intros _; exists u; split; [left; reflexivity|exists n; split; [exact Ea|reflexivity]]|].
        cbn [table]. split; [left; reflexivity|]. rewrite rem_head. cbn [filter other]. rewrite loc_beq_refl.
        cbn [negb andb map]. rewrite fade_guarded, (soft_other _ _ S), (soft_fade _ _ S) by reflexivity.
        apply Hq. apply told_more; [exact S| |intros; exact I|exact I]. intros m Sm _. eexists.
        exact (sat_added (LNames x) _ _ _ _ _ Sm).
    - (* Use *) intros r w B H K q S [(A & B0 & C & D) _] Hi Hq. cbn [den_api]. destruct r as [[x n]|]; [|apply Hq; trivially].
      cbn [wf]. split.
      + intro W. destruct (D x eq_refl W) as [F|In_]; [left; exact F|right]. destruct (Hi x In_) as (m & Hm).
        exists (KNames x), m. split; [reflexivity|exact Hm].
      + intros v _ _. unfold learn; cbn [table andb]. apply Hq. trivially.
    - (* Defer *) intros c d w B H K q S [(A & B0 & C & D) _] Hi Hq. cbn [den_api wf]. split; [intros _; left; exact I|].
      intros v _ _. unfold learn; cbn [table andb]. destruct (opt v).
      + apply sub_wf; [exact S|apply B0; exact I|]. intros _. apply Hq. trivially.
      + cbn [wf]. split; [intro W; exfalso; exact (A I W)|]. split; [intro N; exfalso; exact (A I N)|]. split; [discriminate|].
        cbn [table]. apply Hq. trivially.
    - (* Force *) intros c w B H K q S _ _ Hq. cbn [den_api]. apply sub_wf; [exact S|exact I|]. intro v. apply Hq. trivially.
  Qed.

  (** ** Executions *)
  Variable defs : nat -> nat -> client.
  Hypothesis Hdefs : forall d c, only allowed [] (defs d c).

  Lemma unfold_wf s B H K q : soft K -> subok s ->
    (forall v K', soft K' -> incl K K' -> (forall m, sat m K' -> sub_says s v m) -> sub_denies B K s v -> wf B H K' (q v)) ->
    wf B H K (unfold defs s q).
  Proof.
    intros S Hs Hq. destruct s as [i|d c|k c n|c b|c b|c]; cbn [unfold].
    - assert (Q : forall v, wf B H K (q v)) by (intro v; apply Hq; [exact S|intros f Hf; exact Hf|intros; exact I|exact I]).
      cbn [wf]. split; [intros _; left; exact I|]. intros v Hv _. unfold learn; cbn [table andb].
      assert (R : wf B H K (Load (LQual i) q)).
      { cbn [wf]. split; [intros _; left; exact I|]. intros w _ _. unfold learn; cbn [table andb]. apply Q. }
      assert (W : path v = [] -> okW H (LQual i)).
      { intros Ev [W|NQ]; exfalso; [exact (Hv W Ev)|exact (Hs NQ)]. }
      destruct (path v) as [|a r] eqn:Ev; [|exact R]. specialize (W eq_refl).
      cbn [wf]. split; [intros _; left; exact I|]. intros s _ _. unfold learn; cbn [table andb].
      assert (N : wf B H K (Store (LQual i) (VPath []) (Load (LQual i) q))).
      { split; [exact W|]. split; [intros Hw; exfalso; exact (Hv Hw Ev)|]. split; [discriminate|exact R]. }
      destruct s as [| | | | | | |k n o| |]; try exact N. destruct o as [o|]; [|exact N].
      apply sub_wf; [exact S|exact Hs|]. intro w. split; [exact W|]. split; [|split; [discriminate|exact R]].
      intros _. cbn [path]. destruct (path w); discriminate.
    - apply (proj1 den_wf (defs d c) []); [exact S|apply Hdefs|intros x []|]. intros _.
      apply Hq; [exact S|intros f Hf; exact Hf|intros; exact I|exact I].
    - apply find_method_wf; [exact S|]. intros o K' A1 A2 A3 A4. cbn [opt]. destruct o as [i|].
      + apply Hq; [exact A1|exact A2| |].
        * intros m Sm. exists c. exact (A3 i m eq_refl Sm).
        * exists (Some i). split; [reflexivity|discriminate].
      + specialize (A4 eq_refl).
        assert (None_ : wf B H K (q (VOpt None))).
        { apply Hq; [exact S|intros f Hf; exact Hf|intros; exact I|]. exists None. split; [reflexivity|]. intros _. exact A4. }
        apply (wf_more _ _ K _ _ A2).
        cbn [wf]. split; [intros _; left; exact I|]. intros s _ _. unfold learn; cbn [table andb].
        destruct s as [| | | | | | |k' n' o| |]; try exact None_. destruct k'; try exact None_.
        apply for_each_wf; [exact S|reflexivity| |exact None_]. intros r more Hm. unfold direct_base. cbn [wf]. intro v'.
        destruct (opt v') as [d|]; [|exact I]. split; [exact I|]. rewrite (soft_mild _ S).
        intros w K2 S2 I2 Hsay (o2 & -> & _). cbn [opt]. destruct o2 as [i|]; [|exact (wf_more _ _ _ _ _ I2 Hm)].
        apply unlock_wf; [exact S2|]. apply Hq; [exact S2|exact I2| |].
        * intros m Sm. exact (Hsay m Sm).
        * exists (Some i). split; [reflexivity|discriminate].
    - assert (Q : forall v, wf B H K (q v)) by (intro v; apply Hq; [exact S|intros f Hf; exact Hf|intros; exact I|exact I]).
      destruct (c =? b); [apply Q|]. apply check_wf; [exact S|]. apply for_each_wf; [exact S|reflexivity| |apply Q]. intros r more Hm.
      unfold direct_base. cbn [wf]. intro v'. destruct (opt v') as [d|]; [|exact I]. apply sub_wf; [exact S|exact I|]. intro w.
      destruct (flag w); [|exact Hm]. apply unlock_wf; [exact S|apply Q].
    - assert (Q : forall v, wf B H K (q v)) by (intro v; apply Hq; [exact S|intros f Hf; exact Hf|intros; exact I|exact I]).
      destruct (c =? b); [apply Q|]. apply check_wf; [exact S|]. apply for_each_wf; [exact S|reflexivity| |apply Q]. intros r more Hm.
      unfold direct_base. cbn [wf]. intro v'. destruct (opt v') as [d|]; [|exact I]. apply sub_wf; [exact S|exact I|]. intro w.
      destruct (flag w); [|exact Hm]. apply sub_wf; [exact S|exact I|]. intro u. apply unlock_wf; [exact S|apply Q].
    - apply check_wf; [exact S|]. apply for_each_wf; [exact S|reflexivity|intros r more Hm; apply sub_wf; [exact S|exact I|intros _; exact Hm]|].
      apply for_each_wf; [exact S|reflexivity|intros r more Hm; apply sub_wf; [exact S|exact I|intros _; exact Hm]|].
      apply Hq; [exact S|intros f Hf; exact Hf|intros; exact I|exact I].
  Qed.

  Definition holds (i : nat) (h : list (nat * hold)) : list hold := map snd (filter (fun e => fst e =? i) h).

  Lemma holds_in i h x : In x (holds i h) <-> In (i, x) h.
  Proof.
    unfold holds. rewrite in_map_iff. split.
    - intros ([j y] & <- & Hf). apply filter_In in Hf. cbn in Hf. destruct Hf as [Hi He]. apply Nat.eqb_eq in He. subst. exact Hi.
    - intro Hi. exists (i, x). split; [reflexivity|]. apply filter_In. split; [exact Hi|]. apply Nat.eqb_refl.
  Qed.

  Lemma holds_without i x h : holds i (without (i, x) h) = rem x (holds i h).
  Proof.
    induction h as [|[j y] h IH]; [reflexivity|]. cbn [without fst snd]. unfold holds in *. cbn [filter fst].
    rewrite (Nat.eqb_sym j i). destruct (i =? j) eqn:E; cbn [map rem snd andb].
    - destruct (lock_beq (fst x) (fst y) && mode_beq (snd x) (snd y)); [reflexivity|]. cbn [filter fst].
      rewrite (Nat.eqb_sym j i), E. cbn [map snd]. rewrite IH. reflexivity.
    - cbn [filter fst]. rewrite (Nat.eqb_sym j i), E. exact IH.
  Qed.
  Lemma holds_without_other i j x h : i <> j -> holds j (without (i, x) h) = holds j h.
  Proof.
    intro N. induction h as [|[k y] h IH]; [reflexivity|]. cbn [without fst snd]. unfold holds in *.
    destruct (i =? k) eqn:E; cbn [andb].
    - apply Nat.eqb_eq in E. subst k. destruct (_ && _); cbn [filter fst]; rewrite (proj2 (Nat.eqb_neq i j) N);
        [reflexivity|exact IH].
    - cbn [filter fst]. destruct (k =? j); cbn [map]; rewrite IH; reflexivity.
  Qed.
  Lemma without_incl x h : incl (without x h) h.
  Proof.
    induction h as [|y h IH]; cbn [without]; [intros z []|]. destruct (_ && _); [intros z Hz; right; exact Hz|].
    intros z [<-|Hz]; [left; reflexivity|right; apply IH; exact Hz].
  Qed.

  (** What a thread knows is the case, and its exact knowledge is protected. *)
  Definition knows (m : loc -> val) (h : list (nat * hold)) (i : nat) (K : list fact) : Prop :=
    forall e l v, In (e, l, v) K -> table l = true /\
      if e then m l = v /\ exists g md, guard l = Some g /\ In (i, (g, md)) h
      else (append l = false -> rows v = []) /\ exists t, rows (m l) = rows v ++ t.

  Lemma knows_sat m h i K : knows m h i K -> sat m K.
  Proof. intros Hk e l v Hi. destruct (Hk e l v Hi) as [_ B]. destruct e; tauto. Qed.

  (** A memory of the past: between the start and now, and with the first [b] answers already true. *)
  Variable m0 : loc -> val.
  Definition recall (s : state) (b : nat) (m : loc -> val) : Prop :=
    extends m0 m /\ extends m (mem s) /\ b <= length (log s) /\
    forall j a b' v, j < b -> nth_error (log s) j = Some (a, b', v) -> says a v m.
  Definition heard (s : state) (a : api) (b : nat) (v : val) : Prop :=
    says a v (mem s) /\ shaped a v /\ exists m, recall s b m /\ denies a v m.

  Lemma recall_later s s' b m : recall s b m -> extends (mem s) (mem s') -> (exists t, log s' = log s ++ t) -> recall s' b m.
  Proof.
    intros (A & C & D & F) E (t & Et). split; [exact A|]. split; [exact (extends_trans _ _ _ C E)|].
    split; [rewrite Et, app_length; lia|]. intros j a b' v Hj Hn. apply (F j a b' v Hj). rewrite Et in Hn.
    rewrite nth_error_app1 in Hn by lia. exact Hn.
  Qed.
  Lemma heard_later s s' a b v : heard s a b v -> extends (mem s) (mem s') -> (exists t, log s' = log s ++ t) -> heard s' a b v.
  Proof.
    intros (A & C & m & R & D) E Et. split; [exact (says_extends _ _ _ _ E A)|]. split; [exact C|]. exists m.
    split; [exact (recall_later _ _ _ _ R E Et)|exact D].
  Qed.

  Record inv (s : state) : Prop := Inv {
    inv_locks : forall i j g m m', In (i, (g, m)) (held s) -> In (j, (g, m')) (held s) -> i <> j -> m = Shared;
    inv_good : forall l, good l (mem s l);
    inv_threads : forall i p, nth_error (threads s) i = Some p ->
                    exists B K, (forall b m, In (b, m) B -> recall s b m) /\ knows (mem s) (held s) i K /\ wf B (holds i (held s)) K p;
    inv_log : forall a b v, In (a, b, v) (log s) -> heard s a b v;
    inv_start : extends m0 (mem s)
  }.

  Lemma inv_race s l : inv s -> race_at s l -> ~ watched l.
  Proof.
    intros [IL IG IT _ _] (i & j & p & q & w & N & Hp & Hq & Ap & Aq) W.
    destruct (IT i p Hp) as (B & K & _ & _ & Wp). destruct (IT j q Hq) as (B' & K' & _ & _ & Wq).
    destruct p; try discriminate Ap. cbn in Ap. injection Ap as ->. destruct Wp as (OW & _).
    destruct (OW W) as [NF (g & Eg & HX)]. apply holds_in in HX.
    assert (R : fixed l \/ exists g m, guard l = Some g /\ In (g, m) (holds j (held s))).
    { destruct q; try discriminate Aq; cbn in Aq; injection Aq as ->; destruct Wq as [O _].
      - exact (O W).
      - destruct (O W) as [_ (g' & Eg' & H')]. right. exists g', Exclusive. tauto. }
    destruct R as [F|(g' & m & Eg' & H')]; [contradiction|]. rewrite Eg in Eg'. injection Eg' as <-.
    apply holds_in in H'. discriminate (IL i j g Exclusive m HX H' N).
  Qed.

  Lemma put_nth {A} (l : list A) i x j y : nth_error (put l i x) j = Some y ->
    (j = i /\ y = x) \/ (j <> i /\ nth_error l j = Some y).
  Proof.
    revert i j. induction l as [|a l IH]; intros i j Hn; [destruct j; discriminate|].
    destruct i as [|i], j as [|j]; cbn in Hn.
    - injection Hn as <-. left. tauto.
    - right. split; [discriminate|exact Hn].
    - right. split; [discriminate|exact Hn].
    - destruct (IH i j Hn) as [[-> ->]|[N Hj]]; [left; tauto|right; split; [congruence|exact Hj]].
  Qed.

  (** One step of a thread keeps the rest true; tables change only by growing. *)
  Definition changed (m m' : loc -> val) : Prop := forall l, table l = true -> m' l = m l \/ grow l (m l) (m' l).

  Lemma step_inv s i p s' p' : inv s -> nth_error (threads s) i = Some p -> step defs s i p = (s', p') ->
    (changed (mem s) (mem s') /\ threads s' = threads s) /\
    inv (State (mem s') (atom s') (held s') (next s') (put (threads s') i p') (log s')).
  Proof.
    intros I Hp Hs. pose proof I as [IL IG IT IO IS]. destruct (IT i p Hp) as (B & K & HB & Hk & Hw).
    assert (C0 : changed (mem s) (mem s)) by (intros l _; left; reflexivity).
    (* the same memory and locks *)
    assert (Later : forall m a h n th b mm, extends (mem s) m -> recall s b mm -> recall (State m a h n th (log s)) b mm).
    { intros m a h n th b mm E R. apply (recall_later s); [exact R|exact E|]. exists []. symmetry. apply app_nil_r. }
    assert (LaterH : forall m a h n th x b v, extends (mem s) m -> heard s x b v -> heard (State m a h n th (log s)) x b v).
    { intros m a h n th x b v E R. apply (heard_later s); [exact R|exact E|]. exists []. symmetry. apply app_nil_r. }
    assert (Same : forall a n B' (K' : list fact) p1, (forall b m, In (b, m) B' -> recall s b m) ->
              knows (mem s) (held s) i K' -> wf B' (holds i (held s)) K' p1 ->
              inv (State (mem s) a (held s) n (put (threads s) i p1) (log s))).
    { intros a n B' K' p1 HL HK HW. constructor; cbn [mem atom held next threads log]; [exact IL|exact IG| | |exact IS].
      - intros j q Hq. apply put_nth in Hq. destruct Hq as [[-> ->]|[N Hq]].
        + exists B', K'. split; [|tauto]. intros b m Hb. apply Later; [apply extends_refl|exact (HL b m Hb)].
        + destruct (IT j q Hq) as (B1 & K1 & X1 & X2 & X3). exists B1, K1. split; [|tauto]. intros b m Hb.
          apply Later; [apply extends_refl|exact (X1 b m Hb)].
      - intros x b v Hx. apply LaterH; [apply extends_refl|exact (IO x b v Hx)]. }
    destruct p as [| |g m q|g m q|l k|l v q|l v q|a f k|k|sb k|k|a b v q]; cbn [step] in Hs.
    - injection Hs as <- <-. split; [tauto|]. apply (Same _ _ B K); assumption.
    - injection Hs as <- <-. split; [tauto|]. apply (Same _ _ B K); assumption.
    - destruct (free s g m) eqn:F; injection Hs as <- <-; cbn; (split; [tauto|]); [|apply (Same _ _ B K); assumption].
      unfold free in F. rewrite forallb_forall in F.
      assert (FX : forall j md, In (j, (g, md)) (held s) -> m = Shared /\ md = Shared).
      { intros j md Hj. specialize (F _ Hj). cbn in F. rewrite lock_beq_refl in F. cbn in F.
        destruct m, md; try discriminate F. tauto. }
      constructor; cbn [mem atom held next threads log]; [|exact IG| | |exact IS].
      + intros i1 i2 g0 m1 m2 [E1|H1] [E2|H2] N.
        * congruence.
        * injection E1 as <- <- <-. exact (proj1 (FX _ _ H2)).
        * injection E2 as <- <- <-. exact (proj2 (FX _ _ H1)).
        * exact (IL i1 i2 g0 m1 m2 H1 H2 N).
      + intros j q' Hq. apply put_nth in Hq. destruct Hq as [[-> ->]|[N Hq]].
        * exists B, K. split; [intros b mm Hb; apply Later; [apply extends_refl|exact (HB b mm Hb)]|]. split.
          -- intros e l v Hi. destruct (Hk e l v Hi) as [T X]. split; [exact T|]. destruct e; [|exact X].
             destruct X as [X (g' & md & Eg & Hh)]. split; [exact X|]. exists g', md. split; [exact Eg|right; exact Hh].
          -- unfold holds. cbn [filter fst]. rewrite Nat.eqb_refl. exact Hw.
        * destruct (IT j q' Hq) as (B' & K' & HB' & HK' & HW'). exists B', K'.
          split; [intros b mm Hb; apply Later; [apply extends_refl|exact (HB' b mm Hb)]|]. split.
          -- intros e l v Hi. destruct (HK' e l v Hi) as [T X]. split; [exact T|]. destruct e; [|exact X].
             destruct X as [X (g' & md & Eg & Hh)]. split; [exact X|]. exists g', md. split; [exact Eg|right; exact Hh].
          -- unfold holds in *. cbn [filter fst]. destruct (i =? j) eqn:E; [apply Nat.eqb_eq in E; congruence|]. exact HW'.
      + intros x b v Hx. apply LaterH; [apply extends_refl|exact (IO x b v Hx)].
    - injection Hs as <- <-. cbn. split; [tauto|]. destruct Hw as [Hin Hw].
      constructor; cbn [mem atom held next threads log]; [|exact IG| | |exact IS].
      + intros i1 i2 g0 m1 m2 H1 H2. apply without_incl in H1, H2. exact (IL i1 i2 g0 m1 m2 H1 H2).
      + intros j q' Hq. apply put_nth in Hq. destruct Hq as [[-> ->]|[N Hq]].
        * exists B, (map (fade g) K). rewrite holds_without.
          split; [intros b mm Hb; apply Later; [apply extends_refl|exact (HB b mm Hb)]|]. split; [|exact Hw].
          intros e l v Hi. apply in_map_iff in Hi. destruct Hi as ([[e0 l0] v0] & Ef & Hi).
          destruct (Hk e0 l0 v0 Hi) as [T X]. unfold fade in Ef. destruct e0; cbn [andb] in Ef.
          -- destruct X as [X (g' & md & Eg & Hh)]. rewrite Eg in Ef. destruct (lock_beq g g') eqn:E.
             ++ injection Ef as <- <- <-. split; [exact T|]. destruct (append l0); cbn [rows].
                ** split; [discriminate|]. exists []. rewrite X, app_nil_r. reflexivity.
                ** split; [reflexivity|]. exists (rows (mem s l0)). reflexivity.
             ++ injection Ef as <- <- <-. split; [exact T|]. split; [exact X|]. exists g', md. split; [exact Eg|].
                apply holds_in. rewrite holds_without. apply holds_in in Hh.
                clear - Hh E. induction (holds i (held s)) as [|h L IH]; [exact Hh|]. cbn [rem fst snd].
                destruct Hh as [->|Hh].
                ** cbn [fst]. rewrite E. cbn [andb]. left. reflexivity.
                ** destruct (_ && _); [exact Hh|right; apply IH; exact Hh].
          -- injection Ef as <- <- <-. split; [exact T|exact X].
        * destruct (IT j q' Hq) as (B' & K' & HB' & HK' & HW'). exists B', K'. rewrite (holds_without_other _ _ _ _ (not_eq_sym N)).
          split; [intros b mm Hb; apply Later; [apply extends_refl|exact (HB' b mm Hb)]|].
          split; [|exact HW']. intros e l v Hi. destruct (HK' e l v Hi) as [T X]. split; [exact T|]. destruct e; [|exact X].
          destruct X as [X (g' & md & Eg & Hh)]. split; [exact X|]. exists g', md. split; [exact Eg|].
          apply holds_in. rewrite (holds_without_other _ _ _ _ (not_eq_sym N)). apply holds_in. exact Hh.
      + intros x b v Hx. apply LaterH; [apply extends_refl|exact (IO x b v Hx)].
    - injection Hs as <- <-. split; [tauto|]. destruct Hw as [Hr Hw]. apply (Same _ _ B (learn (holds i (held s)) l (mem s l) K));
        [exact HB| |apply Hw; [apply IG|]].
      + unfold learn. destruct (table l && under_lock (holds i (held s)) l) eqn:E; [|exact Hk].
        apply andb_true_iff in E. destruct E as [T U]. intros e l0 v0 [[= <- <- <-]|Hi]; [|exact (Hk e l0 v0 Hi)].
        split; [exact T|]. split; [reflexivity|]. unfold under_lock in U. destruct (guard l) as [g|] eqn:Eg; [|discriminate].
        apply existsb_exists in U. destruct U as ([g' md] & Hh & Eq). cbn in Eq. apply lock_beq_eq in Eq. subst g'.
        exists g, md. split; [reflexivity|]. apply holds_in. exact Hh.
      + intros Hl w [(b & mm & Hi & ->)|(e & Hi)].
        * destruct (HB b mm Hi) as (_ & E & _). exact (E l Hl).
        * destruct (Hk e l w Hi) as [_ X]. destruct e; [|exact (proj2 X)]. destruct X as [-> _]. exists []. symmetry. apply app_nil_r.
    - injection Hs as <- <-. cbn. destruct Hw as (OW & Gd & Gr & Hw).
      assert (Wt : table l = true -> watched l) by (clear; destruct l; cbn; try discriminate; tauto).
      assert (CH : changed (mem s) (fun x => if loc_beq x l then v else mem s x)).
      { intros l0 T. destruct (loc_beq l0 l) eqn:E; [|left; reflexivity]. apply loc_beq_eq in E. subst l0. right.
        destruct (Gr T) as (old & Ho & Hg). destruct (Hk _ _ _ Ho) as [_ [-> _]]. exact Hg. }
      split; [split; [exact CH|reflexivity]|].
      pose proof (extends_step _ _ CH) as EX.
      assert (PF : forall l0 v0, (append l0 = false -> rows v0 = []) /\ (exists t, rows (mem s l0) = rows v0 ++ t) ->
                (append l0 = false -> rows v0 = []) /\ exists t, rows (if loc_beq l0 l then v else mem s l0) = rows v0 ++ t).
      { intros l0 v0 [A (t & Ht)]. split; [exact A|]. destruct (append l0) eqn:Ea.
        - destruct (EX l0 Ea) as (u & Hu). cbn beta in Hu. rewrite Hu, Ht. exists (t ++ u). rewrite app_assoc. reflexivity.
        - rewrite (A eq_refl). eexists. reflexivity. }
      constructor; cbn [mem atom held next threads log]; [exact IL| | | |].
      + intro l0. destruct (loc_beq l0 l) eqn:E; [apply loc_beq_eq in E; subst l0; exact Gd|apply IG].
      + intros j q' Hq. apply put_nth in Hq. destruct Hq as [[-> ->]|[N Hq]].
        * exists B, (if table l then (true, l, v) :: filter (other l) K else K).
          split; [intros b mm Hb; apply Later; [exact EX|exact (HB b mm Hb)]|]. split; [|exact Hw].
          assert (KK : forall e l0 v0, In (e, l0, v0) K -> other l (e, l0, v0) = true \/ table l = false ->
             table l0 = true /\ if e then (if loc_beq l0 l then v else mem s l0) = v0 /\ exists g md, guard l0 = Some g /\ In (i, (g, md)) (held s)
             else (append l0 = false -> rows v0 = []) /\ exists t, rows (if loc_beq l0 l then v else mem s l0) = rows v0 ++ t).
          { intros e l0 v0 Hi Ho. destruct (Hk e l0 v0 Hi) as [T X]. split; [exact T|]. destruct e; [|exact (PF l0 v0 X)].
            assert (E : loc_beq l0 l = false).
            { destruct (loc_beq l0 l) eqn:E; [|reflexivity]. apply loc_beq_eq in E. subst l0. destruct Ho as [Ho|Ho].
              - cbn in Ho. rewrite loc_beq_refl in Ho. discriminate.
              - congruence. }
            rewrite E. exact X. }
          destruct (table l) eqn:T.
          -- intros e l0 v0 [[= <- <- <-]|Hi].
             ++ split; [exact T|]. rewrite loc_beq_refl. split; [reflexivity|]. destruct (OW (Wt eq_refl)) as [_ (g & Eg & HX)].
                exists g, Exclusive. split; [exact Eg|]. apply holds_in. exact HX.
             ++ apply filter_In in Hi. apply KK; [exact (proj1 Hi)|left; exact (proj2 Hi)].
          -- intros e l0 v0 Hi. apply KK; [exact Hi|right; reflexivity].
        * destruct (IT j q' Hq) as (B' & K' & HB' & HK' & HW'). exists B', K'.
          split; [intros b mm Hb; apply Later; [exact EX|exact (HB' b mm Hb)]|]. split; [|exact HW'].
          intros e l0 v0 Hi. destruct (HK' e l0 v0 Hi) as [T X]. split; [exact T|]. destruct e; [|exact (PF l0 v0 X)].
          destruct X as [X (g & md & Eg & Hh)]. split; [|exists g, md; tauto].
          destruct (loc_beq l0 l) eqn:E; [|exact X]. apply loc_beq_eq in E. subst l0. exfalso.
          destruct (OW (Wt T)) as [_ (g' & Eg' & HX)]. rewrite Eg in Eg'. injection Eg' as <-. apply holds_in in HX.
          discriminate (IL i j g Exclusive md HX Hh (not_eq_sym N)).
      + intros a0 b0 v0 Ha. apply LaterH; [exact EX|exact (IO a0 b0 v0 Ha)].
      + exact (extends_trans _ _ _ IS EX).
    - injection Hs as <- <-. cbn. destruct Hw as (T & Gd & Hw).
      assert (EQ : forall l0, table l0 = true -> (if loc_beq l0 l then v else mem s l0) = mem s l0).
      { intros l0 T0. destruct (loc_beq l0 l) eqn:E; [|reflexivity]. apply loc_beq_eq in E. congruence. }
      assert (CH : changed (mem s) (fun x => if loc_beq x l then v else mem s x)) by (intros l0 T0; left; apply EQ; exact T0).
      split; [split; [exact CH|reflexivity]|]. pose proof (extends_step _ _ CH) as EX.
      assert (KQ : forall j K', knows (mem s) (held s) j K' -> knows (fun x => if loc_beq x l then v else mem s x) (held s) j K').
      { intros j K' HK' e l0 v0 Hi. destruct (HK' e l0 v0 Hi) as [T0 X]. split; [exact T0|]. rewrite (EQ l0 T0). exact X. }
      constructor; cbn [mem atom held next threads log]; [exact IL| | | |].
      + intro l0. destruct (loc_beq l0 l) eqn:E; [apply loc_beq_eq in E; subst l0; exact Gd|apply IG].
      + intros j q' Hq. apply put_nth in Hq. destruct Hq as [[-> ->]|[N Hq]].
        * exists B, K. split; [intros b mm Hb; apply Later; [exact EX|exact (HB b mm Hb)]|]. split; [apply KQ; exact Hk|exact Hw].
        * destruct (IT j q' Hq) as (B' & K' & HB' & HK' & HW'). exists B', K'.
          split; [intros b mm Hb; apply Later; [exact EX|exact (HB' b mm Hb)]|]. split; [apply KQ; exact HK'|exact HW'].
      + intros a0 b0 v0 Ha. apply LaterH; [exact EX|exact (IO a0 b0 v0 Ha)].
      + exact (extends_trans _ _ _ IS EX).
    - injection Hs as <- <-. cbn. split; [tauto|]. apply (Same _ _ B K); [exact HB|exact Hk|apply Hw].
    - injection Hs as <- <-. cbn. split; [tauto|]. apply (Same _ _ B K); [exact HB|exact Hk|apply Hw].
    - injection Hs as <- <-. split; [tauto|]. destruct Hw as [Hb Hw]. apply (Same _ _ B (filter mild K)); [exact HB| |].
      + intros e l v Hi. apply filter_In in Hi. exact (Hk e l v (proj1 Hi)).
      + apply unfold_wf; [|exact Hb|exact Hw]. intros e l v Hi. apply filter_In in Hi. destruct Hi as [_ Hi]. cbn in Hi. destruct e; [discriminate|reflexivity].
    - injection Hs as <- <-. split; [tauto|]. apply (Same _ _ ((length (log s), mem s) :: B) K); [|exact Hk|apply Hw].
      intros b m [[= <- <-]|Hi]; [|exact (HB b m Hi)]. split; [exact IS|]. split; [apply extends_refl|]. split; [lia|].
      intros j a b' v _ Hn. exact (proj1 (IO a b' v (nth_error_In _ _ Hn))).
    - injection Hs as <- <-. cbn. split; [tauto|]. destruct Hw as (Hsay & (m & Hm & Hd) & Sh & Hw).
      assert (Grow : forall b' mm, recall s b' mm -> recall (State (mem s) (atom s) (held s) (next s) (put (threads s) i q) (log s ++ [(a, b, v)])) b' mm).
      { intros b' mm R. apply (recall_later s); [exact R|apply extends_refl|eexists; reflexivity]. }
      constructor; cbn [mem atom held next threads log]; [exact IL|exact IG| | |exact IS].
      + intros j q' Hq. apply put_nth in Hq. destruct Hq as [[-> ->]|[N Hq]].
        * exists B, K. split; [intros b' mm Hb; apply Grow; exact (HB b' mm Hb)|]. split; [exact Hk|exact Hw].
        * destruct (IT j q' Hq) as (B' & K' & HB' & HK' & HW'). exists B', K'.
          split; [intros b' mm Hb; apply Grow; exact (HB' b' mm Hb)|]. split; [exact HK'|exact HW'].
      + intros a0 b0 v0 Ha. apply in_app_iff in Ha. destruct Ha as [Ha|[[= <- <- <-]|[]]].
        * apply (heard_later s); [exact (IO a0 b0 v0 Ha)|apply extends_refl|eexists; reflexivity].
        * split; [apply Hsay; exact (knows_sat _ _ _ _ Hk)|]. split; [exact Sh|]. exists m. split; [apply Grow; exact (HB b m Hm)|exact Hd].
  Qed.

  Lemma turn_inv s i : inv s -> changed (mem s) (mem (turn defs s i)) /\ inv (turn defs s i).
  Proof.
    intro I. unfold turn. destruct (nth_error (threads s) i) as [p|] eqn:E.
    - destruct (step defs s i p) as [s' p'] eqn:Es. destruct (step_inv s i p s' p' I E Es) as [[C _] I']. split; [exact C|exact I'].
    - split; [intros l _; left; reflexivity|exact I].
  Qed.

  Lemma exec_inv sched : forall s, inv s ->
    inv (exec defs s sched) /\ extends (mem s) (mem (exec defs s sched)) /\
    (proper (mem s) -> proper (mem (exec defs s sched))).
  Proof.
    induction sched as [|i sched IH]; intros s I.
    - split; [exact I|]. split; [apply extends_refl|exact (fun P => P)].
    - destruct (turn_inv s i I) as [C I']. destruct (IH _ I') as (A & B & P). split; [exact A|]. split.
      + exact (extends_trans _ _ _ (extends_step _ _ C) B).
      + intro Hp. apply P. exact (proper_step _ _ C Hp).
  Qed.

  Lemma start_inv a n clients : (forall l, good l (m0 l)) -> (forall c, In c clients -> only allowed [] c) ->
    inv (start m0 a n clients).
  Proof.
    intros G HC. unfold start. constructor; cbn [mem atom held next threads log]; [intros i j g x y []|exact G| |intros x b v []|apply extends_refl].
    intros i p Hp. rewrite nth_error_map in Hp. destruct (nth_error clients i) as [c|] eqn:E; [|discriminate].
    cbn in Hp. injection Hp as <-. exists [], []. split; [intros b m []|]. split; [intros e l v []|].
    apply (proj1 den_wf c []); [apply soft_nil|apply HC; exact (nth_error_In _ _ E)|intros x []|]. intros _. reflexivity.
  Qed.
End Discipline.
