(** Lemmas for C48. *)
From Coq Require Import List Bool Arith Lia.
From Verif Require Import Util DeferModel DeferProofs HierModel HierSpec.
Import ListNotations.

Ltac parts := repeat match goal with |- _ /\ _ => split end.

(** ** Growing lists *)
Lemma grows_refl g : grows g g.
Proof. intro x. exists []. symmetry. apply app_nil_r. Qed.

Lemma grows_trans g g' g'' : grows g g' -> grows g' g'' -> grows g g''.
Proof. intros H H' x. destruct (H x) as [l E], (H' x) as [l' E']. exists (l ++ l'). rewrite E', E, app_assoc. reflexivity. Qed.

Lemma grows_in g g' x y : grows g g' -> In y (g x) -> In y (g' x).
Proof. intros H I. destruct (H x) as [l ->]. apply in_or_app. auto. Qed.

Lemma grows_nth g g' x i y : grows g g' -> nth_error (g x) i = Some y -> nth_error (g' x) i = Some y.
Proof. intros H I. destruct (H x) as [l ->]. apply nth_prefix. exact I. Qed.

Lemma grows_length g g' x : grows g g' -> length (g x) <= length (g' x).
Proof. intro H. destruct (H x) as [l ->]. rewrite app_length. lia. Qed.

Lemma grows_reach g g' a b : grows g g' -> reach g a b -> reach g' a b.
Proof. intros H R. induction R as [a|a d b I R IH]; [constructor|]. econstructor; [eapply grows_in; eauto|exact IH]. Qed.

Lemma grows_guided g0 g g' l : forall a b, grows g g' -> guided g0 g a l b -> guided g0 g' a l b.
Proof.
  induction l as [|x [|y l] IH]; intros a b H C; [exact C|exact C|].
  destruct C as (E & N & (i & I & B) & C). cbn. parts; [exact E|exact N| |apply (IH y b H C)].
  exists i. split; [eapply grows_nth; eauto|exact B].
Qed.

(** A chain under construction: from [a] to [x], towards [b]. *)
Fixpoint partway (g0 g : nat -> list nat) (a : nat) (l : list nat) (x b : nat) : Prop :=
  match l with
  | [] => False
  | [z] => z = a /\ z = x
  | z :: ((y :: _) as r) =>
      z = a /\ z <> b /\
      (exists i, nth_error (g z) i = Some y /\ forall j d, j < i -> nth_error (g0 z) j = Some d -> ~ reach g0 d b) /\
      partway g0 g y r x b
  end.

Lemma partway_guided g0 g l : forall a b, partway g0 g a l b b -> guided g0 g a l b.
Proof. induction l as [|z [|w l] IH]; intros a b C; [exact C|exact C|]. destruct C as (E & N & I & C). cbn. parts; [exact E|exact N|exact I|apply (IH w b C)]. Qed.

Lemma partway_snoc g0 g b l : forall a x y i, partway g0 g a l x b -> x <> b -> nth_error (g x) i = Some y ->
  (forall j d, j < i -> nth_error (g0 x) j = Some d -> ~ reach g0 d b) -> partway g0 g a (l ++ [y]) y b.
Proof.
  induction l as [|z [|w l] IH]; intros a x y i C N I B; [destruct C| |].
  - destruct C as [-> ->]. cbn. parts; eauto.
  - destruct C as (E & N' & I' & C). cbn [app]. cbn. parts; [exact E|exact N'|exact I'|apply (IH w x y i C N I B)].
Qed.

Lemma guided_reach g0 g l : forall a b, guided g0 g a l b -> reach g a b.
Proof.
  induction l as [|z [|w l] IH]; intros a b C; [destruct C| |].
  - destruct C as [-> ->]. constructor.
  - destruct C as (-> & _ & (i & I' & _) & C). econstructor; [eapply nth_error_In; exact I'|]. apply IH. exact C.
Qed.

Lemma add_in x y l : In y (add x l) <-> y = x \/ In y l.
Proof.
  unfold add. destruct (in_dec Nat.eq_dec x l) as [I|N].
  - split; [auto|]. intros [->|?]; auto.
  - rewrite in_app_iff. cbn. intuition congruence.
Qed.

Lemma add_nodup x l : NoDup l -> NoDup (add x l).
Proof. intro H. unfold add. destruct (in_dec Nat.eq_dec x l); [exact H|]. apply NoDup_snoc; assumption. Qed.

Lemma update_grows f c x : grows f (update f c (add x (f c))).
Proof.
  intro y. unfold update, add. destruct (Nat.eqb_spec y c) as [->|_]; [|exists []; symmetry; apply app_nil_r].
  destruct (in_dec Nat.eq_dec x (f c)); eexists; [symmetry; apply app_nil_r|reflexivity].
Qed.

Lemma update_in f c x y z : In z (update f c (add x (f c)) y) <-> (y = c /\ z = x) \/ In z (f y).
Proof.
  unfold update. destruct (Nat.eqb_spec y c) as [->|N]; [rewrite add_in; tauto|]. split; [auto|]. intros [[? _]|?]; [contradiction|assumption].
Qed.

Lemma update_nodup f c x y : (forall y, NoDup (f y)) -> NoDup (update f c (add x (f c)) y).
Proof. intro H. unfold update. destruct (y =? c); [apply add_nodup|]; apply H. Qed.

(** ** The walks *)
Definition mgrows (m m' : memory) : Prop := grows (bases m) (bases m') /\ grows (derived m) (derived m').

Lemma mgrows_refl m : mgrows m m.
Proof. split; apply grows_refl. Qed.

Lemma mgrows_trans m m' m'' : mgrows m m' -> mgrows m' m'' -> mgrows m m''.
Proof. intros [? ?] [? ?]. split; eapply grows_trans; eassumption. Qed.

Section Walk.
  Variables (q : request) (b : nat) (from : memory).

  (** Bases number 0 to [i - 1] of [y] do not reach the target in snapshot [s]. *)
  Definition barren (s : nat -> list nat) (y i : nat) : Prop :=
    forall j d, j < i -> nth_error (s y) j = Some d -> ~ reach s d b.

  (** What the frames below a call of cast on [x] say. *)
  Fixpoint okC (g : nat -> list nat) (st : list frame) (x : nat) (p : list nat) (s : nat -> list nat) : Prop :=
    grows s g /\
    match st with
    | [] => q = Cast x b /\ p = [x] /\ s = bases from
    | FD y i p0 s0 s1 :: r =>
        s1 = s /\ nth_error (g y) i = Some x /\ p = p0 ++ [x] /\ reach s x b /\ (y <> b /\ barren s0 y i /\ grows s0 s) /\ okC g r y p0 s0
    | _ => False
    end.

  (** What those below a call of inheritedFrom on [x] say. *)
  Fixpoint okI (g : nat -> list nat) (st : list frame) (x : nat) (s : nat -> list nat) : Prop :=
    grows s g /\
    match st with
    | [] => q = Inherited x b /\ s = bases from
    | FI y i :: r => nth_error (g y) i = Some x /\ y <> b /\ barren s y i /\ okI g r y s
    | FC y i p s0 :: r => s0 = s /\ nth_error (g y) i = Some x /\ y <> b /\ barren s y i /\ okC g r y p s
    | FD _ _ _ _ _ :: _ => False
    end.

  Definition walk_ok (g : nat -> list nat) (c : control) (st : list frame) : Prop :=
    match c with
    | EnterI x => exists s, okI g st x s
    | EnterC x p s => okC g st x p s
    | Next =>
        match st with
        | FI y i :: r => exists s, y <> b /\ barren s y i /\ okI g r y s
        | FC y i p s :: r => y <> b /\ barren s y i /\ okC g r y p s
        | _ => False
        end
    | RetI true => exists x s, okI g st x s /\ reach g x b
    | RetI false => exists x s, okI g st x s /\ ~ reach s x b
    | RetC (Some l) => (exists x p s, okC g st x p s) /\ exists a, q = Cast a b /\ guided (bases from) g a l b
    | RetC None => exists x p s, okC g st x p s /\ ~ reach s x b
    end.

  Lemma okC_grows g st : forall x p s, okC g st x p s -> grows s g.
  Proof. destruct st; intros x p s H; apply H. Qed.

  Lemma okI_grows g st : forall x s, okI g st x s -> grows s g.
  Proof. destruct st; intros x s H; apply H. Qed.

  Lemma okC_mono g g' st : grows g g' -> forall x p s, okC g st x p s -> okC g' st x p s.
  Proof.
    intro G. induction st as [|f st IH]; intros x p s [H1 H2]; cbn; (split; [eapply grows_trans; eauto|]); [exact H2|].
    destruct f as [y i|y i p0 s0|y i p0 s0 s1]; try exact H2.
    destruct H2 as (-> & N & -> & R & (D & B & S) & O). parts; auto. eapply grows_nth; eauto.
  Qed.

  Lemma okI_mono g g' st : grows g g' -> forall x s, okI g st x s -> okI g' st x s.
  Proof.
    intro G. induction st as [|f st IH]; intros x s [H1 H2]; cbn; (split; [eapply grows_trans; eauto|]); [exact H2|].
    destruct f as [y i|y i p0 s0|y i p0 s0 s1]; try exact H2.
    - destruct H2 as (N & D & B & O). parts; auto. eapply grows_nth; eauto.
    - destruct H2 as (-> & N & D & B & O). parts; auto. { eapply grows_nth; eauto. } eapply okC_mono; eauto.
  Qed.

  Lemma walk_mono g g' c st : grows g g' -> walk_ok g c st -> walk_ok g' c st.
  Proof.
    intros G H. destruct c as [x|x p s| |[|]|[l|]]; cbn in *.
    - destruct H as [s H]. exists s. eapply okI_mono; eauto.
    - eapply okC_mono; eauto.
    - destruct st as [|[y i|y i p s|y i p s s'] r]; auto.
      + destruct H as (s & D & B & O). exists s. parts; auto. eapply okI_mono; eauto.
      + destruct H as (D & B & O). parts; auto. eapply okC_mono; eauto.
    - destruct H as (x & s & O & R). exists x, s. split; [eapply okI_mono; eauto|eapply grows_reach; eauto].
    - destruct H as (x & s & O & R). exists x, s. split; [eapply okI_mono; eauto|exact R].
    - destruct H as ((x & p & s & O) & a & E & C). split; [exists x, p, s; eapply okC_mono; eauto|]. exists a. split; [exact E|].
      eapply grows_guided; eauto.
    - destruct H as (x & p & s & O & R). exists x, p, s. split; [eapply okC_mono; eauto|exact R].
  Qed.

  Lemma barren_0 s y : barren s y 0.
  Proof. intros j d L. lia. Qed.

  Lemma barren_S g s y i d : grows s g -> nth_error (g y) i = Some d -> barren s y i -> ~ reach s d b -> barren s y (S i).
  Proof.
    intros G N B R j e L H. destruct (Nat.eq_dec j i) as [->|NE]; [|apply (B j e); [lia|exact H]].
    pose proof (grows_nth _ _ _ _ _ G H) as E. rewrite N in E. injection E as ->. exact R.
  Qed.

  Lemma barren_end g s y i : grows s g -> y <> b -> nth_error (g y) i = None -> barren s y i -> ~ reach s y b.
  Proof.
    intros G D N B R. inversion R as [|y' d b' I R']; subst; [contradiction|]. apply In_nth_error in I. destruct I as [j I].
    apply (B j d); [|exact I|exact R']. apply nth_error_None in N. pose proof (grows_length s g y G).
    assert (j < length (s y)) by (apply nth_error_Some; congruence). lia.
  Qed.

  Lemma okC_from g st : forall x p s, okC g st x p s -> grows (bases from) s.
  Proof.
    induction st as [|f st IH]; intros x p s [G H].
    - destruct H as (_ & _ & ->). apply grows_refl.
    - destruct f as [y i|y i p0 s0|y i p0 s0 s1]; try (destruct H; fail). destruct H as (-> & N & -> & R & (D & B & S) & O).
      eapply grows_trans; [eapply IH; exact O|exact S].
  Qed.

  Lemma barren_from s y i : grows (bases from) s -> barren s y i -> barren (bases from) y i.
  Proof. intros G B j d L H R. apply (B j d L); [eapply grows_nth; eauto|eapply grows_reach; eauto]. Qed.

  Lemma okC_chain g st : forall x p s, okC g st x p s -> exists a, q = Cast a b /\ partway (bases from) g a p x b.
  Proof.
    induction st as [|f st IH]; intros x p s [G H].
    - destruct H as (-> & -> & _). exists x. split; [reflexivity|]. cbn. auto.
    - destruct f as [y i|y i p0 s0|y i p0 s0 s1]; try (destruct H; fail). destruct H as (-> & N & -> & R & (D & B & S) & O).
      destruct (IH _ _ _ O) as (a & -> & C). exists a. split; [reflexivity|]. eapply partway_snoc; eauto.
      apply barren_from with (s := s0); [eapply okC_from; exact O|exact B].
  Qed.

  (** What the end of a walk tells. *)
  Definition walk_end (g : nat -> list nat) (a : answer) : Prop :=
    match q, a with
    | Inherited x y, Is r => y = b /\ (r = true -> reach g x b) /\ (r = false -> ~ reach (bases from) x b)
    | Cast x y, Via r => y = b /\ match r with Some l => guided (bases from) g x l b | None => ~ reach (bases from) x b end
    | _, _ => False
    end.

  (** A step of a walk; it only waits where it enters a class. *)
  Lemma walk_step read g c st : walk_ok g c st ->
    match walk read g b c st with
    | Some (inl (c', st')) => walk_ok g c' st'
    | Some (inr a) => walk_end g a
    | None => exists x, read x = false /\ x <> b /\ (c = EnterI x \/ exists p s, c = EnterC x p s)
    end.
  Proof.
    intro H. destruct c as [x|x p s| |[|]|[l|]]; cbn in *.
    - destruct H as [s H]. destruct (Nat.eqb_spec x b) as [->|N]; [exists b, s; split; [exact H|constructor]|].
      destruct (read x) eqn:E; [|exists x; auto]. cbn. exists s. parts; auto. apply barren_0.
    - destruct (Nat.eqb_spec x b) as [->|N].
      + cbn. split; [exists b, p, s; exact H|]. destruct (okC_chain _ _ _ _ _ H) as (a & E & C). exists a. auto using partway_guided.
      + destruct (read x) eqn:E; [|exists x; parts; auto; right; eauto]. cbn. parts; auto. apply barren_0.
    - destruct st as [|[y i|y i p s|y i p s s'] r]; try (destruct H; fail).
      + destruct H as (s & D & B & O). destruct (nth_error (g y) i) as [d|] eqn:E; cbn.
        * exists s. parts; auto. eapply okI_grows; eauto.
        * exists y, s. split; [exact O|]. eapply barren_end; eauto. eapply okI_grows; eauto.
      + destruct H as (D & B & O). destruct (nth_error (g y) i) as [d|] eqn:E; cbn.
        * exists s. parts; auto. eapply okC_grows; eauto.
        * exists y, p, s. split; [exact O|]. eapply barren_end; eauto. eapply okC_grows; eauto.
    - destruct H as (x & s & O & R). destruct st as [|[y i|y i p s0|y i p s0 s'] r].
      + destruct O as (_ & E & _). unfold walk_end. rewrite E. parts; [reflexivity|auto|discriminate].
      + destruct O as (_ & N & D & B & O). exists y, s. split; [exact O|]. econstructor; [eapply nth_error_In; exact N|exact R].
      + destruct O as (_ & -> & N & D & B & O). rewrite N. cbn. parts; auto; try apply grows_refl. eapply okC_grows; exact O.
      + destruct O as (_ & []).
    - destruct H as (x & s & O & R). destruct st as [|[y i|y i p s0|y i p s0 s'] r].
      + destruct O as (_ & E & ->). unfold walk_end. rewrite E. parts; [reflexivity|discriminate|auto].
      + destruct O as (G & N & D & B & O). cbn; exists s; parts; auto. eapply barren_S; eauto.
      + destruct O as (G & -> & N & D & B & O). cbn; parts; auto. eapply barren_S; eauto.
      + destruct O as (_ & []).
    - destruct H as ((x & p & s & O) & a & E & C). destruct st as [|[y i|y i p0 s0|y i p0 s0 s'] r].
      + unfold walk_end. rewrite E. auto.
      + destruct O as (_ & []).
      + destruct O as (_ & []).
      + destruct O as (_ & -> & N & -> & R & _ & O). split; [eauto|]. eauto.
    - destruct H as (x & p & s & O & R). destruct st as [|[y i|y i p0 s0|y i p0 s0 s'] r].
      + destruct O as (_ & E & _ & ->). unfold walk_end. rewrite E. auto.
      + destruct O as (_ & []).
      + destruct O as (_ & []).
      + destruct O as (_ & -> & N & -> & R' & _). contradiction.
  Qed.
End Walk.

(** ** The threads *)
Definition current (p : place) : list request :=
  match p with Idle => [] | Waiting c b _ | Linking c b _ => [AddBase c b] | Walking q _ _ _ _ => [q] end.
Definition history (t : thread) : list request := map e_request (got t) ++ current (where_ t) ++ todo t.
Definition began (p : place) : option memory :=
  match p with Idle => None | Waiting _ _ f | Linking _ _ f | Walking _ _ _ _ f => Some f end.

Definition place_ok (m : memory) (p : place) : Prop :=
  match p with
  | Idle | Waiting _ _ _ => True
  | Linking c b _ => In b (bases m c)
  | Walking q b c st from => walk_ok q b from (bases m) c st
  end.

Record good (m : memory) (p : list request) (t : thread) : Prop := Good {
  g_history : history t = p;
  g_fits : forall e, In e (got t) -> fits e /\ mgrows (e_from e) (e_to e) /\ mgrows (e_to e) m;
  g_order : forall i j e e', i < j -> nth_error (got t) i = Some e -> nth_error (got t) j = Some e' ->
    mgrows (e_to e) (e_from e');
  g_began : forall f, began (where_ t) = Some f -> mgrows f m /\ forall e, In e (got t) -> mgrows (e_to e) f;
  g_place : place_ok m (where_ t) }.

Record inv (ps : list (list request)) (c : memory * list thread) : Prop := Inv {
  v_length : length (snd c) = length ps;
  v_good : forall i t, nth_error (snd c) i = Some t -> exists p, nth_error ps i = Some p /\ good (fst c) p t;
  v_bases : forall x, NoDup (bases (fst c) x);
  v_derived : forall x, NoDup (derived (fst c) x);
  v_declared : forall x y, In y (bases (fst c) x) -> declared ps x y;
  v_mirror : forall x y, In x (derived (fst c) y) -> In y (bases (fst c) x);
  v_linked : forall x y, In y (bases (fst c) x) ->
    In x (derived (fst c) y) \/ exists i t f, nth_error (snd c) i = Some t /\ where_ t = Linking x y f }.

Lemma good_mono m m' p t : mgrows m m' -> good m p t -> good m' p t.
Proof.
  intros G [H1 H2 H3 H4 H5]. split; auto.
  - intros e I. destruct (H2 e I) as (A & B & C). parts; auto. eapply mgrows_trans; eauto.
  - intros f E. destruct (H4 f E) as [A B]. split; [eapply mgrows_trans; eauto|exact B].
  - destruct (where_ t); cbn in *; auto; [eapply grows_in; [apply G|exact H5]|]. eapply walk_mono; [apply G|exact H5].
Qed.

(** A thread that answers a request. *)
Lemma good_finish m p t t0 q a from : good m p t0 -> got t = got t0 -> mgrows from m ->
  (forall e, In e (got t0) -> mgrows (e_to e) from) -> fits (Entry q a from m) ->
  map e_request (got t) ++ [q] ++ todo t = p -> good m p (finish t q a from m).
Proof.
  intros [H1 H2 H3 H4 H5] E G B F H. unfold finish. split; cbn.
  - unfold history. cbn. rewrite map_app, <- app_assoc. exact H.
  - intros e I. apply in_app_or in I. destruct I as [I|[<-|[]]]; [rewrite E in I; apply H2; exact I|].
    cbn. parts; auto; apply mgrows_refl.
  - intros i j e e' L Hi Hj. rewrite E in *. apply nth_snoc in Hj. destruct Hj as [Hj|[-> ->]].
    + apply nth_snoc in Hi. destruct Hi as [Hi|[-> ->]]; [eapply H3; eauto|]. exfalso.
      assert (j < length (got t0)) by (apply nth_error_Some; congruence). lia.
    + cbn. apply nth_snoc in Hi. destruct Hi as [Hi|[-> _]]; [|lia]. apply B. eapply nth_error_In; eauto.
  - discriminate.
  - exact I.
Qed.

(** A thread that goes on with its request. *)
Lemma good_move m p t w r f : good m p t -> current w ++ r = current (where_ t) ++ todo t -> began w = Some f ->
  mgrows f m -> (forall e, In e (got t) -> mgrows (e_to e) f) -> place_ok m w -> good m p (Thread w r (got t)).
Proof.
  intros [H1 H2 H3 H4 H5] E B G L P. split; cbn; auto.
  - unfold history. cbn. rewrite E. exact H1.
  - intros f' E'. rewrite B in E'. injection E' as <-. auto.
Qed.

Section Steps.
  Variable prefer : bool.

  Lemma step_grows m ts t : mgrows m (fst (step prefer m ts t)).
  Proof.
    unfold step. destruct (where_ t) as [|c b f|c b f|q b c st f].
    - destruct (todo t) as [|[c b|a b|a b|c i|c i] r]; try apply mgrows_refl. cbn. destruct (can_read prefer ts c); apply mgrows_refl.
    - destruct (can_write ts c); [|apply mgrows_refl]. split; cbn; [apply update_grows|apply grows_refl].
    - split; cbn; [apply grows_refl|apply update_grows].
    - destruct (walk _ _ _ _ _) as [[[c' st']|a]|]; apply mgrows_refl.
  Qed.

  Lemma step_good m ts t p : good m p t -> good (fst (step prefer m ts t)) p (snd (step prefer m ts t)).
  Proof.
    intro G. pose proof (step_grows m ts t) as M. pose proof (good_mono _ _ _ _ M G) as G'. revert M G'. unfold step.
    destruct t as [w td gt]. cbn [where_ todo got]. destruct w as [|c b f|c b f|q b c st f].
    - destruct td as [|q r]; [intros _ _; exact G|].
      assert (A : forall e, In e gt -> mgrows (e_to e) m) by (intros e I; apply (g_fits _ _ _ G e I)).
      assert (X : forall a, fits (Entry q a m m) -> good m p (finish (Thread Idle r gt) q a m m)).
      { intros a F. eapply good_finish; [exact G|reflexivity|apply mgrows_refl|exact A|exact F|]. exact (g_history _ _ _ G). }
      assert (Y : forall w, current w = [q] -> began w = Some m -> place_ok m w -> good m p (Thread w r gt)).
      { intros w E B P. apply (good_move m p (Thread Idle (q :: r) gt) w r m); auto; [|apply mgrows_refl]. cbn. rewrite E. reflexivity. }
      destruct q as [c b|a b|a b|c i|c i]; cbn [fst snd]; intros _ _.
      + apply Y; auto. exact I.
      + apply Y; auto. cbn. exists (bases m). parts; auto. apply grows_refl.
      + apply Y; auto. cbn. parts; auto. apply grows_refl.
      + destruct (can_read prefer ts c); [|exact G]. apply X. reflexivity.
      + apply X. reflexivity.
    - destruct (can_write ts c) eqn:W; [|intros _ _; exact G]. cbn [fst snd]. intros M G'.
      destruct (g_began _ _ _ G' f eq_refl) as [B1 B2].
      apply (good_move _ p (Thread (Waiting c b f) td gt) _ td f); auto. cbn. apply update_in. auto.
    - cbn [fst snd]. intros M G'. destruct (g_began _ _ _ G' f eq_refl) as [B1 B2].
      eapply good_finish; [exact G'|reflexivity|exact B1|exact B2| |exact (g_history _ _ _ G')].
      cbn. split; [exact (g_place _ _ _ G)|]. apply update_in. auto.
    - pose proof (walk_step q b f (can_read prefer ts) (bases m) c st (g_place _ _ _ G)) as S.
      destruct (g_began _ _ _ G f eq_refl) as [B1 B2]. cbn in B2.
      destruct (walk _ _ _ _ _) as [[[c' st']|a]|]; cbn [fst snd]; intros _ _; [| |exact G].
      + apply (good_move m p (Thread (Walking q b c st f) td gt) _ td f); auto.
      + eapply good_finish; [exact G|reflexivity|exact B1|exact B2| |exact (g_history _ _ _ G)].
        unfold walk_end in S. unfold fits. cbn. destruct q as [ | | | | ]; try (destruct S; fail); destruct a as [ |r|r| ]; try (destruct S; fail).
        * destruct S as (-> & S). exact S.
        * destruct S as (-> & S). exact S.
  Qed.

  Lemma turn_eq m ts i : turn prefer (m, ts) i =
    match nth_error ts i with None => (m, ts) | Some t => (fst (step prefer m ts t), put ts i (snd (step prefer m ts t))) end.
  Proof. unfold turn. cbn [fst snd]. destruct (nth_error ts i) as [t|]; [|reflexivity]. destruct (step prefer m ts t). reflexivity. Qed.

  (** How a step touches the lists. *)
  Lemma step_lists m ts t :
    (fst (step prefer m ts t) = m /\ forall x y f, where_ t <> Linking x y f /\ where_ (snd (step prefer m ts t)) <> Linking x y f) \/
    (exists x y f, where_ t = Waiting x y f /\ can_write ts x = true /\
       fst (step prefer m ts t) = Memory (update (bases m) x (add y (bases m x))) (derived m) /\
       where_ (snd (step prefer m ts t)) = Linking x y f) \/
    (exists x y f, where_ t = Linking x y f /\
       fst (step prefer m ts t) = Memory (bases m) (update (derived m) y (add x (derived m y))) /\
       where_ (snd (step prefer m ts t)) = Idle).
  Proof.
    unfold step. destruct (where_ t) as [|c b f|c b f|q b c st f] eqn:W.
    - left. destruct (todo t) as [|[c b|a b|a b|c i|c i] r]; cbn; try (split; [reflexivity|intros; split; congruence]).
      destruct (can_read prefer ts c); cbn; (split; [reflexivity|intros; split; congruence]).
    - destruct (can_write ts c) eqn:E; [right; left; exists c, b, f; auto|]. left. split; [reflexivity|]. intros; cbn; split; congruence.
    - right; right. exists c, b, f. auto.
    - left. destruct (walk _ _ _ _ _) as [[[c' st']|a]|]; cbn; (split; [reflexivity|intros; split; congruence]).
  Qed.

  Lemma inv_turn ps c i : inv ps c -> inv ps (turn prefer c i).
  Proof.
    intro V. destruct c as [m ts]. rewrite turn_eq. destruct (nth_error ts i) as [t|] eqn:E; [|exact V].
    pose proof (step_grows m ts t) as M. pose proof (step_lists m ts t) as S.
    destruct V as [V1 V2 V3 V4 V5 V6 V7]; cbn [fst snd] in *.
    assert (G : forall j u, nth_error (put ts i (snd (step prefer m ts t))) j = Some u ->
       exists p, nth_error ps j = Some p /\ good (fst (step prefer m ts t)) p u).
    { intros j u Hj. apply put_nth in Hj. destruct Hj as [[-> ->]|[N Hj]].
      - destruct (V2 i t E) as (p & Hp & G). exists p. split; [exact Hp|]. apply step_good. exact G.
      - destruct (V2 j u Hj) as (p & Hp & G). exists p. split; [exact Hp|]. eapply good_mono; eauto. }
    assert (L : forall x y j u f, nth_error ts j = Some u -> where_ u = Linking x y f -> where_ t <> Linking x y f ->
       exists j u f, nth_error (put ts i (snd (step prefer m ts t))) j = Some u /\ where_ u = Linking x y f).
    { intros x y j u f Hj Hu Ht. exists j, u, f. split; [|exact Hu]. rewrite put_other; [exact Hj|]. intros ->. congruence. }
    assert (LEN : i < length ts) by (apply nth_error_Some; congruence).
    destruct S as [[S1 S2]|[(x & y & f & S1 & S2 & S3 & S4)|(x & y & f & S1 & S3 & S4)]].
    - split; cbn [fst snd]; [rewrite put_length; exact V1|exact G|rewrite S1; auto..].
      intros x y I. destruct (V7 x y I) as [D|(j & u & f & Hj & Hu)]; [auto|]. right. eapply L; eauto. apply S2.
    - destruct (V2 i t E) as (p & Hp & Gt).
      assert (DX : declared ps x y).
      { exists p. split; [eapply nth_error_In; eauto|]. rewrite <- (g_history _ _ _ Gt). unfold history. rewrite S1.
        apply in_or_app. right. left. reflexivity. }
      split; cbn [fst snd]; [rewrite put_length; exact V1|exact G|rewrite S3; cbn [bases derived]..].
      + intro z. apply update_nodup. exact V3.
      + exact V4.
      + intros x' y' I. apply update_in in I. destruct I as [[-> ->]|I]; auto.
      + intros x' y' I. apply update_in. auto.
      + intros x' y' I. apply update_in in I. destruct I as [[-> ->]|I].
        * right. exists i. eexists. exists f. split; [apply put_same; exact LEN|exact S4].
        * destruct (V7 x' y' I) as [D|(j & u & f' & Hj & Hu)]; [auto|]. right. eapply L; eauto. congruence.
    - destruct (V2 i t E) as (p & Hp & Gt). pose proof (g_place _ _ _ Gt) as P. rewrite S1 in P. cbn in P.
      split; cbn [fst snd]; [rewrite put_length; exact V1|exact G|rewrite S3; cbn [bases derived]..].
      + exact V3.
      + intro z. apply update_nodup. exact V4.
      + exact V5.
      + intros x' y' I. apply update_in in I. destruct I as [[-> ->]|I]; auto.
      + intros x' y' I. destruct (V7 x' y' I) as [D|(j & u & f' & Hj & Hu)].
        * left. apply update_in. auto.
        * destruct (Nat.eq_dec j i) as [->|N].
          -- left. apply update_in. left. rewrite E in Hj. injection Hj as <-. rewrite S1 in Hu. injection Hu as -> -> _. auto.
          -- right. exists j, u, f'. split; [rewrite put_other; congruence|exact Hu].
  Qed.

  Lemma inv_start ps : inv ps (start ps).
  Proof.
    split; cbn; try (constructor; fail); try tauto.
    - apply map_length.
    - intros i t H. rewrite nth_error_map in H. destruct (nth_error ps i) as [p|]; [|discriminate]. injection H as <-.
      exists p. split; [reflexivity|]. split; cbn; try tauto; try discriminate.
      intros [|i'] j e e' _ X; discriminate.
  Qed.

  Lemma inv_exec ps sch : forall c, inv ps c -> inv ps (exec prefer c sch).
  Proof. induction sch as [|i sch IH]; intros c V; [exact V|]. apply IH. apply inv_turn. exact V. Qed.

  Lemma inv_always ps sch : inv ps (exec prefer (start ps) sch).
  Proof. apply inv_exec. apply inv_start. Qed.

  Lemma exec_app c l l' : exec prefer c (l ++ l') = exec prefer (exec prefer c l) l'.
  Proof. apply fold_left_app. Qed.

  Lemma exec_grows sch : forall c, mgrows (fst c) (fst (exec prefer c sch)).
  Proof.
    induction sch as [|i sch IH]; intro c; [apply mgrows_refl|]. change (exec prefer c (i :: sch)) with (exec prefer (turn prefer c i) sch).
    eapply mgrows_trans; [|apply IH]. destruct c as [m ts]. rewrite turn_eq. destruct (nth_error ts i) as [t|]; [apply step_grows|apply mgrows_refl].
  Qed.
End Steps.

(** ** Locks and progress *)
Section Ranks.
  Variables (prefer : bool) (ps : list (list request)) (rank : nat -> nat).
  Hypothesis R : ranked ps rank.

  Definition down (g : nat -> list nat) : Prop := forall x y, In y (g x) -> rank y < rank x.

  Lemma inv_down c : inv ps c -> down (bases (fst c)).
  Proof. intros V x y I. apply R. apply (v_declared _ _ V). exact I. Qed.

  (** Ranks rise from the top of the stack to its bottom. *)
  Fixpoint rising (k : nat) (st : list frame) : Prop :=
    match st with [] => True | f :: r => k < rank (locked f) /\ rising (rank (locked f)) r end.

  Lemma rising_forall st : forall k f, rising k st -> In f st -> k < rank (locked f).
  Proof.
    induction st as [|h st IH]; intros k f H; [intros []|]. intros [<-|I]; [apply H|]. destruct H as [H1 H2]. specialize (IH _ _ H2 I). lia.
  Qed.

  Lemma rising_nodup st : forall k, rising k st -> NoDup (map locked st).
  Proof.
    induction st as [|h st IH]; intros k H; [constructor|]. destruct H as [H1 H2]. cbn. constructor; [|eapply IH; eauto].
    intro I. apply in_map_iff in I. destruct I as (f & E & I). pose proof (rising_forall _ _ _ H2 I). rewrite E in H. lia.
  Qed.

  Lemma okC_rising q b from g st : down g -> forall x p s, okC q b from g st x p s -> rising (rank x) st.
  Proof.
    intro D. induction st as [|f st IH]; intros x p s [G H]; [exact I|]. destruct f as [y i|y i p0 s0|y i p0 s0 s1]; try (destruct H; fail).
    destruct H as (-> & N & -> & _ & _ & O). cbn. split; [apply D; eapply nth_error_In; eauto|eapply IH; eauto].
  Qed.

  Lemma okI_rising q b from g st : down g -> forall x s, okI q b from g st x s -> rising (rank x) st.
  Proof.
    intro D. induction st as [|f st IH]; intros x s [G H]; [exact I|]. destruct f as [y i|y i p0 s0|y i p0 s0 s1]; try (destruct H; fail).
    - destruct H as (N & _ & _ & O). cbn. split; [apply D; eapply nth_error_In; eauto|eapply IH; eauto].
    - destruct H as (_ & N & _ & _ & O). cbn. split; [apply D; eapply nth_error_In; eauto|eapply okC_rising; eauto].
  Qed.

  (** A walk never locks a class twice. *)
  Lemma walk_nodup q b from g c st : down g -> walk_ok q b from g c st -> NoDup (map locked st).
  Proof.
    intros D H. destruct c as [x|x p s| |[|]|[l|]]; cbn in H.
    - destruct H as [s H]. eapply rising_nodup, okI_rising; eauto.
    - eapply rising_nodup, okC_rising; eauto.
    - destruct st as [|[y i|y i p s|y i p s s'] r]; try (destruct H; fail); cbn.
      + destruct H as (s & _ & _ & O). pose proof (okI_rising _ _ _ _ _ D _ _ O) as X. constructor; [|eapply rising_nodup; eauto].
        intro I. apply in_map_iff in I. destruct I as (f & E & I). pose proof (rising_forall _ _ _ X I). rewrite E in H. lia.
      + destruct H as (_ & _ & O). pose proof (okC_rising _ _ _ _ _ D _ _ _ O) as X. constructor; [|eapply rising_nodup; eauto].
        intro I. apply in_map_iff in I. destruct I as (f & E & I). pose proof (rising_forall _ _ _ X I). rewrite E in H. lia.
    - destruct H as (x & s & O & _). eapply rising_nodup, okI_rising; eauto.
    - destruct H as (x & s & O & _). eapply rising_nodup, okI_rising; eauto.
    - destruct H as ((x & p & s & O) & _). eapply rising_nodup, okC_rising; eauto.
    - destruct H as (x & p & s & O & _). eapply rising_nodup, okC_rising; eauto.
  Qed.

  (** At the class a walk wants to enter, everything it holds is above. *)
  Lemma enter_above q b from g c st x : down g -> walk_ok q b from g c st -> (c = EnterI x \/ exists p s, c = EnterC x p s) ->
    forall y, In y (map locked st) -> rank x < rank y.
  Proof.
    intros D H E y I. apply in_map_iff in I. destruct I as (f & <- & I). eapply rising_forall; [|exact I].
    destruct E as [->|(p & s & ->)]; cbn in H.
    - destruct H as [s H]. eapply okI_rising; eauto.
    - eapply okC_rising; eauto.
  Qed.

  (** *** Costs *)
  Definition width : nat := length (concat ps).

  Lemma inv_width c x : inv ps c -> length (bases (fst c) x) <= width.
  Proof.
    intro V. pose proof (v_bases _ _ V x) as N.
    assert (X : incl (bases (fst c) x) (map (fun q => match q with AddBase _ b => b | _ => 0 end) (concat ps))).
    { intros y I. destruct (v_declared _ _ V _ _ I) as (l & Hl & H). apply in_map_iff. exists (AddBase x y). split; [reflexivity|].
      apply in_concat. eauto. }
    apply (fun N => NoDup_incl_length N X) in N. rewrite map_length in N. exact N.
  Qed.

  (** What entering a class of rank [r] costs at most. *)
  Fixpoint enter (r : nat) : nat :=
    let k := match r with 0 => 0 | S r' => enter r' end in 4 + width * (k + 4) + k.
  Definition below (r : nat) : nat := match r with 0 => 0 | S r' => enter r' end.

  Lemma enter_eq r : enter r = 4 + width * (below r + 4) + below r.
  Proof. destruct r; reflexivity. Qed.

  Lemma enter_mono r r' : r <= r' -> enter r <= enter r'.
  Proof.
    induction 1 as [|r' L IH]; [lia|]. rewrite (enter_eq (S r')). cbn [below]. lia.
  Qed.

  Lemma enter_below r r' : r < r' -> enter r <= below r'.
  Proof. destruct r'; [lia|]. intro L. cbn [below]. apply enter_mono. lia. Qed.

  Definition busy (f : frame) : nat :=
    match f with
    | FI x i | FC x i _ _ => (width - S i) * (below (rank x) + 4) + below (rank x) + 3
    | FD _ _ _ _ _ => 1
    end.
  Definition stack_cost (st : list frame) : nat := list_sum (map busy st).
  Definition walk_cost (c : control) (st : list frame) : nat :=
    match c with
    | EnterI x | EnterC x _ _ => enter (rank x) + stack_cost st
    | Next =>
        match st with
        | (FI x i | FC x i _ _) :: r => (width - i) * (below (rank x) + 4) + below (rank x) + 3 + stack_cost r
        | _ => 0
        end
    | RetI _ | RetC _ => 1 + stack_cost st
    end.
  Definition request_cost (q : request) : nat :=
    match q with AddBase _ _ => 3 | Inherited a _ | Cast a _ => S (enter (rank a)) | BaseAt _ _ | DerivedAt _ _ => 1 end.
  Definition place_cost (p : place) : nat :=
    match p with Idle => 0 | Waiting _ _ _ => 2 | Linking _ _ _ => 1 | Walking _ _ c st _ => walk_cost c st end.
  Definition cost (t : thread) : nat := place_cost (where_ t) + list_sum (map request_cost (todo t)).
  Definition total (c : memory * list thread) : nat := list_sum (map cost (snd c)).

  Lemma stack_cons f st : stack_cost (f :: st) = busy f + stack_cost st.
  Proof. reflexivity. Qed.

  Lemma item_cost y i n : i < n ->
    (n - i) * (below (rank y) + 4) = (n - S i) * (below (rank y) + 4) + (below (rank y) + 4).
  Proof. intro L. replace (n - i) with (S (n - S i)) by lia. cbn. lia. Qed.

  Ltac ng := repeat match goal with |- context [?x * ?y] => generalize (x * y); intro end; lia.

  Lemma walk_cost_step read q b from g c st : down g -> (forall x, length (g x) <= width) -> walk_ok q b from g c st ->
    match walk read g b c st with
    | Some (inl (c', st')) => walk_cost c' st' < walk_cost c st
    | Some (inr _) => 0 < walk_cost c st
    | None => True
    end.
  Proof.
    intros D L H.
    assert (NX : forall y i d, nth_error (g y) i = Some d -> enter (rank d) <= below (rank y) /\ i < width).
    { intros y i d N. split; [apply enter_below, D; eapply nth_error_In; eauto|]. specialize (L y).
      assert (i < length (g y)) by (apply nth_error_Some; congruence). lia. }
    destruct c as [x|x p s| |[|]|[l|]]; cbn [walk].
    - destruct (x =? b).
      + cbn [walk_cost]. rewrite enter_eq. ng.
      + destruct (read x); [|exact I]. cbn [walk_cost]. rewrite Nat.sub_0_r, (enter_eq (rank x)). ng.
    - destruct (x =? b).
      + cbn [walk_cost]. rewrite enter_eq. ng.
      + destruct (read x); [|exact I]. cbn [walk_cost]. rewrite Nat.sub_0_r, (enter_eq (rank x)). ng.
    - destruct st as [|[y i|y i p s|y i p s s'] r]; try exact I.
      + destruct (nth_error (g y) i) as [d|] eqn:N; cbn [walk_cost]; [|ng]. rewrite stack_cons. cbn [busy].
        destruct (NX _ _ _ N) as [X1 X2]. rewrite (item_cost y i width X2). ng.
      + destruct (nth_error (g y) i) as [d|] eqn:N; cbn [walk_cost]; [|ng]. rewrite stack_cons. cbn [busy].
        destruct (NX _ _ _ N) as [X1 X2]. rewrite (item_cost y i width X2). ng.
    - destruct st as [|[y i|y i p s|y i p s s'] r]; cbn [walk_cost]; try rewrite stack_cons; cbn [busy]; try ng; try exact I.
      destruct (nth_error (g y) i) as [d|] eqn:N; [|exact I]. cbn [walk_cost]. rewrite stack_cons. cbn [busy].
      destruct (NX _ _ _ N) as [X1 X2]. ng.
    - destruct st as [|[y i|y i p s|y i p s s'] r]; cbn [walk_cost]; try rewrite stack_cons; cbn [busy]; try ng; try exact I.
    - destruct st as [|[y i|y i p s|y i p s s'] r]; cbn [walk_cost]; try rewrite stack_cons; cbn [busy]; try ng; try exact I.
    - destruct st as [|[y i|y i p s|y i p s s'] r]; cbn [walk_cost]; try rewrite stack_cons; cbn [busy]; try ng; try exact I.
  Qed.

  (** Why a thread may not move. *)
  Inductive blocked (m : memory) (ts : list thread) (t : thread) : Prop :=
    | BDone : where_ t = Idle -> todo t = [] -> blocked m ts t
    | BRead c i r : where_ t = Idle -> todo t = BaseAt c i :: r -> can_read prefer ts c = false -> blocked m ts t
    | BWrite c b f : where_ t = Waiting c b f -> can_write ts c = false -> blocked m ts t
    | BWalk q b c st f x : where_ t = Walking q b c st f -> (c = EnterI x \/ exists p s, c = EnterC x p s) ->
        can_read prefer ts x = false -> blocked m ts t.

  Ltac cs := unfold finish, list_sum; cbn [fst snd where_ todo got place_cost walk_cost stack_cost map fold_right request_cost list_sum].

  Lemma step_cost m ts t p : down (bases m) -> (forall x, length (bases m x) <= width) -> good m p t ->
    (blocked m ts t /\ step prefer m ts t = (m, t)) \/ cost (snd (step prefer m ts t)) < cost t.
  Proof.
    intros D L G. unfold step, cost. destruct t as [w td gt]. cbn [where_ todo got]. destruct w as [|c b f|c b f|q b c st f].
    - destruct td as [|[c b|a b|a b|c i|c i] r]; cs; try (right; lia).
      + left. split; [apply BDone|]; reflexivity.
      + destruct (can_read prefer ts c) eqn:E; cs; [right; lia|]. left. split; [|reflexivity]. eapply BRead; cbn; eauto.
    - destruct (can_write ts c) eqn:E; cs; [right; lia|]. left. split; [|reflexivity]. eapply BWrite; cbn; eauto.
    - right. cs. lia.
    - pose proof (walk_step q b f (can_read prefer ts) (bases m) c st (g_place _ _ _ G)) as S.
      pose proof (walk_cost_step (can_read prefer ts) q b f (bases m) c st D L (g_place _ _ _ G)) as C.
      destruct (walk _ _ _ _ _) as [[[c' st']|a]|]; cs.
      + right. lia.
      + right. lia.
      + left. split; [|reflexivity]. destruct S as (x & S1 & S2 & S3). eapply BWalk; cbn; eauto.
  Qed.

  Lemma can_write_false ts x : can_write ts x = false -> exists i t, nth_error ts i = Some t /\ In x (holds t).
  Proof.
    unfold can_write. induction ts as [|t ts IH]; cbn; [discriminate|]. destruct (in_dec Nat.eq_dec x (holds t)) as [I|N].
    - intros _. exists 0, t. auto.
    - intro H. destruct (IH H) as (i & u & Hi & Hu). exists (S i), u. auto.
  Qed.

  Lemma can_read_false ts x : can_read prefer ts x = false -> exists i t b f, nth_error ts i = Some t /\ where_ t = Waiting x b f.
  Proof.
    unfold can_read. destruct prefer; cbn; [|discriminate]. induction ts as [|t ts IH]; cbn; [discriminate|].
    unfold wants at 1. destruct (where_ t) as [|c b f|c b f|q b c st f] eqn:W; cbn;
      try (intro H; destruct (IH H) as (i & u & b' & f' & Hi & Hu); exists (S i), u, b', f'; auto; fail).
    destruct (Nat.eqb_spec c x) as [->|N]; cbn.
    - intros _. exists 0, t, b, f. auto.
    - intro H. destruct (IH H) as (i & u & b' & f' & Hi & Hu); exists (S i), u, b', f'; auto.
  Qed.

  (** Somebody can move unless all are done. *)
  Lemma somebody_moves m ts : inv ps (m, ts) -> ~ quiet (m, ts) ->
    exists i t, nth_error ts i = Some t /\ cost (snd (step prefer m ts t)) < cost t.
  Proof.
    intros V NQ. pose proof (inv_down _ V) as D. pose proof (fun x => inv_width _ x V) as L. cbn [fst] in D, L.
    assert (X : (exists i t, nth_error ts i = Some t /\ cost (snd (step prefer m ts t)) < cost t) \/
                forall i t, nth_error ts i = Some t -> blocked m ts t).
    { assert (Y : forall l, (forall t, In t l -> exists p, good m p t) ->
        (exists t, In t l /\ cost (snd (step prefer m ts t)) < cost t) \/ forall t, In t l -> blocked m ts t).
      { induction l as [|t l IH]; intro Hl; [right; intros t []|]. destruct (Hl t (or_introl eq_refl)) as [p G].
        destruct (step_cost m ts t p D L G) as [[B _]|C]; [|left; exists t; cbn; auto].
        destruct IH as [(u & I & C)|A]; [intros; apply Hl; right; assumption|left; exists u; cbn; auto|].
        right. intros u [<-|I]; auto. }
      destruct (Y ts) as [(t & I & C)|A].
      - intros t I. apply In_nth_error in I. destruct I as [i I]. destruct (v_good _ _ V i t I) as (p & _ & G). eauto.
      - left. apply In_nth_error in I. destruct I as [i I]. eauto.
      - right. intros i t Hi. apply A. eapply nth_error_In; eauto. }
    destruct X as [X|B]; [exact X|]. exfalso.
    (* nobody waits for an exclusive lock: descent on the rank *)
    assert (W : forall n x i t b f, rank x < n -> nth_error ts i = Some t -> where_ t = Waiting x b f -> False).
    { induction n as [|n IH]; intros x i t b f Hn Hi Ht; [lia|].
      destruct (B i t Hi) as [E1 E2|c j r E1 E2 E3|c b' f' E1 E2|q b' c st f' y E1 E2 E3]; try congruence.
      rewrite Ht in E1. injection E1 as -> -> ->. destruct (can_write_false _ _ E2) as (j & u & Hj & Hu).
      unfold holds in Hu. destruct (where_ u) as [|c0 b0 f0|c0 b0 f0|q b0 c0 st f0] eqn:Wu; try (destruct Hu; fail).
      destruct (B j u Hj) as [F1 F2|? ? ? F1 F2 F3|? ? ? F1 F2|q1 b1 c1 st1 f1 y F1 F2 F3]; try congruence.
      rewrite Wu in F1. injection F1 as -> -> -> -> ->. destruct (can_read_false _ _ F3) as (k & v & b2 & f2 & Hk & Hv).
      apply (IH y k v b2 f2); [|exact Hk|exact Hv].
      destruct (v_good _ _ V j u Hj) as (p & _ & G). pose proof (g_place _ _ _ G) as P. rewrite Wu in P. cbn in P.
      pose proof (enter_above _ _ _ _ _ _ _ D P F2 _ Hu). lia. }
    assert (NR : forall x, can_read prefer ts x = true).
    { intro x. destruct (can_read prefer ts x) eqn:E; [reflexivity|]. exfalso. destruct (can_read_false _ _ E) as (k & v & b2 & f2 & Hk & Hv).
      eapply (W (S (rank x)) x); eauto. }
    apply NQ. intros t I. cbn in I. apply In_nth_error in I. destruct I as [i Hi].
    destruct (B i t Hi) as [E1 E2|c j r E1 E2 E3|c b' f' E1 E2|q b' c st f' y E1 E2 E3]; [auto| | |].
    - rewrite NR in E3. discriminate.
    - exfalso. eapply (W (S (rank c)) c); eauto.
    - rewrite NR in E3. discriminate.
  Qed.

  Lemma total_put m ts i t t' m' : nth_error ts i = Some t -> total (m', put ts i t') + cost t = total (m, ts) + cost t'.
  Proof.
    unfold total. cbn [snd]. revert i. induction ts as [|x ts IH]; intros [|i] H; cbn in H; try discriminate.
    - injection H as ->. cbn [put map list_sum fold_right]. unfold list_sum. lia.
    - specialize (IH i H). cbn [put map list_sum fold_right] in *. unfold list_sum in *. lia.
  Qed.

  Lemma put_id {A} (l : list A) i x : nth_error l i = Some x -> put l i x = l.
  Proof. revert i. induction l as [|y l IH]; intros [|i] H; cbn in *; try discriminate; [congruence|]. rewrite IH; auto. Qed.

  Lemma turn_total c i : inv ps c -> turn prefer c i = c \/ total (turn prefer c i) < total c.
  Proof.
    intro V. destruct c as [m ts]. rewrite turn_eq. destruct (nth_error ts i) as [t|] eqn:E; [|auto].
    destruct (v_good _ _ V i t E) as (p & _ & G).
    destruct (step_cost m ts t p (inv_down _ V) (fun x => inv_width _ x V) G) as [[_ ->]|C]; cbn [fst snd].
    - left. f_equal. apply put_id. exact E.
    - right. pose proof (total_put m ts i t (snd (step prefer m ts t)) (fst (step prefer m ts t)) E). lia.
  Qed.

  Lemma exec_total sch : forall c, inv ps c -> total (exec prefer c sch) <= total c.
  Proof.
    induction sch as [|i sch IH]; intros c V; [cbn; lia|]. change (exec prefer c (i :: sch)) with (exec prefer (turn prefer c i) sch).
    destruct (turn_total c i V) as [->|L]; [apply IH; exact V|]. specialize (IH _ (inv_turn prefer ps c i V)). lia.
  Qed.

  Lemma round_total l c : inv ps c -> ~ quiet c -> round (length (snd c)) l -> total (exec prefer c l) < total c.
  Proof.
    intros V NQ RD. destruct c as [m ts]. destruct (somebody_moves _ _ V NQ) as (i & t & Hi & C).
    assert (Hin : In i l). { apply RD. cbn. apply nth_error_Some. congruence. }
    clear RD. revert Hin. induction l as [|j l IH]; [intros []|]. intro Hin.
    change (exec prefer (m, ts) (j :: l)) with (exec prefer (turn prefer (m, ts) j) l).
    pose proof (inv_turn prefer ps _ j V) as V'. destruct (turn_total (m, ts) j V) as [E|L].
    - rewrite E. destruct (Nat.eq_dec i j) as [<-|N].
      + exfalso. revert E. rewrite turn_eq, Hi. intro E. injection E as E1 E2.
        pose proof (total_put m ts i t (snd (step prefer m ts t)) m Hi) as T. rewrite E2 in T. lia.
      + apply IH. destruct Hin as [->|Hin]; [congruence|exact Hin].
    - pose proof (exec_total l _ V'). lia.
  Qed.

  Lemma exec_length sch c : length (snd (exec prefer c sch)) = length (snd c).
  Proof.
    revert c. induction sch as [|i sch IH]; intro c; [reflexivity|].
    change (exec prefer c (i :: sch)) with (exec prefer (turn prefer c i) sch). rewrite IH. destruct c as [m ts]. rewrite turn_eq.
    destruct (nth_error ts i); [apply put_length|reflexivity].
  Qed.

  Lemma quiet_dec c : quiet c \/ ~ quiet c.
  Proof.
    destruct c as [m ts]. unfold quiet. cbn. induction ts as [|t ts [IH|IH]].
    - left. intros t [].
    - assert (D : (where_ t = Idle /\ todo t = []) \/ ~ (where_ t = Idle /\ todo t = [])).
      { destruct (where_ t), (todo t); auto; right; intros [? ?]; discriminate. }
      destruct D as [D|D]; [left|right].
      + intros u [<-|I]; auto.
      + intro H. apply D. apply H. left. reflexivity.
    - right. intro H. apply IH. intros u I. apply H. right. exact I.
  Qed.

  Lemma quiet_stays c sch : quiet c -> exec prefer c sch = c.
  Proof.
    intro Q. induction sch as [|i sch IH]; [reflexivity|].
    change (exec prefer c (i :: sch)) with (exec prefer (turn prefer c i) sch). replace (turn prefer c i) with c; [exact IH|].
    destruct c as [m ts]. rewrite turn_eq. destruct (nth_error ts i) as [t|] eqn:E; [|reflexivity].
    destruct (Q t (nth_error_In _ _ E)) as [F1 F2]. unfold step. rewrite F1, F2. cbn. f_equal. symmetry. apply put_id. exact E.
  Qed.

  Lemma rounds rs : forall c, inv ps c -> Forall (round (length (snd c))) rs -> total c <= length rs ->
    quiet (exec prefer c (concat rs)).
  Proof.
    induction rs as [|l rs IH]; intros c V RD L.
    - cbn in *. destruct (quiet_dec c) as [Q|Q]; [exact Q|]. exfalso. destruct c as [m ts].
      destruct (somebody_moves _ _ V Q) as (i & t & Hi & C).
      pose proof (total_put m ts i t (snd (step prefer m ts t)) m Hi). lia.
    - destruct (quiet_dec c) as [Q|Q]; [rewrite (quiet_stays _ _ Q); exact Q|].
      inversion RD as [|x y R1 R2]. subst. cbn [concat]. rewrite exec_app.
      apply IH; [apply inv_exec; exact V|rewrite exec_length; exact R2|].
      pose proof (round_total l _ V Q R1). cbn in L. lia.
  Qed.
End Ranks.
