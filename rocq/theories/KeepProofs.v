(** Invariants of builders kept in variables. *)
From Coq Require Import List Bool Arith Lia.
From Verif Require Import KeepModel KeepSpec.
Import ListNotations.

Lemma replace_same {A} (l : list A) i x y : nth_error l i = Some y -> nth_error (replace l i x) i = Some x.
Proof. revert i. induction l as [|a l IH]; intros [|i] H; try discriminate; [reflexivity|]. exact (IH i H). Qed.
Lemma replace_other {A} (l : list A) i j x : i <> j -> nth_error (replace l i x) j = nth_error l j.
Proof.
  revert i j. induction l as [|a l IH]; intros [|i] [|j] N; try reflexivity; try contradiction. cbn. apply IH. congruence.
Qed.
Lemma replace_length {A} (l : list A) i x : length (replace l i x) = length l.
Proof. revert i. induction l as [|a l IH]; intros [|i]; try reflexivity. cbn. f_equal. apply IH. Qed.

Lemma index_some f l i : index f l = Some i -> exists x, nth_error l i = Some x /\ f x = true.
Proof.
  revert i. induction l as [|a l IH]; intros i H; [discriminate|]. cbn in H. destruct (f a) eqn:E.
  - injection H as <-. exists a. split; [reflexivity|exact E].
  - destruct (index f l) as [j|]; [|discriminate]. injection H as <-. exact (IH j eq_refl).
Qed.

(** The registry only grows. *)
Definition grows (w w' : world) : Prop := exists more, containers w' = containers w ++ more.
Lemma grows_refl w : grows w w.
Proof. exists []. symmetry. apply app_nil_r. Qed.
Lemma grows_containers w w' : containers w' = containers w -> grows w w'.
Proof. intro E. exists []. rewrite app_nil_r. exact E. Qed.
Lemma grows_trans a b c : grows a b -> grows b c -> grows a c.
Proof. intros (x & Hx) (y & Hy). exists (x ++ y). rewrite Hy, Hx, app_assoc. reflexivity. Qed.
Lemma grows_nth w w' c x : grows w w' -> nth_error (containers w) c = Some x -> nth_error (containers w') c = Some x.
Proof.
  intros (more & E) H. rewrite E, nth_error_app1; [exact H|]. apply nth_error_Some. congruence.
Qed.
Lemma grows_class w w' c : grows w w' -> is_class w c = true -> is_class w' c = true.
Proof.
  unfold is_class. intros G H. destruct (nth_error (containers w) c) as [x|] eqn:E; [|discriminate].
  rewrite (grows_nth _ _ _ _ G E). exact H.
Qed.
Lemma grows_path w w' c p : grows w w' -> in_path w c p -> in_path w' c p.
Proof.
  intros G. induction 1 as [|c x o p Hx Ho _ IH]; [constructor|]. eapply path_inside; [exact (grows_nth _ _ _ _ G Hx)|exact Ho|exact IH].
Qed.

(** What a new container is: it is there, in its place. *)
Definition child (w : world) (c o n : nat) (k : kind) : Prop :=
  exists x, nth_error (containers w) c = Some x /\ c_owner x = Some o /\ c_name x = n /\ c_kind x = k.

Lemma found_child w o k n c : find_container w o k n = Some c -> child w c o n k.
Proof.
  intro H. apply index_some in H. destruct H as (x & Hx & E). exists x. split; [exact Hx|].
  destruct (c_owner x) as [q|]; [|discriminate]. apply andb_true_iff in E. destruct E as [E1 E2]. apply andb_true_iff in E1. destruct E1 as [E1 E3].
  apply Nat.eqb_eq in E1, E2. subst. split; [reflexivity|]. split; [reflexivity|]. destruct (c_kind x), k; try discriminate; reflexivity.
Qed.
Lemma added_child w x o : c_owner x = Some o -> child (add_container w x) (length (containers w)) o (c_name x) (c_kind x).
Proof.
  intro H. exists x. split; [|tauto]. cbn. rewrite nth_error_app2 by lia. rewrite Nat.sub_diag. reflexivity.
Qed.
Lemma add_grows w x : grows w (add_container w x).
Proof. exists [x]. reflexivity. Qed.

Lemma create_namespace_ok w o n w' c : create_namespace w o n = (w', c) -> grows w w' /\ child w' c o n Ns.
Proof.
  unfold create_namespace. destruct (find_container w o Ns n) as [i|] eqn:E; intro H; injection H as <- <-.
  - split; [apply grows_refl|exact (found_child _ _ _ _ _ E)].
  - split; [apply add_grows|]. exact (added_child w (Container (Some o) n Ns None) o eq_refl).
Qed.
Lemma create_class_ok w o n t w' c : create_class w o n t = Some (w', c) -> grows w w' /\ child w' c o n Cl.
Proof.
  unfold create_class. destruct (find_container w o Cl n) as [i|] eqn:E.
  - intro H; injection H as <- <-. split; [apply grows_refl|exact (found_child _ _ _ _ _ E)].
  - destruct (find_type w t); [discriminate|]. intro H; injection H as <- <-. split; [apply add_grows|].
    exact (added_child w (Container (Some o) n Cl (Some t)) o eq_refl).
Qed.
Lemma child_class w c o n : child w c o n Cl -> is_class w c = true.
Proof. intros (x & Hx & _ & _ & Hk). unfold is_class. rewrite Hx, Hk. reflexivity. Qed.
Lemma child_path w c o n k p : child w c o n k -> in_path w o p -> in_path w c (p ++ [n]).
Proof. intros (x & Hx & Ho & <- & _) H. exact (path_inside w c x o p Hx Ho H). Qed.

(** Outer containers of a builder, itself first. *)
Definition levels (s : state) (b : builder) (l : list nat) : Prop :=
  exists r, stack_of s b = Some r /\ l = at_container b :: r.

(** Up to level [d] the static types tell classes truly. *)
Definition honest (d : nat) (w : world) (types : list kind) (l : list nat) : Prop :=
  forall i, i <= d -> nth_error types i = Some Cl -> exists c, nth_error l i = Some c /\ is_class w c = true.

Lemma honest_grows d w w' ts l : grows w w' -> honest d w ts l -> honest d w' ts l.
Proof. intros G H i Hi E. destruct (H i Hi E) as (c & A & B). exists c. split; [exact A|exact (grows_class _ _ _ G B)]. Qed.

(** Nothing but the registry and one stack is touched. *)
Definition same_but (k : nat) (s s' : state) : Prop :=
  grows (registry s) (registry s') /\ vars s' = vars s /\ owned s' = owned s /\ length (stacks s') = length (stacks s) /\
  (forall j, j <> k -> nth_error (stacks s') j = nth_error (stacks s) j).
Lemma same_but_refl k s : same_but k s s.
Proof. split; [apply grows_refl|]. tauto. Qed.
Lemma same_but_trans k a b c : same_but k a b -> same_but k b c -> same_but k a c.
Proof.
  intros (A1 & A2 & A3 & A5 & A4) (B1 & B2 & B3 & B5 & B4). split; [exact (grows_trans _ _ _ A1 B1)|]. split; [congruence|]. split; [congruence|].
  split; [congruence|]. intros j N. rewrite B4 by exact N. apply A4. exact N.
Qed.
Lemma same_but_registry k s w : grows (registry s) w -> same_but k s (with_registry s w).
Proof. intro G. split; [exact G|]. cbn. tauto. Qed.
Lemma same_but_stack s k l : same_but k s (with_stack s k l).
Proof.
  split; [apply grows_refl|]. split; [reflexivity|]. split; [reflexivity|]. split; [apply replace_length|].
  intros j N. cbn. apply replace_other. congruence.
Qed.

Lemma stack_of_set s b l r w : stack_of s b = Some r -> stack_of (with_registry (with_stack s (stack b) (Some l)) w) b = Some l.
Proof.
  unfold stack_of. intro H. destruct (nth_error (stacks s) (stack b)) as [[q|]|] eqn:E; try discriminate.
  cbn. rewrite (replace_same _ _ _ _ E). reflexivity.
Qed.

(** How many levels a call goes in or out. *)
Definition after (o : op) (d : nat) : option nat :=
  match o with Namespace _ | Class _ _ => Some (S d) | End => match d with 0 => None | S d' => Some d' end | _ => Some d end.
Lemma depth_cons o ops d : depth (o :: ops) d = match after o d with Some d' => depth ops d' | None => None end.
Proof. destruct o; try reflexivity. destruct d; reflexivity. Qed.

(** One call on a builder that stands [d] levels inside of [base]. *)
Lemma apply_ok s b o d d1 pre base : after o d = Some d1 -> levels s b (pre ++ base) -> length pre = d -> base <> [] ->
  honest d (registry s) (static b) (pre ++ base) ->
  match apply s b o with
  | Fine s' b' => same_but (stack b) s s' /\ stack b' = stack b /\
      (exists pre', levels s' b' (pre' ++ base) /\ length pre' = d1 /\ honest d1 (registry s') (static b') (pre' ++ base)) /\
      length (static b') + d = length (static b) + d1 /\
      (forall n, skipn (d1 + n) (static b') = skipn (d + n) (static b)) /\
      (forall n, o = Namespace n -> child (registry s') (at_container b') (at_container b) n Ns) /\
      (forall n t, o = Class n t -> child (registry s') (at_container b') (at_container b) n Cl) /\
      (plain o -> at_container b' = at_container b /\ static b' = static b)
  | Threw s' => same_but (stack b) s s' /\ exists more, levels s' b (more ++ pre ++ base)
  | Undefined => False
  | Refused => True
  end.
Proof.
  intros Ha (r & Hr & El) Lp Nb Ho. destruct o as [n|n t| |n|n|n|t]; cbn [apply]; cbn [after] in Ha.
  - injection Ha as <-. destruct (static b) as [|[] ts] eqn:Es; try exact I.
    all: rewrite Hr; destruct (create_namespace (registry s) (at_container b) n) as [w c] eqn:Ec;
      destruct (create_namespace_ok _ _ _ _ _ Ec) as [G Ch];
      (split; [exact (same_but_trans _ _ _ _ (same_but_stack s (stack b) (Some (at_container b :: r))) (same_but_registry _ (with_stack s (stack b) (Some (at_container b :: r))) w G))|]);
      (split; [reflexivity|]); (split; [exists (c :: pre)|]).
    1,3: split; [exists (at_container b :: r); split; [exact (stack_of_set s b _ r w Hr)|cbn [app at_container]; rewrite El; reflexivity]|];
         split; [cbn; congruence|]; cbn [static registry with_registry];
         intros [|i] Hi E; cbn in E; [discriminate|]; destruct (Ho i ltac:(lia)) as (c0 & A & B); [try (destruct i; discriminate); exact E|];
         exists c0; split; [exact A|exact (grows_class _ _ _ G B)].
    all: cbn [static length]; split; [lia|]; (split; [intro k; rewrite Nat.add_succ_l; reflexivity|]);
      (split; [intros n0 E; injection E as <-; exact Ch|]); (split; [discriminate|intros []]).
  - injection Ha as <-. rewrite Hr. destruct (create_class (registry s) (at_container b) n t) as [[w c]|] eqn:Ec.
    + destruct (create_class_ok _ _ _ _ _ _ Ec) as [G Ch].
      split; [exact (same_but_trans _ _ _ _ (same_but_stack s (stack b) (Some (at_container b :: r))) (same_but_registry _ (with_stack s (stack b) (Some (at_container b :: r))) w G))|].
      split; [reflexivity|]. split.
      * exists (c :: pre). split; [exists (at_container b :: r); split; [exact (stack_of_set s b _ r w Hr)|cbn [app at_container]; rewrite El; reflexivity]|].
        split; [cbn; congruence|]. cbn [static registry with_registry].
        intros [|i] Hi E; cbn in E.
        -- exists c. split; [reflexivity|exact (child_class _ _ _ _ Ch)].
        -- destruct (Ho i ltac:(lia) E) as (c0 & A & B). exists c0. split; [exact A|exact (grows_class _ _ _ G B)].
      * cbn [static length]. split; [lia|]. split; [intro k; rewrite Nat.add_succ_l; reflexivity|]. split; [discriminate|].
        split; [intros n0 t0 E; injection E as <- <-; exact Ch|intros []].
    + split; [apply same_but_stack|]. exists [at_container b]. exists (at_container b :: r). split; [|cbn; rewrite El; reflexivity].
      exact (stack_of_set s b _ r (registry s) Hr).
  - destruct d as [|d]; [discriminate|]. injection Ha as <-. destruct (static b) as [|k ts] eqn:Es; [exact I|]. rewrite Hr.
    destruct pre as [|c0 pre]; [discriminate|]. cbn in El. injection El as E0 El. cbn in Lp. injection Lp as Lp.
    destruct r as [|c r]; [destruct pre; [cbn in El; subst; contradiction|discriminate]|].
    split; [apply same_but_stack|]. split; [reflexivity|]. split.
    + exists pre. split; [exists r; split; [exact (stack_of_set s b r _ (registry s) Hr)|exact El]|]. split; [exact Lp|].
      cbn [static registry with_stack]. intros i Hi E. exact (Ho (S i) ltac:(lia) E).
    + cbn [static length]. split; [lia|]. split; [intro m; reflexivity|]. split; [discriminate|]. split; [discriminate|intros []].
  - injection Ha as <-. split; [apply same_but_registry; apply grows_containers; reflexivity|]. split; [reflexivity|]. split.
    + exists pre. split; [exists r; split; [exact Hr|exact El]|]. split; [exact Lp|]. exact Ho.
    + repeat split; intros; discriminate.
  - injection Ha as <-. split; [apply same_but_registry; apply grows_containers; reflexivity|]. split; [reflexivity|]. split.
    + exists pre. split; [exists r; split; [exact Hr|exact El]|]. split; [exact Lp|]. exact Ho.
    + repeat split; intros; discriminate.
  - injection Ha as <-. split; [apply same_but_registry; apply grows_containers; reflexivity|]. split; [reflexivity|]. split.
    + exists pre. split; [exists r; split; [exact Hr|exact El]|]. split; [exact Lp|]. exact Ho.
    + repeat split; intros; discriminate.
  - injection Ha as <-. destruct (static b) as [|[] ts] eqn:Es; try exact I.
    destruct (Ho 0 ltac:(lia) eq_refl) as (c & A & B). rewrite El in A. cbn in A. injection A as Ea. rewrite <- Ea in B. rewrite B.
    split; [apply same_but_registry; apply grows_containers; reflexivity|]. split; [reflexivity|]. split.
    + exists pre. split; [exists r; split; [exact Hr|exact El]|]. split; [exact Lp|]. rewrite Es. exact Ho.
    + rewrite Es. repeat split; intros; try discriminate; reflexivity.
Qed.

Lemma skipn_0 {A} (l l' : list A) d d' : (forall n, skipn (d' + n) l' = skipn (d + n) l) -> skipn d' l' = skipn d l.
Proof. intro H. pose proof (H 0) as E. rewrite !Nat.add_0_r in E. exact E. Qed.

(** A chain of calls. *)
Lemma chain_ok ops : forall s b d d1 pre base, depth ops d = Some d1 -> levels s b (pre ++ base) -> length pre = d -> base <> [] ->
  honest d (registry s) (static b) (pre ++ base) ->
  match chain s b ops with
  | Fine s' b' => same_but (stack b) s s' /\ stack b' = stack b /\
      (exists pre', levels s' b' (pre' ++ base) /\ length pre' = d1 /\ honest d1 (registry s') (static b') (pre' ++ base)) /\
      (forall n, skipn (d1 + n) (static b') = skipn (d + n) (static b))
  | Threw s' => same_but (stack b) s s' /\ exists more b', stack b' = stack b /\ levels s' b' (more ++ base)
  | Undefined => False
  | Refused => True
  end.
Proof.
  induction ops as [|o ops IH]; intros s b d d1 pre base Hd Hl Lp Nb Ho.
  - cbn in *. injection Hd as <-. split; [apply same_but_refl|]. split; [reflexivity|]. split; [exists pre; tauto|]. reflexivity.
  - rewrite depth_cons in Hd. destruct (after o d) as [d2|] eqn:Ea; [|discriminate]. cbn [chain].
    pose proof (apply_ok s b o d d2 pre base Ea Hl Lp Nb Ho) as HA. destruct (apply s b o) as [s1 b1|s1| |]; try exact HA.
    + destruct HA as (S1 & K1 & (pre1 & L1 & Len1 & H1) & _ & Sk & _).
      pose proof (IH s1 b1 d2 d1 pre1 base Hd L1 Len1 Nb H1) as HC. rewrite K1 in HC.
      destruct (chain s1 b1 ops) as [s2 b2|s2| |]; try exact HC.
      * destruct HC as (S2 & K2 & P2 & Sk2). split; [exact (same_but_trans _ _ _ _ S1 S2)|]. split; [exact K2|]. split; [exact P2|].
        intro n. rewrite Sk2. apply Sk.
      * destruct HC as (S2 & P2). split; [exact (same_but_trans _ _ _ _ S1 S2)|exact P2].
    + destruct HA as (S1 & more & L). split; [exact S1|]. exists (more ++ pre), b. split; [reflexivity|]. rewrite <- app_assoc. exact L.
Qed.

(** ** Closed programs *)

(** Every variable points to a stack that exists, and a variable of a class stands in a class. *)
Definition good (s : state) : Prop :=
  forall v b, vars s v = Some b -> stack_of s b <> None /\ (forall ts, static b = Cl :: ts -> is_class (registry s) (at_container b) = true).

Lemma good_same k s s' : same_but k s s' -> (exists l, nth_error (stacks s') k = Some (Some l)) -> good s -> good s'.
Proof.
  intros (G & V & _ & _ & O) (l & K) Hg v b Hv. rewrite V in Hv. destruct (Hg v b Hv) as [A B]. split.
  - unfold stack_of in *. destruct (Nat.eq_dec (stack b) k) as [->|N]; [rewrite K; discriminate|]. rewrite O by exact N. exact A.
  - intros ts E. exact (grows_class _ _ _ G (B ts E)).
Qed.
Lemma good_var s v b : good s -> stack_of s b <> None -> (forall ts, static b = Cl :: ts -> is_class (registry s) (at_container b) = true) ->
  good (with_var s v b).
Proof.
  intros Hg A B x c Hx. cbn in Hx. destruct (x =? v); [|exact (Hg x c Hx)]. injection Hx as <-. split; [exact A|exact B].
Qed.
Lemma levels_stack s b l : levels s b l -> exists r, nth_error (stacks s) (stack b) = Some (Some r).
Proof.
  intros (r & H & _). unfold stack_of in H. destruct (nth_error (stacks s) (stack b)) as [[q|]|]; try discriminate. exists q. reflexivity.
Qed.
Lemma stack_alive s b : stack_of s b <> None -> exists l, levels s b l.
Proof. intro H. destruct (stack_of s b) as [r|] eqn:E; [|contradiction]. exists (at_container b :: r), r. split; [exact E|reflexivity]. Qed.
Lemma levels_stack_of s b l : levels s b l -> stack_of s b <> None.
Proof. intros (r & H & _). rewrite H. discriminate. Qed.
Lemma stack_of_var s v b c : stack_of (with_var s v b) c = stack_of s c.
Proof. reflexivity. Qed.

(** The start of a balanced chain on a good variable. *)
Lemma good_start s v b : good s -> vars s v = Some b -> exists base, levels s b base /\ base <> [] /\ honest 0 (registry s) (static b) ([] ++ base).
Proof.
  intros Hg Hv. destruct (Hg v b Hv) as [A B]. destruct (stack_alive s b A) as (l & Hl). exists l. split; [exact Hl|].
  destruct Hl as (r & _ & ->). split; [discriminate|]. intros i Hi E. assert (i = 0) by lia. subst i.
  exists (at_container b). split; [reflexivity|]. destruct (static b) as [|k ts] eqn:Es; [discriminate|]. cbn in E. injection E as ->.
  exact (B ts eq_refl).
Qed.
Lemma good_end w b base pre d s : levels s b (pre ++ base) -> honest d w (static b) (pre ++ base) ->
  forall ts, static b = Cl :: ts -> is_class w (at_container b) = true.
Proof.
  intros (r & _ & El) H ts Es. destruct (H 0 ltac:(lia)) as (c & A & B); [rewrite Es; reflexivity|]. rewrite El in A. cbn in A. injection A as Ea. rewrite Ea. exact B.
Qed.

(** What is called first on a variable leaves it in a good state. *)
Lemma first_static s b o b' s' ts : after o 0 <> None -> apply s b o = Fine s' b' -> static b = Cl :: ts ->
  exists ts', static b' = Cl :: ts'.
Proof.
  intros Ha E Es. destruct o; cbn [apply] in E; rewrite ?Es in E; try discriminate.
  - destruct (stack_of s b); [|discriminate]. destruct (create_class _ _ _ _) as [[w c]|]; [|discriminate]. injection E as <- <-. eexists. reflexivity.
  - cbn in Ha. contradiction.
  - injection E as <- <-. eexists. exact Es.
  - injection E as <- <-. eexists. reflexivity.
  - injection E as <- <-. eexists. exact Es.
  - destruct (is_class _ _); [|discriminate]. injection E as <- <-. eexists. exact Es.
Qed.

Lemma execute_good s x : good s -> closed x ->
  match execute s x with
  | Fine s' _ | Threw s' => good s' /\ grows (registry s) (registry s')
  | Undefined => False
  | Refused => True
  end.
Proof.
  intros Hg Hc. destruct x as [g|v ops d|ops [d|]|v]; cbn [closed] in Hc; try contradiction; cbn [execute].
  - destruct (known s (Some g)); [exact I|]. split; [|apply grows_refl]. intros v b Hv. cbn in Hv. destruct (v =? g).
    + injection Hv as <-. split; [|discriminate]. unfold stack_of. cbn. rewrite nth_error_app2 by lia. rewrite Nat.sub_diag. discriminate.
    + destruct (Hg v b Hv) as [A B]. split; [|exact B]. unfold stack_of in *. cbn.
      destruct (nth_error (stacks s) (stack b)) eqn:E; [|contradiction]. rewrite nth_error_app1 by (apply nth_error_Some; congruence). rewrite E. exact A.
  - destruct (vars s v) as [b|] eqn:Hv; [|exact I]. destruct (known s d); [exact I|].
    destruct (good_start s v b Hg Hv) as (base & L & Nb & Ho). destruct ops as [|o rest].
    + split; [|destruct d; apply grows_refl]. destruct d as [d|]; [|exact Hg]. destruct (Hg v b Hv) as [A B]. cbn [keep]. apply good_var; assumption.
    + unfold balanced in Hc. rewrite depth_cons in Hc. destruct (after o 0) as [d1|] eqn:Ea; [|discriminate].
      pose proof (apply_ok s b o 0 d1 [] base Ea L eq_refl Nb Ho) as HA. destruct (apply s b o) as [s1 b1|s1| |] eqn:E1; try exact HA.
      * destruct HA as (S1 & K1 & (pre1 & L1 & Len1 & H1) & _).
        set (b0 := Builder (at_container b1) (item b1) (stack b) (static b)).
        assert (G1 : good s1) by (apply (good_same _ _ _ S1); [rewrite <- K1; exact (levels_stack _ _ _ L1)|exact Hg]).
        assert (G2 : good (with_var s1 v b0)).
        { apply good_var; [exact G1| |].
          - unfold stack_of, b0. cbn [stack]. rewrite <- K1. exact (levels_stack_of _ _ _ L1).
          - intros ts Es. unfold b0 in *. cbn [static at_container] in *.
            destruct (first_static s b o b1 s1 ts) as (ts' & Es'); [congruence|exact E1|exact Es|]. exact (good_end _ _ _ _ _ _ L1 H1 ts' Es'). }
        pose proof (chain_ok rest (with_var s1 v b0) b1 d1 0 pre1 base Hc L1 Len1 Nb H1) as HC.
        destruct (chain (with_var s1 v b0) b1 rest) as [s2 b2|s2| |]; try exact HC.
        -- destruct HC as (S2 & K2 & (pre2 & L2 & Len2 & H2) & _).
           assert (G3 : good s2) by (apply (good_same _ _ _ S2); [rewrite <- K2; exact (levels_stack _ _ _ L2)|exact G2]).
           split.
           ++ destruct d as [d|]; [|exact G3]. cbn [keep]. apply good_var; [exact G3|exact (levels_stack_of _ _ _ L2)|].
              intros ts Es. exact (good_end _ _ _ _ _ _ L2 H2 ts Es).
           ++ destruct S1 as (R1 & _). destruct S2 as (R2 & _). cbn in R2. destruct d; cbn; exact (grows_trans _ _ _ R1 R2).
        -- destruct HC as (S2 & more & b' & K2 & L2). split.
           ++ apply (good_same _ _ _ S2); [rewrite <- K2; exact (levels_stack _ _ _ L2)|exact G2].
           ++ destruct S1 as (R1 & _). destruct S2 as (R2 & _). exact (grows_trans _ _ _ R1 R2).
      * destruct HA as (S1 & more & L1). split; [|apply S1].
        apply (good_same _ _ _ S1); [exact (levels_stack _ _ _ L1)|exact Hg].
  - cbn [known].
    set (b := global_builder s). set (s0 := new_stack s).
    assert (St : stack_of s0 b = Some []).
    { unfold stack_of, b, s0. cbn. rewrite nth_error_app2 by lia. rewrite Nat.sub_diag. reflexivity. }
    assert (Hne : forall v c, vars s v = Some c -> stack c < length (stacks s)).
    { intros v c Hv. destruct (Hg v c Hv) as [A _]. unfold stack_of in A. apply nth_error_Some. destruct (nth_error (stacks s) (stack c)); [discriminate|contradiction]. }
    assert (Hgs : forall s1, same_but (stack b) s0 s1 -> good (with_stack s1 (length (stacks s)) None)).
    { intros s1 (G & V & _ & _ & O) v c Hv. cbn in Hv. rewrite V in Hv. cbn in Hv. destruct (Hg v c Hv) as [A B]. pose proof (Hne v c Hv) as Ne. split.
      - unfold stack_of in *. cbn. rewrite replace_other by lia. rewrite O by (cbn; lia). cbn. rewrite nth_error_app1 by exact Ne. exact A.
      - intros ts E. exact (grows_class _ _ _ G (B ts E)). }
    pose proof (chain_ok ops s0 b 0 0 [] [0] Hc) as HC. unfold levels in HC at 1.
    assert (L0 : exists r, stack_of s0 b = Some r /\ [] ++ [0] = at_container b :: r) by (exists []; split; [exact St|reflexivity]).
    specialize (HC L0 eq_refl ltac:(discriminate)).
    assert (H0 : honest 0 (registry s0) (static b) ([] ++ [0])) by (intros i Hi E; cbn in E; destruct i; discriminate).
    specialize (HC H0). destruct (chain s0 b ops) as [s1 b1|s1| |]; try exact HC.
    + destruct HC as (S1 & _). split; [exact (Hgs s1 S1)|]. cbn. apply S1.
    + destruct HC as (S1 & _). split; [exact (Hgs s1 S1)|]. cbn. apply S1.
Qed.

Lemma program_good l : forall s, good s -> Forall closed l ->
  match program s l with Fine s' _ | Threw s' => good s' /\ grows (registry s) (registry s') | Undefined => False | Refused => True end.
Proof.
  induction l as [|x l IH]; intros s Hg Hl; [split; [exact Hg|apply grows_refl]|]. inversion Hl as [|? ? Hx Hr]; subst. cbn [program].
  pose proof (execute_good s x Hg Hx) as HE. destruct (execute s x) as [s1 u|s1| |]; try exact HE; destruct HE as [G1 R1].
  - pose proof (IH s1 G1 Hr) as H. destruct (program s1 l); try exact H; split; try apply H; exact (grows_trans _ _ _ R1 (proj2 H)).
  - pose proof (IH s1 G1 Hr) as H. destruct (program s1 l); try exact H; split; try apply H; exact (grows_trans _ _ _ R1 (proj2 H)).
Qed.
