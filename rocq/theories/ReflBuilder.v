(** The definition builder and trees of definitions (C31). *)
From Coq Require Import List Bool Arith String Lia.
From Verif Require Import ListsModel ReflModel ReflSpec.
Import ListNotations.
Local Open Scope list_scope.

Lemma bind_bind {A B C} (o : out A) (f : world -> A -> out B) (g : world -> B -> out C) :
  bind (bind o f) g = bind o (fun w x => bind (f w x) g).
Proof. destruct o; reflexivity. Qed.
Lemma bind_ext {A B} (o : out A) (f g : world -> A -> out B) : (forall w x, f w x = g w x) -> bind o f = bind o g.
Proof. intro H. destruct o; cbn; auto. Qed.

Section Tree.
  Variables (run : world -> nat -> prog -> out unit) (k : nat) (okbase : nat -> nat -> bool) (use : world -> prog -> out unit).
  Notation step := (step run k okbase use).
  Notation exec_with := (exec_with run k okbase use).
  Notation means := (means run k okbase use).
  Notation means_all := (means_all run k okbase use).

  (** A definition that opens or closes nothing does not look at the stack and stays in its container. *)
  Lemma leaf_step c w cur here s : is_leaf c = true ->
    step w (Builder cur here s) c = bind (step w (Builder cur here []) c) (fun w b => Ret w (Builder (b_item b) here s)).
  Proof.
    assert (HS : forall A (o : out A), skip (Builder cur here s) o =
      bind (skip (Builder cur here []) o) (fun w b => Ret w (Builder (b_item b) here s))).
    { intros A o. unfold skip. rewrite bind_bind. apply bind_ext. reflexivity. }
    assert (HC : forall a A (o : out A), on_container w a (skip (Builder cur here s) o) =
      bind (on_container w a (skip (Builder cur here []) o)) (fun w b => Ret w (Builder (b_item b) here s))).
    { intros a A o. unfold on_container. destruct (category w a) as [ct|]; [|reflexivity]. destruct (is_container ct); [apply HS|reflexivity]. }
    assert (HK : forall a A (o : out A), on_class w a (skip (Builder cur here s) o) =
      bind (on_class w a (skip (Builder cur here []) o)) (fun w b => Ret w (Builder (b_item b) here s))).
    { intros a A o. unfold on_class. destruct (category w a) as [[]|]; try reflexivity. apply HS. }
    assert (HI : forall a A (o : out A), on_item w a (skip (Builder cur here s) o) =
      bind (on_item w a (skip (Builder cur here []) o)) (fun w b => Ret w (Builder (b_item b) here s))).
    { intros a A o. unfold on_item. destruct (category w a); [apply HS|reflexivity]. }
    assert (HE : forall a A (o : out A), on_enum w a (skip (Builder cur here s) o) =
      bind (on_enum w a (skip (Builder cur here []) o)) (fun w b => Ret w (Builder (b_item b) here s))).
    { intros a A o. unfold on_enum. destruct (category w a) as [[]|]; try reflexivity. apply HS. }
    destruct c; intro Hl; try discriminate; cbn [ReflModel.step b_item b_cont b_stack];
      try (apply HC); try (apply HK); try (apply HI); try (apply HE).
    - destruct cur as [a|]; [|reflexivity]. destruct (get w a) as [it|]; [|reflexivity].
      destruct (_ && holds w _); [reflexivity|]. destruct (nv_set _ _ _); reflexivity.
    - destruct here; [apply HS|reflexivity].
    - destruct here as [a|]; [|destruct l; reflexivity]. destruct (category w a) as [[]|]; try reflexivity. apply HS.
    - destruct here as [a|]; [|reflexivity]. rewrite bind_bind. apply bind_ext. reflexivity.
    - destruct cur as [a|]; [|reflexivity]. destruct (get w a) as [it|]; [|reflexivity]. destruct (cat_eqb _ _); [|reflexivity].
      destruct (_ && holds w _); [reflexivity|]. destruct (nv_set _ _ _); reflexivity.
    - destruct here as [a|]; [|reflexivity]. destruct (category w a) as [[]|]; try reflexivity. apply HS.
    - destruct here as [a|]; [|reflexivity]. apply HS.
    - destruct here as [a|]; [|destruct (n =? "")%string; reflexivity]. apply HS.
    - reflexivity.
    - destruct (use w p); try reflexivity. destruct catch; reflexivity.
    - unfold on_class. destruct (category w a) as [[]|]; try reflexivity. destruct (category w b) as [[]|]; try reflexivity. apply HS.
    - destruct c; try reflexivity; apply HC.
    - unfold on_class. destruct (category w a) as [[]|]; try reflexivity. destruct (category w b) as [[]|]; try reflexivity. apply HS.
  Qed.

  Lemma ns_step n w cur here s :
    step w (Builder cur here s) (KNamespace n) =
    bind (step w (Builder cur here []) (KNamespace n)) (fun w b => Ret w (Builder (b_item b) (b_cont b) (here :: s))).
  Proof.
    cbn [ReflModel.step b_item b_cont b_stack]. destruct here as [a|]; [|reflexivity]. destruct (category w a) as [[]|]; try reflexivity.
    rewrite bind_bind. apply bind_ext. reflexivity.
  Qed.
  Lemma cl_step n t d c m w cur here s :
    step w (Builder cur here s) (KClass n t d c m) =
    bind (step w (Builder cur here []) (KClass n t d c m)) (fun w b => Ret w (Builder (b_item b) (b_cont b) (here :: s))).
  Proof.
    cbn [ReflModel.step b_item b_cont b_stack]. destruct here as [a|]; [|reflexivity].
    rewrite bind_bind. apply bind_ext. intros w1 [x|].
    - rewrite bind_bind. apply bind_ext. reflexivity.
    - destruct (d || c || m); reflexivity.
  Qed.

  Lemma exec_app p q w b : exec_with w b (p ++ q) = bind (exec_with w b p) (fun w b => exec_with w b q).
  Proof.
    revert w b. induction p as [|c p IH]; intros w b; [reflexivity|]. cbn [app ReflModel.exec_with].
    rewrite bind_bind. apply bind_ext. intros w1 b1. apply IH.
  Qed.

  Section TreeInd.
    Variable P : tree -> Prop.
    Hypothesis HL : forall c, P (Leaf c).
    Hypothesis HN : forall n l, Forall P l -> P (Ns n l).
    Hypothesis HC : forall n t d c m l, Forall P l -> P (Cl n t d c m l).
    Fixpoint tree_ind' (x : tree) : P x :=
      let all := fix all (l : list tree) : Forall P l :=
        match l with [] => Forall_nil _ | y :: l' => Forall_cons y (tree_ind' y) (all l') end in
      match x with
      | Leaf c => HL c
      | Ns n l => HN n l (all l)
      | Cl n t d c m l => HC n t d c m l (all l)
      end.
  End TreeInd.

  Lemma means_ns n body w cur here : means (Ns n body) w cur here =
    bind (step w (Builder cur here []) (KNamespace n)) (fun w b =>
      bind (means_all (b_cont b) body w (b_item b)) (fun w _ => Ret w here)).
  Proof.
    cbn [ReflSpec.means]. apply bind_ext. intros w1 b1. f_equal. generalize (b_item b1) as cur1. revert w1.
    induction body as [|x body IH]; intros w1 cur1; [reflexivity|]. cbn. apply bind_ext. intros w2 cur2. apply IH.
  Qed.
  Lemma means_cl n t d c m body w cur here : means (Cl n t d c m body) w cur here =
    bind (step w (Builder cur here []) (KClass n t d c m)) (fun w b =>
      bind (means_all (b_cont b) body w (b_item b)) (fun w _ => Ret w here)).
  Proof.
    cbn [ReflSpec.means]. apply bind_ext. intros w1 b1. f_equal. generalize (b_item b1) as cur1. revert w1.
    induction body as [|x body IH]; intros w1 cur1; [reflexivity|]. cbn. apply bind_ext. intros w2 cur2. apply IH.
  Qed.

  Definition exec_tree_at (x : tree) : Prop := leaves x = true -> forall w cur here s q,
    exec_with w (Builder cur here s) (flat x ++ q) = bind (means x w cur here) (fun w cur' => exec_with w (Builder cur' here s) q).
  Lemma exec_trees l : Forall exec_tree_at l -> forallb leaves l = true -> forall w cur here s q,
    exec_with w (Builder cur here s) (flat_map flat l ++ q) =
    bind (means_all here l w cur) (fun w cur' => exec_with w (Builder cur' here s) q).
  Proof.
    induction 1 as [|x l Hx _ IH]; intros Hl w cur here s q; [reflexivity|]. cbn in Hl. apply andb_true_iff in Hl as [Hl1 Hl2].
    cbn [flat_map]. rewrite <- app_assoc, (Hx Hl1). cbn [ReflSpec.means_all]. rewrite bind_bind. apply bind_ext.
    intros w1 cur1. apply IH. exact Hl2.
  Qed.
  Lemma exec_tree x : exec_tree_at x.
  Proof.
    induction x as [c|n l HF|n t d c m l HF] using tree_ind'; intros Hl w cur here s q.
    - cbn [flat ReflSpec.means app ReflModel.exec_with]. rewrite (leaf_step c w cur here s Hl), !bind_bind. reflexivity.
    - cbn [flat]. rewrite means_ns. cbn [app ReflModel.exec_with]. rewrite ns_step, !bind_bind. apply bind_ext. intros w1 b1. cbn [bind].
      rewrite <- app_assoc, (exec_trees l HF Hl), bind_bind. apply bind_ext. reflexivity.
    - cbn [flat]. rewrite means_cl. cbn [app ReflModel.exec_with]. rewrite cl_step, !bind_bind. apply bind_ext. intros w1 b1. cbn [bind].
      rewrite <- app_assoc, (exec_trees l HF Hl), bind_bind. apply bind_ext. reflexivity.
  Qed.
  Lemma exec_all l w cur here s : forallb leaves l = true ->
    exec_with w (Builder cur here s) (flat_map flat l) = bind (means_all here l w cur) (fun w cur' => Ret w (Builder cur' here s)).
  Proof.
    intro Hl. rewrite <- (app_nil_r (flat_map flat l)). rewrite exec_trees; [reflexivity| |exact Hl].
    apply Forall_forall. intros x _. apply exec_tree.
  Qed.

  Lemma exec_with_builder p w b w' b' : well_nested p -> exec_with w b p = Ret w' b' -> b_cont b' = b_cont b /\ b_stack b' = b_stack b.
  Proof.
    assert (HG : forall p d0 d1 w b w' b', depth p d0 = Some d1 -> exec_with w b p = Ret w' b' ->
      forall pre base, List.length pre = d0 -> b_cont b :: b_stack b = pre ++ base ->
      exists pre', List.length pre' = d1 /\ (exists e, b_cont b' = e /\ b_cont b' :: b_stack b' = pre' ++ base)).
    { clear. induction p as [|c p IH]; intros d0 d1 w b w' b' Hd E pre base Hlen Hpre.
      - cbn in *. injection Hd as <-. injection E as <- <-. exists pre. split; [exact Hlen|]. eauto.
      - cbn [ReflModel.exec_with] in E. destruct b as [cur here s]. cbn [b_cont b_stack] in Hpre.
        destruct (is_leaf c) eqn:El.
        + rewrite (leaf_step c w cur here s El), bind_bind in E.
          destruct (step w (Builder cur here []) c) as [w1 b1|e w1| | | |]; try discriminate. cbn [bind] in E.
          assert (Hd' : depth p d0 = Some d1) by (destruct c; try discriminate; exact Hd).
          eapply IH; [exact Hd'|exact E|exact Hlen|exact Hpre].
        + destruct c; try discriminate.
          * rewrite ns_step, bind_bind in E. destruct (step w (Builder cur here []) (KNamespace n)) as [w1 b1|e w1| | | |]; try discriminate. cbn [bind] in E.
            eapply (IH (S d0) d1 _ _ _ _ Hd E (b_cont b1 :: pre) base); [cbn; congruence|]. cbn. rewrite Hpre. reflexivity.
          * rewrite cl_step, bind_bind in E. destruct (step w (Builder cur here []) _) as [w1 b1|e w1| | | |]; try discriminate. cbn [bind] in E.
            eapply (IH (S d0) d1 _ _ _ _ Hd E (b_cont b1 :: pre) base); [cbn; congruence|]. cbn. rewrite Hpre. reflexivity.
          * cbn in Hd. destruct d0 as [|d0]; [discriminate|]. cbn [ReflModel.step b_stack] in E. destruct s as [|o s]; [discriminate|]. cbn [bind] in E.
            destruct pre as [|x pre]; [discriminate|]. cbn in Hpre, Hlen. injection Hpre as <- Hpre. injection Hlen as Hlen.
            eapply (IH d0 d1 _ _ _ _ Hd E pre base Hlen). exact Hpre. }
    intros Hd E. destruct (HG p 0 0 w b w' b' Hd E [] (b_cont b :: b_stack b) eq_refl eq_refl) as (pre' & Hl & e & _ & HE).
    destruct pre'; [|discriminate]. cbn in HE. injection HE as -> ->. auto.
  Qed.
End Tree.

(** ** Every well-nested program is a list of trees *)

Fixpoint joined_with (l : list (list tree)) : prog :=
  match l with
  | [] => []
  | [x] => flat_map flat x
  | x :: l' => flat_map flat x ++ KEnd :: joined_with l'
  end.

Lemma parse p : forall d, depth p d = Some 0 ->
  exists l ls, List.length ls = d /\ forallb leaves l = true /\ forallb (forallb leaves) ls = true /\ p = joined_with (l :: ls).
Proof.
  assert (HJ : forall x l ls, joined_with ((x :: l) :: ls) = flat x ++ joined_with (l :: ls)).
  { intros x l [|y ls]; cbn; [reflexivity|]. rewrite <- app_assoc. reflexivity. }
  induction p as [|c p IH]; intros d Hd.
  - cbn in Hd. injection Hd as ->. exists [], []. auto.
  - assert (HLeaf : is_leaf c = true -> depth p d = Some 0 -> exists l ls, List.length ls = d /\ forallb leaves l = true /\
      forallb (forallb leaves) ls = true /\ c :: p = joined_with (l :: ls)).
    { intros Hc Hp. destruct (IH d Hp) as (l & ls & H1 & H2 & H3 & ->). exists (Leaf c :: l), ls. rewrite HJ.
      split; [exact H1|]. split; [cbn; rewrite Hc, H2; reflexivity|]. auto. }
    destruct c; try (apply HLeaf; [reflexivity|exact Hd]); cbn in Hd.
    + destruct (IH (S d) Hd) as (l & [|l2 ls] & H1 & H2 & H3 & E); [discriminate|]. cbn in H1, H3. apply andb_true_iff in H3 as [H3 H4].
      exists (Ns n l :: l2), ls. rewrite HJ. split; [congruence|]. split; [cbn; rewrite H2, H3; reflexivity|]. split; [exact H4|].
      cbn [flat]. change (joined_with (l :: l2 :: ls)) with (flat_map flat l ++ KEnd :: joined_with (l2 :: ls)) in E.
      cbn [app]. rewrite <- app_assoc. cbn [app]. rewrite E. reflexivity.
    + destruct (IH (S d) Hd) as (l & [|l2 ls] & H1 & H2 & H3 & E); [discriminate|]. cbn in H1, H3. apply andb_true_iff in H3 as [H3 H4].
      exists (Cl n t d0 c m l :: l2), ls. rewrite HJ. split; [congruence|]. split; [cbn; rewrite H2, H3; reflexivity|]. split; [exact H4|].
      cbn [flat]. change (joined_with (l :: l2 :: ls)) with (flat_map flat l ++ KEnd :: joined_with (l2 :: ls)) in E.
      cbn [app]. rewrite <- app_assoc. cbn [app]. rewrite E. reflexivity.
    + destruct d as [|d]; [discriminate|]. destruct (IH d Hd) as (l & ls & H1 & H2 & H3 & ->).
      exists [], (l :: ls). split; [cbn; congruence|]. split; [reflexivity|]. split; [cbn; rewrite H2, H3; reflexivity|]. reflexivity.
Qed.
Lemma parse_all p : well_nested p -> exists l, forallb leaves l = true /\ p = flat_map flat l.
Proof.
  intro H. destruct (parse p 0 H) as (l & [|] & H1 & H2 & _ & ->); [|discriminate]. exists l. auto.
Qed.
(** ... and conversely. *)
Lemma flat_depth l : forallb leaves l = true -> forall q d, depth (flat_map flat l ++ q) d = depth q d.
Proof.
  assert (HT : forall x, leaves x = true -> forall q d, depth (flat x ++ q) d = depth q d).
  { intro x. induction x as [c|n l0 HF|n t d c m l0 HF] using tree_ind'; intros Hl q e.
    - cbn. destruct c; try discriminate; reflexivity.
    - cbn in *. rewrite <- app_assoc. revert q e. assert (HI : forall q e, depth (flat_map flat l0 ++ q) e = depth q e).
      { induction HF as [|y l1 Hy HF IH]; intros q e; [reflexivity|]. cbn in *. apply andb_true_iff in Hl as [H1 H2].
        rewrite <- app_assoc, Hy by exact H1. apply IH. exact H2. }
      intros q e. rewrite HI. reflexivity.
    - cbn in *. rewrite <- app_assoc. revert q e. assert (HI : forall q e, depth (flat_map flat l0 ++ q) e = depth q e).
      { induction HF as [|y l1 Hy HF IH]; intros q e; [reflexivity|]. cbn in *. apply andb_true_iff in Hl as [H1 H2].
        rewrite <- app_assoc, Hy by exact H1. apply IH. exact H2. }
      intros q e. rewrite HI. reflexivity. }
  induction l as [|x l IH]; intros Hl q d; [reflexivity|]. cbn in *. apply andb_true_iff in Hl as [H1 H2].
  rewrite <- app_assoc, HT by exact H1. apply IH. exact H2.
Qed.

(** A chain that ends normally is balanced as far as its stack goes. *)
Lemma exec_depth run k ok use p : forall w b w' b', exec_with run k ok use w b p = Ret w' b' ->
  depth p (List.length (b_stack b)) = Some (List.length (b_stack b')).
Proof.
  induction p as [|c p IH]; intros w [cur here s] w' b' E; cbn [exec_with] in E; [injection E as <- <-; reflexivity|].
  cbn [b_stack]. destruct (is_leaf c) eqn:El.
  - rewrite (leaf_step run k ok use c w cur here s El), bind_bind in E.
    destruct (step run k ok use w (Builder cur here []) c) as [w1 b1|e w1| | | |]; try discriminate. cbn [bind] in E.
    apply IH in E. destruct c; try discriminate; exact E.
  - destruct c; try discriminate.
    + rewrite ns_step, bind_bind in E. destruct (step run k ok use w (Builder cur here []) _) as [w1 b1|e w1| | | |]; try discriminate. cbn [bind] in E.
      apply IH in E. exact E.
    + rewrite cl_step, bind_bind in E. destruct (step run k ok use w (Builder cur here []) _) as [w1 b1|e w1| | | |]; try discriminate. cbn [bind] in E.
      apply IH in E. exact E.
    + cbn [step b_stack] in E. destruct s as [|o s]; [discriminate|]. cbn [bind] in E. apply IH in E. exact E.
Qed.
