(** Builders kept in variables (C52). *)
From Coq Require Import List Bool Arith Lia.
From Verif Require Import KeepModel KeepSpec KeepProofs.
Import ListNotations.

(** Programs whose statements close what they open, whatever the variables and however many exceptions are caught: nothing is
    undefined. *)
Theorem C52_closed_safe : forall w l, Forall closed l -> program (fresh w) l <> Undefined.
Proof.
  intros w l Hl E. pose proof (program_good l (fresh w)) as H. rewrite E in H. apply H; [|exact Hl]. intros v b Hv. discriminate.
Qed.

Lemma reached w l s n : Forall closed l -> program (fresh w) l = Fine s n -> good s.
Proof.
  intros Hl E. pose proof (program_good l (fresh w)) as H. rewrite E in H. apply H; [|exact Hl]. intros v b Hv. discriminate.
Qed.

(** What a balanced chain on a variable returns stands where the variable stood. *)
Theorem C52_result_stands : forall w l s n v ops d s', Forall closed l -> program (fresh w) l = Fine s n ->
  balanced ops -> execute s (On v ops (Some d)) = Fine s' tt -> stands s' d = stands s v.
Proof.
  intros w l s n v ops d s' Hl Hp Hb E. pose proof (reached _ _ _ _ Hl Hp) as Hg. cbn [execute] in E.
  unfold stands. destruct (vars s v) as [b|] eqn:Hv; [|discriminate]. destruct (known s (Some d)); [discriminate|].
  destruct ops as [|o rest].
  - injection E as <-. cbn. rewrite Nat.eqb_refl. reflexivity.
  - destruct (good_start s v b Hg Hv) as (base & L & Nb & Ho). pose proof L as (r0 & _ & Er0).
    unfold balanced in Hb. rewrite depth_cons in Hb. destruct (after o 0) as [d1|] eqn:Ea; [|discriminate].
    pose proof (apply_ok s b o 0 d1 [] base Ea L eq_refl Nb Ho) as HA. destruct (apply s b o) as [s1 b1|s1| |] eqn:E1; try discriminate.
    destruct HA as (S1 & K1 & (pre1 & L1 & Len1 & H1) & _).
    set (s2 := with_var s1 v _) in E. pose proof (chain_ok rest s2 b1 d1 0 pre1 base Hb L1 Len1 Nb H1) as HC.
    destruct (chain s2 b1 rest) as [s3 b3|s3| |]; try discriminate. injection E as <-. cbn [keep with_var vars]. rewrite Nat.eqb_refl.
    destruct HC as (_ & _ & (pre3 & (r3 & _ & E3) & Len3 & _) & _). destruct pre3; [|discriminate]. cbn in E3.
    cbn in *. rewrite E3 in Er0. injection Er0 as -> _. reflexivity.
Qed.

(** Calls that open nothing: the variable stays where it is and everything lands there, in any number of statements. *)
Fixpoint named (ops : list op) : list nat :=
  match ops with Member n :: r | Enum n :: r => n :: named r | _ :: r => named r | [] => [] end.

Lemma apply_plain s b o s' b' : plain o -> apply s b o = Fine s' b' ->
  at_container b' = at_container b /\ members (registry s') = members (registry s) ++ map (pair (at_container b)) (named [o]) /\ vars s' = vars s.
Proof.
  intros Hp E. destruct o; try contradiction; cbn [apply] in E.
  - injection E as <- <-. repeat split.
  - injection E as <- <-. repeat split.
  - injection E as <- <-. cbn. rewrite app_nil_r. repeat split.
  - destruct (static b) as [|[] ts]; try discriminate. destruct (is_class _ _); [|discriminate]. injection E as <- <-. cbn. rewrite app_nil_r. repeat split.
Qed.
Lemma chain_plain ops : forall s b s' b', Forall plain ops -> chain s b ops = Fine s' b' ->
  at_container b' = at_container b /\ members (registry s') = members (registry s) ++ map (pair (at_container b)) (named ops) /\ vars s' = vars s.
Proof.
  induction ops as [|o ops IH]; intros s b s' b' Hp E.
  - cbn in E. injection E as <- <-. cbn. rewrite app_nil_r. repeat split.
  - inversion Hp as [|? ? Ho Hr]; subst. cbn [chain] in E. destruct (apply s b o) as [s1 b1|s1| |] eqn:E1; try discriminate.
    destruct (apply_plain _ _ _ _ _ Ho E1) as (A1 & M1 & V1). destruct (IH _ _ _ _ Hr E) as (A2 & M2 & V2).
    split; [congruence|]. split; [|congruence]. rewrite M2, M1, A1, <- app_assoc, <- map_app. f_equal. f_equal.
    destruct o; try contradiction; reflexivity.
Qed.
Theorem C52_members_stay : forall v l s s' n c, Forall (Forall plain) l -> stands s v = Some c ->
  program s (map (fun ops => On v ops None) l) = Fine s' n ->
  stands s' v = Some c /\ members (registry s') = members (registry s) ++ map (pair c) (named (List.concat l)).
Proof.
  intros v l. induction l as [|ops l IH]; intros s s' n c Hl Hc E.
  - cbn in E. injection E as <- _. cbn. rewrite app_nil_r. split; [exact Hc|reflexivity].
  - inversion Hl as [|? ? Ho Hr]; subst. cbn [map program] in E.
    assert (NT : forall ops s b, Forall plain ops -> forall t, chain s b ops <> Threw t).
    { clear. induction ops as [|o ops IH]; intros s b Hp t E; [discriminate|]. inversion Hp as [|? ? Ho Hr]; subst. cbn [chain] in E.
      destruct (apply s b o) as [s1 b1|s1| |] eqn:E1; try discriminate; [exact (IH _ _ Hr t E)|].
      destruct o; try contradiction; cbn [apply] in E1; try discriminate. destruct (static b) as [|[] ?]; try discriminate.
      destruct (is_class _ _); discriminate. }
    unfold stands in Hc. destruct (vars s v) as [b|] eqn:Hv; [|discriminate]. cbn in Hc. injection Hc as Hc.
    assert (EX : match execute s (On v ops None) with
                 | Fine s1 _ => stands s1 v = Some c /\ members (registry s1) = members (registry s) ++ map (pair c) (named ops)
                 | Threw _ => False | _ => True end).
    { cbn [execute]. rewrite Hv. cbn [known]. destruct ops as [|o rest].
      - cbn. unfold stands. rewrite Hv. cbn. rewrite app_nil_r, Hc. split; reflexivity.
      - inversion Ho as [|? ? Ho1 Hrest]; subst. destruct (apply s b o) as [s1 b1|s1| |] eqn:E1; try exact I.
        + destruct (apply_plain _ _ _ _ _ Ho1 E1) as (A1 & M1 & V1).
          destruct (chain _ b1 rest) as [s3 b3|s3| |] eqn:E3; try exact I.
          * destruct (chain_plain _ _ _ _ _ Hrest E3) as (A3 & M3 & V3). cbn [keep]. unfold stands. rewrite V3. cbn. rewrite Nat.eqb_refl. cbn.
            split; [congruence|]. rewrite M3. cbn [with_var registry]. rewrite M1, A1, <- app_assoc, <- map_app. f_equal. f_equal.
            destruct o; try contradiction; reflexivity.
          * exact (NT _ _ _ Hrest _ E3).
        + apply (NT [o] s b (Forall_cons o Ho1 (Forall_nil _)) s1). cbn. rewrite E1. reflexivity. }
    destruct (execute s (On v ops None)) as [s1 u|s1| |]; try discriminate; [|contradiction]. destruct EX as [Hs1 Hm1].
    destruct (IH s1 s' n c Hr Hs1 E) as [A B]. split; [exact A|]. rewrite B, Hm1, <- app_assoc, <- map_app. f_equal. f_equal.
    cbn [List.concat]. clear. induction ops as [|o ops IH]; [reflexivity|]. destruct o; cbn; rewrite ?IH; try f_equal; exact IH.
Qed.

(** What opens a container on a variable moves the variable into it, whatever follows in the statement: statement after
    statement goes one level deeper. *)
Theorem C52_statements_nest : forall w g l s n, Forall (fun x => depth (snd x) 1 = Some 0) l ->
  program (fresh w) (Global g :: map (fun x => On g (Namespace (fst x) :: snd x) None) l) = Fine s n ->
  exists c, stands s g = Some c /\ in_path (registry s) c (map fst l).
Proof.
  intros w g l s n Hl E. cbn [program execute known fresh vars] in E.
  set (s0 := State _ _ _ _) in E.
  assert (G0 : good s0).
  { pose proof (execute_good (fresh w) (Global g) ltac:(intros v b Hv; discriminate) I) as H. exact (proj1 H). }
  assert (P0 : exists b, vars s0 g = Some b /\ in_path (registry s0) (at_container b) []).
  { exists (global_builder (fresh w)). cbn. rewrite Nat.eqb_refl. split; [reflexivity|constructor]. }
  clearbody s0. revert E G0 P0. change (map fst l) with ([] ++ map fst l). generalize (@nil nat) as p.
  revert s0 n. induction Hl as [|[x body] l Hx _ IH]; intros s0 n p E G0 (b & Hb & P0).
  - cbn in E. injection E as <- _. exists (at_container b). unfold stands. rewrite Hb. split; [reflexivity|]. rewrite app_nil_r. exact P0.
  - cbn [map program fst snd] in *.
    assert (Cl1 : closed (On g (Namespace x :: body) None)) by exact Hx.
    pose proof (execute_good s0 _ G0 Cl1) as HE.
    assert (St : match execute s0 (On g (Namespace x :: body) None) with
                 | Fine s1 _ | Threw s1 => exists b1, vars s1 g = Some b1 /\ in_path (registry s1) (at_container b1) (p ++ [x])
                 | _ => True end).
    { clear HE E. cbn [execute]. rewrite Hb. cbn [known].
      destruct (good_start s0 g b G0 Hb) as (base & L & Nb & Ho).
      pose proof (apply_ok s0 b (Namespace x) 0 1 [] base eq_refl L eq_refl Nb Ho) as HA.
      destruct (apply s0 b (Namespace x)) as [s1 b1|s1| |] eqn:E1; try exact I.
      - destruct HA as (S1 & K1 & (pre1 & L1 & Len1 & H1) & _ & _ & Ch & _). specialize (Ch x eq_refl).
        assert (Pth : in_path (registry s1) (at_container b1) (p ++ [x])).
        { apply (child_path _ _ _ _ _ _ Ch). exact (grows_path _ _ _ _ (proj1 S1) P0). }
        set (s2 := with_var s1 g _). pose proof (chain_ok body s2 b1 1 0 pre1 base Hx L1 Len1 Nb H1) as HC.
        destruct (chain s2 b1 body) as [s3 b3|s3| |]; try exact I.
        + destruct HC as ((R3 & V3 & _) & _). cbn [keep]. rewrite V3. cbn. rewrite Nat.eqb_refl. eexists. split; [reflexivity|].
          cbn. exact (grows_path _ _ _ _ R3 Pth).
        + destruct HC as ((R3 & V3 & _) & _). rewrite V3. cbn. rewrite Nat.eqb_refl. eexists. split; [reflexivity|].
          cbn. exact (grows_path _ _ _ _ R3 Pth).
      - exfalso. cbn [apply] in E1. destruct (static b) as [|[] ?]; try discriminate; destruct (stack_of s0 b); try discriminate;
          destruct (create_namespace _ _ _); discriminate. }
    change (p ++ x :: map fst l) with (p ++ [x] ++ map fst l). rewrite app_assoc.
    destruct (execute s0 (On g (Namespace x :: body) None)) as [s1 u|s1| |]; try discriminate.
    + exact (IH s1 n (p ++ [x]) E (proj1 HE) St).
    + destruct (program s1 _) as [s2 m|s2| |] eqn:E2; try discriminate. injection E as <- _.
      exact (IH s1 m (p ++ [x]) E2 (proj1 HE) St).
Qed.

(** ** A relay is one chain *)

Definition like (s s' : state) : Prop := registry s = registry s' /\ stacks s = stacks s'.
Definition alike {A} (x y : outcome A) : Prop :=
  match x, y with
  | Fine s a, Fine s' b => like s s' /\ a = b
  | Threw s, Threw s' => like s s'
  | Undefined, Undefined | Refused, Refused => True
  | _, _ => False
  end.
Lemma apply_like s s' b o : like s s' -> alike (apply s b o) (apply s' b o).
Proof.
  intros [R S]. assert (K : stack_of s b = stack_of s' b) by (unfold stack_of; rewrite S; reflexivity).
  destruct o; cbn [apply]; rewrite <- ?R, <- ?K.
  - destruct (static b) as [|[] ts]; try exact I; destruct (stack_of s b); try exact I; destruct (create_namespace _ _ _); cbn; unfold like; cbn; rewrite S; auto.
  - destruct (stack_of s b); [|exact I]. destruct (create_class _ _ _ _) as [[w c]|]; cbn; unfold like; cbn; rewrite S, ?R; auto.
  - destruct (static b); [exact I|]. destruct (stack_of s b) as [[|c r]|]; try exact I. cbn. unfold like. cbn. rewrite S, R. auto.
  - cbn. unfold like. cbn. auto.
  - cbn. unfold like. cbn. auto.
  - cbn. unfold like. cbn. auto.
  - destruct (static b) as [|[] ts]; try exact I. destruct (is_class _ _); [|exact I]. cbn. unfold like. cbn. auto.
Qed.
Lemma chain_like ops : forall s s' b, like s s' -> alike (chain s b ops) (chain s' b ops).
Proof.
  induction ops as [|o ops IH]; intros s s' b H; [split; [exact H|reflexivity]|]. cbn [chain].
  pose proof (apply_like s s' b o H) as HA. destruct (apply s b o), (apply s' b o); try contradiction; try exact HA.
  destruct HA as [H1 ->]. apply IH. exact H1.
Qed.
Lemma like_sym s s' : like s s' -> like s' s.
Proof. intros [A B]. split; congruence. Qed.
Lemma like_trans a b c : like a b -> like b c -> like a c.
Proof. intros [A B] [C D]. split; congruence. Qed.

Lemma chain_app p : forall q s b, chain s b (p ++ q) =
  match chain s b p with Fine s' b' => chain s' b' q | Threw s' => Threw s' | Undefined => Undefined | Refused => Refused end.
Proof.
  induction p as [|o p IH]; intros q s b; [reflexivity|]. cbn [app chain]. destruct (apply s b o); try reflexivity. apply IH.
Qed.

Lemma apply_vars s b o : match apply s b o with Fine s' _ | Threw s' => vars s' = vars s | _ => True end.
Proof.
  destruct o; cbn [apply]; try reflexivity.
  - destruct (static b) as [|[] ts]; try exact I; destruct (stack_of s b); try exact I; destruct (create_namespace _ _ _); reflexivity.
  - destruct (stack_of s b); [|exact I]. destruct (create_class _ _ _ _) as [[w c]|]; reflexivity.
  - destruct (static b); [exact I|]. destruct (stack_of s b) as [[|c r]|]; try exact I. reflexivity.
  - destruct (static b) as [|[] ts]; try exact I. destruct (is_class _ _); [|exact I]. reflexivity.
Qed.
Lemma chain_vars ops : forall s b, match chain s b ops with Fine s' _ | Threw s' => vars s' = vars s | _ => True end.
Proof.
  induction ops as [|o ops IH]; intros s b; [reflexivity|]. cbn [chain]. pose proof (apply_vars s b o) as HA.
  destruct (apply s b o) as [s1 b1|s1| |]; try exact HA. pose proof (IH s1 b1) as HC. destruct (chain s1 b1 ops); try exact HC; congruence.
Qed.

(** A statement on a variable does to the registry what the chain does. *)
Lemma on_chain s v ops d b : vars s v = Some b -> known s (Some d) = false -> v <> d ->
  match chain s b ops, execute s (On v ops (Some d)) with
  | Fine s1 b1, Fine s2 _ => like s1 s2 /\ vars s2 d = Some b1 /\ (forall x, x <> v -> x <> d -> vars s2 x = vars s x)
  | Threw s1, Threw s2 => like s1 s2
  | Undefined, Undefined | Refused, Refused => True
  | _, _ => False
  end.
Proof.
  intros Hv Hd N. cbn [execute]. rewrite Hv, Hd. destruct ops as [|o rest].
  - cbn [chain]. cbn [keep with_var vars]. rewrite Nat.eqb_refl. split; [split; reflexivity|]. split; [reflexivity|].
    intros x _ Nx. apply Nat.eqb_neq in Nx. rewrite Nx. reflexivity.
  - cbn [chain]. pose proof (apply_vars s b o) as HV. destruct (apply s b o) as [s1 b1|s1| |]; try exact I; [|split; reflexivity].
    set (s2 := with_var s1 v _). assert (L2 : like s1 s2) by (split; reflexivity).
    pose proof (chain_like rest s1 s2 b1 L2) as HA. pose proof (chain_vars rest s2 b1) as HV2.
    destruct (chain s1 b1 rest) as [s3 b3|s3| |], (chain s2 b1 rest) as [s4 b4|s4| |]; try contradiction; try exact HA.
    destruct HA as [HL ->]. cbn [keep with_var vars]. rewrite Nat.eqb_refl. split; [exact HL|]. split; [reflexivity|].
    intros x Nv Nd. apply Nat.eqb_neq in Nv, Nd. rewrite Nd, HV2. cbn. rewrite Nv, HV. reflexivity.
Qed.

Theorem C52_relay : forall w g v pieces, g < v ->
  match execute (fresh w) (Chain (List.concat pieces) None), program (fresh w) (Global g :: relay g v pieces) with
  | Fine s1 _, Fine s2 n => registry s1 = registry s2 /\ n = 0
  | Threw _, _ => True
  | Undefined, Undefined | Refused, Refused => True
  | _, _ => False
  end.
Proof.
  intros w g v pieces L. cbn [execute known program fresh vars].
  set (s0 := State _ _ _ _). set (c0 := new_stack (fresh w)).
  assert (L0 : like c0 s0) by (split; reflexivity). set (b := global_builder (fresh w)).
  assert (Hv : vars s0 g = Some b) by (cbn; rewrite Nat.eqb_refl; reflexivity).
  assert (Hn : forall x, v <= x -> vars s0 x = None).
  { intros x Hx. cbn. assert (E : x =? g = false) by (apply Nat.eqb_neq; lia). rewrite E. reflexivity. }
  assert (M : match chain c0 b (List.concat pieces), program s0 (relay g v pieces) with
              | Fine s1 _, Fine s2 n => registry s1 = registry s2 /\ n = 0
              | Threw _, _ => True
              | Undefined, Undefined | Refused, Refused => True
              | _, _ => False end).
  { clearbody s0 c0 b. revert c0 s0 b g v L L0 Hv Hn. induction pieces as [|ops pieces IH]; intros c0 s0 b g v L L0 Hv Hn.
    - cbn. split; [apply L0|reflexivity].
    - cbn [List.concat relay program]. rewrite chain_app.
      assert (Hk : known s0 (Some v) = false) by (cbn; rewrite (Hn v); [reflexivity|lia]).
      pose proof (on_chain s0 g ops v b Hv Hk ltac:(lia)) as HO.
      pose proof (chain_like ops c0 s0 b L0) as HL.
      destruct (chain c0 b ops) as [c1 b1|c1| |], (chain s0 b ops) as [s1 b1'|s1| |]; try contradiction;
        destruct (execute s0 (On g ops (Some v))) as [s2 u|s2| |]; try contradiction; try exact I.
      destruct HL as [HL1 <-]. destruct HO as (HL2 & Hb & Hx). apply (IH c1 s2 b1 v (S v)); [lia|exact (like_trans _ _ _ HL1 HL2)|exact Hb|].
      intros x Hx0. rewrite Hx by lia. apply Hn. lia. }
  destruct (chain c0 b (List.concat pieces)) as [s1 b1|s1| |]; exact M.
Qed.

(** ** What a chain defines *)

Lemma index_none f l : index f l = None -> forall i x, nth_error l i = Some x -> f x = false.
Proof.
  induction l as [|a l IH]; intros H [|i] x Hx; try discriminate; cbn in H; destruct (f a) eqn:E; try discriminate.
  - cbn in Hx. injection Hx as <-. exact E.
  - cbn in Hx. destruct (index f l); [discriminate|]. exact (IH eq_refl i x Hx).
Qed.
Lemma not_found w o k n : find_container w o k n = None -> forall c, ~ is_in w c o n k.
Proof.
  intros H c (x & Hx & Ho & Hn & Hk). pose proof (index_none _ _ H c x Hx) as E. cbn beta in E. rewrite Ho in E. subst.
  rewrite !Nat.eqb_refl in E. destruct (c_kind x); discriminate.
Qed.
Lemma type_not_found w t : find_type w t = None -> forall c x, nth_error (containers w) c = Some x -> c_type x <> Some t.
Proof.
  intros H c x Hx E. pose proof (index_none _ _ H c x Hx) as F. cbn beta in F. rewrite E, Nat.eqb_refl in F. discriminate.
Qed.

Lemma apply_opens s b n t s' b' l : stack_of s b = Some l ->
  apply s b (match t with None => Namespace n | Some u => Class n u end) = Fine s' b' ->
  opens (registry s) (at_container b) n t (registry s') (at_container b') /\ item b' = OnContainer (at_container b') /\
  stack_of s' b' = Some (at_container b :: l) /\ stack b' = stack b.
Proof.
  intros Hs E. assert (Q : forall w c k, stack_of (with_registry (with_stack s (stack b) (Some (at_container b :: l))) w) (Builder c (OnContainer c) (stack b) k) = Some (at_container b :: l)).
  { intros w c k. exact (stack_of_set s b _ l w Hs). }
  destruct t as [u|]; cbn [apply] in E.
  - rewrite Hs in E. unfold create_class in E. destruct (find_container (registry s) (at_container b) Cl n) as [i|] eqn:F.
    + injection E as <- <-. split; [constructor; exact (found_child _ _ _ _ _ F)|]. split; [reflexivity|]. split; [apply Q|reflexivity].
    + destruct (find_type (registry s) u) eqn:T; [discriminate|]. injection E as <- <-. split; [|split; [reflexivity|split; [apply Q|reflexivity]]].
      apply opens_new; [exact (not_found _ _ _ _ F)|intros _; exact (type_not_found _ _ T)|reflexivity].
  - assert (E' : (let s1 := with_stack s (stack b) (Some (at_container b :: l)) in let '(w, c) := create_namespace (registry s) (at_container b) n in
        Fine (with_registry s1 w) (Builder c (OnContainer c) (stack b) (Ns :: static b))) = Fine s' b').
    { rewrite Hs in E. destruct (static b) as [|[] ?]; try discriminate; exact E. }
    clear E. unfold create_namespace in E'. destruct (find_container (registry s) (at_container b) Ns n) as [i|] eqn:F.
    + injection E' as <- <-. split; [constructor; exact (found_child _ _ _ _ _ F)|]. split; [reflexivity|]. split; [apply Q|reflexivity].
    + injection E' as <- <-. split; [|split; [reflexivity|split; [apply Q|reflexivity]]].
      apply opens_new; [exact (not_found _ _ _ _ F)|intros N; contradiction|reflexivity].
Qed.

Lemma stack_kept s b w c i k : stack_of (with_registry s w) (Builder c i (stack b) k) = stack_of s b.
Proof. reflexivity. Qed.

Lemma chain_means x : forall s b l s' b', calls_plain x -> stack_of s b = Some l -> chain s b (spell x) = Fine s' b' ->
  means (registry s) (at_container b) (item b) x (registry s') /\ stack_of s' b' = Some l /\ at_container b' = at_container b /\ stack b' = stack b.
Proof.
  induction x as [|o r IH|n t body IHb r IHr]; intros s b l s' b' Hc Hs E.
  - cbn in E. injection E as <- <-. split; [constructor|auto].
  - destruct Hc as [Hp Hr]. cbn [spell chain] in E. destruct (apply s b o) as [s1 b1|s1| |] eqn:E1; try discriminate.
    assert (K : stack_of s1 b1 = Some l /\ at_container b1 = at_container b /\ stack b1 = stack b).
    { destruct o; try contradiction; cbn [apply] in E1.
      1-3: injection E1 as <- <-; auto.
      destruct (static b) as [|[] ?]; try discriminate. destruct (is_class _ _); [|discriminate]. injection E1 as <- <-. auto. }
    destruct K as (K1 & K2 & K3). destruct (IH s1 b1 l s' b' Hr K1 E) as (M & A & B & D).
    split; [|split; [exact A|split; congruence]]. rewrite K2 in M.
    destruct o; try contradiction; cbn [apply] in E1.
    + injection E1 as <- <-. constructor. exact M.
    + injection E1 as <- <-. constructor. exact M.
    + injection E1 as <- <-. constructor. exact M.
    + destruct (static b) as [|[] ?]; try discriminate. destruct (is_class _ _) eqn:Q; [|discriminate]. injection E1 as <- <-. constructor; [|exact M].
      unfold is_class in Q. destruct (nth_error (containers (registry s)) (at_container b)) as [x|]; [|discriminate].
      exists x. split; [reflexivity|]. destruct (c_kind x); [discriminate|reflexivity].
  - destruct Hc as [Hb Hr]. cbn [spell chain] in E.
    destruct (apply s b (match t with None => Namespace n | Some u => Class n u end)) as [s1 b1|s1| |] eqn:E1; try discriminate.
    destruct (apply_opens _ _ _ _ _ _ _ Hs E1) as (O & I1 & S1 & K1). rewrite chain_app in E.
    destruct (chain s1 b1 (spell body)) as [s2 b2|s2| |] eqn:E2; try discriminate.
    destruct (IHb _ _ _ _ _ Hb S1 E2) as (M2 & S2 & A2 & K2). cbn [chain] in E.
    destruct (apply s2 b2 End) as [s3 b3|s3| |] eqn:E3; try discriminate.
    cbn [apply] in E3. destruct (static b2) as [|k outer]; [discriminate|]. rewrite S2 in E3. injection E3 as <- <-.
    assert (S3 : stack_of (with_stack s2 (stack b2) (Some l)) (Builder (at_container b) (OnContainer (at_container b)) (stack b2) outer) = Some l).
    { exact (stack_of_set s2 b2 _ _ (registry s2) S2). }
    destruct (IHr _ _ _ _ _ Hr S3 E) as (M3 & S4 & A4 & K4). cbn [at_container stack] in A4, K4.
    split; [|split; [exact S4|split; congruence]].
    rewrite I1 in M2. eapply means_inside; [exact O|exact M2|exact M3].
Qed.

(** A chain defines what its text means: everything in the container around it, attributes where they belong. *)
Theorem C52_chain_defines : forall w x s u, calls_plain x -> execute (fresh w) (Chain (spell x) None) = Fine s u ->
  means w 0 (OnContainer 0) x (registry s).
Proof.
  intros w x s u Hc E. cbn [execute known] in E.
  destruct (chain (new_stack (fresh w)) (global_builder (fresh w)) (spell x)) as [s1 b1|s1| |] eqn:E1; try discriminate.
  injection E as <- _. exact (proj1 (chain_means x (new_stack (fresh w)) (global_builder (fresh w)) [] s1 b1 Hc eq_refl E1)).
Qed.

(** So does a relay of it, however it is cut. *)
Theorem C52_relay_defines : forall w g v pieces x s, g < v -> calls_plain x -> List.concat pieces = spell x ->
  program (fresh w) (Global g :: relay g v pieces) = Fine s 0 ->
  (forall t, execute (fresh w) (Chain (spell x) None) <> Threw t) -> means w 0 (OnContainer 0) x (registry s).
Proof.
  intros w g v pieces x s L Hc Ep E NT. pose proof (C52_relay w g v pieces L) as R. rewrite E, Ep in R.
  destruct (execute (fresh w) (Chain (spell x) None)) as [s1 u|s1| |] eqn:E1; try contradiction.
  - destruct R as [R _]. rewrite <- R. exact (C52_chain_defines w x s1 u Hc E1).
  - destruct (NT s1 eq_refl).
Qed.

(** What compiles: exactly the texts without namespaces in classes and bases outside of them. *)
Definition in_class (ks : list kind) : bool := match ks with Cl :: _ => true | _ => false end.
Lemma chain_proper x : forall s b, calls_plain x ->
  (proper (in_class (static b)) x -> chain s b (spell x) <> Refused) /\
  (forall s' b', chain s b (spell x) = Fine s' b' -> proper (in_class (static b)) x /\ static b' = static b).
Proof.
  induction x as [|o r IH|n t body IHb r IHr]; intros s b Hc.
  - split; [discriminate|]. intros s' b' E. cbn in E. injection E as _ <-. split; [exact I|reflexivity].
  - destruct Hc as [Hp Hr]. cbn [spell chain].
    assert (K : match apply s b o with Fine s1 b1 => static b1 = static b /\ (forall t, o = Base t -> in_class (static b) = true)
                | Refused => exists t, o = Base t /\ in_class (static b) = false | _ => True end).
    { destruct o; try contradiction; cbn [apply]; try (split; [reflexivity|intros; discriminate]).
      destruct (static b) as [|[] ks] eqn:Es; try (exists t; split; reflexivity). destruct (is_class _ _); [|exact I]. split; [exact Es|reflexivity]. }
    destruct (apply s b o) as [s1 b1|s1| |].
    + destruct K as [K1 K2]. destruct (IH s1 b1 Hr) as [A B]. rewrite K1 in A, B. split.
      * intros [_ P]. exact (A P).
      * intros s' b' E. destruct (B s' b' E) as [P Q]. split; [|exact Q]. split; [|exact P]. destruct o; try exact I. exact (K2 t eq_refl).
    + split; discriminate.
    + split; discriminate.
    + destruct K as (t & -> & K). split; [intros [P _]; congruence|discriminate].
  - destruct Hc as [Hb Hr]. cbn [spell chain].
    assert (K : match apply s b (match t with None => Namespace n | Some u => Class n u end) with
                | Fine s1 b1 => static b1 = sort t :: static b /\ (t = None -> in_class (static b) = false)
                | Refused => t = None /\ in_class (static b) = true | _ => True end).
    { destruct t as [u|]; cbn [apply].
      - destruct (stack_of s b); [|exact I]. destruct (create_class _ _ _ _) as [[w c]|]; [|exact I]. split; [reflexivity|discriminate].
      - destruct (static b) as [|[] ks]; try (split; reflexivity); destruct (stack_of s b); try exact I; destruct (create_namespace _ _ _); split; reflexivity. }
    destruct (apply s b _) as [s1 b1|s1| |].
    + destruct K as [K1 K2]. destruct (IHb s1 b1 Hb) as [A B]. rewrite K1 in A, B.
      assert (IC : in_class (sort t :: static b) = match t with Some _ => true | None => false end) by (destruct t; reflexivity).
      rewrite IC in A, B. rewrite chain_app. destruct (chain s1 b1 (spell body)) as [s2 b2|s2| |] eqn:E2.
      * destruct (B s2 b2 eq_refl) as [P Q]. cbn [chain]. cbn [apply]. rewrite Q.
        destruct (stack_of s2 b2) as [[|c l]|]; [split; discriminate| |split; discriminate].
        destruct (IHr (with_stack s2 (stack b2) (Some l)) (Builder c (OnContainer c) (stack b2) (static b)) Hr) as [C D]. cbn [static] in C, D.
        split.
        -- intro P0. apply C. destruct t; cbn in P0; tauto.
        -- intros s' b' E. destruct (D s' b' E) as [P3 Q3]. split; [|exact Q3]. destruct t; cbn; [tauto|]. split; [exact (K2 eq_refl)|tauto].
      * split; discriminate.
      * split; discriminate.
      * split; [|discriminate]. intro P0. exfalso. apply A; [|reflexivity]. destruct t; cbn in P0; tauto.
    + split; discriminate.
    + split; discriminate.
    + destruct K as [-> K]. split; [intros (P & _); congruence|discriminate].
Qed.
Theorem C52_compiles : forall w x, calls_plain x ->
  (proper false x -> execute (fresh w) (Chain (spell x) None) <> Refused) /\
  (forall s u, execute (fresh w) (Chain (spell x) None) = Fine s u -> proper false x).
Proof.
  intros w x Hc. destruct (chain_proper x (new_stack (fresh w)) (global_builder (fresh w)) Hc) as [A B]. cbn [execute known].
  destruct (chain (new_stack (fresh w)) (global_builder (fresh w)) (spell x)) as [s1 b1|s1| |]; (split; [|try discriminate]).
  - discriminate.
  - intros s u _. exact (proj1 (B s1 b1 eq_refl)).
  - discriminate.
  - discriminate.
  - intros P. destruct (A P eq_refl).
Qed.

(** ** Witnesses *)

(** Two statements on one variable do not define two namespaces side by side: the second is inside of the first. *)
Theorem C52_siblings_refuted : exists g x y s, x <> y /\
  program (fresh nothing_defined) [Global g; On g [Namespace x; End] None; On g [Namespace y; End] None] = Fine s 0 /\
  find_container (registry s) 0 Ns y = None /\ exists c, find_container (registry s) 0 Ns x = Some c /\ find_container (registry s) c Ns y <> None.
Proof.
  exists 0, 1, 2. eexists. split; [discriminate|]. split; [reflexivity|]. split; [reflexivity|]. exists 1. split; [reflexivity|discriminate].
Qed.

(** A builder that has closed its container can be told to close it again: the stack is empty. *)
Theorem C52_end_twice_refuted : exists l, Forall (fun x => match x with Leave _ | Chain _ _ => False | _ => True end) l /\
  program (fresh nothing_defined) l = Undefined.
Proof.
  exists [Global 0; On 0 [Namespace 1] (Some 1); On 1 [End] None; On 1 [End] None]. split; [repeat constructor|reflexivity].
Qed.

(** What is kept of a chain on the temporary global_define() points to a stack that is gone. *)
Theorem C52_temporary_refuted : exists ops, program (fresh nothing_defined) [Chain [Namespace 1] (Some 0); On 0 ops None] = Undefined.
Proof. exists [End]. reflexivity. Qed.
Theorem C52_scope_refuted : exists ops,
  program (fresh nothing_defined) [Global 0; On 0 [Member 1] (Some 1); Leave 0; On 1 ops None] = Undefined.
Proof. exists [Namespace 1; End]. reflexivity. Qed.

(** After _end() a variable of the type of a class stands in a namespace: _base() casts the namespace to a class. *)
Theorem C52_base_refuted :
  program (fresh nothing_defined) [Global 0; On 0 [Class 1 1] (Some 1); On 1 [End] None; On 1 [Base 2] None] = Undefined.
Proof. reflexivity. Qed.

(** A namespace can end up in a class, although the static types are meant to exclude it. *)
Theorem C52_namespace_in_class_refuted : exists s c d,
  program (fresh nothing_defined) [Global 0; On 0 [Class 1 1; End] None; On 0 [Namespace 2; End] None] = Fine s 0 /\
  is_class (registry s) c = true /\ find_container (registry s) c Ns 2 = Some d.
Proof. eexists. exists 1, 2. split; [reflexivity|]. split; reflexivity. Qed.

(** An exception thrown by _class() leaves an entry on the stack: closing the namespace around it afterwards returns
    a builder that is still in it. *)
Theorem C52_exception_refuted : exists s,
  program (fresh nothing_defined)
    [Chain [Class 5 7; End] None; Global 0; On 0 [Namespace 1] (Some 1); On 1 [Class 6 7; End] None; On 1 [End] (Some 2)] = Fine s 1 /\
  (exists c, find_container (registry s) 0 Ns 1 = Some c /\ stands s 2 = Some c) /\ stands s 2 <> Some 0.
Proof. eexists. split; [reflexivity|]. split; [exists 2; split; reflexivity|discriminate]. Qed.

(** An enumeration is the target of attributes in later statements only if it is defined first in its statement. *)
Theorem C52_enum_refuted : exists s,
  program (fresh nothing_defined)
    [Global 0; On 0 [Enum 1] None; On 0 [Attribute 5] None; On 0 [Member 3; Enum 2] None; On 0 [Attribute 6] None] = Fine s 0 /\
  attributes (registry s) = [(OnEnum 0 1, 5); (OnEnum 0 1, 6)].
Proof. eexists. split; reflexivity. Qed.

(** ** Cases *)
Example C52_case_closed : exists s,
  program (fresh nothing_defined)
    [Global 0; On 0 [Namespace 1; Class 2 3; Base 4; Member 5; End; End] (Some 1); On 1 [Member 6; Enum 7] None;
     On 1 [Class 8 3; End] None; On 1 [Namespace 9; End] (Some 2)] = Fine s 1 /\
  members (registry s) = [(2, 5); (0, 6); (0, 7)] /\ stands s 1 = Some 3 /\ stands s 2 = Some 0.
Proof. eexists. split; [vm_compute; reflexivity|]. split; [vm_compute; reflexivity|]. split; vm_compute; reflexivity. Qed.
Example C52_case_nest : exists s, program (fresh nothing_defined)
    (Global 0 :: map (fun x => On 0 (Namespace (fst x) :: snd x) None) [(5, [End]); (6, [Member 1; End]); (7, [Class 2 2; End; End])]) = Fine s 0 /\
  map c_owner (containers (registry s)) = [None; Some 0; Some 1; Some 2; Some 3].
Proof. eexists. split; [vm_compute; reflexivity|vm_compute; reflexivity]. Qed.
Example C52_case_members : exists s s', program (fresh nothing_defined) [Global 0; On 0 [Namespace 1] (Some 1)] = Fine s 0 /\
  stands s 1 = Some 1 /\
  program s (map (fun ops => On 1 ops None) [[Member 2; Enum 3]; []; [Attribute 4; Member 5]]) = Fine s' 0 /\
  members (registry s') = map (pair 1) [2; 3; 5].
Proof. eexists. eexists. split; [vm_compute; reflexivity|]. split; [vm_compute; reflexivity|]. split; [vm_compute; reflexivity|]. vm_compute. reflexivity. Qed.
Example C52_case_text :
  let x := Call (Enum 1) (Call (Attribute 2) (Inside 3 (Some 4) (Call (Base 5) (Call (Member 6) (Call (Attribute 7) Stop)))
             (Call (Attribute 8) (Inside 9 None (Call (Member 3) Stop) (Inside 9 None (Call (Member 4) Stop) Stop))))) in
  calls_plain x /\ spell x = [Enum 1; Attribute 2; Class 3 4; Base 5; Member 6; Attribute 7; End; Attribute 8; Namespace 9; Member 3; End; Namespace 9; Member 4; End] /\
  exists s, execute (fresh nothing_defined) (Chain (spell x) None) = Fine s tt /\
    attributes (registry s) = [(OnEnum 0 1, 2); (OnContainer 1, 7); (OnContainer 0, 8)] /\
    members (registry s) = [(0, 1); (1, 6); (2, 3); (2, 4)] /\ bases (registry s) = [(1, 5)].
Proof.
  cbn zeta. split; [repeat split|]. split; [reflexivity|]. eexists. split; [vm_compute; reflexivity|]. split; [vm_compute; reflexivity|]. split; vm_compute; reflexivity.
Qed.
Example C52_case_compiles :
  proper false (Inside 1 None (Inside 2 (Some 3) (Call (Base 4) (Inside 5 (Some 6) Stop Stop)) (Inside 7 None Stop Stop)) Stop) /\
  ~ proper false (Inside 2 (Some 3) (Inside 1 None Stop Stop) Stop) /\
  execute (fresh nothing_defined) (Chain (spell (Inside 2 (Some 3) (Inside 1 None Stop Stop) Stop)) None) = Refused.
Proof. split; [cbn; tauto|]. split; [cbn; intuition discriminate|reflexivity]. Qed.
Example C52_case_relay :
  let pieces := [[Namespace 1; Member 2]; [Class 3 4]; []; [End; End]; [Namespace 5; End]] in
  exists s s', execute (fresh nothing_defined) (Chain (List.concat pieces) None) = Fine s tt /\
    program (fresh nothing_defined) (Global 0 :: relay 0 1 pieces) = Fine s' 0 /\
    map c_owner (containers (registry s')) = [None; Some 0; Some 1; Some 0] /\ registry s = registry s'.
Proof. eexists. eexists. split; [vm_compute; reflexivity|]. split; [vm_compute; reflexivity|]. split; vm_compute; reflexivity. Qed.

Print Assumptions C52_closed_safe.
Print Assumptions C52_result_stands.
Print Assumptions C52_members_stay.
Print Assumptions C52_statements_nest.
Print Assumptions C52_relay.
Print Assumptions C52_chain_defines.
Print Assumptions C52_relay_defines.
Print Assumptions C52_compiles.
Print Assumptions C52_siblings_refuted.
Print Assumptions C52_end_twice_refuted.
Print Assumptions C52_temporary_refuted.
Print Assumptions C52_scope_refuted.
Print Assumptions C52_base_refuted.
Print Assumptions C52_namespace_in_class_refuted.
Print Assumptions C52_exception_refuted.
Print Assumptions C52_enum_refuted.
