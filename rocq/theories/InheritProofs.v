(** Proofs about InheritModel.v. *)
From Coq Require Import List Bool Arith Lia Relations.
From Verif Require Import Util InheritModel InheritSpec.
Import ListNotations.

Section G.
  Context {X : Type}.
  Variable g : graph X.

  Lemma reach_refl a : reach g a a.
  Proof. apply rt1n_refl. Qed.
  Lemma reach_step a d b : direct g a d -> reach g d b -> reach g a b.
  Proof. intros H1 H2. eapply Relation_Operators.rt1n_trans; eassumption. Qed.
  Lemma reach_trans a b c : reach g a b -> reach g b c -> reach g a c.
  Proof. intros H1 H2. induction H1 as [|x y z Hd Hr IH]; [exact H2|]. exact (reach_step _ _ _ Hd (IH H2)). Qed.
  Lemma reach_inv a b : reach g a b -> a = b \/ exists d, direct g a d /\ reach g d b.
  Proof. intro H. inversion H; subst; eauto. Qed.

  (** Paths by number of steps. *)
  Inductive steps : nat -> nat -> Prop :=
  | S0 a : steps 0 a
  | SS n a d : direct g a d -> steps n d -> steps (S n) a.

  (** Nodes on a path. *)
  Inductive walk : list nat -> Prop :=
  | W1 a : walk [a]
  | W2 a b l : direct g a b -> walk (b :: l) -> walk (a :: b :: l).

  Lemma steps_walk n a : steps n a -> exists l, walk (a :: l) /\ length l = n.
  Proof.
    induction 1 as [a|n a d Hd Hs IH]; [exists []; split; [constructor|reflexivity]|].
    destruct IH as (l & Hw & Hl). exists (d :: l). split; [constructor; assumption|cbn; lia].
  Qed.

  Lemma walk_reach l1 l2 a b : walk (l1 ++ a :: l2) -> In b l2 -> exists d, direct g a d /\ reach g d b.
  Proof.
    induction l1 as [|x l1 IH]; cbn; intros Hw Hin.
    - revert a Hw. induction l2 as [|y l2 IHl]; intros a Hw; [destruct Hin|].
      inversion Hw; subst. exists y. split; [assumption|]. destruct Hin as [->|Hin]; [apply reach_refl|].
      destruct (IHl Hin y H3) as (d & Hd & Hr). eapply reach_step; eassumption.
    - apply IH; [|exact Hin]. destruct l1; cbn in *; inversion Hw; assumption.
  Qed.

  Lemma walk_bounded l : closed g -> walk l -> forall a l', l = a :: l' -> a < length g ->
    incl l (seq 0 (length g)).
  Proof.
    intros Hc Hw. induction Hw as [a|a b l Hd Hw IH]; intros a' l' E Ha; injection E as <- <-.
    - intros x [<-|[]]. apply in_seq. lia.
    - intros x [<-|Hx]; [apply in_seq; lia|]. eapply IH; [reflexivity|eapply Hc; eassumption|exact Hx].
  Qed.

  Lemma dup_split (l : list nat) : ~ NoDup l -> exists l1 a l2, l = l1 ++ a :: l2 /\ In a l2.
  Proof.
    induction l as [|a l IH]; intro H; [exfalso; apply H; constructor|].
    destruct (in_dec Nat.eq_dec a l) as [Hin|Hni]; [exists [], a, l; auto|].
    destruct IH as (l1 & b & l2 & -> & Hb); [intro; apply H; constructor; assumption|].
    exists (a :: l1), b, l2. auto.
  Qed.

  Lemma long_walk_cycles n a : closed g -> acyclic g -> a < length g -> steps n a -> n < length g.
  Proof.
    intros Hc Ha Hlt Hs. destruct (steps_walk n a Hs) as (l & Hw & Hl).
    destruct (Nat.lt_ge_cases n (length g)) as [H|H]; [exact H|]. exfalso.
    assert (Hincl : incl (a :: l) (seq 0 (length g))) by (eapply walk_bounded; eauto).
    assert (HD : ~ NoDup (a :: l)).
    { intro HD. pose proof (NoDup_incl_length HD Hincl) as HL. rewrite seq_length in HL. cbn in HL. lia. }
    destruct (dup_split _ HD) as (l1 & x & l2 & E & Hin). rewrite E in Hw.
    destruct (walk_reach _ _ _ _ Hw Hin) as (d & Hd & Hr). exact (Ha x d Hd Hr).
  Qed.

  (** *** inheritedFrom *)

  Definition inh_loop fuel base := fix loop (l : list (nat * (X -> X))) : res bool :=
    match l with
    | [] => Ok false
    | (d, _) :: l' =>
        match inheritedFrom g fuel d base with Ok true => Ok true | Ok false => loop l' | e => e end
    end.
  Lemma inh_unfold fuel a b : inheritedFrom g (S fuel) a b =
    if a =? b then Ok true else match nth_error g a with None => UB | Some l => inh_loop fuel b l end.
  Proof. reflexivity. Qed.

  Lemma inh_spec fuel : closed g -> forall a b, a < length g ->
    match inheritedFrom g fuel a b with
    | Ok true => reach g a b
    | Ok false => ~ reach g a b
    | UB => False
    | Fuel => steps fuel a
    end.
  Proof.
    intro Hc. induction fuel as [|fuel IH]; intros a b Ha; [cbn; constructor|].
    rewrite inh_unfold. destruct (a =? b) eqn:E; [apply Nat.eqb_eq in E; subst; apply reach_refl|].
    apply Nat.eqb_neq in E. destruct (nth_error g a) as [l|] eqn:El.
    2:{ apply nth_error_None in El. lia. }
    assert (HL : forall l', incl l' l ->
      match inh_loop fuel b l' with
      | Ok true => reach g a b
      | Ok false => forall d f, In (d, f) l' -> ~ reach g d b
      | UB => False
      | Fuel => steps (S fuel) a
      end).
    { induction l' as [|[d f] l' IHl]; intro Hi; cbn [inh_loop]; [intros ? ? []|].
      assert (Hd : direct g a d) by (exists l, f; split; [exact El|apply Hi; left; reflexivity]).
      specialize (IH d b (Hc _ _ Hd)). destruct (inheritedFrom g fuel d b) as [[]| |].
      - eapply reach_step; eassumption.
      - assert (Hi' : incl l' l) by (intros y Hy; apply Hi; right; exact Hy).
        specialize (IHl Hi'). fold (inh_loop fuel b). destruct (inh_loop fuel b l') as [[]| |]; auto.
        intros d' f' [H|H]; [injection H as <- <-; exact IH|eauto].
      - exact IH.
      - econstructor; eassumption. }
    specialize (HL l (incl_refl l)). destruct (inh_loop fuel b l) as [[]| |]; auto.
    intro Hr. destruct (reach_inv _ _ Hr) as [?|(d & (l2 & f & El2 & Hin) & Hr')]; [contradiction|].
    rewrite El in El2. injection El2 as <-. exact (HL d f Hin Hr').
  Qed.

  (** With fuel above the number of classes: never out of fuel, never undefined. *)
  Lemma inh_exact fuel a b : closed g -> acyclic g -> a < length g -> length g <= fuel ->
    (inheritedFrom g fuel a b = Ok true /\ reach g a b) \/ (inheritedFrom g fuel a b = Ok false /\ ~ reach g a b).
  Proof.
    intros Hc Ha Hlt Hf. pose proof (inh_spec fuel Hc a b Hlt) as H.
    destruct (inheritedFrom g fuel a b) as [[]| |]; auto; [contradiction|].
    apply long_walk_cycles in H; auto. lia.
  Qed.

  (** *** cast *)

  Definition cast_loop fuel base (p : option X) := fix loop (l : list (nat * (X -> X))) : res (option X) :=
    match l with
    | [] => Ok None
    | (d, f) :: l' =>
        match inheritedFrom g fuel d base with
        | Ok true => cast g fuel d base (option_map f p)
        | Ok false => loop l' | UB => UB | Fuel => Fuel
        end
    end.
  Lemma cast_unfold fuel a b p : cast g (S fuel) a b p =
    if a =? b then Ok p else match nth_error g a with None => UB | Some l => cast_loop fuel b p l end.
  Proof. reflexivity. Qed.

  Lemma cast_spec fuel : closed g -> forall a b p, a < length g ->
    match cast g fuel a b p with
    | Ok r => (reach g a b /\ exists fs, first_chain g a b fs /\ r = option_map (along fs) p) \/
              (~ reach g a b /\ r = None)
    | UB => False
    | Fuel => steps fuel a
    end.
  Proof.
    intro Hc. induction fuel as [|fuel IH]; intros a b p Ha; [cbn; constructor|].
    rewrite cast_unfold. destruct (a =? b) eqn:E.
    { apply Nat.eqb_eq in E. subst. left. split; [apply reach_refl|]. exists []. split; [constructor|].
      destruct p; reflexivity. }
    apply Nat.eqb_neq in E. destruct (nth_error g a) as [l|] eqn:El.
    2:{ apply nth_error_None in El. lia. }
    assert (HL : forall l1 l', l = l1 ++ l' -> (forall d f, In (d, f) l1 -> ~ reach g d b) ->
      match cast_loop fuel b p l' with
      | Ok r => (reach g a b /\ exists fs, first_chain g a b fs /\ r = option_map (along fs) p) \/
                ((forall d f, In (d, f) l -> ~ reach g d b) /\ r = None)
      | UB => False
      | Fuel => steps (S fuel) a
      end).
    { intros l1 l'. revert l1. induction l' as [|[d f] l' IHl]; intros l1 Hl Hno; cbn [cast_loop].
      - right. split; [|reflexivity]. rewrite Hl, app_nil_r. exact Hno.
      - assert (Hd : direct g a d).
        { exists l, f. split; [exact El|]. rewrite Hl. apply in_or_app. right. left. reflexivity. }
        pose proof (inh_spec fuel Hc d b (Hc _ _ Hd)) as Hi. destruct (inheritedFrom g fuel d b) as [[]| |].
        + specialize (IH d b (option_map f p) (Hc _ _ Hd)). destruct (cast g fuel d b (option_map f p)) as [r| |].
          * destruct IH as [(_ & fs & Hfs & ->)|[Hn _]]; [|contradiction].
            left. split; [eapply reach_step; eassumption|]. exists (f :: fs). split.
            -- eapply FStep; [exact E|rewrite El, Hl; reflexivity|exact Hno|exact Hfs].
            -- destruct p; reflexivity.
          * exact IH.
          * econstructor; eassumption.
        + fold (cast_loop fuel b p). apply (IHl (l1 ++ [(d, f)])).
          * rewrite <- app_assoc. exact Hl.
          * intros d' f' H. apply in_app_iff in H as [H|[H|[]]]; [eauto|]. injection H as <- <-. exact Hi.
        + contradiction.
        + econstructor; eassumption. }
    specialize (HL [] l eq_refl ltac:(intros ? ? [])). destruct (cast_loop fuel b p l) as [r| |]; auto.
    destruct HL as [H|[H ->]]; [left; exact H|right]. split; [|reflexivity].
    intro Hr. destruct (reach_inv _ _ Hr) as [?|(d & (l2 & f & El2 & Hin) & Hr')]; [contradiction|].
    rewrite El in El2. injection El2 as <-. exact (H d f Hin Hr').
  Qed.

  Lemma first_chain_reach a b fs : first_chain g a b fs -> reach g a b.
  Proof.
    induction 1; [apply reach_refl|]. eapply reach_step; [|eassumption].
    exists (l1 ++ (d, f) :: l2), f. split; [assumption|]. apply in_or_app. right. left. reflexivity.
  Qed.

  Lemma first_chain_chain a b fs : first_chain g a b fs -> chain g a b fs.
  Proof.
    induction 1 as [a|a b l1 d f l2 fs Hne Hn Hno Hf IH]; [constructor|].
    econstructor; [exact Hn| |exact IH]. apply in_or_app. right. left. reflexivity.
  Qed.

  Lemma first_chain_unique a b fs : first_chain g a b fs -> forall fs', first_chain g a b fs' -> fs = fs'.
  Proof.
    induction 1 as [a|a b l1 d f l2 fs Hne Hn Hno Hf IH]; intros fs' H'.
    - inversion H'; subst; [reflexivity|]. congruence.
    - inversion H' as [|a' b' m1 e h m2 hs Hne' Hn' Hno' Hf' E1 E2 E3]; subst; [congruence|].
      rewrite Hn in Hn'. injection Hn' as E.
      assert (HE : (d, f) = (e, h)).
      { clear - E Hno Hno' Hf Hf'. apply first_chain_reach in Hf. apply first_chain_reach in Hf'.
        revert m1 E Hno'. induction l1 as [|[x y] l1 IHl]; intros [|[u v] m1] E Hno'; cbn in E.
        - congruence.
        - injection E as E1 E2 E3. subst. exfalso. eapply Hno'; [left; reflexivity|exact Hf].
        - injection E as E1 E2 E3. subst. exfalso. eapply Hno; [left; reflexivity|exact Hf'].
        - injection E as _ _ E. apply (IHl (fun a0 b0 H => Hno a0 b0 (or_intror H)) m1 E).
          intros a0 b0 H. eapply Hno'. right. exact H. }
      injection HE as <- <-. f_equal. apply IH. exact Hf'.
  Qed.

  (** *** member look-up *)

  Context {M : Type}.
  Variable own : nat -> option M.

  Definition mem_loop fuel := fix loop (l : list (nat * (X -> X))) : res (option M) :=
    match l with
    | [] => Ok None
    | (d, _) :: l' =>
        match getMember own false g fuel d with Ok (Some m) => Ok (Some m) | Ok None => loop l' | e => e end
    end.
  Lemma mem_unfold fuel a : getMember own false g (S fuel) a =
    match own a with Some m => Ok (Some m) | None =>
      match nth_error g a with None => UB | Some l => mem_loop fuel l end end.
  Proof. reflexivity. Qed.

  Lemma mem_spec fuel : closed g -> forall a, a < length g ->
    match getMember own false g fuel a with
    | Ok (Some m) => finds g own a m
    | Ok None => forall c, reach g a c -> own c = None
    | UB => False
    | Fuel => steps fuel a
    end.
  Proof.
    intro Hc. induction fuel as [|fuel IH]; intros a Ha; [cbn; constructor|].
    rewrite mem_unfold. destruct (own a) as [m|] eqn:Eo; [constructor; exact Eo|].
    destruct (nth_error g a) as [l|] eqn:El.
    2:{ apply nth_error_None in El. lia. }
    assert (HL : forall l1 l', l = l1 ++ l' -> (forall d f c, In (d, f) l1 -> reach g d c -> own c = None) ->
      match mem_loop fuel l' with
      | Ok (Some m) => finds g own a m
      | Ok None => forall d f c, In (d, f) l -> reach g d c -> own c = None
      | UB => False
      | Fuel => steps (S fuel) a
      end).
    { intros l1 l'. revert l1. induction l' as [|[d f] l' IHl]; intros l1 Hl Hno; cbn [mem_loop].
      - rewrite Hl, app_nil_r. exact Hno.
      - assert (Hd : direct g a d).
        { exists l, f. split; [exact El|]. rewrite Hl. apply in_or_app. right. left. reflexivity. }
        specialize (IH d (Hc _ _ Hd)). destruct (getMember own false g fuel d) as [[m|]| |].
        + eapply FBase; [exact Eo|rewrite El, Hl; reflexivity|exact Hno|exact IH].
        + fold (mem_loop fuel). apply (IHl (l1 ++ [(d, f)])).
          * rewrite <- app_assoc. exact Hl.
          * intros d' f' c H. apply in_app_iff in H as [H|[H|[]]]; [eauto|]. injection H as <- <-. apply IH.
        + exact IH.
        + econstructor; eassumption. }
    specialize (HL [] l eq_refl ltac:(intros ? ? ? [])). destruct (mem_loop fuel l) as [[m|]| |]; auto.
    intros c Hr. destruct (reach_inv _ _ Hr) as [<-|(d & (l2 & f & El2 & Hin) & Hr')]; [exact Eo|].
    rewrite El in El2. injection El2 as <-. eapply HL; eassumption.
  Qed.

  Lemma finds_reach a m : finds g own a m -> exists c, reach g a c /\ own c = Some m.
  Proof.
    induction 1 as [a m H|a l1 d f l2 m Ho Hn Hno Hf (c & Hr & Hc)]; [exists a; split; [apply reach_refl|exact H]|].
    exists c. split; [|exact Hc]. eapply reach_step; [|exact Hr].
    exists (l1 ++ (d, f) :: l2), f. split; [exact Hn|]. apply in_or_app. right. left. reflexivity.
  Qed.

  Lemma finds_unique a m : finds g own a m -> forall m', finds g own a m' -> m = m'.
  Proof.
    induction 1 as [a m Ho|a l1 d f l2 m Ho Hn Hno Hf IH]; intros m' H'.
    - inversion H'; congruence.
    - inversion H' as [a' m'' Ho'|a' k1 e h k2 m'' Ho' Hn' Hno' Hf' E1 E2]; subst; [congruence|].
      rewrite Hn in Hn'. injection Hn' as E.
      assert (HE : d = e).
      { clear - E Hno Hno' Hf Hf'. apply finds_reach in Hf as (c & Hr & Hc). apply finds_reach in Hf' as (c' & Hr' & Hc').
        revert k1 E Hno'. induction l1 as [|[x y] l1 IHl]; intros [|[u v] k1] E Hno'; cbn in E.
        - congruence.
        - injection E as E1 E2 E3. subst. exfalso. rewrite (Hno' u v c) in Hc; [discriminate|left; reflexivity|exact Hr].
        - injection E as E1 E2 E3. subst. exfalso. rewrite (Hno e h c') in Hc'; [discriminate|left; reflexivity|exact Hr'].
        - injection E as _ _ E. apply (IHl (fun a0 b0 c0 H => Hno a0 b0 c0 (or_intror H)) k1 E).
          intros a0 b0 c'' H. eapply Hno'. right. exact H. }
      subst e. apply IH. exact Hf'.
  Qed.
End G.

(** A class that reaches itself through a declared base: the search for an unrelated class never ends. *)
Lemma self_base_loops {X} (f : X -> X) fuel : inheritedFrom [[(0, f)]; []] fuel 0 1 = Fuel.
Proof. induction fuel as [|fuel IH]; [reflexivity|]. rewrite inh_unfold. cbn. rewrite IH. reflexivity. Qed.

(** ** Sub-objects *)

(** The registered graph of C++ classes has the same edges. *)
Lemma registered_nth c a l : nth_error (registered c) a = Some l ->
  exists m, nth_error c a = Some m /\ l = map (fun p => (fst p, to_base (fst p) (snd p))) m.
Proof.
  unfold registered. intro H. destruct (nth_error c a) as [m|] eqn:E.
  - rewrite (map_nth_error _ _ _ E) in H. injection H as <-. eauto.
  - apply nth_error_None in E. assert (nth_error (map (map (fun p : nat * bool => (fst p, to_base (fst p) (snd p)))) c) a = None).
    { apply nth_error_None. rewrite map_length. exact E. } congruence.
Qed.

Lemma to_base_class d v s : class_of (to_base d v s) = d.
Proof. unfold class_of, to_base. cbn. destruct v; [reflexivity|]. apply last_last. Qed.

Definition obj (d : nat) (p : list nat) : sub := {| s_dyn := d; s_path := p |}.

Lemma is_sub_snoc c d p : is_sub c d p -> exists q b, p = q ++ [b].
Proof. destruct 1; [exists [], d|exists (p ++ [a]), b|exists [], b]; reflexivity. Qed.

Lemma converts_sub c d p q : converts c p q -> is_sub c d p -> is_sub c d q.
Proof.
  induction 1 as [p|p a l b q Hn Hin Hc IH|p a l b q Hn Hin Hc IH]; intro Hs; [exact Hs| |].
  - apply IH. econstructor; eassumption.
  - apply IH. econstructor; eassumption.
Qed.

(** Every chain of registered bases from the class of a sub-object leads to a sub-object of the target class. *)
Lemma chain_sub c d a b fs p : chain (registered c) a b fs -> is_sub c d (p ++ [a]) ->
  exists q, along fs (obj d (p ++ [a])) = obj d (q ++ [b]) /\ is_sub c d (q ++ [b]).
Proof.
  intro H. revert p. induction H as [a|a l e f b fs Hn Hin Hc IH]; intros p Hs; [exists p; auto|].
  destruct (registered_nth _ _ _ Hn) as (m & Hm & ->). apply in_map_iff in Hin as ([e' v] & He & Hin).
  cbn in He. injection He as <- <-. destruct v.
  - destruct (IH []) as (q & Hq & Hs'); [eapply SubVirtual; eassumption|]. exists q. split; [exact Hq|exact Hs'].
  - destruct (IH (p ++ [a])) as (q & Hq & Hs'); [eapply SubDirect; eassumption|]. exists q. split; [exact Hq|exact Hs'].
Qed.

Lemma registered_direct c a m b v : nth_error c a = Some m -> In (b, v) m -> direct (registered c) a b.
Proof.
  intros Hm Hin. exists (map (fun p => (fst p, to_base (fst p) (snd p))) m), (to_base b v). split.
  - unfold registered. erewrite map_nth_error; [reflexivity|exact Hm].
  - apply in_map_iff. exists (b, v). auto.
Qed.

(** Sub-objects are reached along registered bases. *)
Lemma sub_reach c d p b : is_sub c d (p ++ [b]) -> reach (registered c) d b.
Proof.
  intro H. remember (p ++ [b]) as q eqn:E. revert p b E. induction H; intros q' b' E.
  - destruct q' as [|x [|y q']]; cbn in E; try discriminate; [injection E as ->; apply reach_refl].
  - apply app_inj_tail in E as [_ ->]. eapply reach_trans; [eapply IHis_sub; reflexivity|].
    eapply reach_step; [eapply registered_direct; eassumption|apply reach_refl].
  - destruct q' as [|x [|y q']]; cbn in E; try discriminate. injection E as ->.
    eapply reach_trans; [eapply IHis_sub; reflexivity|].
    eapply reach_step; [eapply registered_direct; eassumption|apply reach_refl].
Qed.
Lemma reach_chain {X} (g : graph X) a b : reach g a b -> exists fs, chain g a b fs.
Proof.
  induction 1 as [|x y z (l & f & Hn & Hin) Hr (fs & Hc)]; [exists []; constructor|].
  exists (f :: fs). econstructor; eassumption.
Qed.
Lemma reach_sub c d b : reach (registered c) d b -> exists p, is_sub c d (p ++ [b]).
Proof.
  intro H. apply reach_chain in H as (fs & Hc). destruct (chain_sub c d d b fs [] Hc (SubAll c d)) as (q & _ & Hq).
  eauto.
Qed.

(** The conversion along a chain, and back. *)
Lemma chain_converts c d a b fs p : chain (registered c) a b fs ->
  exists q, along fs (obj d (p ++ [a])) = obj d (q ++ [b]) /\ converts c (p ++ [a]) (q ++ [b]).
Proof.
  intro H. revert p. induction H as [a|a l x f b fs Hn Hin Hc IH]; intro p.
  - exists p. split; [reflexivity|constructor].
  - destruct (registered_nth c a l Hn) as (m & Hm & ->). apply in_map_iff in Hin as ([y v] & E & Hin). injection E as <- <-.
    cbn [along fold_left fst snd]. destruct v.
    + destruct (IH []) as (q & Eq & Hq). exists q. split; [exact Eq|]. eapply ConvVirtual; eassumption.
    + destruct (IH (p ++ [a])) as (q & Eq & Hq). exists q. split; [exact Eq|]. eapply ConvDirect; eassumption.
Qed.
Lemma converts_reach c p q : converts c p q -> forall p' q' a b, p = p' ++ [a] -> q = q' ++ [b] -> reach (registered c) a b.
Proof.
  induction 1 as [p|p a l b q Hm Hin Hc IH|p a l b q Hm Hin Hc IH]; intros p' q' x y E1 E2.
  - rewrite E1 in E2. apply app_inj_tail in E2 as [_ ->]. apply reach_refl.
  - apply app_inj_tail in E1 as [_ <-]. eapply reach_step; [eapply registered_direct; eassumption|].
    eapply IH; [reflexivity|exact E2].
  - apply app_inj_tail in E1 as [_ <-]. eapply reach_step; [eapply registered_direct; eassumption|].
    apply (IH [] q'); [reflexivity|exact E2].
Qed.

Section MetaCast.
  Variables (c : cxx) (reg decl has : nat -> bool) (fuel : nat).
  Hypothesis Hcl : closed (registered c).
  Hypothesis Hac : acyclic (registered c).
  Hypothesis Hf : length c <= fuel.
  Variables d from to : nat.
  Hypothesis Hd : d < length c.
  Hypothesis Hdecl : decl d = true.
  Hypothesis Hhas : has from = true.
  Hypothesis Hreg : reg d = true /\ reg to = true.

  Lemma len_reg : length (registered c) = length c.
  Proof. unfold registered. apply map_length. Qed.

  Lemma mc_eq p : meta_cast c reg decl has (registered c) fuel from to (Some (obj d p)) =
    cast (registered c) fuel d to (Some (complete d)).
  Proof.
    unfold meta_cast, classInfo. rewrite Hhas. cbn [obj s_dyn]. rewrite Hdecl.
    destruct Hreg as [-> ->]. reflexivity.
  Qed.

  (** The result is a sub-object of the target class if there is one and null otherwise. *)
  Lemma mc_sub p :
    (exists q, is_sub c d (q ++ [to]) /\
       meta_cast c reg decl has (registered c) fuel from to (Some (obj d p)) = Ok (Some (obj d (q ++ [to])))) \/
    ((forall q, ~ is_sub c d (q ++ [to])) /\
       meta_cast c reg decl has (registered c) fuel from to (Some (obj d p)) = Ok None).
  Proof.
    rewrite mc_eq.
    assert (Hlt : d < length (registered c)) by (rewrite len_reg; exact Hd).
    pose proof (cast_spec (registered c) fuel Hcl d to (Some (complete d)) Hlt) as H.
    destruct (cast (registered c) fuel d to (Some (complete d))) as [r| |].
    - destruct H as [(Hr & fs & Hfs & ->)|[Hn ->]].
      + left. apply first_chain_chain in Hfs. destruct (chain_sub c d d to fs [] Hfs (SubAll c d)) as (q & Hq & Hs).
        exists q. split; [exact Hs|]. cbn [option_map]. cbn in Hq. unfold complete. unfold obj in Hq. rewrite Hq. reflexivity.
      + right. split; [|reflexivity]. intros q Hq. apply Hn. eapply sub_reach; eassumption.
    - contradiction.
    - apply long_walk_cycles in H; auto. rewrite len_reg in H. lia.
  Qed.

  (** If there is just one, it is that one. *)
  Lemma mc_unique p q : unambiguous c d to -> is_sub c d (q ++ [to]) ->
    meta_cast c reg decl has (registered c) fuel from to (Some (obj d p)) = Ok (Some (obj d (q ++ [to]))).
  Proof.
    intros Hu Hq. destruct (mc_sub p) as [(q' & Hq' & ->)|[Hn _]]; [|exfalso; exact (Hn q Hq)].
    rewrite (Hu q q' Hq Hq'). reflexivity.
  Qed.
End MetaCast.

Lemma complete_unambiguous c d : closed (registered c) -> acyclic (registered c) -> unambiguous c d d.
Proof.
  intros Hc Ha. assert (H : forall p, is_sub c d p -> forall q, p = q ++ [d] -> q = []).
  { intros p Hp. destruct Hp as [|p a l b Hs Hn Hin|p a l b Hs Hn Hin]; intros q E.
    - destruct q as [|x [|y q]]; cbn in E; try discriminate. reflexivity.
    - apply app_inj_tail in E as [_ ->]. exfalso.
      apply (Ha a d); [eapply registered_direct; eassumption|eapply sub_reach; eassumption].
    - destruct q as [|x [|y q]]; cbn in E; try discriminate. reflexivity. }
  intros p p' Hp Hp'. rewrite (H _ Hp p eq_refl), (H _ Hp' p' eq_refl). reflexivity.
Qed.

(** A graph where bases come before the classes derived from them is closed and acyclic. *)
Definition ordered {X} (g : graph X) : bool :=
  forallb (fun p => forallb (fun b => fst b <? fst p) (snd p)) (combine (seq 0 (List.length g)) g).
Lemma combine_nth {X} (g : list X) : forall n a l, nth_error g a = Some l ->
  In (n + a, l) (combine (seq n (List.length g)) g).
Proof.
  induction g as [|x g IH]; intros n a l H; [destruct a; discriminate|]. destruct a as [|a]; cbn in *.
  - injection H as ->. left. rewrite Nat.add_0_r. reflexivity.
  - right. replace (n + S a) with (S n + a) by lia. apply IH. exact H.
Qed.
Lemma ordered_lt {X} (g : graph X) a b : ordered g = true -> direct g a b -> b < a.
Proof.
  intros Ho (l & f & Hn & Hin). unfold ordered in Ho. rewrite forallb_forall in Ho.
  specialize (Ho _ (combine_nth g 0 a l Hn)). cbn in Ho. rewrite forallb_forall in Ho.
  specialize (Ho _ Hin). apply Nat.ltb_lt in Ho. exact Ho.
Qed.
Lemma ordered_closed {X} (g : graph X) : ordered g = true -> closed g.
Proof.
  intros Ho a b H. pose proof (ordered_lt _ _ _ Ho H) as Hl. destruct H as (l & f & Hn & _).
  assert (a < List.length g) by (apply nth_error_Some; congruence). unfold graph in *. lia.
Qed.
Lemma ordered_acyclic {X} (g : graph X) : ordered g = true -> acyclic g.
Proof.
  intros Ho a b H Hr. assert (HL : forall x y, reach g x y -> y <= x).
  { induction 1 as [|x y z Hd Hr' IH]; [lia|]. apply (ordered_lt _ _ _ Ho) in Hd. lia. }
  apply HL in Hr. apply (ordered_lt _ _ _ Ho) in H. lia.
Qed.

(** A class all of whose ancestors lead back to it, looking for anything else, never gets an answer. *)
Lemma cycle_diverges (X : Type) (g : graph X) fuel a b :
  closed g -> a < List.length g -> (forall c, reach g a c -> reach g c a) -> ~ reach g a b ->
  (exists d, direct g a d) -> inheritedFrom g fuel a b = Fuel.
Proof.
  intros Hc. revert a. induction fuel as [|fuel IH]; intros a Hl Hback Hn Hd; [reflexivity|].
  rewrite inh_unfold. destruct (a =? b) eqn:E; [apply Nat.eqb_eq in E; subst; exfalso; apply Hn, reach_refl|].
  destruct Hd as (d & l & f & Hl1 & Hin). rewrite Hl1.
  destruct l as [|[e h] l]; [destruct Hin|]. cbn [inh_loop].
  assert (He : direct g a e) by (exists ((e, h) :: l), h; split; [exact Hl1|left; reflexivity]).
  rewrite IH; [reflexivity|exact (Hc _ _ He)| | |].
  - intros c Hr. eapply reach_trans; [apply Hback; eapply reach_step; eassumption|].
    eapply reach_step; [exact He|apply reach_refl].
  - intro Hr. apply Hn. eapply reach_step; eassumption.
  - assert (Hea : reach g e a) by (apply Hback; eapply reach_step; [exact He|apply reach_refl]).
    destruct (reach_inv _ _ _ Hea) as [<-|(k & Hk & _)]; [exists e; exact He|exists k; exact Hk].
Qed.

(** ** Class info inherited from bases *)
Lemma info_unfold c decl fuel s : inherited_info c decl (S fuel) s =
  if decl (class_of s) then Some (class_of s, s)
  else match nth_error c (class_of s) with
       | None => None
       | Some l => (fix loop (l : list (nat * bool)) : option (nat * sub) :=
           match l with [] => None | (d, v) :: l' => match inherited_info c decl fuel (to_base d v s) with Some r => Some r | None => loop l' end end) l
       end.
Proof. reflexivity. Qed.

Definition declares (decl : nat -> bool) (k : nat) : option nat := if decl k then Some k else None.

Lemma info_member c decl fuel : forall s r, getMember (declares decl) false (registered c) fuel (class_of s) = Ok r ->
  option_map fst (inherited_info c decl fuel s) = r.
Proof.
  induction fuel as [|fuel IH]; intros s r; [discriminate|]. rewrite info_unfold, mem_unfold. unfold declares at 1.
  destruct (decl (class_of s)); [intro H; injection H as <-; reflexivity|].
  unfold registered. rewrite nth_error_map. destruct (nth_error c (class_of s)) as [l|]; [|discriminate]. cbn [option_map].
  induction l as [|[d v] l IHl]; cbn [map fst snd mem_loop]; [intro H; injection H as <-; reflexivity|].
  pose proof (IH (to_base d v s)) as Hd. rewrite to_base_class in Hd. unfold registered in Hd.
  destruct (getMember _ false _ fuel d) as [[m|]| |]; try discriminate.
  - specialize (Hd _ eq_refl). intro H. injection H as <-.
    destruct (inherited_info c decl fuel (to_base d v s)) as [x|]; [exact Hd|discriminate Hd].
  - specialize (Hd _ eq_refl). destruct (inherited_info c decl fuel (to_base d v s)) as [x|]; [discriminate Hd|]. exact IHl.
Qed.

Lemma info_sub c decl fuel : forall d p a k s', inherited_info c decl fuel (obj d (p ++ [a])) = Some (k, s') ->
  decl k = true /\ exists q, s' = obj d (q ++ [k]) /\ converts c (p ++ [a]) (q ++ [k]).
Proof.
  induction fuel as [|fuel IH]; intros d p a k s'; [discriminate|]. rewrite info_unfold.
  assert (E : class_of (obj d (p ++ [a])) = a) by (unfold class_of; cbn; apply last_last). rewrite E.
  destruct (decl a) eqn:Ed.
  - intro H. injection H as <- <-. split; [exact Ed|]. exists p. split; [reflexivity|constructor].
  - destruct (nth_error c a) as [l|] eqn:El; [|discriminate].
    assert (G : forall l', incl l' l -> (fix loop (l : list (nat * bool)) : option (nat * sub) :=
        match l with [] => None | (d0, v) :: l' => match inherited_info c decl fuel (to_base d0 v (obj d (p ++ [a]))) with Some r => Some r | None => loop l' end end) l' = Some (k, s') ->
      decl k = true /\ exists q, s' = obj d (q ++ [k]) /\ converts c (p ++ [a]) (q ++ [k])).
    { induction l' as [|[b v] l' IHl]; intros HI; [discriminate|].
      destruct (inherited_info c decl fuel (to_base b v (obj d (p ++ [a])))) as [x|] eqn:Ex; [|apply IHl; intros y Hy; apply HI; right; exact Hy].
      intro H. injection H as ->. assert (Hb : In (b, v) l) by (apply HI; left; reflexivity). unfold to_base, obj in Ex. cbn [s_dyn s_path] in Ex. destruct v.
      - destruct (IH d [] b k s' Ex) as (Hk & q & Hq & Hs). split; [exact Hk|]. exists q. split; [exact Hq|]. eapply ConvVirtual; eassumption.
      - destruct (IH d (p ++ [a]) b k s' Ex) as (Hk & q & Hq & Hs). split; [exact Hk|]. exists q. split; [exact Hq|]. eapply ConvDirect; eassumption. }
    apply G. apply incl_refl.
Qed.
