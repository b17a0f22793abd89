(** Proofs about function traits and the listing of methods. *)
From Coq Require Import List Bool Arith NArith Ascii Lia.
From Verif Require Import TypesModel ListsModel StringsModel StringsSpec StringsProofs FnModel FnSpec.
Import ListNotations.

Lemma traits_calls f t : function_traits f = Some t ->
  exists m, calls f m (t_result t) (t_args t) /\ t_class t = option_map fst m /\
    t_uniform t = object_and_parameters m (t_args t) /\
    t_noexcept t = is_noexcept f /\
    match m with
    | None => t_const t = false /\ t_volatile t = false /\ t_lref t = false /\ t_rref t = false
    | Some (_, q) =>
        t_const t = m_const q /\ t_volatile t = m_volatile q /\
        (t_lref t = true <-> m_ref q = RL) /\ (t_rref t = true <-> m_ref q = RR)
    end.
Proof.
  destruct f as [r a nx va|cls r a q va|cls [[[r a] q]|]|r a|cls t0|t0]; cbn [function_traits]; try discriminate.
  - destruct nx, va; try discriminate; intros [= <-]; exists None; repeat split; constructor.
  - destruct va; [discriminate|]. intro H. exists (Some (cls, q)).
    destruct q as [c v rf nx]; destruct c, v, rf, nx; cbn in H; try discriminate; injection H as <-;
      cbn; repeat split; try constructor; try discriminate; try congruence.
  - intro H. exists (Some (cls, q)).
    destruct q as [c v rf nx]; destruct c, v, rf, nx; cbn in H; try discriminate; injection H as <-;
      cbn; repeat split; try constructor; try discriminate; try congruence.
Qed.

Lemma compiles_exactly f : method_compiles f = true <-> accepted f.
Proof.
  unfold method_compiles, max_arguments.
  destruct f as [r a nx va|cls r a q va|cls [[[r a] q]|]|r a|cls t0|t0]; cbn [function_traits accepted];
    try (split; [discriminate|intros []]).
  - destruct nx, va; cbn [t_args t_class sp_free sp_free_noexcept static_call_compiles];
      try (split; [discriminate|intros [? _]; discriminate]); rewrite andb_true_r, Nat.leb_le; intuition.
  - destruct va; [split; [discriminate|intros [? _]; discriminate]|].
    destruct q as [c v rf nx]; destruct c, v, rf, nx;
      cbn [member_specialisation m_const m_volatile m_ref m_noexcept t_args t_class t_const sp_member sp_member_noexcept sp_member_const
           sp_member_const_noexcept sp_member_volatile sp_member_const_volatile derive_class derive_lref derive_rref sp_free sp_free_noexcept
           member_call_compiles orb negb andb];
      rewrite ?andb_true_r, ?andb_false_r, ?Nat.leb_le;
      (split; [intro; try discriminate; repeat split; auto; try discriminate
              |intros (_ & L & R & X); try exact L; try (exfalso; apply R; reflexivity); exfalso;
               destruct (X eq_refl); discriminate]).
  - split; [|intros []]. destruct q as [c v rf nx]; destruct c, v, rf, nx; cbn; try discriminate; rewrite ?andb_false_r; discriminate.
Qed.

(** The types the arguments of an accepted function are bound to. *)
Definition bound (f : callable) : list qty :=
  match f with
  | Free _ a _ _ => a
  | Member cls _ a q _ => implicit_object cls q :: a
  | _ => []
  end.

Lemma listed_bound show n f : accepted f -> listed_name show n f = Some (signature n (map show (bound f))).
Proof.
  intro A. apply compiles_exactly in A. unfold method_compiles in A. unfold listed_name.
  destruct (function_traits f) as [t|] eqn:E; [|discriminate]. cbn. do 2 f_equal.
  destruct (traits_calls f t E) as (m & C & K & U & _). rewrite U.
  destruct f as [r a nx va|cls r a q va|cls op|r a|cls t0|t0]; inversion C; subst; cbn in *; try discriminate; try reflexivity.
  rewrite K in A. cbn in A. rewrite andb_false_r in A. discriminate.
Qed.

Section Names.
  Variable show : qty -> text.
  Hypothesis Hshow : good_names show.

  Lemma show_map_inj l l' : map show l = map show l' -> l = l'.
  Proof.
    revert l'. induction l as [|a l IH]; intros [|b l'] E; try discriminate; [reflexivity|].
    injection E as E1 E2. f_equal; [apply (proj1 Hshow); exact E1|apply IH; exact E2].
  Qed.

  Lemma shown_texts l : Forall (fun a => type_text a = true /\ a <> []) (map show l).
  Proof. apply Forall_forall. intros x I. apply in_map_iff in I as (a & <- & _). apply (proj2 Hshow). Qed.

  Lemma same_listed n n' l l' : good_name n -> good_name n' ->
    signature n (map show l) = signature n' (map show l') <-> n = n' /\ l = l'.
  Proof.
    intros [G _] [G' _]. split.
    - intro E. apply signature_inj in E as [-> E]; auto using shown_texts. split; [reflexivity|]. apply show_map_inj; exact E.
    - intros [-> ->]. reflexivity.
  Qed.

  (** *** Look-up among own and inherited methods *)

  Lemma getMethod_sig_spec (l : list entry) n a :
    (exists l1 x l2, l = l1 ++ x :: l2 /\ getMethod fst l (signature n a) = FSome x /\ fst x = signature n a /\
       Forall (fun y => fst y <> signature n a) l1)
    \/ (getMethod fst l (signature n a) = FNone /\ Forall (fun y => fst y <> signature n a) l).
  Proof.
    pose proof (signature_has_paren n a) as P. unfold getMethod. destruct (signature n a) as [|c s] eqn:Es; [destruct P|].
    rewrite <- Es in *. clear c s Es.
    destruct (findMethod_spec (fst : entry -> text) l (signature n a)) as [(l1 & x & l2 & -> & E & Hx & HF)|[E HF]].
    - left. exists l1, x, l2. apply answers_nonempty_sig in Hx; [|exact P].
      split; [reflexivity|]. split; [exact E|]. split; [symmetry; exact Hx|].
      eapply Forall_impl; [|exact HF]. intros y N K. apply N. left. symmetry. exact K.
    - right. split; [exact E|]. eapply Forall_impl; [|exact HF]. intros y N K. apply N. left. symmetry. exact K.
  Qed.

  Lemma lookup_sig_spec (m : methods) n a :
    (exists l1 x l2, own m ++ inherited m = l1 ++ x :: l2 /\ lookup m (signature n a) = FSome x /\ fst x = signature n a /\
       Forall (fun y => fst y <> signature n a) l1)
    \/ (lookup m (signature n a) = FNone /\ Forall (fun y => fst y <> signature n a) (own m ++ inherited m)).
  Proof.
    unfold lookup. destruct (getMethod_sig_spec (own m) n a) as [(l1 & x & l2 & E & G & X & F)|[G F]]; rewrite G.
    - left. exists l1, x, (l2 ++ inherited m). rewrite E, <- app_assoc. auto.
    - destruct (getMethod_sig_spec (inherited m) n a) as [(l1 & x & l2 & E & G' & X & F')|[G' F']]; rewrite G'.
      + left. exists (own m ++ l1), x, l2. rewrite E, app_assoc. repeat split; auto. apply Forall_app. auto.
      + right. split; [reflexivity|]. apply Forall_app. auto.
  Qed.

  Lemma first_is_it (l1 l2 l3 l4 : list entry) x y (P : entry -> Prop) :
    l1 ++ x :: l2 = l3 ++ y :: l4 -> P x -> P y ->
    Forall (fun z => ~ P z) l1 -> Forall (fun z => ~ P z) l3 -> x = y.
  Proof.
    revert l3. induction l1 as [|a l1 IH]; intros [|b l3] E Px Py F G; cbn in E.
    - congruence.
    - injection E as -> E. inversion G; subst. contradiction.
    - injection E as -> E. inversion F; subst. contradiction.
    - injection E as -> E. inversion F; inversion G; subst. eapply IH; eauto.
  Qed.

  Lemma register_grows m d : exists l, own (register show m d) = own m ++ l /\ inherited (register show m d) = inherited m.
  Proof.
    destruct d as [n f]. unfold register. destruct (method_compiles f); [|exists []; rewrite app_nil_r; auto].
    destruct (listed_name show n f); [|exists []; rewrite app_nil_r; auto].
    destruct (lookup m t); try (exists []; rewrite app_nil_r; auto; fail). exists [(t, f)]. auto.
  Qed.

  Lemma register_all_grows ds : forall m, exists l,
    own (register_all show m ds) = own m ++ l /\ inherited (register_all show m ds) = inherited m.
  Proof.
    induction ds as [|d ds IH]; intro m; cbn; [exists []; rewrite app_nil_r; auto|].
    destruct (register_grows m d) as (l1 & E1 & I1). destruct (IH (register show m d)) as (l2 & E2 & I2).
    exists (l1 ++ l2). unfold register_all in *. rewrite E2, E1, I2, I1, app_assoc. auto.
  Qed.

  (** Own entries come from the registrations. *)
  Definition comes_from (ds : list (text * callable)) (x : entry) : Prop :=
    exists n, In (n, snd x) ds /\ accepted (snd x) /\ fst x = signature n (map show (bound (snd x))).

  Lemma register_all_own ds : forall m,
    Forall (fun x => In x (own m) \/ comes_from ds x) (own (register_all show m ds)).
  Proof.
    induction ds as [|d ds IH]; intro m; [apply Forall_forall; auto|].
    change (register_all show m (d :: ds)) with (register_all show (register show m d) ds).
    eapply Forall_impl; [|apply IH]. intros x [I|(n & I & A & E)].
    - destruct d as [n f]. unfold register in I. destruct (method_compiles f) eqn:C; [|auto].
      apply compiles_exactly in C. rewrite (listed_bound show n f C) in I.
      destruct (lookup m _) eqn:L; auto. cbn in I. apply in_app_or in I as [I|[<-|[]]]; [auto|].
      right. exists n. cbn. auto.
    - right. exists n. cbn. auto.
  Qed.

  (** After a registration some method of the name and types is found. *)
  Lemma registered_found m n f : accepted f -> good_name n ->
    exists x, lookup (register show m (n, f)) (signature n (map show (bound f))) = FSome x /\
      fst x = signature n (map show (bound f)) /\
      (Forall (fun y => fst y <> signature n (map show (bound f))) (own m ++ inherited m) -> snd x = f).
  Proof.
    intros A G. unfold register. rewrite (proj2 (compiles_exactly f) A), (listed_bound show n f A).
    destruct (lookup_sig_spec m n (map show (bound f))) as [(l1 & x & l2 & E & L & X & F)|[L F]]; rewrite L.
    - exists x. rewrite L. split; [reflexivity|]. split; [exact X|]. intro N. exfalso.
      rewrite E in N. apply Forall_app in N as [_ N]. inversion N; subst. contradiction.
    - set (m' := Methods (own m ++ [(signature n (map show (bound f)), f)]) (inherited m)).
      destruct (lookup_sig_spec m' n (map show (bound f))) as [(l1 & x & l2 & E & L' & X & F')|[L' F']].
      + exists x. split; [exact L'|]. split; [exact X|]. intros _.
        apply Forall_app in F as [F1 F2].
        cbn in E. rewrite <- app_assoc in E. cbn in E.
        pose (P := fun z : entry => fst z = signature n (map show (bound f))).
        apply (first_is_it _ _ _ _ _ _ P) in E; [subst x; reflexivity|reflexivity|exact X|exact F1|exact F'].
      + exfalso. apply Forall_app in F' as [F' _]. cbn in F'. apply Forall_app in F' as [_ F']. inversion F'; subst. auto.
  Qed.

  Lemma found_stays m ds n a x : lookup m (signature n a) = FSome x ->
    In x (own m) -> lookup (register_all show m ds) (signature n a) = FSome x.
  Proof.
    intros L I. destruct (register_all_grows ds m) as (l & E & Ei). unfold lookup in *. rewrite E.
    destruct (getMethod_sig_spec (own m) n a) as [(l1 & y & l2 & Eo & G & Y & F)|[G F]]; rewrite G in L.
    - injection L as ->. 
      destruct (getMethod_sig_spec (own m ++ l) n a) as [(k1 & z & k2 & Ek & G' & Z & F')|[G' F']]; rewrite G'.
      + f_equal. rewrite Eo, <- app_assoc in Ek. cbn in Ek. symmetry.
        eapply (first_is_it _ _ _ _ _ _ (fun z => fst z = signature n a)); eauto.
      + exfalso. rewrite Eo in F'. apply Forall_app in F' as [F' _]. apply Forall_app in F' as [_ F']. inversion F'; subst. auto.
    - destruct (getMethod_sig_spec (inherited m) n a) as [(l1 & y & l2 & Eo & G' & Y & F')|[G' F']]; rewrite G' in L; [|discriminate].
      injection L as ->. exfalso. rewrite Forall_forall in F. exact (F x I Y).
  Qed.

  Lemma found_stays_inherited m ds n f x : 
    lookup m (signature n (map show (bound f))) = FSome x -> good_name n ->
    lookup (register_all show m ds) (signature n (map show (bound f))) = FSome x.
  Proof.
    intros L G. revert m L. induction ds as [|d ds IH]; intros m L; [exact L|].
    change (register_all show m (d :: ds)) with (register_all show (register show m d) ds). apply IH. clear IH.
    destruct d as [n' g]. unfold register. destruct (method_compiles g) eqn:C; [|exact L].
    apply compiles_exactly in C. rewrite (listed_bound show n' g C).
    destruct (lookup m (signature n' (map show (bound g)))) eqn:L'; try exact L.
    unfold lookup in *. cbn [own inherited].
    destruct (getMethod_sig_spec (own m) n (map show (bound f))) as [(l1 & y & l2 & Eo & Gm & Y & F)|[Gm F]]; rewrite Gm in L.
    - injection L as ->.
      destruct (getMethod_sig_spec (own m ++ [(signature n' (map show (bound g)), g)]) n (map show (bound f)))
        as [(k1 & z & k2 & Ek & G' & Z & F')|[G' F']]; rewrite G'.
      + f_equal. rewrite Eo, <- app_assoc in Ek. cbn in Ek. symmetry.
        eapply (first_is_it _ _ _ _ _ _ (fun z => fst z = signature n (map show (bound f)))); eauto.
      + exfalso. rewrite Eo in F'. apply Forall_app in F' as [F' _]. apply Forall_app in F' as [_ F']. inversion F'; subst. auto.
    - destruct (getMethod_sig_spec (own m ++ [(signature n' (map show (bound g)), g)]) n (map show (bound f)))
        as [(k1 & z & k2 & Ek & G' & Z & F')|[G' F']]; rewrite G'; [|exact L].
      exfalso. assert (Iz : In z (own m ++ [(signature n' (map show (bound g)), g)])) by (rewrite Ek; apply in_or_app; right; left; reflexivity).
      apply in_app_or in Iz as [Iz|[<-|[]]]; [rewrite Forall_forall in F; exact (F z Iz Z)|]. cbn in Z. rewrite Z in L'.
      rewrite Gm in L'. rewrite L' in L. discriminate.
  Qed.

  (** Every function of a program, accepted, is found or shares name and types with the one found. *)
  Lemma all_found ds : forall m n f, In (n, f) ds -> accepted f -> good_name n ->
    exists x, lookup (register_all show m ds) (signature n (map show (bound f))) = FSome x /\
      fst x = signature n (map show (bound f)).
  Proof.
    induction ds as [|d ds IH]; intros m n f I A G; [destruct I|].
    change (register_all show m (d :: ds)) with (register_all show (register show m d) ds).
    destruct I as [->|I]; [|apply IH; assumption].
    destruct (registered_found m n f A G) as (x & L & X & _). exists x. split; [|exact X].
    apply found_stays_inherited; assumption.
  Qed.

  (** Apart: no two functions of the program share name and types. *)
  Definition apart (p q : text * callable) : Prop := fst p <> fst q \/ bound (snd p) <> bound (snd q).

  Lemma apart_listed ds : forall m,
    (forall n f, In (n, f) ds -> accepted f /\ good_name n) ->
    ForallOrdPairs apart ds ->
    (forall n f x, In (n, f) ds -> In x (own m ++ inherited m) -> fst x <> signature n (map show (bound f))) ->
    own (register_all show m ds) = own m ++ map (fun d => (signature (fst d) (map show (bound (snd d))), snd d)) ds.
  Proof.
    induction ds as [|[n f] ds IH]; intros m A P N; cbn [map]; [symmetry; apply app_nil_r|].
    change (register_all show m ((n, f) :: ds)) with (register_all show (register show m (n, f)) ds).
    destruct (A n f (or_introl eq_refl)) as [Af Gn]. inversion P as [|? ? P1 P2]; subst.
    assert (R : register show m (n, f) = Methods (own m ++ [(signature n (map show (bound f)), f)]) (inherited m)).
    { unfold register. rewrite (proj2 (compiles_exactly f) Af), (listed_bound show n f Af).
      destruct (lookup_sig_spec m n (map show (bound f))) as [(l1 & x & l2 & E & L & X & F)|[L F]]; rewrite L; [|reflexivity].
      exfalso. apply (N n f x); [left; reflexivity|rewrite E; apply in_or_app; right; left; reflexivity|exact X]. }
    rewrite R, IH; cbn [own inherited].
    - rewrite <- app_assoc. reflexivity.
    - intros n' g I. apply A. right. exact I.
    - exact P2.
    - intros n' g x I Ix. rewrite <- app_assoc in Ix. cbn in Ix. apply in_app_or in Ix as [Ix|[<-|Ix]].
      + apply N; [right; exact I|apply in_or_app; auto].
      + cbn. intro E. destruct (A n' g (or_intror I)) as [_ Gn'].
        apply (proj1 (same_listed n n' (bound f) (bound g) Gn Gn')) in E as [-> E].
        rewrite Forall_forall in P1. destruct (P1 (n', g) I) as [K|K]; cbn in K; congruence.
      + apply N; [right; exact I|apply in_or_app; auto].
  Qed.
End Names.

Lemma overloads_bound f g : accepted f -> accepted g -> may_overload f g ->
  ~ takes_the_object_of f g -> ~ takes_the_object_of g f -> bound f <> bound g.
Proof.
  destruct f as [r a nx va|cls r a q va|cls op|r a|cls t0|t0]; cbn [accepted]; try tauto;
    destruct g as [r' a' nx' va'|cls' r' a' q' va'|cls' op'|r' a'|cls' t0'|t0']; cbn [accepted may_overload takes_the_object_of bound];
    try tauto.
  - congruence.
  - intros (_ & _ & R & _) (_ & _ & R' & _) [-> [N|[K D]]] _ _ E; injection E as E1 E2 E3.
    + congruence.
    + destruct q as [c v rf nx], q' as [c' v' rf' nx']; cbn in *. subst.
      destruct rf, rf'; try congruence; try (destruct D as [D|[D|D]]; congruence).
      * destruct K as [K _]. specialize (K eq_refl). discriminate.
      * destruct K as [_ K]. specialize (K eq_refl). discriminate.
Qed.

Lemma bound_collision f g : accepted f -> accepted g -> may_overload f g ->
  (bound f = bound g <-> takes_the_object_of f g \/ takes_the_object_of g f).
Proof.
  intros A B O. split.
  - intro E. destruct f as [r a nx va|cls r a q va|cls op|r a|cls t0|t0]; try (destruct A; fail);
      destruct g as [r' a' nx' va'|cls' r' a' q' va'|cls' op'|r' a'|cls' t0'|t0']; try (destruct B; fail); cbn in *; auto.
    exfalso. apply (overloads_bound (Member cls r a q va) (Member cls' r' a' q' va')); cbn; auto.
  - intros [T|T]; destruct f, g; cbn in T; try contradiction; subst; cbn; reflexivity.
Qed.
