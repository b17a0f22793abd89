(** Property theorems C14, C15, C17, C40. *)
From Coq Require Import List Bool Arith Lia.
From Verif Require Import Util InheritModel InheritSpec InheritProofs.
Import ListNotations.

(** ** C14 *)

(** On every acyclic graph the search ends (with as much recursion as there are classes, and any more) and
    answers exactly whether [b] is [a] or one of its direct or indirect bases. *)
Theorem C14_inheritedFrom_reachability : forall (X : Type) (g : graph X) fuel a b,
  closed g -> acyclic g -> a < length g -> length g <= fuel ->
  exists r, inheritedFrom g fuel a b = Ok r /\ (r = true <-> reach g a b).
Proof.
  intros X g fuel a b Hc Ha Hl Hf.
  destruct (inh_exact g fuel a b Hc Ha Hl Hf) as [[H1 H2]|[H1 H2]]; [exists true|exists false]; split; auto.
  - tauto.
  - split; [discriminate|contradiction].
Qed.
Print Assumptions C14_inheritedFrom_reachability.

(** Hence it is a partial order: reflexive, transitive, antisymmetric. *)
Theorem C14_partial_order : forall (X : Type) (g : graph X) fuel,
  closed g -> acyclic g -> length g <= fuel ->
  (forall a, a < length g -> inheritedFrom g fuel a a = Ok true) /\
  (forall a b c, a < length g -> b < length g -> inheritedFrom g fuel a b = Ok true ->
     inheritedFrom g fuel b c = Ok true -> inheritedFrom g fuel a c = Ok true) /\
  (forall a b, a < length g -> b < length g -> inheritedFrom g fuel a b = Ok true ->
     inheritedFrom g fuel b a = Ok true -> a = b).
Proof.
  intros X g fuel Hc Ha Hf.
  assert (HE : forall a b, a < length g -> inheritedFrom g fuel a b = Ok true <-> reach g a b).
  { intros a b Hl. destruct (C14_inheritedFrom_reachability X g fuel a b Hc Ha Hl Hf) as (r & -> & Hr).
    rewrite <- Hr. split; congruence. }
  split; [|split].
  - intros a Hl. apply HE; [exact Hl|apply reach_refl].
  - intros a b c Hla Hlb H1 H2. apply HE; [exact Hla|]. apply HE in H1; [|exact Hla]. apply HE in H2; [|exact Hlb].
    eapply reach_trans; eassumption.
  - intros a b Hla Hlb H1 H2. apply HE in H1; [|exact Hla]. apply HE in H2; [|exact Hlb].
    destruct (reach_inv _ _ _ H1) as [E|(d & Hd & Hr)]; [exact E|]. exfalso. apply (Ha a d Hd).
    eapply reach_trans; eassumption.
Qed.
Print Assumptions C14_partial_order.

(** Nothing stops a class from declaring itself (or a class derived from it) as its base, and then the
    search does not end: no amount of recursion suffices. *)
Theorem C14_cyclic_terminates_refuted : exists (g : graph nat) a b, closed g /\ a < length g /\ b < length g /\
  forall fuel, inheritedFrom g fuel a b = Fuel.
Proof.
  exists [[(0, fun x => x)]; []], 0, 1. split; [|split; [cbn; lia|split; [cbn; lia|]]].
  - intros a d (l & f & Hn & Hin). destruct a as [|[|a]]; cbn in Hn.
    + injection Hn as <-. destruct Hin as [E|[]]. injection E as <- _. cbn. lia.
    + injection Hn as <-. destruct Hin.
    + destruct a; discriminate.
  - intro fuel. apply self_base_loops.
Qed.
Print Assumptions C14_cyclic_terminates_refuted.

(** Any class on a cycle of declared bases makes some search unbounded. *)
Theorem C14_every_cycle_diverges : forall (X : Type) (g : graph X) fuel a b,
  closed g -> a < length g -> (forall c, reach g a c -> reach g c a) -> ~ reach g a b ->
  (exists d, direct g a d) -> inheritedFrom g fuel a b = Fuel.
Proof. exact @cycle_diverges. Qed.
Print Assumptions C14_every_cycle_diverges.

(** A diamond 4 -> 2,3 -> 1 -> 0 and a class apart. *)
Definition diamond : graph nat :=
  [[]; [(0, fun x => x + 1)]; [(1, fun x => x + 10)]; [(1, fun x => x + 100)];
   [(2, fun x => x + 1000); (3, fun x => x + 2000)]; []].
Example diamond_ok : closed diamond /\ acyclic diamond.
Proof. split; [apply ordered_closed|apply ordered_acyclic]; reflexivity. Qed.
Example C14_ex : inheritedFrom diamond 6 4 0 = Ok true /\ inheritedFrom diamond 6 3 2 = Ok false /\
  inheritedFrom diamond 6 5 0 = Ok false.
Proof. repeat split. Qed.

(** ** C15 *)

(** The result is the instance converted along the first chain in declaration order, or null. *)
Theorem C15_cast_first_chain : forall (X : Type) (g : graph X) fuel a b x,
  closed g -> acyclic g -> a < length g -> length g <= fuel ->
  (reach g a b /\ exists fs, first_chain g a b fs /\ chain g a b fs /\ (forall fs', first_chain g a b fs' -> fs' = fs) /\
     cast g fuel a b (Some x) = Ok (Some (along fs x))) \/
  (~ reach g a b /\ cast g fuel a b (Some x) = Ok None).
Proof.
  intros X g fuel a b x Hc Ha Hl Hf. pose proof (cast_spec g fuel Hc a b (Some x) Hl) as H.
  destruct (cast g fuel a b (Some x)) as [r| |].
  - destruct H as [(Hr & fs & Hfs & ->)|[Hn ->]]; [left|right; auto]. split; [exact Hr|]. exists fs.
    split; [exact Hfs|]. split; [eapply first_chain_chain; eassumption|]. split; [|reflexivity].
    intros fs' H'. symmetry. eapply first_chain_unique; eassumption.
  - contradiction.
  - apply long_walk_cycles in H; auto. lia.
Qed.
Print Assumptions C15_cast_first_chain.

(** Null exactly when inheritedFrom says no (for non-null instances); null stays null. *)
Theorem C15_null_iff_unrelated : forall (X : Type) (g : graph X) fuel a b x,
  closed g -> acyclic g -> a < length g -> length g <= fuel ->
  (cast g fuel a b (Some x) = Ok None <-> inheritedFrom g fuel a b = Ok false) /\
  cast g fuel a b None = Ok None.
Proof.
  intros X g fuel a b x Hc Ha Hl Hf. split.
  - destruct (inh_exact g fuel a b Hc Ha Hl Hf) as [[-> Hr]|[-> Hr]];
      destruct (C15_cast_first_chain X g fuel a b x Hc Ha Hl Hf) as [(Hr' & fs & _ & _ & _ & ->)|[Hr' ->]];
      try contradiction; split; congruence.
  - pose proof (cast_spec g fuel Hc a b None Hl) as H. destruct (cast g fuel a b None) as [r| |].
    + destruct H as [(_ & fs & _ & ->)|[_ ->]]; reflexivity.
    + contradiction.
    + apply long_walk_cycles in H; auto. lia.
Qed.
Print Assumptions C15_null_iff_unrelated.

(** When all chains to the base agree, the result is the conversion along any of them. *)
Theorem C15_choice_irrelevant : forall (X : Type) (g : graph X) fuel a b x fs,
  closed g -> acyclic g -> a < length g -> length g <= fuel ->
  (forall gs hs, chain g a b gs -> chain g a b hs -> along gs x = along hs x) ->
  chain g a b fs -> cast g fuel a b (Some x) = Ok (Some (along fs x)).
Proof.
  intros X g fuel a b x fs Hc Ha Hl Hf Hag Hch.
  destruct (C15_cast_first_chain X g fuel a b x Hc Ha Hl Hf) as [(Hr & gs & _ & Hg & _ & ->)|[Hr _]].
  - rewrite (Hag gs fs Hg Hch). reflexivity.
  - exfalso. apply Hr. clear - Hch. induction Hch as [|a l d f b fs Hn Hin Hc IH]; [apply reach_refl|].
    eapply reach_step; [|exact IH]. exists l, f. auto.
Qed.
Print Assumptions C15_choice_irrelevant.

Example C15_ex : cast diamond 6 4 1 (Some 0) = Ok (Some 1010) /\ cast diamond 6 4 3 (Some 0) = Ok (Some 2000) /\
  cast diamond 6 3 2 (Some 7) = Ok None /\ first_chain diamond 4 1 [fun x => x + 1000; fun x => x + 10].
Proof.
  split; [reflexivity|]. split; [reflexivity|]. split; [reflexivity|].
  eapply (FStep _ 4 1 [] 2); [discriminate|reflexivity|intros ? ? []|].
  eapply (FStep _ 2 1 [] 1); [discriminate|reflexivity|intros ? ? []|]. constructor.
Qed.

(** ** C17 *)

(** Own members first, then depth first through the bases in declaration order; nothing only if no class
    on the way up has the member. *)
Theorem C17_member_lookup : forall (X M : Type) (own : nat -> option M) (g : graph X) fuel a,
  closed g -> acyclic g -> a < length g -> length g <= fuel ->
  (exists m, getMember own false g fuel a = Ok (Some m) /\ finds g own a m /\ (forall m', finds g own a m' -> m' = m)) \/
  (getMember own false g fuel a = Ok None /\ forall c, reach g a c -> own c = None).
Proof.
  intros X M own g fuel a Hc Ha Hl Hf. pose proof (mem_spec g own fuel Hc a Hl) as H.
  destruct (getMember own false g fuel a) as [[m|]| |].
  - left. exists m. split; [reflexivity|]. split; [exact H|]. intros m' H'. symmetry. eapply finds_unique; eassumption.
  - right. auto.
  - contradiction.
  - apply long_walk_cycles in H; auto. lia.
Qed.
Print Assumptions C17_member_lookup.

Theorem C17_own_first : forall (X M : Type) (own : nat -> option M) (g : graph X) fuel a m,
  own a = Some m -> 0 < fuel -> getMember own false g fuel a = Ok (Some m).
Proof. intros X M own g [|fuel] a m H Hf; [lia|]. rewrite mem_unfold, H. reflexivity. Qed.
Print Assumptions C17_own_first.

(** A member of any ancestor is found unless another class hides it; what is found belongs to an ancestor. *)
Theorem C17_ancestor_found : forall (X M : Type) (own : nat -> option M) (g : graph X) fuel a,
  closed g -> acyclic g -> a < length g -> length g <= fuel ->
  ((exists c m, reach g a c /\ own c = Some m) <->
   exists c m, reach g a c /\ own c = Some m /\ getMember own false g fuel a = Ok (Some m)).
Proof.
  intros X M own g fuel a Hc Ha Hl Hf. split.
  - intros (c & m & Hr & Ho). destruct (C17_member_lookup X M own g fuel a Hc Ha Hl Hf) as [(m' & He & Hm & _)|[_ Hn]].
    + destruct (finds_reach _ _ _ _ Hm) as (c' & Hr' & Ho'). exists c', m'. auto.
    + rewrite (Hn c Hr) in Ho. discriminate.
  - intros (c & m & Hr & Ho & _). eauto.
Qed.
Print Assumptions C17_ancestor_found.

(** An empty query finds nothing, whatever the classes would answer to it. *)
Theorem C17_empty_query : forall (X M : Type) (own : nat -> option M) (g : graph X) fuel a,
  0 < fuel -> getMember own true g fuel a = Ok None.
Proof. intros X M own g [|fuel] a H; [lia|reflexivity]. Qed.
Print Assumptions C17_empty_query.

Example C17_ex :
  let own := fun c => match c with 1 => Some 11 | 3 => Some 33 | _ => None end in
  getMember own false diamond 6 4 = Ok (Some 11) /\ getMember own false diamond 6 3 = Ok (Some 33) /\
  getMember own false diamond 6 5 = Ok (@None nat).
Proof. repeat split. Qed.

(** ** C40 *)

(** From any sub-object of an object whose class [d] is registered and declares its class info: the result is
    a sub-object of the requested class of the same complete object if it has one, null otherwise. *)
Theorem C40_result_sub_object : forall c reg decl has fuel d from to p,
  closed (registered c) -> acyclic (registered c) -> length c <= fuel -> d < length c ->
  decl d = true -> has from = true -> reg d = true -> reg to = true ->
  (exists q, is_sub c d (q ++ [to]) /\
     meta_cast c reg decl has (registered c) fuel from to (Some (obj d p)) = Ok (Some (obj d (q ++ [to])))) \/
  ((forall q, ~ is_sub c d (q ++ [to])) /\
     meta_cast c reg decl has (registered c) fuel from to (Some (obj d p)) = Ok None).
Proof. intros. apply mc_sub; auto. Qed.
Print Assumptions C40_result_sub_object.

(** It is what the C++ conversion gives when the class occurs once in the object. *)
Theorem C40_agrees_with_conversion : forall c reg decl has fuel d from to p q,
  closed (registered c) -> acyclic (registered c) -> length c <= fuel -> d < length c ->
  decl d = true -> has from = true -> reg d = true -> reg to = true ->
  unambiguous c d to -> is_sub c d (p ++ [from]) -> converts c (p ++ [from]) (q ++ [to]) ->
  meta_cast c reg decl has (registered c) fuel from to (Some (obj d (p ++ [from]))) = Ok (Some (obj d (q ++ [to]))).
Proof. intros. apply mc_unique; auto. eapply converts_sub; eassumption. Qed.
Print Assumptions C40_agrees_with_conversion.

(** Down to the complete object and up again gives back the pointer; so does a cast to the own class. *)
Theorem C40_round_trip : forall c reg decl has fuel d from p,
  closed (registered c) -> acyclic (registered c) -> length c <= fuel -> d < length c ->
  decl d = true -> has from = true -> has d = true -> reg d = true -> reg from = true ->
  unambiguous c d from -> is_sub c d (p ++ [from]) ->
  meta_cast c reg decl has (registered c) fuel from d (Some (obj d (p ++ [from]))) = Ok (Some (complete d)) /\
  meta_cast c reg decl has (registered c) fuel d from (Some (complete d)) = Ok (Some (obj d (p ++ [from]))) /\
  meta_cast c reg decl has (registered c) fuel from from (Some (obj d (p ++ [from]))) = Ok (Some (obj d (p ++ [from]))).
Proof.
  intros c reg decl has fuel d from p Hc Ha Hf Hd Hdecl Hhas Hhd Hrd Hrf Hu Hs. split; [|split].
  - apply (mc_unique c reg decl has fuel Hc Ha Hf d from d Hd Hdecl Hhas (conj Hrd Hrd) _ []).
    + apply complete_unambiguous; assumption.
    + constructor.
  - apply (mc_unique c reg decl has fuel Hc Ha Hf d d from Hd Hdecl Hhd (conj Hrd Hrf) [d] p Hu Hs).
  - apply (mc_unique c reg decl has fuel Hc Ha Hf d from from Hd Hdecl Hhas (conj Hrd Hrf) (p ++ [from]) p Hu Hs).
Qed.
Print Assumptions C40_round_trip.

(** Null for a class the object is not made of, for unregistered classes and for null. *)
Theorem C40_unrelated_null : forall c reg decl has fuel d from to p,
  closed (registered c) -> acyclic (registered c) -> length c <= fuel -> d < length c ->
  decl d = true -> has from = true ->
  (reg to = false \/ reg d = false \/ ~ reach (registered c) d to) ->
  meta_cast c reg decl has (registered c) fuel from to (Some (obj d p)) = Ok None.
Proof.
  intros c reg decl has fuel d from to p Hc Ha Hf Hd Hdecl Hhas H.
  destruct (reg d) eqn:Hrd; [destruct (reg to) eqn:Hrt|].
  - destruct H as [H|[H|H]]; try discriminate.
    destruct (mc_sub c reg decl has fuel Hc Ha Hf d from to Hd Hdecl Hhas (conj Hrd Hrt) p) as [(q & Hq & _)|[_ E]]; [|exact E].
    exfalso. apply H. eapply sub_reach; eassumption.
  - unfold meta_cast, classInfo. cbn [obj s_dyn]. rewrite Hhas, Hdecl, Hrd, Hrt. reflexivity.
  - unfold meta_cast, classInfo. cbn [obj s_dyn]. rewrite Hhas, Hdecl, Hrd. reflexivity.
Qed.
Print Assumptions C40_unrelated_null.

Theorem C40_null_stays_null : forall c reg decl has g fuel from to,
  meta_cast c reg decl has g fuel from to None = Ok None.
Proof. intros. unfold meta_cast. destruct (has from), (to =? from); reflexivity. Qed.
Print Assumptions C40_null_stays_null.

(** Without class info only the class itself is answered. *)
Theorem C40_no_class_info : forall c reg decl has g fuel from to p, has from = false ->
  meta_cast c reg decl has g fuel from to p = Ok (if to =? from then p else None).
Proof. intros. unfold meta_cast. rewrite H. destruct (to =? from); reflexivity. Qed.
Print Assumptions C40_no_class_info.

(** If the complete object's class declares no class info, the object is seen as the sub-object of the most derived class
    on the path that does: the answer is a base of that sub-object, null if it has no such base. *)
Theorem C40_inherited_info : forall c reg decl has fuel d from to pre k post,
  closed (registered c) -> acyclic (registered c) -> length c <= fuel -> k < length c ->
  decl d = false -> has from = true -> reg k = true -> reg to = true ->
  decl k = true -> (forall x, In x pre -> decl x = false) ->
  (exists q, converts c (pre ++ [k]) (q ++ [to]) /\
     meta_cast c reg decl has (registered c) fuel from to (Some (obj d (pre ++ k :: post))) = Ok (Some (obj d (q ++ [to])))) \/
  ((forall q, ~ converts c (pre ++ [k]) (q ++ [to])) /\
     meta_cast c reg decl has (registered c) fuel from to (Some (obj d (pre ++ k :: post))) = Ok None).
Proof.
  intros c reg decl has fuel d from to pre k post Hc Ha Hf Hk Hd Hh Hrk Hrt Dk Hp.
  assert (E : meta_cast c reg decl has (registered c) fuel from to (Some (obj d (pre ++ k :: post))) =
              cast (registered c) fuel k to (Some (obj d (pre ++ [k])))).
  { unfold meta_cast, classInfo. rewrite Hh. cbn [obj s_dyn s_path]. rewrite Hd.
    assert (F : forall acc, first_declared decl acc (pre ++ k :: post) = Some (k, acc ++ pre ++ [k])).
    { induction pre as [|x pre IH]; intro acc; cbn [app first_declared].
      - rewrite Dk. reflexivity.
      - rewrite (Hp x (or_introl eq_refl)). rewrite IH by (intros y Hy; apply Hp; right; exact Hy).
        rewrite <- app_assoc. reflexivity. }
    rewrite F, Hrk, Hrt. reflexivity. }
  rewrite E. assert (Hlt : k < length (registered c)) by (rewrite len_reg; exact Hk).
  pose proof (cast_spec (registered c) fuel Hc k to (Some (obj d (pre ++ [k]))) Hlt) as H.
  destruct (cast (registered c) fuel k to (Some (obj d (pre ++ [k])))) as [r| |].
  - destruct H as [(Hr & fs & Hfs & ->)|[Hn ->]].
    + left. apply first_chain_chain in Hfs. destruct (chain_converts c d k to fs pre Hfs) as (q & Hq & Hs).
      exists q. split; [exact Hs|]. cbn [option_map]. rewrite Hq. reflexivity.
    + right. split; [|reflexivity]. intros q Hq. apply Hn. eapply converts_reach; [exact Hq|reflexivity|reflexivity].
  - contradiction.
  - apply long_walk_cycles in H; auto. rewrite len_reg in H. lia.
Qed.
Print Assumptions C40_inherited_info.

(** 1 derives from 0 and declares, 2 derives from 1 and does not: from the 0 in a 2 one gets to the 1 in it, not to the 2. *)
Example C40_inherited_case :
  let c := [[]; [(0, false)]; [(1, false)]] in let decl := fun k => k <? 2 in
  closed (registered c) /\ acyclic (registered c) /\ decl 2 = false /\ decl 1 = true /\ (forall x, In x [2] -> decl x = false) /\
  meta_cast c (fun _ => true) decl (fun _ => true) (registered c) 3 0 1 (Some (obj 2 ([2] ++ 1 :: [0]))) = Ok (Some (obj 2 [2; 1])) /\
  meta_cast c (fun _ => true) decl (fun _ => true) (registered c) 3 0 2 (Some (obj 2 ([2] ++ 1 :: [0]))) = Ok None.
Proof.
  cbn zeta. split; [apply ordered_closed; reflexivity|]. split; [apply ordered_acyclic; reflexivity|].
  split; [reflexivity|]. split; [reflexivity|]. split; [intros x [<-|[]]; reflexivity|]. split; reflexivity.
Qed.

(** If no class on the path declares class info either, it is the one of the base that C++ finds in the order of declaration
    (the only one, if the call is not ambiguous) and of the sub-object that the conversion to this base gives; there is none only
    if no base declares one. *)
Theorem C40_base_info : forall c decl d p a,
  closed (registered c) -> acyclic (registered c) -> a < length c ->
  decl d = false -> (forall x, In x (p ++ [a]) -> decl x = false) ->
  (exists k q, classInfo c decl (obj d (p ++ [a])) = Some (k, obj d (q ++ [k])) /\ decl k = true /\ converts c (p ++ [a]) (q ++ [k]) /\
     finds (registered c) (fun x => if decl x then Some x else None) a k) \/
  (classInfo c decl (obj d (p ++ [a])) = None /\ forall k, reach (registered c) a k -> decl k = false).
Proof.
  intros c decl d p a Hc Ha Hl Hd Hp.
  assert (F : forall l acc, (forall x, In x l -> decl x = false) -> first_declared decl acc l = None).
  { induction l as [|x l IH]; intros acc Hn; cbn; [reflexivity|]. rewrite (Hn x (or_introl eq_refl)). apply IH. intros y Hy. apply Hn. right; exact Hy. }
  assert (E : classInfo c decl (obj d (p ++ [a])) = inherited_info c decl (S (length c)) (obj d (p ++ [a]))).
  { unfold classInfo. cbn [obj s_dyn s_path]. rewrite Hd, (F _ _ Hp). reflexivity. }
  rewrite E. assert (Ec : class_of (obj d (p ++ [a])) = a) by (unfold class_of; cbn; apply last_last).
  assert (Hl' : a < length (registered c)) by (rewrite len_reg; exact Hl).
  pose proof (info_member c decl (S (length c)) (obj d (p ++ [a]))) as M. rewrite Ec in M.
  destruct (C17_member_lookup sub nat (declares decl) (registered c) (S (length c)) a Hc Ha Hl') as [(k & Hk & Hf & _)|[Hk Hn]]; [rewrite len_reg; lia| |].
  - left. specialize (M _ Hk). destruct (inherited_info c decl (S (length c)) (obj d (p ++ [a]))) as [[k' s']|] eqn:Ei; [|discriminate M].
    cbn in M. injection M as ->. destruct (info_sub _ _ _ _ _ _ _ _ Ei) as (Dk & q & -> & Hq). exists k, q. auto.
  - right. specialize (M _ Hk). destruct (inherited_info c decl (S (length c)) (obj d (p ++ [a]))); [discriminate M|]. split; [reflexivity|].
    intros k Hr. specialize (Hn k Hr). unfold declares in Hn. destruct (decl k); [discriminate|reflexivity].
Qed.
Print Assumptions C40_base_info.

(** 3 derives from 1 and 2, 2 from 0; only 0 declares. The class info of a 3 is that of the 0 in its 2. *)
Example C40_base_case :
  let c := [[]; []; [(0, false)]; [(1, false); (2, false)]] in let decl := fun k => k =? 0 in
  closed (registered c) /\ acyclic (registered c) /\ (forall x, In x ([] ++ [3]) -> decl x = false) /\
  classInfo c decl (obj 3 [3]) = Some (0, obj 3 [3; 2; 0]) /\ classInfo c decl (obj 1 [1]) = None.
Proof.
  cbn zeta. split; [apply ordered_closed; reflexivity|]. split; [apply ordered_acyclic; reflexivity|].
  split; [intros x [<-|[]]; reflexivity|]. split; reflexivity.
Qed.

(** The reference form throws exactly where the pointer form gives null. *)
Theorem C40_reference_form : forall r, (meta_cast_ref r = Ok (inr tt) <-> r = Ok None) /\
  (forall s, meta_cast_ref r = Ok (inl s) <-> r = Ok (Some s)).
Proof. intros [[s|]| |]; cbn; split; split; intros; congruence. Qed.
Print Assumptions C40_reference_form.

Definition yes (_ : nat) := true.
(** 0 = A; 1, 2 derive from A virtually; 3 derives from 1 and 2; 4 from 3. *)
Definition vdiamond : cxx := [[]; [(0, true)]; [(0, true)]; [(1, false); (2, false)]; [(3, false)]].
Example vdiamond_ok : closed (registered vdiamond) /\ acyclic (registered vdiamond).
Proof. split; [apply ordered_closed|apply ordered_acyclic]; reflexivity. Qed.
Example C40_ex :
  meta_cast vdiamond yes yes yes (registered vdiamond) 5 2 1 (Some (obj 4 [4; 3; 2])) = Ok (Some (obj 4 [4; 3; 1])) /\
  meta_cast vdiamond yes yes yes (registered vdiamond) 5 2 0 (Some (obj 4 [4; 3; 2])) = Ok (Some (obj 4 [0])) /\
  is_sub vdiamond 4 ([4; 3] ++ [2]) /\ converts vdiamond ([4; 3] ++ [2]) ([] ++ [0]) /\ unambiguous vdiamond 4 0.
Proof.
  split; [reflexivity|]. split; [reflexivity|]. split; [|split].
  - apply (SubDirect vdiamond 4 [4] 3 [(1, false); (2, false)] 2); [|reflexivity|right; left; reflexivity].
    apply (SubDirect vdiamond 4 [] 4 [(3, false)] 3); [|reflexivity|left; reflexivity]. constructor.
  - apply (ConvVirtual vdiamond [4; 3] 2 [(0, true)] 0); [reflexivity|left; reflexivity|constructor].
  - (* 0 is only ever a virtual base here *)
    assert (H : forall p, is_sub vdiamond 4 p -> forall q, p = q ++ [0] -> q = []).
    { intros p Hp. destruct Hp as [|p a l b Hs Hn Hin|p a l b Hs Hn Hin]; intros q E.
      - destruct q as [|x [|y q]]; cbn in E; discriminate.
      - apply app_inj_tail in E as [_ ->]. exfalso. destruct a as [|[|[|[|[|a]]]]]; cbn in Hn; try (destruct a; discriminate);
          injection Hn as <-; cbn in Hin; intuition discriminate.
      - destruct q as [|x [|y q]]; cbn in E; try discriminate. reflexivity. }
    intros p p' Hp Hp'. rewrite (H _ Hp p eq_refl), (H _ Hp' p' eq_refl). reflexivity.
Qed.

(** A base occurring twice (not virtually): 1 and 2 each have their own 0. A cast from the 0 inside 2 to class
    0, its own class, yields the 0 inside 1; the conversion from 2 to 0, unambiguous in C++, does too. *)
Theorem C40_repeated_base_refuted : exists c d from p to q,
  closed (registered c) /\ acyclic (registered c) /\ is_sub c d (p ++ [from]) /\
  converts c (p ++ [from]) (q ++ [to]) /\ (forall q', converts c (p ++ [from]) (q' ++ [to]) -> q' = q) /\
  meta_cast c yes yes yes (registered c) (length c) from to (Some (obj d (p ++ [from]))) <> Ok (Some (obj d (q ++ [to]))) /\
  meta_cast c yes yes yes (registered c) (length c) to to (Some (obj d (q ++ [to]))) <> Ok (Some (obj d (q ++ [to]))).
Proof.
  exists [[]; [(0, false)]; [(0, false)]; [(1, false); (2, false)]], 3, 2, [3], 0, [3; 2].
  split; [apply ordered_closed; reflexivity|]. split; [apply ordered_acyclic; reflexivity|].
  split.
  { apply (SubDirect _ 3 [] 3 [(1, false); (2, false)] 2); [constructor|reflexivity|right; left; reflexivity]. }
  split.
  { apply (ConvDirect _ [3] 2 [(0, false)] 0); [reflexivity|left; reflexivity|constructor]. }
  split; [|split; cbn; intro H; discriminate H].
  intros q' H. inversion H as [p E1 E2|p a l b r Hn Hin Hc E1 E2|p a l b r Hn Hin Hc E1 E2].
  - change [3; 2] with ([3] ++ [2]) in E2. apply app_inj_tail in E2 as [_ E]. discriminate.
  - change [3; 2] with ([3] ++ [2]) in E1. apply app_inj_tail in E1 as [-> ->]. cbn in Hn. injection Hn as <-.
    destruct Hin as [E|[]]. injection E as <-. inversion Hc as [p' E3 E4|p' a' l' b' r' Hn' Hin' Hc' E3 E4|p' a' l' b' r' Hn' Hin' Hc' E3 E4].
    + change [3; 2; 0] with ([3; 2] ++ [0]) in E4. apply app_inj_tail in E4 as [<- _]. reflexivity.
    + cbn in E3. change [3; 2; 0] with ([3; 2] ++ [0]) in E3. apply app_inj_tail in E3 as [_ ->]. cbn in Hn'. injection Hn' as <-. destruct Hin'.
    + cbn in E3. change [3; 2; 0] with ([3; 2] ++ [0]) in E3. apply app_inj_tail in E3 as [_ ->]. cbn in Hn'. injection Hn' as <-. destruct Hin'.
  - change [3; 2] with ([3] ++ [2]) in E1. apply app_inj_tail in E1 as [-> ->]. cbn in Hn. injection Hn as <-.
    destruct Hin as [E|[]]. discriminate E.
Qed.
Print Assumptions C40_repeated_base_refuted.

(** A registered class that inherits its class info without declaring its own cannot be cast to itself. *)
Theorem C40_undeclared_class_refuted : exists c decl d,
  closed (registered c) /\ acyclic (registered c) /\ d < length c /\
  meta_cast c yes decl yes (registered c) (length c) d d (Some (complete d)) = Ok None.
Proof.
  exists [[]; [(0, false)]], (fun k => k =? 0), 1.
  split; [apply ordered_closed; reflexivity|]. split; [apply ordered_acyclic; reflexivity|].
  split; [cbn; lia|]. reflexivity.
Qed.
Print Assumptions C40_undeclared_class_refuted.
