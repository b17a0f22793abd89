(** Property theorems C47: the library used from the first static constructor to the last static destructor.

    The full statement, [harmless] for every program, is false: see the theorems named [_refuted]. *)
From Coq Require Import List Bool Arith Lia.
From Verif Require Import Util ExitModel ExitSpec ExitProofs.
Import ListNotations.

(** ** What never happens *)

(** Whatever a program does, in whatever order its objects come and go, the destroyed registry of types, the destroyed
    table of converters and a destroyed converter are never touched. *)
Theorem C47_registries_safe : forall key dtor main n f, life key dtor main n = Bad f ->
  f <> FTypes /\ f <> FList /\ f <> FConverter.
Proof.
  intros key dtor main n f E. pose proof (life_inv key dtor main n) as X. rewrite E in X.
  destruct f; cbn in X; try contradiction; repeat split; discriminate.
Qed.
Print Assumptions C47_registries_safe.

(** Destructors that only look up types, convert and unregister touch nothing that is gone, whatever main did.
    Missing for the full statement: the other calls, which are refuted below. *)
Theorem C47_plain_destructors_partial : forall key dtor main,
  (~ In Missing main \/ exists q, main = Load :: q) -> (forall u, Forall plain (dtor u)) -> harmless key dtor main.
Proof.
  intros key dtor main M P n f E. unfold life in E.
  assert (H : exists al s, run key main st0 = Ok (al, s) /\ inv key s).
  { destruct M as [M|[q ->]].
    - destruct (main_run key main st0 (inv0 key) known0 eq_refl (or_intror M)) as (al & s & R & I & _). eauto.
    - cbn [run]. assert (E1 : step key Load st0 = Ok (AUnit, construct OEmpty st0)) by reflexivity. rewrite E1.
      pose proof (step_inv key Load st0 (inv0 key)) as I1. rewrite E1 in I1. cbn [oknext] in I1.
      pose proof (step_known key Load st0 AUnit _ (inv0 key) known0 E1) as N1.
      destruct (main_run key q _ I1 N1 eq_refl (or_introl (or_introl eq_refl))) as (al & s & R & I & _). rewrite R. eauto. }
  destruct H as (al & s & R & I). rewrite R in E. destruct (plain_leave key dtor P n s I) as (bl & s' & L). rewrite L in E. discriminate.
Qed.
Print Assumptions C47_plain_destructors_partial.

(** Objects of the program constructed once the registry, the global namespace and empty_variant exist can do
    everything in their destructors except register converters. Missing: objects constructed earlier. *)
Theorem C47_late_objects_partial : forall key dtor p q al s,
  Forall no_make p -> run key p st0 = Ok (al, s) ->
  alive OTypes s = true -> alive OGlobal s = true -> alive OEmpty s = true ->
  (forall u, Forall no_register (dtor u)) -> harmless key dtor (p ++ q).
Proof.
  intros key dtor p q al s M R T G E P n f X. apply alive_in in T, G, E.
  destruct (late_life key dtor p q al s R M T G E P n) as (bl & s' & L). rewrite L in X. discriminate.
Qed.
Print Assumptions C47_late_objects_partial.

(** If the global namespace was constructed before the registry of types, finding a class never leads to one that is
    gone, in any destructor. Missing: the other order. *)
Theorem C47_find_class_partial : forall key dtor p q al s n,
  run key p st0 = Ok (al, s) -> alive OGlobal s = true -> alive OTypes s = false ->
  life key dtor (p ++ q) n <> Bad FClass.
Proof.
  intros key dtor p q al s n R G T E. apply alive_in in G. apply alive_out in T.
  pose proof (run_inv key p st0 (inv0 key)) as I. rewrite R in I.
  assert (F : first s).
  { constructor.
    - apply in_or_app. left; exact G.
    - contradiction.
    - intro H. exfalso. (* a linked class means a registry, alive since nothing is destroyed in main *)
      pose proof (run_grow key p st0 al s R) as [D _]. cbn in D.
      assert (X : classes s = []).
      { clear - R T. revert T. assert (Z : classes st0 = []) by reflexivity. revert R Z. generalize st0. revert al.
        induction p as [|x p IH]; intros al s0 R Z T; cbn in R; [injection R as <- <-; exact Z|].
        destruct (step key x s0) as [[a s1]|f] eqn:E; [|discriminate]. destruct (run key p s1) as [[bl s2]|f] eqn:R1; [|discriminate].
        injection R as <- <-. apply (IH bl s1 R1); [|exact T]. apply step_grow in E as [_ [C|[_ Ht]]]; [congruence|].
        exfalso. apply T. apply run_grow in R1 as [_ [new ->]]. apply in_or_app. right; exact Ht. }
      contradiction. }
  unfold life in E. rewrite (run_app key p q st0 al s R) in E.
  pose proof (run_inv key q s I) as I1. pose proof (first_run key q s I F) as F1.
  destruct (run key q s) as [[bl s1]|f]; [|injection E as ->; exact (F1 eq_refl)].
  pose proof (first_leave key dtor n s1 I1 F1) as L. destruct (leave key dtor n s1) as [[cl s2]|f]; [discriminate|exact (L E)].
Qed.
Print Assumptions C47_find_class_partial.

(** ** What the caller sees meanwhile *)

(** A type is found exactly as long as the registry has not been destroyed; afterwards a MetaType is invalid. *)
Theorem C47_types : forall key dtor main t s, performs key dtor main (Use t) s ->
  exists b s', step key (Use t) s = Ok (AType b, s') /\ (b = true <-> destroyed OTypes s = false).
Proof.
  intros key dtor main t s P. pose proof (performs_inv key dtor main _ s P) as I. cbn [step].
  destruct (custom_types_ok key s I) as (b & s1 & E & D & _). rewrite E.
  rewrite <- destroyed_out in D. destruct b; eauto.
Qed.
Print Assumptions C47_types.

(** A conversion either uses a converter of that pair of types which still exists, or reports that there is none. *)
Theorem C47_converter_used : forall key dtor main k s, performs key dtor main (Convert k) s ->
  exists used s', step key (Convert k) s = Ok (AConv used, s') /\
    (forall c, used = Some c -> key c = k /\ alive (OConv c) s = true).
Proof.
  intros key dtor main k s P. pose proof (performs_inv key dtor main _ s P) as I. cbn [step].
  destruct (converter_list_ok key s I) as (b & s1 & E1 & I1 & _ & _ & _ & Up & Dn & It & _). rewrite E1.
  destruct b; [|exists None, s1; split; [reflexivity|discriminate]].
  destruct (get k s1) as [c|] eqn:G; [|exists None, s1; split; [reflexivity|discriminate]].
  apply get_in in G. pose proof G as G'. apply (i_items _ _ I1) in G as [_ G]. apply alive_in in G. rewrite G.
  exists (Some c), s1. split; [reflexivity|]. intros c' E. injection E as <-. rewrite It in G'. destruct (i_items _ _ I _ _ G') as [K A].
  split; [exact K|]. apply alive_in. exact A.
Qed.
Print Assumptions C47_converter_used.

(** If only one place in the program registers a converter for a pair and nothing unregisters it, that converter is used
    as long as it, the table and the registry exist. Missing: several places for one pair, refuted below. *)
Theorem C47_converter_kept_partial : forall key dtor main c s,
  (forall c', key c' = key c -> c' = c) -> ~ In (Unregister (key c)) main -> (forall u, ~ In (Unregister (key c)) (dtor u)) ->
  performs key dtor main (Convert (key c)) s -> alive (OConv c) s = true -> alive OList s = true ->
  exists s', step key (Convert (key c)) s = Ok (AConv (Some c), s').
Proof.
  intros key dtor main c s U Nm Nd P Ac Al. pose proof (performs_inv key dtor main _ s P) as I.
  assert (On : only key c s).
  { destruct P as [p q al M R|n al s0 u r p q bl L O B R].
    - apply (run_only key c p U) with (s := st0) (al := al); auto using inv0, only0. intro H. apply Nm. rewrite M. apply in_or_app. left; exact H.
    - pose proof (life_inv key dtor main n) as X. rewrite L in X.
      assert (On0 : only key c s0).
      { unfold life in L. pose proof (run_inv key main st0 (inv0 key)) as Y. destruct (run key main st0) as [[al1 s1]|f] eqn:R1; [|discriminate].
        destruct (leave key dtor n s1) as [[bl1 s2]|f] eqn:L1; [|discriminate]. injection L as _ <-.
        apply (leave_only key dtor c U Nd n s1 bl1 s2 Y); [|exact L1].
        apply (run_only key c main U Nm st0 al1 s1); auto using inv0, only0. }
      apply (run_only key c p U) with (s := perish (OUser u) r s0) (al := bl); auto.
      + intro H. apply (Nd u). rewrite B. apply in_or_app. left; exact H.
      + apply perish_inv; auto. discriminate.
      + apply (only_perish key); auto. }
  apply alive_in in Ac, Al. pose proof (o_entry _ _ _ On Ac Al) as H.
  destruct (converter_list_ok key s I) as (b & s1 & E1 & I1 & _ & _ & Hb & Up & Dn & It & _). cbn [step]. rewrite E1, (Hb Al).
  rewrite (only_get key c s1 I1 U) by (rewrite It; exact H). assert (A : alive (OConv c) s1 = true) by (apply alive_in; auto). rewrite A. eauto.
Qed.
Print Assumptions C47_converter_kept_partial.

(** Up to the end of main a class is found exactly if it was defined before. *)
Theorem C47_find_defined : forall key main t al s, run key (main ++ [Find t]) st0 = Ok (al, s) ->
  exists bl found, al = bl ++ [AClass found] /\ (found = true <-> In (Define t) main).
Proof.
  intros key main t al s E. destruct (run key main st0) as [[bl s1]|f] eqn:R.
  - rewrite (run_app key main [Find t] _ _ _ R) in E.
    destruct (run_classes key t main st0 bl s1 (inv0 key) eq_refl R) as (I & D & C). cbn [run step] in E.
    destruct (custom_types_ok key s1 I) as (b & s2 & E2 & B & _). rewrite E2 in E. apply custom_types_grow in E2 as (_ & _ & C2 & _).
    rewrite D in B. replace b with true in E by (symmetry; apply B; intros []). rewrite C2 in E.
    destruct (mem t (classes s1)) eqn:M.
    + destruct (alive OGlobal s2); [|discriminate]. injection E as <- _. apply mem_in in M. apply C in M as [[]|M].
      exists bl, true. tauto.
    + injection E as <- _. exists bl, false. split; [reflexivity|]. split; [discriminate|]. intro H.
      assert (X : mem t (classes s1) = true) by (apply mem_in, C; right; exact H). congruence.
  - exfalso. clear -E R. revert al R E. generalize st0. induction main as [|x l IH]; intros s0 al R E; cbn in *; [discriminate|].
    destruct (step key x s0) as [[a s1]|g]; [|discriminate].
    destruct (run key l s1) as [[cl s2]|g] eqn:R1; [discriminate|]. destruct (run key (l ++ [Find t]) s1) as [[cl s2]|h] eqn:R2; [|discriminate].
    injection R as ->. injection E as _ ->. exact (IH s1 cl R1 R2).
Qed.
Print Assumptions C47_find_defined.

(** The end comes: with finitely many static objects in the program, all of them are destroyed after that many steps. *)
Theorem C47_ends : forall key dtor main U,
  incl [OTypes; OList] U -> (forall x, In x main -> incl (mentions x) U) ->
  (forall u x, In (OUser u) U -> In x (dtor u) -> incl (mentions x) U) ->
  forall n al s, length U <= n -> life key dtor main n = Ok (al, s) -> order s = [].
Proof.
  intros key dtor main U HT HM HU n al s L E. unfold life in E.
  pose proof (run_inv key main st0 (inv0 key)) as I. destruct (run key main st0) as [[al1 s1]|f] eqn:R; [|discriminate].
  destruct (leave key dtor n s1) as [[bl s2]|f] eqn:X; [|discriminate]. injection E as _ <-.
  pose proof (run_grow key main st0 al1 s1 R) as [D _]. cbn in D.
  apply (leave_ends key dtor U HU HT n s1 bl s2 I); [|rewrite D; cbn; lia|exact X].
  rewrite D, app_nil_r. intros o H. destruct (run_mentions key main st0 al1 s1 (inv0 key) R o H) as [[]|(x & Hx & Hm)].
  exact (HM x Hx o Hm).
Qed.
Print Assumptions C47_ends.

(** ** What does happen *)

(** A type is used before anything is defined: the registry is older than the global namespace and outlives it. An
    object still older finds the class of the type by its identifier and touches a deleted MetaClass. *)
Theorem C47_class_refuted : exists key dtor main n, life key dtor main n = Bad FClass.
Proof. exists (fun c => c), (fun _ => [Find 0]), [Use 0; Make 0; Define 0], 3. vm_compute. reflexivity. Qed.
Print Assumptions C47_class_refuted.

(** MetaNamespace::global() has no flag: an object older than the namespace browses it after its destruction. *)
Theorem C47_namespace_refuted : exists key dtor main n, life key dtor main n = Bad FGlobal.
Proof. exists (fun c => c), (fun _ => [Browse]), [Make 0; Browse], 2. vm_compute. reflexivity. Qed.
Print Assumptions C47_namespace_refuted.

(** A MetaType obtained earlier and kept in an object older than the registry: its description is gone. *)
Theorem C47_handle_refuted : exists key dtor main n, life key dtor main n = Bad FHandle.
Proof. exists (fun c => c), (fun _ => [Held 0]), [Make 0; Use 0], 2. vm_compute. reflexivity. Qed.
Print Assumptions C47_handle_refuted.

(** A destructor that registers a converter whose static was destroyed. *)
Theorem C47_reregister_refuted : exists key dtor main n, life key dtor main n = Bad FStatic.
Proof. exists (fun c => c), (fun _ => [Register 0]), [Make 0; Register 0], 4. vm_compute. reflexivity. Qed.
Print Assumptions C47_reregister_refuted.

(** With the library linked statically, a constructor may run before variant::empty_variant is initialised. *)
Theorem C47_empty_variant_refuted : exists key dtor main, forall n, life key dtor main n = Bad FEmpty.
Proof. exists (fun c => c), (fun _ => []), [Browse; Missing; Load]. intro n. reflexivity. Qed.
Print Assumptions C47_empty_variant_refuted.

(** Two places register converters for one pair; the first is in use. When the second, which was refused, is destroyed,
    it takes the first one's registration away, although the first still exists. *)
Theorem C47_converter_kept_refuted : exists key dtor main u r n al s,
  key 0 = key 1 /\ (forall k, ~ In (Unregister k) main) /\ (forall v k, ~ In (Unregister k) (dtor v)) /\
  run key (main ++ [Convert (key 0)]) st0 = Ok (al ++ [AConv (Some 0)], s) /\
  exists bl s0, life key dtor main n = Ok (bl, s0) /\ order s0 = OUser u :: r /\
    alive (OConv 0) (perish (OUser u) r s0) = true /\ alive OList (perish (OUser u) r s0) = true /\
    dtor u = [Convert (key 0)] /\
    exists s1, run key (dtor u) (perish (OUser u) r s0) = Ok ([AConv None], s1).
Proof.
  exists (fun _ => 0), (fun _ => [Convert 0]), [Register 0; Make 0; Register 1], 0.
  eexists _, 1, [AUnit; AUnit; AUnit], _.
  split; [reflexivity|]. split; [intros k [X|[X|[X|[]]]]; discriminate|]. split; [intros v k [X|[]]; discriminate|].
  split; [vm_compute; reflexivity|]. eexists _, _. split; [vm_compute; reflexivity|].
  split; [vm_compute; reflexivity|]. split; [vm_compute; reflexivity|]. split; [vm_compute; reflexivity|].
  split; [reflexivity|]. eexists. vm_compute. reflexivity.
Qed.
Print Assumptions C47_converter_kept_refuted.

(** ** Cases *)

(** Three converters, the first registered before anything else existed, objects in between whose destructors convert:
    the answers on the way out, and that all ends. *)
Definition ex_key (c : nat) : nat := c.
Definition ex_dtor (u : nat) : list call := [Use 7; Convert 0; Convert 1; Unregister 1; Convert 1].
Definition ex_main : list call := [Make 0; Register 0; Make 1; Register 1; Define 3; Make 2; Register 2; Convert 1].

Example C47_example :
  match life ex_key ex_dtor ex_main 20 with
  | Ok (al, s) =>
      al = [AUnit; AUnit; AUnit; AUnit; AClass true; AUnit; AUnit; AConv (Some 1);
            AUnit;                                                                       (* ~converter 2 *)
            AType true; AConv (Some 0); AConv (Some 1); AUnit; AConv None;               (* ~object 2 *)
            AUnit;                                                                       (* ~converter 1 *)
            AType true; AConv (Some 0); AConv None; AUnit; AConv None;                   (* ~object 1 *)
            AUnit;                                                                       (* ~converter 0, after the table *)
            AType false; AConv None; AConv None; AUnit; AConv None] /\ order s = []      (* ~object 0 *)
  | Bad _ => False
  end.
Proof. vm_compute. split; reflexivity. Qed.

(** It meets the hypotheses of the theorems on plain destructors and on the end. *)
Example C47_example_plain : ~ In Missing ex_main /\ forall u, Forall plain (ex_dtor u).
Proof.
  split; [intro H; repeat (destruct H as [H|H]; [discriminate|]); exact H|]. intro u. repeat constructor.
Qed.

(** A program that meets those of the theorem on late objects, with objects that do everything. *)
Example C47_example_late :
  let p := [Load; Browse; Use 1; Define 1; Register 0] in
  let dtor := fun _ : nat => [Find 1; Held 1; Missing; Browse; Define 2; Convert 0; Unregister 0; Make 5] in
  Forall no_make p /\ (forall u, Forall no_register (dtor u)) /\
  match run ex_key p st0 with Ok (_, s) => alive OTypes s && alive OGlobal s && alive OEmpty s = true | Bad _ => False end /\
  match life ex_key dtor (p ++ [Make 0; Define 3; Make 1]) 20 with Ok (_, s) => order s = [] | Bad _ => False end.
Proof. vm_compute. repeat split; repeat constructor. Qed.

(** One for the theorem on finding classes: the namespace comes first, the object before both. *)
Example C47_example_find :
  match run ex_key [Make 0; Browse] st0 with Ok (_, s) => alive OGlobal s = true /\ alive OTypes s = false | Bad _ => False end /\
  match life ex_key (fun _ => [Find 1; Find 2]) ([Make 0; Browse] ++ [Define 1]) 20 with
  | Ok (al, _) => al = [AUnit; AUnit; AClass true; AClass false; AClass false] | Bad _ => False end.
Proof. vm_compute. repeat split. Qed.

(** And one for the converter that is kept: [C47_example] with converter 0, which object 1 uses on the way out. *)
Example C47_example_kept :
  (forall c', ex_key c' = ex_key 0 -> c' = 0) /\ ~ In (Unregister (ex_key 0)) ex_main /\
  (forall u, ~ In (Unregister (ex_key 0)) (ex_dtor u)) /\
  exists s, performs ex_key ex_dtor ex_main (Convert (ex_key 0)) s /\ alive (OConv 0) s = true /\ alive OList s = true.
Proof.
  split; [intros c' H; exact H|]. split; [intro H; repeat (destruct H as [H|H]; [discriminate|]); exact H|].
  split; [intros u H; repeat (destruct H as [H|H]; [discriminate|]); exact H|].
  eexists. split.
  - eapply (PBody ex_key ex_dtor ex_main _ _ 1 _ _ 2 _ [Use 7]).
    + vm_compute. reflexivity.
    + reflexivity.
    + reflexivity.
    + vm_compute. reflexivity.
  - split; vm_compute; reflexivity.
Qed.

(** One for classes during main: one defined, one not. *)
Example C47_example_main :
  match run ex_key [Find 1; Define 1; Use 2; Find 1; Find 2] st0 with
  | Ok (al, _) => al = [AClass false; AClass true; AType true; AClass true; AClass false] | Bad _ => False end.
Proof. vm_compute. reflexivity. Qed.
