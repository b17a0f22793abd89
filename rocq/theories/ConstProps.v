(** C65: const objects stay as they are and pointers point to what their types say, whatever a program does with them
    through the library. *)
From Coq Require Import NArith List Bool Arith Lia.
From Verif Require Import TypesModel TypesSpec TypesProofs InheritModel InheritSpec AccModel AccSpec AccProofs
  CallModel CallSpec CallProofs ConstModel ConstSpec ConstProofs.
Import ListNotations.

(** ** A world for the examples

    Class 1 has the base 0 at offset 8, class 0 an int at offset 1; both have classInfo(). Class 2 has the base 3 at
    offset 0 and an int at offset 1. Of class 1 there are a const object at 20 and another at 30, of class 2 one at 80, of
    class 3 one at 84. *)
Definition b_int := {| b_kind := KIntegral; b_id := 4; b_size := 4; b_traits := 0 |}.
Definition b_class k := {| b_kind := KClass; b_id := k; b_size := 32; b_traits := 0 |}.
Definition int := TBase false false b_int.
Definition cint := TBase true false b_int.
Definition cls k := TBase false false (b_class k).
Definition ccls k := TBase true false (b_class k).
Definition ptr := TPtr false false.
Fixpoint deep (n : nat) (t : ty) : ty := match n with 0 => t | S n' => TPtr false false (deep n' t) end.

Definition town : places :=
  {| decl := fun x =>
       match x with
       | 10 => cint | 20 => ccls 1 | 28 => ccls 0 | 29 => cint | 30 => cls 1 | 38 => cls 0
       | 40 | 41 => ptr cint | 42 => ptr (ccls 1) | 43 | 44 => ptr (cls 0) | 45 => ptr (cls 1)
       | 60 => TArr (ptr cint) 1 | 61 => ptr cint | 70 => TPtr true false (deep 15 int) | 71 => deep 15 int
       | 80 => cls 2 | 82 | 83 => ptr (cls 2) | 84 => cls 3 | 85 => cint
       | _ => int
       end;
     field := fun b off => if ((b_id b =? 0) || (b_id b =? 2)) && (off =? 1) then Some int else None;
     elem := fun x i => x + 1 + i |}.

Definition lives (x k : nat) : Prop :=
  In (x, k) [(20, 1); (28, 0); (30, 1); (38, 0); (80, 2); (80, 3); (84, 3)].

(** [conv]: with a converter from pointers to class 1 to pointers to class 0. *)
Definition house (conv : bool) : env :=
  {| e_graph := [[]; [(0, fun x => x + 8)]; [(3, fun x => x)]; []];
     e_registered := fun k => k <? 4; e_declares := fun k => k <? 2;
     e_dyn := fun k x => if k =? 0 then (1, x - 8) else (k, x);
     e_copies := fun _ => true;
     e_conv := fun f t => if conv && (if qty_eq_dec f (mkQ RNone (ptr (cls 1))) then true else false) &&
                             (if qty_eq_dec t (mkQ RNone (ptr (cls 0))) then true else false)
                          then Some (fun c => match c_ptr c with Some p => Good (p + 8) | None => Refused end) else None;
     e_cmp := fun _ => Some Nat.eqb; e_hash := fun _ => 0 |}.

Ltac in_cases H := repeat match type of H with _ \/ _ => destruct H as [H|H] | False => destruct H end.

Lemma house_ok conv : wf_env (house conv).
Proof.
  assert (D : forall a d, direct (e_graph (house conv)) a d -> (a = 1 /\ d = 0) \/ (a = 2 /\ d = 3)).
  { intros a d (l & f & H & I). destruct a as [|[|[|[|a]]]]; cbn in H; try (destruct a; discriminate); injection H as <-; cbn in I.
    - destruct I.
    - destruct I as [I|[]]. injection I as <- _. auto.
    - destruct I as [I|[]]. injection I as <- _. auto.
    - destruct I. }
  split; [|split].
  - intros a d H. destruct (D a d H) as [[_ ->]|[_ ->]]; cbn; lia.
  - intros a d H R. destruct (D a d H) as [[-> ->]|[-> ->]]; inversion R as [E|y z E _ E2]; subst;
      destruct (D _ _ E) as [[? _]|[? _]]; discriminate.
  - intros k H. change ((k <? 4) = true) in H. apply Nat.ltb_lt in H. exact H.
Qed.

Lemma town_types x : In (x, decl town x)
  [(10, cint); (20, ccls 1); (28, ccls 0); (29, cint); (30, cls 1); (38, cls 0); (40, ptr cint); (41, ptr cint); (42, ptr (ccls 1));
   (43, ptr (cls 0)); (44, ptr (cls 0)); (45, ptr (cls 1)); (60, TArr (ptr cint) 1); (61, ptr cint);
   (70, TPtr true false (deep 15 int)); (71, deep 15 int); (80, cls 2); (82, ptr (cls 2)); (83, ptr (cls 2)); (84, cls 3); (85, cint); (x, int)].
Proof.
  assert (B : x <= 85 \/ 85 < x) by lia. destruct B as [B|B].
  - do 86 (destruct x as [|x]; [cbn; repeat (first [left; reflexivity|right]); fail|]). lia.
  - replace (decl town x) with int; [repeat (first [left; reflexivity|right])|].
    do 86 (destruct x as [|x]; [lia|]). reflexivity.
Qed.

Lemma town_sound conv : sound town (house conv) lives.
Proof.
  split.
  - apply house_ok.
  - intros x k (c & v & b & E & K & <-). pose proof (town_types x) as T. cbn [In] in T.
    in_cases T; pose proof (f_equal fst T) as Tx; apply (f_equal snd) in T; cbn [fst snd] in T, Tx; rewrite E in T; try discriminate;
      injection T as <- <- <-; try discriminate; subst x; unfold lives; cbn; auto 10.
  - intros x k H. unfold lives in H. cbn in H. in_cases H; injection H as <- <-; cbn; eexists; repeat eexists.
  - intros x d l i f H En I. unfold lives in H. cbn in H. in_cases H; injection H as <- <-; cbn in En; injection En as <-; cbn in I; in_cases I;
      injection I as <- <-; (split; [unfold lives; cbn; auto 10|reflexivity]).
  - intros x k H D. unfold lives in H. cbn in H. in_cases H; injection H as <- <-; cbn in D; try discriminate; (split; [unfold lives; cbn; auto 10|reflexivity]).
  - intros x b off t H K F. cbn in F. unfold lives in H. cbn in H.
    destruct (((b_id b =? 0) || (b_id b =? 2)) && (off =? 1)) eqn:E; [|discriminate]. injection F as <-.
    apply andb_true_iff in E. destruct E as [E1 E2]. apply Nat.eqb_eq in E2. subst off.
    in_cases H; injection H as <- H; rewrite <- H in E1; try discriminate; reflexivity.
  - intros x t n i E Hi. pose proof (town_types x) as T. cbn [In] in T.
    in_cases T; pose proof (f_equal fst T) as Tx; apply (f_equal snd) in T; cbn [fst snd] in T, Tx; rewrite E in T; try discriminate.
    injection T as <- <-. subst x. assert (i = 0) by lia. subst i. reflexivity.
Qed.

Lemma no_conv : no_converted_pointers (house false).
Proof. intros t u _. reflexivity. Qed.

Ltac usable_tac := split; [split; [reflexivity|split; [reflexivity|cbn; lia]]|cbn; try exact I; try discriminate].
Ltac flat_tac := split; [usable_tac|reflexivity].

(** ** Const objects *)

(** For every program, whatever it does by itself and through variants, accessors, conversions, arguments, member functions
    and properties: an object declared const keeps its value from then on. Not covered: arrays and volatile types as
    contents or parameters, pointers of sixteen levels and more, converters that yield pointers, `Derived*` as `Base*&`
    ([tame]); the refutations below are about these. *)
Theorem C65_const_kept_partial : forall P e hosts, sound P e hosts -> no_converted_pointers e ->
  forall ls st ls' st', steps P e start ls st -> steps P e st ls' st' -> Forall tame (ls ++ ls') ->
  forall x, In x (live st) -> const_at (decl P x) 0 = true -> mem st' x = mem st x.
Proof.
  intros P e hosts HS HC ls st ls' st' H1 H2 G x Hx Z. apply Forall_app in G. destruct G as [G1 G2].
  destruct (steps_sound P e hosts HS HC _ _ _ H1 G1 (start_inv P hosts)) as [I _].
  destruct (steps_sound P e hosts HS HC _ _ _ H2 G2 I) as [_ K]. apply (K x Hx). rewrite is_const_at0. exact Z.
Qed.
Print Assumptions C65_const_kept_partial.

(** So is what a const variant holds. *)
Theorem C65_const_variant_partial : forall P e hosts, sound P e hosts -> no_converted_pointers e ->
  forall ls st ls' st', steps P e start ls st -> steps P e st ls' st' -> Forall tame (ls ++ ls') ->
  forall v t x, In v (vars st) -> v_const v = true -> v_content v = Some (Val, t, x) -> mem st' x = mem st x.
Proof.
  intros P e hosts HS HC ls st ls' st' H1 H2 G v t x Hv Kv Hc. pose proof G as G0. apply Forall_app in G. destruct G as [G1 G2].
  destruct (steps_sound P e hosts HS HC _ _ _ H1 G1 (start_inv P hosts)) as [I _].
  destruct (in_vars _ _ _ I _ _ _ _ Hv Hc) as [[_ Ha] _].
  destruct (own_steps P e _ _ _ H1 (own_start P) v t x Hv Hc) as [L D].
  exact (C65_const_kept_partial P e hosts HS HC ls st ls' st' H1 H2 G0 x L (D Kv Ha)).
Qed.
Print Assumptions C65_const_variant_partial.

(** Every reference leads to an object that may be seen as its type, and so does every pointer that can be read. *)
Theorem C65_pointers_typed_partial : forall P e hosts, sound P e hosts -> no_converted_pointers e ->
  forall ls st, steps P e start ls st -> Forall tame ls ->
  (forall t x, In (LV t x) (refs st) -> may_be_seen P hosts x t /\
     forall c v u p, t = TPtr c v u -> pointed (mem st x) = Some p -> may_be_seen P hosts p u) /\
  (forall v f c q u x p, In v (vars st) -> v_content v = Some (f, TPtr c q u, x) -> pointed (mem st x) = Some p ->
     may_be_seen P hosts p u).
Proof.
  intros P e hosts HS HC ls st H G. destruct (steps_sound P e hosts HS HC _ _ _ H G (start_inv P hosts)) as [I _].
  split.
  - intros t x Hx. pose proof (in_refs _ _ _ I _ _ Hx) as V. split; [exact V|].
    intros c v u p E Hp. exact (fits_read P hosts x t _ V (in_mem _ _ _ I x) c v u p E Hp).
  - intros v f c q u x p Hv Hc Hp. pose proof (in_vars _ _ _ I _ _ _ _ Hv Hc) as Gr.
    pose proof (grants_holds P hosts st _ _ _ _ Gr) as Hh.
    pose proof (holds_fits P hosts st _ _ I Hh) as F. unfold held in F. cbn in F. destruct f; eapply F; eauto; reflexivity.
Qed.
Print Assumptions C65_pointers_typed_partial.

(** ** A run *)

Ltac go := eapply Go.
Ltac inlist := cbn; repeat (first [left; reflexivity|right]).
Ltac notin := cbn; intro; repeat match goal with H : _ \/ _ |- _ => destruct H | H : False |- _ => destruct H end; discriminate.

(** A const int, a const object and one that is not; the program calls a member function of the base of each, sets the
    member as a property, tries the same with the const object. What it may write is written, the rest is as it was. *)
Definition member_of_base (cm : bool) : member := Member (b_class 0) cm [].

Example C65_run : exists ls st ls' st',
  steps town (house false) start ls st /\ steps town (house false) st ls' st' /\ Forall tame (ls ++ ls') /\
  In 10 (live st) /\ In 20 (live st) /\ In 29 (live st) /\
  mem st' 10 = 5 /\ mem st' 29 = 6 /\ mem st 39 = 0 /\ mem st' 39 = 5 /\
  In (LV (ccls 0) 28) (refs st') /\ In (LV (cls 0) 38) (refs st') /\
  member_object (house false) false (Some (content_at st' Refw (ccls 1) 20)) (member_of_base false) = Exception.
Proof.
  do 4 eexists. split; [|split; [|split]].
  - go; [apply (SNew town _ _ 10 5); [notin|reflexivity|constructor]|].
    go; [apply (SNew town _ _ 20 1); [notin|reflexivity|constructor]|].
    go; [apply (SNew town _ _ 29 6); [notin|reflexivity|constructor]|].
    go; [apply (SNew town _ _ 30 2); [notin|reflexivity|constructor]|].
    go; [apply (SWrap town _ _ false (ccls 1) 20); inlist|].
    go; [apply (SWrap town _ _ false (cls 1) 30); inlist|].
    apply Stop.
  - go; [apply (SCall town _ _ 0 (Holder false (Some (Refw, ccls 1, 20))) false (member_of_base true) 28); [reflexivity|discriminate|reflexivity]|].
    go; [apply (SCall town _ _ 1 (Holder false (Some (Refw, cls 1, 30))) false (member_of_base false) 38); [reflexivity|discriminate|reflexivity]|].
    go; [eapply (SSet town _ _ (Data (b_class 0) 1 int) _ int false (Object _));
         [apply DeclData; reflexivity|reflexivity|eapply (OfVariable _ 1 _ false); [reflexivity|discriminate]|
          apply (PassObject _ cint 10); inlist|reflexivity|reflexivity]|].
    apply Stop.
  - repeat constructor; cbn; auto; try reflexivity; try lia; try discriminate.
  - repeat split; try reflexivity; inlist.
Qed.

(** ** What is not covered *)

(** An array of pointers to const is taken for one of pointers: a const int is written. *)
Theorem C65_arrays_refuted : exists P e hosts ls st ls' st' x,
  sound P e hosts /\ no_converted_pointers e /\ steps P e start ls st /\ steps P e st ls' st' /\
  Forall (fun l => tame l \/ (exists t n, l = Wrapping (TArr t n)) \/ exists t n, l = Accessing (TArr t n) Elements) (ls ++ ls') /\
  In x (live st) /\ const_at (decl P x) 0 = true /\ mem st' x <> mem st x.
Proof.
  exists town, (house false), lives. do 4 eexists. exists 10.
  split; [apply town_sound|]. split; [apply no_conv|]. split; [|split; [|split; [|split; [|split]]]].
  - go; [apply (SNew town _ _ 10 5); [notin|reflexivity|constructor]|].
    go; [apply (SNewArray town _ _ 60 (ptr cint) 1); [notin|reflexivity]|].
    go; [apply (SElement town _ _ (ptr cint) 1 60 0); [inlist|reflexivity]|].
    go; [apply (SWrite town _ _ (ptr cint) 61 (ptr cint) (addr 10)); [inlist|reflexivity|reflexivity|apply (EAddress town _ cint 10); inlist|reflexivity]|].
    apply Stop.
  - go; [apply (SWrap town _ _ false (TArr (ptr cint) 1) 60); inlist|].
    go; [eapply (SAccess town _ _ 0 (Holder false (Some (Refw, TArr (ptr cint) 1, 60))) RefL _ (TArr (ptr int) 1) Elements 60);
         [reflexivity|discriminate|reflexivity|reflexivity|reflexivity]|].
    go; [apply (SElement town _ _ (ptr int) 1 60 0); [inlist|reflexivity]|].
    go; [apply (SFollow town _ _ false false int 61 10); [inlist|reflexivity]|].
    go; [apply (SWrite town _ _ int 10 int 9); [inlist|reflexivity|reflexivity|constructor|reflexivity]|].
    apply Stop.
  - repeat (apply Forall_cons; [first [left; exact I|right; left; do 2 eexists; reflexivity|right; right; do 2 eexists; reflexivity]|]). apply Forall_nil.
  - inlist.
  - reflexivity.
  - discriminate.
Qed.
Print Assumptions C65_arrays_refuted.

(** With a converter between pointers a member function that is not const runs on a const object (C29). *)
Theorem C65_converter_refuted : exists P e hosts ls st ls' st' x,
  sound P e hosts /\ steps P e start ls st /\ steps P e st ls' st' /\ Forall tame (ls ++ ls') /\
  In x (live st) /\ const_at (decl P x) 0 = true /\ mem st' x <> mem st x.
Proof.
  exists town, (house true), lives. do 4 eexists. exists 28.
  split; [apply town_sound|]. split; [|split; [|split; [|split; [|split]]]].
  - go; [apply (SNew town _ _ 20 1); [notin|reflexivity|constructor]|].
    go; [apply (SNew town _ _ 28 3); [notin|reflexivity|constructor]|].
    go; [apply (SNew town _ _ 42 (addr 20)); [notin|reflexivity|apply (EAddress town _ (ccls 1) 20); inlist]|].
    apply Stop.
  - go; [apply (SWrap town _ _ false (ptr (ccls 1)) 42); inlist|].
    go; [apply (SCall town _ _ 0 (Holder false (Some (Refw, ptr (ccls 1), 42))) false (member_of_base false) 28);
         [reflexivity|discriminate|reflexivity]|].
    go; [apply (SWrite town _ _ (cls 0) 28 (cls 0) 9); [inlist|reflexivity|reflexivity|constructor|reflexivity]|].
    apply Stop.
  - repeat constructor; cbn; auto; try reflexivity; try lia; try discriminate.
  - inlist.
  - reflexivity.
  - discriminate.
Qed.
Print Assumptions C65_converter_refuted.

(** A pointer to a base is stored in a variant of a pointer to a derived class, through the reference the variant hands out
    (C23): what is next to the object of the base is written as if it were a member. *)
Theorem C65_slot_refuted : exists P e hosts ls st ls' st' x,
  sound P e hosts /\ no_converted_pointers e /\ steps P e start ls st /\ steps P e st ls' st' /\
  Forall (fun l => tame l \/ exists T, l = Accessing T Slot /\ flat T) (ls ++ ls') /\
  In x (live st) /\ const_at (decl P x) 0 = true /\ mem st' x <> mem st x.
Proof.
  exists town, (house false), lives. do 4 eexists. exists 85.
  split; [apply town_sound|]. split; [apply no_conv|]. split; [|split; [|split; [|split; [|split]]]].
  - go; [apply (SNew town _ _ 85 5); [notin|reflexivity|constructor]|].
    go; [apply (SNew town _ _ 84 1); [notin|reflexivity|constructor]|].
    go; [apply (SNew town _ _ 80 1); [notin|reflexivity|constructor]|].
    go; [apply (SNew town _ _ 82 (addr 80)); [notin|reflexivity|apply (EAddress town _ (cls 2) 80); inlist]|].
    apply Stop.
  - go; [apply (SHold town _ _ false (ptr (cls 2)) 82 83 (addr 80)); [inlist|notin|reflexivity|reflexivity]|].
    go; [eapply (SAccess town _ _ 0 (Holder false (Some (Val, ptr (cls 2), 83))) RefL _ (ptr (cls 3)) Slot 83);
         [reflexivity|discriminate|reflexivity|reflexivity|reflexivity]|].
    go; [apply (SWrite town _ _ (ptr (cls 3)) 83 (ptr (cls 3)) (addr 84)); [inlist|reflexivity|reflexivity|apply (EAddress town _ (cls 3) 84); inlist|reflexivity]|].
    go; [eapply (SAccess town _ _ 0 (Holder false (Some (Val, ptr (cls 2), 83))) RefL _ (ptr (cls 2)) Whole 83);
         [reflexivity|discriminate|reflexivity|reflexivity|reflexivity]|].
    go; [apply (SFollow town _ _ false false (cls 2) 83 84); [inlist|reflexivity]|].
    go; [apply (SMember town _ _ false false (b_class 2) 1 int 84); [inlist|reflexivity|reflexivity]|].
    go; [apply (SWrite town _ _ int 85 int 9); [inlist|reflexivity|reflexivity|constructor|reflexivity]|].
    apply Stop.
  - repeat (apply Forall_cons; [first [left; exact I|right; eexists; split; [reflexivity|flat_tac; fail]|left; flat_tac; fail|left; split; [flat_tac|discriminate]]|]). apply Forall_nil.
  - inlist.
  - reflexivity.
  - discriminate.
Qed.
Print Assumptions C65_slot_refuted.

(** The const of a pointer with sixteen levels below it is forgotten (C01): the pointer is changed. *)
Theorem C65_levels_refuted : exists P e hosts ls st ls' st' x,
  sound P e hosts /\ no_converted_pointers e /\ steps P e start ls st /\ steps P e st ls' st' /\
  Forall (fun l => tame l \/ exists T, (l = Wrapping T \/ l = Accessing T Whole) /\ pointer_depth T = 16) (ls ++ ls') /\
  In x (live st) /\ const_at (decl P x) 0 = true /\ mem st' x <> mem st x.
Proof.
  exists town, (house false), lives. do 4 eexists. exists 70.
  split; [apply town_sound|]. split; [apply no_conv|]. split; [|split; [|split; [|split; [|split]]]].
  - go; [apply (SNew town _ _ 71 0); [notin|reflexivity|apply ENull]|].
    go; [apply (SNew town _ _ 70 (addr 71)); [notin|reflexivity|apply (EAddress town _ (deep 15 int) 71); inlist]|].
    apply Stop.
  - go; [apply (SWrap town _ _ false (TPtr true false (deep 15 int)) 70); inlist|].
    go; [eapply (SAccess town _ _ 0 (Holder false (Some (Refw, TPtr true false (deep 15 int), 70))) RefL _ (ptr (deep 15 int)) Whole 70);
         [reflexivity|discriminate|reflexivity|reflexivity|reflexivity]|].
    go; [apply (SWrite town _ _ (ptr (deep 15 int)) 70 (ptr (deep 15 int)) 0); [inlist|reflexivity|reflexivity|apply ENull|reflexivity]|].
    apply Stop.
  - repeat (apply Forall_cons; [first [left; exact I|right; eexists; split; [first [left; reflexivity|right; reflexivity]|reflexivity]]|]). apply Forall_nil.
  - inlist.
  - reflexivity.
  - discriminate.
Qed.
Print Assumptions C65_levels_refuted.
