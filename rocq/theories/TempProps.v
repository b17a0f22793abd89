(** C55: conversions and comparisons manage their temporaries and answer as the converters say. *)
From Coq Require Import NArith List Bool Arith Lia Permutation.
From Verif Require Import TypesModel TypesSpec InheritModel InheritSpec AccModel AccSpec AccProofs AccProps TempModel TempSpec TempProofs.
Import ListNotations.

(** ** A world for the examples: that of AccProps.v; floats count in tenths. int and float convert into each other, from int to
    enum 6 there is a functor that reports failure, from float to enum 6 one that throws at the value 0. [k]: the calls of
    constructors and comparisons numbered by [k] throw. *)
Definition t_float := TBase false false b_float.
Definition t_enum := TBase false false b_enum.
Definition q (t : ty) : qty := mkQ RNone t.
Definition converters (f t : qty) : option functor :=
  if qty_eq_dec f (q t_int) then
    if qty_eq_dec t (q t_float) then Some (Plain (fun c _ => Some (hd 0 (c_vals c) * 10)))
    else if qty_eq_dec t (q t_enum) then Some (Reporting (fun c _ => Some (0, false))) else None
  else if qty_eq_dec f (q t_float) then
    if qty_eq_dec t (q t_int) then Some (Plain (fun c _ => Some (hd 0 (c_vals c) / 10)))
    else if qty_eq_dec t (q t_enum) then Some (Reporting (fun c _ => match hd 0 (c_vals c) with 0 => None | v => Some (v, true) end)) else None
  else None.
Definition object (t : ty) (g : got) : content := {| c_form := AccModel.Val; c_src := t; c_at := 700; c_ptr := Some 500; c_vals := [match g with Converted v => v | _ => 7 end]; c_bytes := [] |}.
Definition W (k : nat -> bool) : TempModel.world := World AccProps.world converters k (fun t => match t with TBase _ _ b => negb (b_id b =? 3) | _ => true end) object.
Definition calm_world : TempModel.world := W (fun _ => false).
(** Without the functors that report. *)
Definition plain_world : TempModel.world :=
  World AccProps.world (fun f t => match converters f t with Some (Plain g) => Some (Plain g) | _ => None end) (fun t => t =? 4) (fun _ => true) object.
Lemma start_fresh : fresh start.
Proof. split; [constructor|split; [constructor|]]. intros i [[]|[]]. Qed.

(** ** What is left *)

(** to<T>() leaves behind the one object it returns, or if it throws none, and no memory: the buffer's object is destroyed
    in every case, also if the move out of it throws. The exception: a functor that reports failure has made an object
    nevertheless, and that one stays (then to throws bad_variant_convert). *)
Theorem C55_to_accounts : forall w k c T s r s',
  fresh s -> usable (c_src c) -> to w k (Some c) T s = (r, s') -> ended r ->
  fresh s' /\ exists lost, accounted (match r with Val p => [fst p] | _ => [] end) [] lost s s' /\
    (lost = [] \/ exists i, lost = [i] /\ r = Raise Bad_convert /\ converts w (known_as c) (known_as_type T) c (clock s) (Gives_up true)).
Proof.
  intros w k c T s r s' F U E D. destruct (ok_to w k (Some c) T s r s' F E D) as (F1 & l & L & V & B). split; [exact F1|]. exists l.
  split; [split; [exact L|split; [exact V|rewrite B; destruct r; reflexivity]]|].
  destruct (to_left w k c T s r s' F U E D) as [K|(i & K & R)].
  - left. rewrite L in K. apply (app_inv_tail (left s) l []). exact K.
  - right. exists i. split; [|exact R]. rewrite L in K. apply (app_inv_tail (left s) l [i]). exact K.
Qed.
Print Assumptions C55_to_accounts.

(** eq leaves nothing behind, in whatever way it ends, if no converter reports failure. *)
Theorem C55_eq_accounts : forall w v b T s r s',
  plain_converters w -> fresh s -> eq w v b T s = (r, s') -> ended r -> fresh s' /\ live s' = live s /\ blocks s' = blocks s.
Proof.
  intros w v b T s r s' P F E D. destruct (ok_eq w v b T s r s' F E D) as (F1 & l & L & V & B). split; [exact F1|].
  pose proof (quiet_eq w v b T P s r s' E D) as Q. rewrite L in Q. apply (app_inv_tail (left s) l []) in Q. subst l.
  split; [rewrite V|rewrite B]; destruct r; reflexivity.
Qed.
Print Assumptions C55_eq_accounts.

(** In general it leaves what converters made and reported to be no result, and no memory. *)
Theorem C55_eq_accounts_reporting : forall w v b T s r s',
  fresh s -> eq w v b T s = (r, s') -> ended r -> fresh s' /\ exists lost, accounted [] [] lost s s'.
Proof.
  intros w v b T s r s' F E D. destruct (ok_eq w v b T s r s' F E D) as (F1 & l & L & V & B). split; [exact F1|]. exists l.
  split; [exact L|]. split; [rewrite V|rewrite B]; destruct r; reflexivity.
Qed.
Print Assumptions C55_eq_accounts_reporting.

(** A call of to in which the copy throws, one in which the move throws, one that returns; a comparison that throws. *)
Example C55_accounts_case :
  let c := value (t_class 2) 500 [7] in let d := value t_int 500 [7] in let s := St [4; 2] [1] 5 0 [] in
  fresh s /\ usable (c_src c) /\ usable (c_src d) /\ plain_converters plain_world /\
  to (W (fun t => t =? 0)) false (Some c) (t_class 0) s = (Raise Users, St [4; 2] [1] 5 1 []) /\
  to (W (fun t => t =? 1)) false (Some c) (t_class 0) s = (Raise Users, St [4; 2] [1] 6 2 []) /\
  to calm_world false (Some c) (t_class 0) s = (Val (6, Part 516), St [6; 4; 2] [1] 7 2 []) /\
  to calm_world false (Some d) t_enum s = (Raise Bad_convert, St [5; 4; 2] [1] 6 1 [5]) /\
  eq plain_world (Some d) (wrapper (TBase true false b_float) 900 [70]) t_float (St [4; 2] [1] 5 3 []) = (Raise Users, St [4; 2] [1] 6 5 []).
Proof.
  cbv zeta. split. { split; [repeat constructor; cbn; lia|split; [repeat constructor; cbn; lia|]]. cbn. intros i [H|H]; lia. }
  split; [usable_tac|]. split; [usable_tac|]. split.
  { intros a b f. cbn. destruct (converters a b) as [[g|g]|]; discriminate. }
  repeat split.
Qed.

(** A functor that refuses leaves its object alive for ever: in to<T>() and in eq, here with an int and an enum. *)
Theorem C55_refusal_leaks_refuted : exists w c b T s,
  fresh s /\ usable (c_src c) /\ usable T /\ passed b T /\ live s = [] /\
  fst (to w false (Some c) T s) = Raise Bad_convert /\ live (snd (to w false (Some c) T s)) <> [] /\
  fst (eq w (Some c) b T s) = Val false /\ live (snd (eq w (Some c) b T s)) <> [].
Proof.
  exists calm_world, (value t_int 500 [7]), (wrapper (TBase true false b_enum) 900 [7]), t_enum, start.
  split; [exact start_fresh|]. split; [usable_tac|]. split; [usable_tac|]. split; [split; [reflexivity|usable_tac]|].
  repeat split; try reflexivity; discriminate.
Qed.
Print Assumptions C55_refusal_leaks_refuted.

(** ** What to answers *)

(** If is<T>() says so, to<T>() returns what is to be had, unless the copy or the move throws. *)
Theorem C55_to_is : forall w k c T s,
  fresh s -> wf_env (w_env w) -> usable (c_src c) -> usable T -> is_array T = false -> not_null c ->
  v_is (w_env w) k (Some c) (mkQ RNone T) = Got true -> e_copies (w_env w) T = true ->
  w_throws w (clock s) = false -> w_throws w (S (clock s)) = false ->
  exists i g, fst (to w k (Some c) T s) = Val (i, g) /\ denotes (w_env w) c T g.
Proof. exact to_is. Qed.
Print Assumptions C55_to_is.

(** And if it does not, this is why. *)
Theorem C55_to_is_fails : forall w k c T s,
  fresh s -> wf_env (w_env w) -> usable (c_src c) -> usable T -> not_null c -> v_is (w_env w) k (Some c) (mkQ RNone T) = Got true ->
  (e_copies (w_env w) T = false -> fst (to w k (Some c) T s) = Raise Not_possible) /\
  (e_copies (w_env w) T = true -> w_throws w (clock s) = true \/ w_throws w (S (clock s)) = true -> fst (to w k (Some c) T s) = Raise Users).
Proof. exact to_is_fails. Qed.
Print Assumptions C55_to_is_fails.

Example C55_to_is_fails_case :
  v_is AccProps.world false (Some (value (t_class 3) 500 [7])) (mkQ RNone (t_class 3)) = Got true /\ e_copies AccProps.world (t_class 3) = false /\ v_is AccProps.world false (Some (value (t_class 2) 500 [7])) (mkQ RNone (t_class 0)) = Got true /\ e_copies AccProps.world (t_class 0) = true.
Proof. repeat split. Qed.

(** An empty variant has nothing to give. *)
Theorem C55_to_empty : forall w k T s, to w k None T s = (Raise Bad_convert, s).
Proof. reflexivity. Qed.
Print Assumptions C55_to_empty.

(** Otherwise the converter decides: its value; bad_variant_convert if there is none or it gives up; or the exception that it
    lets pass. *)
Theorem C55_to_converts : forall w k c T s,
  fresh s -> wf_env (w_env w) -> usable (c_src c) -> usable T -> not_null c ->
  v_is (w_env w) k (Some c) (mkQ RNone T) = Got false ->
  (forall v, converts w (known_as c) (known_as_type T) c (clock s) (Accepts v) -> w_throws w (S (clock s)) = false ->
     exists i, fst (to w k (Some c) T s) = Val (i, Converted v)) /\
  (forall t, in_vain w (known_as c) (known_as_type T) c (clock s) t -> fst (to w k (Some c) T s) = Raise Bad_convert) /\
  (converts w (known_as c) (known_as_type T) c (clock s) Throws -> fst (to w k (Some c) T s) = Raise Users).
Proof. exact to_converter. Qed.
Print Assumptions C55_to_converts.

(** Every exception has one of these causes. *)
Theorem C55_to_exceptions : forall w k c T s x s',
  fresh s -> usable (c_src c) -> to w k (Some c) T s = (Raise x, s') -> to_cause w c T (clock s) x.
Proof. exact to_causes. Qed.
Print Assumptions C55_to_exceptions.

(** With the user's code as it is at the moment, to answers as in C24. *)
Theorem C55_to_refines : forall w k v T s, fresh s ->
  match v_to (at_moment w (clock s)) k v T with
  | Got g => if w_throws w (S (clock s)) then exists x, fst (to w k v T s) = Raise x else exists i, fst (to w k v T s) = Val (i, g)
  | Throw => exists x, fst (to w k v T s) = Raise x
  | Undef => fst (to w k v T s) = Undefined
  | Term => fst (to w k v T s) = Terminated
  | Loop => fst (to w k v T s) = Endless
  end.
Proof.
  intros w k v T s F. pose proof (to_refines w k v T s F) as R. destruct (v_to _ k v T) as [g| | | |]; try exact R.
  destruct (w_throws w (S (clock s))); [exact R|]. destruct R as ([i g'] & R & E). cbn in E. subst g'. eauto.
Qed.
Print Assumptions C55_to_refines.

Example C55_to_case :
  v_is AccProps.world false (Some (value (t_class 2) 500 [7])) (mkQ RNone (t_class 0)) = Got true /\
  fst (to calm_world false (Some (value (t_class 2) 500 [7])) (t_class 0) start) = Val (1, Part 516) /\
  v_is AccProps.world true (Some (value t_int 500 [7])) (mkQ RNone t_float) = Got false /\
  converts calm_world (known_as (value t_int 500 [7])) (known_as_type t_float) (value t_int 500 [7]) 0 (Accepts 70) /\
  fst (to calm_world true (Some (value t_int 500 [7])) t_float start) = Val (1, Converted 70) /\
  in_vain calm_world (known_as (value t_int 500 [7])) (known_as_type t_enum) (value t_int 500 [7]) 0 1 /\
  converts calm_world (known_as (value t_float 500 [0])) (known_as_type t_enum) (value t_float 500 [0]) 0 Throws /\
  fst (to calm_world false (Some (value t_float 500 [0])) t_enum start) = Raise Users /\
  fst (to calm_world false (Some (value (t_class 3) 500 [0])) (t_class 3) start) = Raise Not_possible /\
  fst (to calm_world false None t_int start) = Raise Bad_convert /\
  v_to (at_moment calm_world 0) false (Some (value t_int 500 [7])) t_float = Got (Converted 70).
Proof.
  repeat match goal with |- _ /\ _ => split end; try reflexivity.
  - eapply ConvValue; reflexivity.
  - eapply VainGaveUp. eapply ConvRefused; reflexivity.
  - eapply ConvThrown; reflexivity.
Qed.

(** Two converters that throw: of a functor of the first kind the caller sees bad_variant_convert, of one of the second kind the
    exception itself. *)
Theorem C55_exceptions_differ_refuted : exists w w' c T s,
  usable (c_src c) /\ usable T /\
  (exists f, w_functor w (known_as c) (known_as_type T) = Some (Plain f) /\ forall t, f c t = None) /\
  (exists f, w_functor w' (known_as c) (known_as_type T) = Some (Reporting f) /\ forall t, f c t = None) /\
  fst (to w false (Some c) T s) = Raise Bad_convert /\ fst (to w' false (Some c) T s) = Raise Users.
Proof.
  exists (World AccProps.world (fun _ _ => Some (Plain (fun _ _ => None))) (fun _ => false) (fun _ => true) object),
         (World AccProps.world (fun _ _ => Some (Reporting (fun _ _ => None))) (fun _ => false) (fun _ => true) object),
         (value t_int 500 [7]), t_float, start.
  split; [usable_tac|]. split; [usable_tac|].
  split; [eexists; split; [reflexivity|reflexivity]|]. split; [eexists; split; [reflexivity|reflexivity]|]. split; reflexivity.
Qed.
Print Assumptions C55_exceptions_differ_refuted.

(** ** What eq answers *)

(** Contents of one type are compared, no converter asked if they are equal. *)
Theorem C55_eq_same_type : forall w a b T s,
  calm w -> v_eq (w_env w) (Some a) (Some b) = Got true -> fst (eq w (Some a) b T s) = Val true.
Proof. exact eq_true. Qed.
Print Assumptions C55_eq_same_type.

Theorem C55_eq_unrelated : forall w a b T s,
  calm w -> v_eq (w_env w) (Some a) (Some b) = Got false -> usable (c_src a) ->
  no_converter w (known_as a) (known_as_type T) -> no_converter w (known_as_type T) (known_as a) ->
  fst (eq w (Some a) b T s) = Val false.
Proof. exact eq_false. Qed.
Print Assumptions C55_eq_unrelated.

(** Of different types: converted to the caller's type if that works, else the caller's object converted, else false. *)
Theorem C55_eq_converts : forall w a b T s r,
  calm w -> fresh s -> usable (c_src a) -> passed b T -> known_as a <> known_as_type T ->
  is_array (held a) = false -> is_array T = false -> eq_says w a b T (clock s) r -> fst (eq w (Some a) b T s) = Val r.
Proof. exact eq_answer. Qed.
Print Assumptions C55_eq_converts.

Theorem C55_eq_empty : forall w b T s, eq w None b T s = (Val false, s).
Proof. reflexivity. Qed.
Print Assumptions C55_eq_empty.

(** neq is the contrary. *)
Theorem C55_neq : forall w v b T s r, fst (neq w v b T s) = Val r <-> fst (eq w v b T s) = Val (negb r).
Proof.
  intros w v b T s r. unfold neq, bindM. destruct (eq w v b T s) as [[x| | | |] s']; cbn; split; intros H; try discriminate; injection H as E; f_equal.
  - rewrite <- E. symmetry. apply negb_involutive.
  - rewrite E. apply negb_involutive.
Qed.
Print Assumptions C55_neq.

(** eq throws only for want of operator== or what the user's code throws. *)
Theorem C55_eq_exceptions : forall w a b T s x s',
  usable (c_src a) -> eq w (Some a) b T s = (Raise x, s') -> eq_cause w a b T x.
Proof. intros w a b T s x s' U E. exact (eq_raises w a b T U s x s' E). Qed.
Print Assumptions C55_eq_exceptions.

(** If values convert one way only, it does not matter which of them is in the variant. *)
Theorem C55_eq_symmetric_one_way : forall w a a2 TA b b2 TB s s2 ans,
  calm w -> fresh s -> fresh s2 -> stands_for a a2 TA -> stands_for b2 b TB ->
  known_as_type TA <> known_as_type TB -> is_array TA = false -> is_array TB = false ->
  no_converter w (known_as_type TB) (known_as_type TA) ->
  (forall t x, converts w (known_as_type TA) (known_as_type TB) a t x <-> x = ans) ->
  (forall t x, converts w (known_as_type TA) (known_as_type TB) a2 t x <-> x = ans) ->
  match ans with Accepts x => exists r, says w TB b x r | Gives_up _ => True | Throws => False end ->
  exists r, fst (eq w (Some a) b TB s) = Val r /\ fst (eq w (Some b2) a2 TA s2) = Val r.
Proof. exact eq_symmetric. Qed.
Print Assumptions C55_eq_symmetric_one_way.

(** variant{7}.eq(7.0f), with converters both ways; variant{7.5f}.eq(enum), with none back; variant{7}.eq(7). *)
Example C55_eq_case :
  let i := value t_int 500 [7] in let f := wrapper (TBase true false b_float) 900 [70] in let e := wrapper (TBase true false b_enum) 900 [75] in
  calm calm_world /\ passed f t_float /\ eq_says calm_world i f t_float 0 true /\
  fst (eq calm_world (Some i) f t_float start) = Val true /\
  eq_says calm_world (value t_enum 500 [75]) (wrapper (TBase true false b_float) 900 [75]) t_float 0 true /\
  fst (eq calm_world (Some (value t_enum 500 [75])) (wrapper (TBase true false b_float) 900 [75]) t_float start) = Val true /\
  fst (eq calm_world (Some (value t_float 500 [75])) e t_enum start) = Val true /\
  eq_says calm_world (value t_int 500 [75]) e t_enum 0 false /\
  v_eq AccProps.world (Some i) (Some (wrapper t_cint 900 [7])) = Got true /\
  fst (eq calm_world (Some i) (wrapper t_cint 900 [7]) t_int start) = Val true /\
  fst (neq calm_world (Some i) (wrapper t_cint 900 [8]) t_int start) = Val true.
Proof.
  cbv zeta. split; [intros t; reflexivity|]. split; [split; [reflexivity|usable_tac]|]. split.
  { eapply SaysThere; [eapply ConvValue; reflexivity|]. eexists _, 70, []. repeat split. }
  split; [reflexivity|]. split.
  { eapply SaysBack; [apply VainNone; reflexivity|eapply ConvReported; reflexivity|]. eexists _, 75, []. repeat split. }
  split; [reflexivity|]. split; [reflexivity|]. split; [|repeat split].
  eapply SaysNothing; [eapply VainGaveUp, ConvRefused; reflexivity|apply VainNone; reflexivity].
Qed.

Example C55_eq_symmetric_case :
  let a := value t_float 500 [75] in let a2 := wrapper (TBase true false b_float) 600 [75] in
  let b := wrapper (TBase true false b_enum) 900 [75] in let b2 := value t_enum 950 [75] in
  stands_for a a2 t_float /\ stands_for b2 b t_enum /\ known_as_type t_float <> known_as_type t_enum /\
  no_converter calm_world (known_as_type t_enum) (known_as_type t_float) /\
  (forall t x, converts calm_world (known_as_type t_float) (known_as_type t_enum) a t x <-> x = Accepts 75) /\
  (forall t x, converts calm_world (known_as_type t_float) (known_as_type t_enum) a2 t x <-> x = Accepts 75) /\
  says calm_world t_enum b 75 true.
Proof.
  cbv zeta. split; [split; [split; [reflexivity|usable_tac]|split; [usable_tac|repeat split]]|].
  split; [split; [split; [reflexivity|usable_tac]|split; [usable_tac|repeat split]]|]. split; [discriminate|]. split; [reflexivity|].
  split; [|split].
  - intros t x. split; [intros H; apply (converts_unique _ _ _ _ _ _ _ H)|intros ->]; eapply ConvReported; reflexivity.
  - intros t x. split; [intros H; apply (converts_unique _ _ _ _ _ _ _ H)|intros ->]; eapply ConvReported; reflexivity.
  - eexists _, 75, []. repeat split.
Qed.

(** With converters both ways it does matter: variant{1}.eq(1.5f) is false, variant{1.5f}.eq(1) true. *)
Theorem C55_eq_not_symmetric_refuted : exists w a a2 TA b b2 TB s,
  calm w /\ fresh s /\ stands_for a a2 TA /\ stands_for b2 b TB /\
  fst (eq w (Some a) b TB s) = Val false /\ fst (eq w (Some b2) a2 TA s) = Val true.
Proof.
  exists calm_world, (value t_int 500 [1]), (wrapper t_cint 600 [1]), t_int, (wrapper (TBase true false b_float) 900 [15]), (value t_float 950 [15]), t_float, start.
  split; [intros t; reflexivity|]. split; [exact start_fresh|].
  split; [split; [split; [reflexivity|usable_tac]|split; [usable_tac|repeat split]]|].
  split; [split; [split; [reflexivity|usable_tac]|split; [usable_tac|repeat split]]|]. split; reflexivity.
Qed.
Print Assumptions C55_eq_not_symmetric_refuted.

(** eq of an int with a char array, or of an array with a pointer to convert to: undefined. The converter from int to
    `int *` is asked, as arrays decay, and makes a pointer in a buffer for the array. *)
Theorem C55_eq_array_refuted : exists w a b T s,
  calm w /\ fresh s /\ usable (c_src a) /\ passed b T /\ is_array T = true /\ fst (eq w (Some a) b T s) = Undefined.
Proof.
  exists (World AccProps.world (fun f t => if qty_eq_dec t (q (TPtr false false t_int)) then Some (Plain (fun _ _ => Some 0)) else None) (fun _ => false) (fun _ => true) object),
         (value t_float 500 [1]), (wrapper (TArr t_cint 3) 900 [1; 2; 3]), (TArr t_int 3), start.
  split; [intros t; reflexivity|]. split; [exact start_fresh|]. split; [usable_tac|]. split; [split; [reflexivity|usable_tac]|]. split; reflexivity.
Qed.
Print Assumptions C55_eq_array_refuted.

(** ** convert and tryConvert *)

(** convert<T>() either puts the converted value in place of the old one, whose object is destroyed, or leaves the variant as it
    was; a converter's refused object apart nothing else changes. *)
Theorem C55_convert : forall w v T s r s',
  fresh s -> (forall i, owned v = Some i -> In i (live s)) -> v_convert w v T s = (r, s') -> ended r ->
  fresh s' /\ blocks s' = blocks s /\ exists lost, left s' = lost ++ left s /\ (plain_converters w -> lost = []) /\
  match r with
  | Val v' => exists i j g s1, to w false (holds v) T s = (Val (i, g), s1) /\ v' = Slot (Some (w_object w T g)) (Some j) /\
                Permutation (match owned v with Some o => o :: live s' | None => live s' end) (j :: lost ++ live s)
  | _ => live s' = lost ++ live s
  end.
Proof.
  intros w v T s r s' F O E D. destruct (convert_slot w v T s r s' F O E D) as (F1 & B & l & L & R). split; [exact F1|]. split; [exact B|]. exists l.
  split; [exact L|]. split.
  - intros P. pose proof (quiet_convert_slot w v T P s r s' E D) as Q. rewrite L in Q. apply (app_inv_tail (left s) l []). exact Q.
  - destruct r as [v'|x| | |]; try exact R. destruct R as (i & j & g & s1 & R1 & R2 & R3). exists i, j, g, s1. split; [exact R1|]. split; [exact R2|].
    destruct (owned v); exact R3.
Qed.
Print Assumptions C55_convert.

(** tryConvert<T>() throws nothing: true and converted, or false and as before. *)
Theorem C55_tryConvert : forall w v T s r s',
  tryConvert w v T s = (r, s') -> ended r -> exists b v', r = Val (b, v') /\
    (b = true -> v_convert w v T s = (Val v', s')) /\ (b = false -> v' = v /\ exists x, v_convert w v T s = (Raise x, s')).
Proof.
  intros w v T s r s' E D. unfold tryConvert in E. destruct (v_convert w v T s) as [[v'|x| | |] s1]; injection E as <- <-; try contradiction.
  - exists true, v'. split; [reflexivity|]. split; [reflexivity|discriminate].
  - exists false, v. split; [reflexivity|]. split; [discriminate|]. eauto.
Qed.
Print Assumptions C55_tryConvert.

Example C55_convert_case :
  let v := Slot (Some (value t_int 500 [7])) (Some 3) in let s := St [3] [] 4 0 [] in
  fst (v_convert calm_world v t_float s) = Val (Slot (Some (object t_float (Converted 70))) (Some 6)) /\
  live (snd (v_convert calm_world v t_float s)) = [6] /\
  fst (v_convert calm_world v t_enum s) = Raise Bad_convert /\
  fst (v_convert (W (fun t => t =? 2)) v t_float s) = Raise Users /\ live (snd (v_convert (W (fun t => t =? 2)) v t_float s)) = [3] /\
  fst (tryConvert (W (fun t => t =? 2)) v t_float s) = Val (false, v).
Proof. repeat split. Qed.

(** ** MetaType::construct and destruct *)

Theorem C55_construct : forall w T from s p s',
  fresh s -> construct w T from s = (Val p, s') ->
  live s' = snd p :: live s /\ blocks s' = fst p :: blocks s /\ left s' = left s /\
  exists s2, destruct p s' = (Val tt, s2) /\ live s2 = live s /\ blocks s2 = blocks s.
Proof.
  intros w T from s p s' F E. unfold construct in E. unfold bindM at 1, allocate in E.
  set (s1 := St (live s) (next s :: blocks s) (S (next s)) (clock s) (left s)) in *. assert (F1 : fresh s1) by apply fresh_alloc, F.
  set (m := match from with Nothing => _ | Copied => _ | Moved => _ end) in E.
  assert (O : ok (fun i => [i]) none m /\ quiet m).
  { unfold m. destruct from; [destruct (w_default w T); [split; [apply ok_bind; [apply ok_user|intros _; exact ok_made]|apply quiet_bind; [apply quiet_user|intros _; apply quiet_made]]
                                                   |split; [apply ok_raise|apply quiet_raise]]
      |split; [apply ok_copy|apply quiet_copy]|split; [apply ok_bind; [apply ok_user|intros _; exact ok_made]|apply quiet_bind; [apply quiet_user|intros _; apply quiet_made]]]. }
  clearbody m. destruct O as [O Q]. unfold bindM in E. destruct (m s1) as [[i|x| | |] s2] eqn:E1; try discriminate. injection E as <- <-.
  destruct (O s1 _ s2 F1 E1 I) as (F2 & l & L & V & B). pose proof (Q s1 _ s2 E1 I) as L'. rewrite L in L'. apply (app_inv_tail (left s) l []) in L'. subst l.
  cbn in V, B, L. unfold none in B. cbn in B. cbn [fst snd]. split; [exact V|]. split; [exact B|]. split; [exact L|].
  unfold destruct, bindM. cbn [fst snd]. destruct (destroy i s2) as [r3 s3] eqn:E3. destruct (destroy_head i (live s) s2 r3 s3 F2 V E3) as (-> & -> & F3).
  match goal with |- context [deallocate _ ?st] => destruct (deallocate (next s) st) as [r4 s4] eqn:E4 end.
  destruct (dealloc_head (next s) (blocks s) _ r4 s4 F3 B E4) as (-> & -> & _). eexists. split; [reflexivity|]. split; reflexivity.
Qed.
Print Assumptions C55_construct.

Example C55_construct_case :
  construct calm_world (t_class 0) Copied (St [2] [1] 5 0 []) = (Val (5, 6), St [6; 2] [5; 1] 7 1 []) /\
  destruct (5, 6) (St [6; 2] [5; 1] 7 1 []) = (Val tt, St [2] [1] 7 1 []).
Proof. repeat split. Qed.

(** construct throws if there is no such constructor, or what it throws. *)
Theorem C55_construct_exceptions : forall w T from s x s',
  construct w T from s = (Raise x, s') ->
  live s' = live s /\ left s' = left s /\
  match x with
  | Not_possible => from = Nothing /\ w_default w T = false \/ from = Copied /\ e_copies (w_env w) T = false
  | Users => w_throws w (clock s) = true /\ (from = Nothing -> w_default w T = true) /\ (from = Copied -> e_copies (w_env w) T = true)
  | Bad_convert => False
  end.
Proof.
  intros w T from s x s' E. unfold construct, bindM, allocate, copy_construct, user_call, made in E. cbn [clock live blocks next left] in E.
  destruct from.
  - destruct (w_default w T) eqn:Ed; [|injection E as <- <-; auto]. cbn [clock] in E. destruct (w_throws w (clock s)) eqn:Et; [|discriminate]. injection E as <- <-. repeat split; congruence.
  - destruct (e_copies (w_env w) T) eqn:Ed; [|injection E as <- <-; auto]. unfold bindM in E. cbn [clock] in E. destruct (w_throws w (clock s)) eqn:Et; [|discriminate]. injection E as <- <-. repeat split; congruence.
  - cbn [clock] in E. destruct (w_throws w (clock s)) eqn:Et; [|discriminate]. injection E as <- <-. repeat split; congruence.
Qed.
Print Assumptions C55_construct_exceptions.

(** If the constructor throws, or the type has none of that kind, the memory is never freed. *)
Theorem C55_construct_leaks_refuted : exists w T w' T' s,
  fresh s /\ blocks s = [] /\ usable T /\ usable T' /\
  fst (construct w T Copied s) = Raise Users /\ blocks (snd (construct w T Copied s)) <> [] /\
  fst (construct w' T' Nothing s) = Raise Not_possible /\ blocks (snd (construct w' T' Nothing s)) <> [].
Proof.
  exists (W (fun _ => true)), (t_class 0), calm_world, (t_class 3), start. split; [exact start_fresh|]. split; [reflexivity|].
  split; [usable_tac|]. split; [usable_tac|]. repeat split; try reflexivity; discriminate.
Qed.
Print Assumptions C55_construct_leaks_refuted.

(** ** Programs *)

(** Any sequence of statements on any number of variants, with whatever the user's code throws: what lives are the objects of the
    variants, each once, and what converters made and refused. No memory is left allocated. *)
Theorem C55_programs : forall w p n r s',
  run w p (repeat (Slot None None) n) start = (r, s') -> ended r ->
  exists vs, r = Val vs /\ length vs = n /\ blocks s' = [] /\ NoDup (live s') /\
    Permutation (live s') (owners vs ++ left s') /\ (plain_converters w -> left s' = []).
Proof.
  intros w p n r s' E D. destruct (run_inv w p _ _ r s' (inv_start n) E D) as (vs & -> & (F & B & P)). exists vs. split; [reflexivity|].
  split; [rewrite (run_length w p _ _ _ _ E); apply repeat_length|]. split; [exact B|]. split; [apply F|]. split; [exact P|].
  intros Pl. exact (quiet_run w p Pl _ _ _ _ E D).
Qed.
Print Assumptions C55_programs.

(** When the variants are cleared in the end nothing lives, if no converter reports failure. *)
Theorem C55_programs_end : forall w p n r s',
  plain_converters w -> run w (p ++ map Clear (seq 0 n)) (repeat (Slot None None) n) start = (r, s') -> ended r ->
  live s' = [] /\ blocks s' = [].
Proof.
  intros w p n r s' Pl E D. rewrite run_app in E. unfold bindM in E. destruct (run w p (repeat (Slot None None) n) start) as [r1 s1] eqn:E1.
  assert (K : ended r1) by (destruct r1; try exact I; injection E as <- <-; contradiction).
  destruct (run_inv w p _ _ r1 s1 (inv_start n) E1 K) as (vs & -> & H). pose proof (run_length w p _ _ _ _ E1) as Ln. rewrite repeat_length in Ln.
  pose proof (quiet_run w p Pl _ _ _ _ E1 I) as Q1. destruct (run_clear w vs 0 s1 H) as (s2 & E2 & L2). rewrite Ln in E2. cbn [repeat app] in E2.
  rewrite E2 in E. injection E as <- <-. destruct (run_inv w _ _ _ _ _ H E2 I) as (vs2 & E3 & (F & B & P)). injection E3 as <-.
  split; [|exact B]. rewrite owners_empty in P. cbn [app] in P. rewrite L2, Q1 in P. apply Permutation_nil, Permutation_sym, P.
Qed.
Print Assumptions C55_programs_end.

(** Nothing in such a program is undefined, terminates or goes on for ever, if there are no arrays and no null pointers. *)
Theorem C55_programs_defined_partial : forall w p n,
  good_world w -> Forall good_stmt p -> ended (fst (run w p (repeat (Slot None None) n) start)).
Proof.
  intros w p n Hw Hp. apply run_good; auto.
  - intros v c Hv E. apply repeat_spec in Hv. subst v. discriminate.
  - apply inv_start.
Qed.
Print Assumptions C55_programs_defined_partial.

Definition a_program : list stmt :=
  [Put 0 (value t_int 500 [7]); Put 1 (wrapper t_int 600 [8]); Eq 0 (wrapper (TBase true false b_float) 900 [70]) t_float; Convert 0 t_float;
   Try 1 t_enum; To 0 t_int; Convert 1 t_float; Put 0 (value (t_class 2) 800 [1]); Convert 0 (t_class 0)].

Example C55_programs_case :
  plain_converters plain_world /\
  Forall good_stmt a_program /\ good_world plain_world /\
  run plain_world a_program (repeat (Slot None None) 2) start =
    (Val [Slot (Some (object (t_class 0) (Part 816))) (Some 11); Slot (Some (object t_float (Converted 80))) (Some 7)], St [11; 7] [] 12 14 []) /\
  live (snd (run plain_world (a_program ++ map Clear (seq 0 2)) (repeat (Slot None None) 2) start)) = [].
Proof.
  split. { intros a b f. cbn. destruct (converters a b) as [[g|g]|]; discriminate. }
  assert (G : forall c, usable (c_src c) -> is_array (c_src c) = false -> c_vals c <> [] -> not_null c -> good c).
  { intros c U A V N. split; [exact U|]. split; [exact N|]. split; [|exact V]. unfold held. destruct (c_form c); [|exact A]. destruct (c_src c); [reflexivity|reflexivity|discriminate]. }
  assert (N : forall c, (forall k, ~ pointer_type (held c) k) -> not_null c) by (intros c H [k K]; destruct (H k K)).
  split.
  { repeat constructor; try (apply usable_constify; usable_tac); try usable_tac; try discriminate;
      try (cbn; discriminate); try (intros (k & c & v & u & E & _); discriminate). }
  split.
  { split; [exact world_ok|]. intros T g U A. apply G; [exact U|exact A|discriminate|intros _; discriminate]. }
  split; vm_compute; reflexivity.
Qed.
