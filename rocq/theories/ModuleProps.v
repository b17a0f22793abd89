(** Property theorems C66. *)
From Coq Require Import NArith List Bool Arith String Lia.
From Verif Require Import TypesModel TypesSpec InheritModel RegistryModel AccModel ModuleModel ModuleSpec ModuleProofs ModuleProofs2 ModuleProofs3.
Import ListNotations.
Local Open Scope list_scope.

(** ** A process to show cases with *)

Local Open Scope string_scope.
Definition base_name (b : base) : string :=
  match b_id b with 0 => "int" | 1 => "X" | 3 => "double" | 9 => "void" | _ => "other" end.
Fixpoint shown (t : ty) : string :=
  match t with
  | TBase c _ b => (if c then "const " else "") ++ base_name b
  | TPtr c _ u => shown u ++ (if c then "* const" else "*")
  | TArr u _ => shown u ++ " []"
  end.
Definition printed (q : qty) : string :=
  (shown (q_ty q) ++ match q_ref q with RNone => "" | RL => "&" | RR => "&&" end)%string.
Local Close Scope string_scope.

Definition t_int := TBase false false {| b_kind := KIntegral; b_id := 0; b_size := 4; b_traits := 0 |}.
Definition t_double := TBase false false {| b_kind := KFloat; b_id := 3; b_size := 8; b_traits := 0 |}.
Definition t_X := TBase false false {| b_kind := KClass; b_id := 1; b_size := 24; b_traits := 0 |}.
Definition q_int := mkQ RNone t_int.
Definition q_double := mkQ RNone t_double.
Definition q_X := mkQ RNone t_X.
Definition holds t x := {| c_form := Val; c_src := t; c_at := x; c_ptr := None; c_vals := []; c_bytes := [] |}.
Definition plain_env : env :=
  {| e_graph := []; e_registered := fun _ => false; e_declares := fun _ => false; e_dyn := fun k x => (k, x);
     e_copies := fun _ => true; e_conv := fun _ _ => None; e_cmp := fun _ => None; e_hash := fun _ => 0 |}.

(** The shared library, all statics of the templates hidden: every module has its own. *)
Definition hidden : linkage := {| image := fun _ => 0; copy := fun m _ => m |}.
(** The statics of the executable, module 1, are taken by all that is started with it; a plug-in keeps its variants'. *)
Definition mixed : linkage :=
  {| image := fun _ => 0; copy := fun m s => match m, s with 2, SVariant (Some _) => 2 | 2, STable _ => 2 | _, _ => 1 end |}.
(** The static library: a copy in every module. *)
Definition static : linkage := {| image := fun m => m; copy := fun m _ => m |}.

(** Module 1 is the executable. A plug-in, 2, looks at a variant made there, finds the class registered there, makes one
    itself that the executable looks at, clears it and is unloaded. *)
Definition plug_in : list op :=
  [Make 1 (holds t_int 40); Default 1; DefineClass 1 q_X 7; AddConverter 1 q_int q_double 0 10; TypeId 1 (mkQ RL t_X); TypeId 1 (mkQ RL (TBase true false {| b_kind := KClass; b_id := 1; b_size := 24; b_traits := 0 |}));
   LoadModule 2; Empty 2 1; Is 2 0 ALref (mkQ RL t_int); Access 2 0 RefL t_int; FindClass 2 q_X; Convert 2 (mkQ RL t_int) q_double;
   Make 2 (holds t_X 80); Is 1 2 ALref q_X; Access 1 2 CRefL t_X; Clear 2 2; Empty 1 2; UnloadModule 2; Empty 1 2; NameOf 1 q_int].

Ltac not_remembered :=
  let H := fresh in intro H; destruct H as [(x & Hx & H)|[(x & Hx & H)|[(x & Hx & H)|(x & Hx & H)]]]; vm_compute in Hx;
  repeat (destruct Hx as [<-|Hx]; [vm_compute in H; repeat (destruct H as [H|H]; try discriminate H); try discriminate H|]); destruct Hx.
Ltac is_closed :=
  split; [cbn; auto 10|]; let m := fresh "m" in let s := fresh "s" in let H := fresh in
  intros m s H; cbn in H; repeat (destruct H as [<-|H]; [cbn; repeat (match goal with |- context[match ?x with _ => _ end] => destruct x; cbn end); auto 10|]); destruct H.
Ltac sensible_step :=
  cbn [sensible];
  first [ split; [let n := fresh in let H := fresh in intros n H; injection H as <-; cbn; auto 10|
                  let i := fresh in let H := fresh in intros i H; cbn in H; try discriminate H; injection H as <-; cbn; lia]
        | split; [discriminate|]; split; [cbn; auto 10|]; split; [is_closed|not_remembered]
        | is_closed ].
Ltac orderly_case :=
  repeat (apply OStep; [sensible_step|let st := fresh "st" in let a := fresh "a" in let H := fresh in intros st a H; vm_compute in H; injection H as <- <-]); apply OEnd.

(** ** One program *)

(** However the templates' statics are spread over the modules, whichever module comes to a type first, and whatever is
    loaded and unloaded in between: as long as nothing the process still knows lies in a module that is unloaded, and no
    two converters are registered with the same types and type of function, no code of an unloaded module is used and
    every answer is the one the program would get if it were linked into one module. *)
Theorem C66_one_program_partial : forall L nm hash e ms h,
  shared L -> closed L ms -> orderly L nm hash e (start ms) h -> NoDup (functor_types h) ->
  exists st st' answers,
    run L nm hash e (start ms) h = Some (st, answers) /\ run single nm hash e (start ms) h = Some (st', answers).
Proof.
  intros L nm hash e ms h HL HC HO HD.
  destruct (run_sim L nm hash e HL h [] _ _ (rel_start L nm ms HC) HO HD) as (st & st' & l & E1 & E2 & _); [intros k _ []|]. eauto.
Qed.
Print Assumptions C66_one_program_partial.

Example C66_one_program_case :
  orderly hidden printed (fun _ => 0) plain_env (start [0; 1]) plug_in /\ NoDup (functor_types plug_in) /\
  option_map snd (run hidden printed (fun _ => 0) plain_env (start [0; 1]) plug_in) = Some
    [ANothing; ANothing; ABool true; ABool true; AId (Some (0, 3)); AId (Some (0, 4)); ANothing; ABool true; AIs (Got true);
     APlace (Got Whole); ANumber (Some 7); ANumber (Some 10); ANothing; AIs (Got true); APlace (Got Whole); ANothing; ABool true;
     ANothing; ABool true; AText (Some "int"%string)].
Proof.
  split; [|split; [vm_compute; apply NoDup_cons; [intros []|apply NoDup_nil]|vm_compute; reflexivity]]. unfold plug_in. orderly_case.
Qed.

(** The executable's statics are taken by the library too. *)
Example C66_one_program_interposed_case :
  shared mixed /\ closed mixed [0; 1] /\ orderly mixed printed (fun _ => 0) plain_env (start [0; 1]) plug_in.
Proof. split; [intro m; reflexivity|]. split; [is_closed|]. unfold plug_in. orderly_case. Qed.

(** In terms of types: identifiers got in two modules are equal exactly if the types print alike. *)
Theorem C66_identifiers : forall L nm hash e ms h st l m1 m2 q1 q2,
  shared L -> closed L ms -> orderly L nm hash e (start ms) h -> NoDup (functor_types h) ->
  run L nm hash e (start ms) h = Some (st, l) -> In m1 (loaded st) -> In m2 (loaded st) ->
  is_void q1 = false -> is_void q2 = false ->
  exists st' t1 t2, run L nm hash e st [TypeId m1 q1; TypeId m2 q2] = Some (st', [AId t1; AId t2]) /\
    (t1 = t2 <-> nm q1 = nm q2) /\ (t1 = None <-> nm q1 = ""%string).
Proof.
  intros L nm hash e ms h st l m1 m2 q1 q2 HL HC HO HD E H1 H2 V1 V2.
  destruct (run_state L nm hash e HL ms h st l HC HO HD E) as (st' & R & _).
  destruct (ids_iff L nm hash HL m1 m2 st st' q1 q2 R H1 H2 V1 V2) as (s1 & s2 & t1 & t2 & E1 & E2 & HI & HN).
  exists s2, t1, t2. split; [|auto]. cbn [run exec actor act]. rewrite (proj2 (is_loaded_iff st m1) H1), E1. cbn [next].
  assert (K : loaded s1 = loaded st).
  { destruct (ident_sim L nm hash HL m1 st st' q1 R H1) as (a & b & t & X & _ & _ & K & _). rewrite E1 in X. injection X as <- <-. apply (k_loaded _ _ K). }
  rewrite <- K in H2. rewrite (proj2 (is_loaded_iff s1 m2) H2), E2. reflexivity.
Qed.
Print Assumptions C66_identifiers.

Example C66_identifiers_case :
  option_map snd (run hidden printed (fun _ => 0) plain_env (start [0; 1; 2; 3])
    [TypeId 3 (mkQ RL t_X); TypeId 1 (mkQ RL t_X); TypeId 2 q_X; TypeId 1 q_X]) =
  Some [AId (Some (0, 1)); AId (Some (0, 1)); AId (Some (0, 0)); AId (Some (0, 0))].
Proof. vm_compute. reflexivity. Qed.

(** A variant is empty, in any module, exactly if it holds nothing. *)
Theorem C66_empty : forall L nm hash e ms h st l m i v,
  shared L -> closed L ms -> orderly L nm hash e (start ms) h -> NoDup (functor_types h) ->
  run L nm hash e (start ms) h = Some (st, l) -> In m (loaded st) -> nth_error (vars st) i = Some v ->
  exists b, exec L nm hash e st (Empty m i) = Some (st, ABool b) /\ (b = true <-> v_content v = None).
Proof.
  intros L nm hash e ms h st l m i v HL HC HO HD E Hm Hv.
  destruct (run_state L nm hash e HL ms h st l HC HO HD E) as (st' & _ & O).
  destruct (Forall2_nth1 _ _ _ _ _ (o_vars _ _ _ _ O) Hv) as (w & _ & HR). destruct (is_empty_rel L HL m _ v w HR) as [Em _].
  exists (is_empty L m v). cbn [exec actor act]. rewrite (proj2 (is_loaded_iff st m) Hm). unfold with_var. rewrite Hv. split; [reflexivity|]. rewrite Em.
  destruct (v_content v); split; intro; congruence.
Qed.
Print Assumptions C66_empty.

Example C66_empty_case :
  option_map snd (run mixed printed (fun _ => 0) plain_env (start [0; 1; 2])
    [Default 2; Make 1 (holds t_int 40); Move 2 1; Empty 1 0; Empty 2 1; Empty 1 2]) =
  Some [ANothing; ANothing; ANothing; ABool true; ABool true; ABool false].
Proof. vm_compute. reflexivity. Qed.

(** What is<T>() and the accessors answer in one module about a variant made in another is what they answer anywhere
    (AccModel.v), if the types used up to then and these are told apart by their names. *)
Theorem C66_is : forall L nm hash e ms h st l m i v c a T U,
  shared L -> closed L ms -> orderly L nm hash e (start ms) h -> NoDup (functor_types h) ->
  run L nm hash e (start ms) h = Some (st, l) -> In m (loaded st) -> nth_error (vars st) i = Some v -> v_content v = Some c ->
  told_apart nm U -> (forall x, In x (types st 0) -> U (en_owner x)) -> U (type_id c a) -> U T ->
  exists st', exec L nm hash e st (Is m i a T) = Some (st', AIs (metafunc_is e c (type_id c a) T)).
Proof.
  intros L nm hash e ms h st l m i v c a T U HL HC HO HD E Hm Hv Hc HU HA Hp Hq.
  destruct (run_state L nm hash e HL ms h st l HC HO HD E) as (st' & R & O).
  destruct (Forall2_nth1 _ _ _ _ _ (o_vars _ _ _ _ O) Hv) as (w & _ & HR).
  destruct (m_is_means L nm hash e HL U HU m st st' v w c a T R HA Hm HR Hc Hp Hq) as [s1 E1]. exists s1.
  cbn [exec actor act]. rewrite (proj2 (is_loaded_iff st m) Hm). unfold with_var. rewrite Hv, E1. reflexivity.
Qed.
Print Assumptions C66_is.
Theorem C66_access : forall L nm hash e ms h st l m i v c a T U,
  shared L -> closed L ms -> orderly L nm hash e (start ms) h -> NoDup (functor_types h) ->
  run L nm hash e (start ms) h = Some (st, l) -> In m (loaded st) -> nth_error (vars st) i = Some v -> v_content v = Some c ->
  told_apart nm U -> (forall x, In x (types st 0) -> U (en_owner x)) -> U (type_id c (from_attr a)) -> U (seen a T) ->
  exists st', exec L nm hash e st (Access m i a T) = Some (st', APlace (metafunc_cast e c (type_id c (from_attr a)) (seen a T))).
Proof.
  intros L nm hash e ms h st l m i v c a T U HL HC HO HD E Hm Hv Hc HU HA Hp Hq.
  destruct (run_state L nm hash e HL ms h st l HC HO HD E) as (st' & R & O).
  destruct (Forall2_nth1 _ _ _ _ _ (o_vars _ _ _ _ O) Hv) as (w & _ & HR).
  destruct (m_access_means L nm hash e HL U HU m st st' v w c a T R HA Hm HR Hc Hp Hq) as [s1 E1]. exists s1.
  cbn [exec actor act]. rewrite (proj2 (is_loaded_iff st m) Hm). unfold with_var. rewrite Hv, E1. reflexivity.
Qed.
Print Assumptions C66_access.

(** A set of types that are told apart, and a variant of one module asked about in another. *)
Definition few (q : qty) : Prop := In q [q_int; mkQ RL t_int; q_X; mkQ RL t_X; q_double].
Example C66_is_case :
  told_apart printed few /\ few (type_id (holds t_int 40) ALref) /\ few (mkQ RL t_X) /\
  option_map snd (run hidden printed (fun _ => 0) plain_env (start [0; 1; 2])
    [TypeId 2 (mkQ RL t_X); Make 1 (holds t_int 40); Is 2 0 ALref (mkQ RL t_X); Is 2 0 ALref q_int; Access 2 0 RefL t_int; Access 2 0 RefL t_X]) =
  Some [AId (Some (0, 1)); ANothing; AIs (Got false); AIs (Got true); APlace (Got Whole); APlace Throw].
Proof.
  split; [|split; [right; left; reflexivity|split; [do 3 right; left; reflexivity|vm_compute; reflexivity]]].
  unfold few. split.
  - intros p q Hp Hq E. cbn in Hp, Hq. repeat (destruct Hp as [<-|Hp]; [|]); try destruct Hp; repeat (destruct Hq as [<-|Hq]; [|]); try destruct Hq; try reflexivity; discriminate E.
  - intros q Hq. cbn in Hq. repeat (destruct Hq as [<-|Hq]; [|]); try destruct Hq; (split; [discriminate|]); (split; [cbn; auto 10|]); intros b [= <-]; discriminate.
Qed.

(** A converter that is registered lies in a module that is loaded: the destructors of the static converters take care
    of that, in every process with one copy of the library, however modules are unloaded. *)
Theorem C66_converters_loaded : forall L nm hash e ms h st l,
  shared L -> linked L ms h -> run L nm hash e (start ms) h = Some (st, l) -> forall x, In x (convs st 0) -> In (cv_module x) (loaded st).
Proof. intros L nm hash e ms h st l HL. apply converters_loaded. exact HL. Qed.
Print Assumptions C66_converters_loaded.

Example C66_converters_loaded_case :
  let h := [TypeId 1 q_int; TypeId 1 q_double; TypeId 1 q_X; LoadModule 2; AddConverter 2 q_int q_double 0 10; AddConverter 2 q_int q_X 0 20;
            AddConverter 1 q_double q_int 0 30; UnloadModule 2; Convert 1 q_int q_double; Convert 1 q_double q_int] in
  linked hidden [0; 1] h /\
  option_map snd (run hidden printed (fun _ => 0) plain_env (start [0; 1]) h) =
    Some [AId (Some (0, 0)); AId (Some (0, 1)); AId (Some (0, 2)); ANothing; ABool true; ABool true; ABool true; ANothing; ANumber None; ANumber (Some 30)] /\
  option_map (fun r => convs (fst r) 0) (run hidden printed (fun _ => 0) plain_env (start [0; 1]) h) = Some [Converter ((0, 1), (0, 0)) 1 30].
Proof.
  cbn [linked]. split; [|split; vm_compute; reflexivity]. repeat (split; [is_closed|]). is_closed || exact I.
Qed.

(** Converters are a table from pairs of decayed types to functions, the same for all modules, whatever else runs and however modules
    are loaded and unloaded: what registering and looking up answer is read off that table ([expected] in ModuleSpec.v). *)
Theorem C66_converter_table : forall L nm hash e ms h st l U,
  shared L -> linked L ms h -> run L nm hash e (start ms) h = Some (st, l) ->
  told_apart nm U -> (forall x, In x (types st 0) -> U (en_owner x)) -> (forall q, In q (converter_types h) -> U q) ->
  Forall2 (fun a x => match x with Some y => a = y | None => True end) l (expected L (Books [] []) h).
Proof.
  intros L nm hash e ms h st l U HL HK H HU HA HQ. eapply (run_tied L nm hash e HL U HU); [apply tied_start; destruct h; apply HK|exact HK|exact H|exact HQ|exact HA].
Qed.
Print Assumptions C66_converter_table.

Definition converting : list op :=
  [LoadModule 2; AddConverter 2 q_int q_double 0 10; AddConverter 1 q_int q_X 0 20; AddConverter 1 q_double q_X 1 30; TypeId 2 (mkQ RL t_X); AddConverter 2 (mkQ RL t_int) q_X 2 40;
   Convert 2 q_int (mkQ RL t_X); Convert 1 q_double q_X; DropConverter 2 q_double q_X; Convert 1 q_double q_X; Convert 1 q_int q_double].
Example C66_converting : linked hidden [0; 1] converting /\ told_apart printed few /\ (forall q, In q (converter_types converting) -> few q) /\
  (exists st l, run hidden printed (fun _ => 0) plain_env (start [0; 1]) converting = Some (st, l) /\ (forall x, In x (types st 0) -> few (en_owner x))) /\
  expected hidden (Books [] []) converting = [None; Some (ABool true); Some (ABool true); Some (ABool true); None; Some (ABool false);
    Some (ANumber (Some 20)); Some (ANumber (Some 30)); Some ANothing; Some (ANumber None); Some (ANumber (Some 10))].
Proof.
  split; [cbn [linked converting]; repeat (split; [is_closed|]); is_closed || exact I|]. split; [apply C66_is_case|].
  split; [intros q Hq; cbn in Hq; unfold few; cbn; intuition auto 10|]. split; [|vm_compute; reflexivity].
  eexists _, _. split; [vm_compute; reflexivity|]. intros x Hx. vm_compute in Hx. unfold few. cbn. repeat (destruct Hx as [<-|Hx]; [auto 10|]). destruct Hx.
Qed.

(** ** Where it fails *)

(** Linked statically, every module has a registry of its own: a variant of int made in one module is not one in another,
    nor is an empty one empty, and a class registered in one is unknown in the other. *)
Theorem C66_static_refuted : exists ms h,
  closed static ms /\ linked static ms h /\
  option_map snd (run static printed (fun _ => 0) plain_env (start ms) h) =
    Some [ANothing; ANothing; AIs (Got false); APlace Throw; ABool false; ABool true; ANumber None] /\
  option_map snd (run single printed (fun _ => 0) plain_env (start ms) h) =
    Some [ANothing; ANothing; AIs (Got true); APlace (Got Whole); ABool true; ABool true; ANumber (Some 7)].
Proof.
  exists [0; 1; 2], [Make 1 (holds t_int 40); Default 1; Is 2 0 ALref (mkQ RL t_int); Access 2 0 RefL t_int; Empty 2 1; DefineClass 1 q_X 7; FindClass 2 q_X].
  split; [is_closed|]. split; [cbn [linked]; repeat (split; [is_closed|]); exact I || is_closed|]. split; vm_compute; reflexivity.
Qed.
Print Assumptions C66_static_refuted.

(** A plug-in that was the first to use int takes the name away when it is unloaded: the next module to use int reads it. *)
Theorem C66_unload_refuted : exists L ms h,
  shared L /\ linked L ms h /\ (forall o, In o h -> actor o = None \/ exists m q, o = TypeId m q) /\
  run L printed (fun _ => 0) plain_env (start ms) h = None.
Proof.
  exists hidden, [0; 1], [LoadModule 2; TypeId 2 q_int; UnloadModule 2; TypeId 1 q_int].
  split; [intro m; reflexivity|]. split; [cbn [linked]; repeat (split; [is_closed|]); exact I || is_closed|]. split; [|vm_compute; reflexivity].
  intros o Ho. cbn in Ho. destruct Ho as [<-|[<-|[<-|[<-|[]]]]]; cbn; eauto.
Qed.
Print Assumptions C66_unload_refuted.

(** A variant a plug-in made cannot even be asked what it is. *)
Theorem C66_unload_variant_refuted : exists L ms h,
  shared L /\ linked L ms h /\
  option_map snd (run L printed (fun _ => 0) plain_env (start ms) h) = Some [ANothing; AIs (Got true); ANothing; ANothing; AIs (Got true); ANothing] /\
  run L printed (fun _ => 0) plain_env (start ms) (h ++ [Is 1 1 ALref q_X]) = None.
Proof.
  exists hidden, [0; 1], [Make 1 (holds t_X 40); Is 1 0 ALref q_X; LoadModule 2; Make 2 (holds t_X 80); Is 1 1 ALref q_X; UnloadModule 2].
  split; [intro m; reflexivity|]. split; [cbn [linked]; repeat (split; [is_closed|]); exact I || is_closed|]. split; vm_compute; reflexivity.
Qed.
Print Assumptions C66_unload_variant_refuted.

(** A plug-in that is loaded again does not get its methods registered again: the old ones are there, without code. *)
Theorem C66_reload_refuted : exists L ms h,
  shared L /\ linked L ms h /\
  option_map snd (run L printed (fun _ => 0) plain_env (start ms) h) = Some [ANothing; ABool true; ANothing; ANothing; ABool false] /\
  run L printed (fun _ => 0) plain_env (start ms) (h ++ [Call 3 "f"]) = None.
Proof.
  exists hidden, [0; 1], [LoadModule 2; DefineMethod 2 "f" 5; UnloadModule 2; LoadModule 3; DefineMethod 3 "f" 5].
  split; [intro m; reflexivity|]. split; [cbn [linked]; repeat (split; [is_closed|]); exact I || is_closed|]. split; vm_compute; reflexivity.
Qed.
Print Assumptions C66_reload_refuted.

(** As long as nothing the process still knows lies in a module that is unloaded the end of the process finds the code it needs. *)
Theorem C66_exit_partial : forall L nm hash e ms h st answers, shared L -> closed L ms -> orderly L nm hash e (start ms) h -> NoDup (functor_types h) ->
  run L nm hash e (start ms) h = Some (st, answers) -> at_exit st 0 = true.
Proof.
  intros L nm hash e ms h st l HL HC HO HD E. destruct (run_state L nm hash e HL ms h st l HC HO HD E) as (st' & _ & O).
  apply forallb_forall. intros x Hx. apply is_loaded_iff. exact (o_items_loaded _ _ _ _ O x Hx).
Qed.
Print Assumptions C66_exit_partial.

(** Even if nobody asks any more: the end of the process runs the destructors of what the plug-in registered. *)
Theorem C66_exit_refuted : exists L ms h st l,
  shared L /\ linked L ms h /\ run L printed (fun _ => 0) plain_env (start ms) h = Some (st, l) /\ at_exit st 0 = false.
Proof.
  exists hidden, [0; 1], [LoadModule 2; DefineMethod 2 "f" 5; UnloadModule 2]. eexists _, _.
  split; [intro m; reflexivity|]. split; [cbn [linked]; repeat (split; [is_closed|]); exact I || is_closed|]. split; [reflexivity|vm_compute; reflexivity].
Qed.
Print Assumptions C66_exit_refuted.

(** A plug-in whose converter was refused, as there was one already, takes that one away when it is unloaded. *)
Theorem C66_refused_converter_refuted : exists L ms h,
  shared L /\ linked L ms h /\
  option_map snd (run L printed (fun _ => 0) plain_env (start ms) h) =
    Some [ABool true; ANumber (Some 10); ANothing; ABool false; ANumber (Some 10); ANothing; ANumber None] /\
  option_map snd (run single printed (fun _ => 0) plain_env (start ms) h) =
    Some [ABool true; ANumber (Some 10); ANothing; ABool false; ANumber (Some 10); ANothing; ANumber (Some 10)].
Proof.
  exists hidden, [0; 1], [AddConverter 1 q_int q_double 0 10; Convert 1 q_int q_double; LoadModule 2; AddConverter 2 q_int q_double 1 20;
    Convert 1 q_int q_double; UnloadModule 2; Convert 1 q_int q_double].
  split; [intro m; reflexivity|]. split; [cbn [linked]; repeat (split; [is_closed|]); exact I || is_closed|]. split; vm_compute; reflexivity.
Qed.
Print Assumptions C66_refused_converter_refuted.

(** Two converters with the same types and type of function: which one is registered after the first is dropped depends
    on whether the two registrations share the static object. *)
Theorem C66_same_functor_refuted : exists L ms h,
  shared L /\ orderly L printed (fun _ => 0) plain_env (start ms) h /\
  option_map snd (run L printed (fun _ => 0) plain_env (start ms) h) = Some [ABool true; ANothing; ABool true; ANumber (Some 20)] /\
  option_map snd (run single printed (fun _ => 0) plain_env (start ms) h) = Some [ABool true; ANothing; ABool true; ANumber (Some 10)].
Proof.
  exists hidden, [0; 1; 2], [AddConverter 1 q_int q_double 0 10; DropConverter 1 q_int q_double; AddConverter 2 q_int q_double 0 20; Convert 1 q_int q_double].
  split; [intro m; reflexivity|]. split; [orderly_case|]. split; vm_compute; reflexivity.
Qed.
Print Assumptions C66_same_functor_refuted.
