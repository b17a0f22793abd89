(** C64: what registerConverter and converting constructors make of what they are given. *)
From Coq Require Import NArith List Bool Arith Lia.
From Verif Require Import TypesModel TypesSpec TypesProofs SelectModel SelectSpec SelectProofs.
Import ListNotations.

(** ** Which converter is made *)

(** A function object written with one parameter makes a plain converter exactly if it is const, takes the unmodifiable
    content and its result gives the target, explicitly or not. Otherwise the program does not compile. *)
Theorem C64_plain : forall e fn cst from to p,
  let F := q_ty (full_decay from) in let T := q_ty (full_decay to) in
  written_plain fn p ->
  (register_functor e fn cst from to = Registered Plain <->
   has_objects F /\ has_objects T /\ o_const fn = true /\ (exists a, unmodifiable a F /\ initialises e a p) /\
   constructs e (o_result fn) T) /\
  (register_functor e fn cst from to = Registered Plain \/ register_functor e fn cst from to = Ill_formed).
Proof.
  intros e fn cst from to p F T W. unfold register_functor. fold F T. rewrite (choose_plain e fn cst F T p W).
  pose proof (full_decay_not_array from) as A. fold F in A.
  assert (E : object_type F && object_type T && o_const fn && takes e (source F) p && direct e (o_result fn) T = true <->
    has_objects F /\ has_objects T /\ o_const fn = true /\ (exists a, unmodifiable a F /\ initialises e a p) /\
    constructs e (o_result fn) T).
  { rewrite !andb_true_iff, !object_type_has, takes_initialises, direct_constructs. split.
    - intros [[[[O1 O2] C] I] D]. do 3 (split; [assumption|]). split; [|exact D].
      exists (source F). split; [exact (source_unmodifiable F A)|exact I].
    - intros [O1 [O2 [C [[a [U I]] D]]]]. rewrite (unmodifiable_is a F A U) in I. tauto. }
  destruct (_ && direct e (o_result fn) T)%bool.
  - split; [|now left]. split; [intros _; now apply E|reflexivity].
  - split; [|now right]. split; [discriminate|]. intro H. apply E in H. discriminate H.
Qed.
Print Assumptions C64_plain.

(** One written with [bool&] as second parameter makes a reporting converter if it takes the content both unmodifiable
    and as an rvalue and its result gives the target implicitly; never a plain one. *)
Theorem C64_reporting : forall e fn cst from to p,
  let F := q_ty (full_decay from) in let T := q_ty (full_decay to) in
  written_reporting fn p ->
  (register_functor e fn cst from to = Registered Reporting <->
   has_objects F /\ has_objects T /\ o_const fn = true /\ (exists a, unmodifiable a F /\ initialises e a p) /\
   initialises e (mkQ RR F) p /\ becomes e (o_result fn) T) /\
  (register_functor e fn cst from to = Registered Reporting \/ register_functor e fn cst from to = Ill_formed).
Proof.
  intros e fn cst from to p F T W. unfold register_functor. fold F T. rewrite (choose_reporting e fn cst F T p W).
  pose proof (full_decay_not_array from) as A. fold F in A.
  assert (E : object_type F && object_type T && o_const fn && takes e (source F) p && takes e (mkQ RR F) p
              && implicit e (o_result fn) T = true <->
    has_objects F /\ has_objects T /\ o_const fn = true /\ (exists a, unmodifiable a F /\ initialises e a p) /\
    initialises e (mkQ RR F) p /\ becomes e (o_result fn) T).
  { rewrite !andb_true_iff, !object_type_has, !takes_initialises, implicit_becomes. split.
    - intros [[[[[O1 O2] C] I] J] D]. do 3 (split; [assumption|]). split; [|tauto].
      exists (source F). split; [exact (source_unmodifiable F A)|exact I].
    - intros [O1 [O2 [C [[a [U I]] D]]]]. rewrite (unmodifiable_is a F A U) in I. tauto. }
  destruct (_ && implicit e (o_result fn) T)%bool.
  - split; [|now left]. split; [intros _; now apply E|reflexivity].
  - split; [|now right]. split; [discriminate|]. intro H. apply E in H. discriminate H.
Qed.
Print Assumptions C64_reporting.

Definition b_int := {| b_kind := KIntegral; b_id := 1; b_size := 4; b_traits := 0 |}.
Definition b_char := {| b_kind := KIntegral; b_id := 2; b_size := 1; b_traits := 0 |}.
Definition b_text := {| b_kind := KClass; b_id := 3; b_size := 32; b_traits := 0 |}.
Definition b_handle := {| b_kind := KClass; b_id := 4; b_size := 8; b_traits := 0 |}.
Definition t_int := TBase false false b_int.
Definition t_text := TBase false false b_text.
Definition t_handle := TBase false false b_handle.
Definition value (t : ty) : qty := mkQ RNone t.
Definition cref (t : ty) : qty := mkQ RL (constant t).

(** int, bool and char convert to one another, text is made of [char const*] implicitly and of int explicitly; a handle
    moves but does not copy and becomes a text implicitly. *)
Definition world1 : env :=
  {| conv := fun a t =>
       match q_ty a, t with
       | TBase _ _ b, TBase _ _ c =>
           (match b_kind b, b_kind c with KIntegral, KIntegral => true | _, _ => false end)
           || (Nat.eqb (b_id b) 4 && Nat.eqb (b_id c) 3)
       | TPtr _ _ (TBase _ _ b), TBase _ _ c => Nat.eqb (b_id b) 2 && Nat.eqb (b_id c) 3
       | _, _ => false
       end;
     expl := fun a t =>
       match q_ty a, t with TBase _ _ b, TBase _ _ c => Nat.eqb (b_id b) 1 && Nat.eqb (b_id c) 3 | _, _ => false end;
     copies := fun b => negb (Nat.eqb (b_id b) 4);
     moves := fun _ => true |}.

(** Text from int, written both ways. *)
Definition plain_fn : functor := {| o_params := [cref t_int]; o_required := 1; o_result := value t_text; o_const := true |}.
Definition report_fn : functor := {| o_params := [value t_int; flag]; o_required := 2; o_result := value t_text; o_const := true |}.

Example C64_plain_example :
  written_plain plain_fn (cref t_int) /\ register_functor world1 plain_fn false (value t_int) (value t_text) = Registered Plain.
Proof. split; [split; [reflexivity|apply le_n]|reflexivity]. Qed.
Example C64_reporting_example :
  written_reporting report_fn (value t_int) /\
  register_functor world1 report_fn false (value t_int) (value t_text) = Registered Reporting.
Proof. split; [exists bool_base; do 2 (split; [reflexivity|]); reflexivity|reflexivity]. Qed.

(** A result that gives the target explicitly only is enough for one kind of converter and not for the other. *)
Theorem C64_explicit_refuted : exists e fn fn' from to p,
  let T := q_ty (full_decay to) in
  written_plain fn p /\ written_reporting fn' p /\ o_result fn = o_result fn' /\ o_const fn = o_const fn' /\
  constructs e (o_result fn') T /\
  register_functor e fn false from to = Registered Plain /\ register_functor e fn' false from to = Ill_formed.
Proof.
  exists world1, {| o_params := [value t_int]; o_required := 1; o_result := value t_int; o_const := true |},
    {| o_params := [value t_int; flag]; o_required := 2; o_result := value t_int; o_const := true |},
    (value t_int), (value t_text), (value t_int).
  split; [split; [reflexivity|apply le_n]|]. split; [exists bool_base; do 2 (split; [reflexivity|]); reflexivity|].
  do 2 (split; [reflexivity|]). split; [apply direct_constructs; reflexivity|]. split; reflexivity.
Qed.
Print Assumptions C64_explicit_refuted.

(** A function object that changes itself (a mutable lambda) is never accepted. *)
Theorem C64_mutable_rejected : forall e fn cst from to,
  o_const fn = false -> register_functor e fn cst from to = Ill_formed.
Proof.
  intros e fn cst from to C. unfold register_functor.
  destruct (choose e fn cst (q_ty (full_decay from)) (q_ty (full_decay to))) as [k|] eqn:R; [|reflexivity].
  apply registered_parts in R as [_ [_ [D _]]]. congruence.
Qed.
Print Assumptions C64_mutable_rejected.

Example C64_mutable_example :
  call world1 {| o_params := [cref t_int]; o_required := 1; o_result := value t_text; o_const := false |} false [source t_int]
  = Some (value t_text).
Proof. reflexivity. Qed.

(** One asked to give pointers to const that returns them is never accepted: the target is registered without const. *)
Theorem C64_const_result_rejected : forall e fn cst from to,
  is_array (q_ty to) = false -> has_objects (q_ty to) -> similar (q_ty (o_result fn)) (q_ty to) ->
  (exists j, 0 < j /\ const_at (q_ty (o_result fn)) j = true) ->
  register_functor e fn cst from to = Ill_formed.
Proof.
  intros e fn cst from to A O S [j [J K]]. unfold register_functor.
  destruct (choose e fn cst (q_ty (full_decay from)) (q_ty (full_decay to))) as [k|] eqn:R; [|reflexivity]. exfalso.
  apply registered_parts in R as [_ [_ [_ [D _]]]]. apply direct_constructs in D.
  pose proof (similar_trans _ _ _ S (similar_sym _ _ (full_decay_similar to A O))) as S'.
  destruct D as [[_ Q _|N _]|[N _]]; [|contradiction|contradiction].
  destruct (Q j J) as [Q1 _]. specialize (Q1 K). rewrite (proj1 (full_decay_levels to j)) in Q1. discriminate Q1.
Qed.
Print Assumptions C64_const_result_rejected.

(** ** Converters as one writes them *)

(** From [From const&], or from a copyable [From], to [To]: accepted if neither has qualifiers below the top. *)
Theorem C64_declared_partial : forall e fn cst from to p,
  q_ref from = RNone -> q_ref to = RNone -> is_array (q_ty from) = false -> is_array (q_ty to) = false ->
  has_objects (q_ty from) -> has_objects (q_ty to) -> plain_below (q_ty from) -> plain_below (q_ty to) ->
  volatile_at (q_ty from) 0 = false ->
  p = mkQ RL (constant (q_ty from)) \/ (p = from /\ forall c v b, q_ty from = TBase c v b -> copies e b = true) ->
  written_plain fn p -> o_result fn = to -> o_const fn = true ->
  register_functor e fn cst from to = Registered Plain.
Proof.
  intros e fn cst from to p R1 R2 A1 A2 O1 O2 B1 B2 V1 P W E C.
  pose proof (full_decay_similar from A1 O1) as S1. pose proof (full_decay_similar to A2 O2) as S2.
  apply (C64_plain e fn cst from to p W).
  assert (H : forall q, is_array (q_ty q) = false -> has_objects (q_ty q) -> has_objects (q_ty (full_decay q))).
  { intros q A O. exact (similar_has _ _ (full_decay_similar q A O) O). }
  split; [now apply H|]. split; [now apply H|]. split; [exact C|]. split.
  - exists (source (q_ty (full_decay from))). split; [apply source_unmodifiable, full_decay_not_array|].
    apply in_direct.
    + destruct (source_unmodifiable _ (full_decay_not_array from)) as [_ [_ [K [_ L]]]].
      assert (S : similar (q_ty (source (q_ty (full_decay from)))) (q_ty from))
        by (eapply similar_trans; [apply constant_similar|exact S1]).
      destruct P as [P|[P _]]; subst p; split.
      * eapply similar_trans; [exact S|apply similar_sym, constant_similar].
      * split; [now left|].
        change (qual_ok 0 (q_ty (source (q_ty (full_decay from)))) (q_ty (source (q_ty from)))). intros j _.
        destruct (source_unmodifiable _ A1) as [_ [_ [K' [VV' L']]]]. destruct j as [|j].
        -- rewrite K, K'. split; [auto|]. split.
           ++ destruct (source_unmodifiable _ (full_decay_not_array from)) as [_ [_ [_ [VV _]]]]. rewrite VV.
              rewrite (proj2 (full_decay_levels from 0)). discriminate.
           ++ intros _ i _ I. lia.
        -- destruct (L (Datatypes.S j)) as [X Y]; [lia|]. destruct (L' (Datatypes.S j)) as [X' Y']; [lia|].
           destruct (B1 (Datatypes.S j)) as [Z1 Z2]; [lia|]. rewrite X, Y, X', Y', Z1, Z2.
           rewrite (proj1 (full_decay_levels from (Datatypes.S j))), (proj2 (full_decay_levels from (Datatypes.S j))).
           repeat split; auto; try discriminate. intuition congruence.
      * exact S.
      * rewrite R1. intros j J. destruct (L j) as [X Y]; [lia|]. destruct (B1 j) as [Z1 Z2]; [lia|].
        rewrite X, Y, Z1, Z2, (proj1 (full_decay_levels from j)), (proj2 (full_decay_levels from j)).
        repeat split; auto. intuition congruence.
    + intro R. destruct P as [P|[P Q]]; subst p; [discriminate R|].
      destruct (q_ty from) as [c v b|c v t|t n] eqn:F; [|constructor|discriminate A1].
      apply tr_copy; [exact (Q c v b eq_refl)|now left].
  - left. subst to. apply be_same; [apply similar_sym, S2| |rewrite R2; congruence].
    intros j J. destruct (B2 j) as [Z1 Z2]; [lia|].
    rewrite Z1, Z2, (proj1 (full_decay_levels _ j)), (proj2 (full_decay_levels _ j)). repeat split; auto. intuition congruence.
Qed.
Print Assumptions C64_declared_partial.

Example C64_declared_example :
  let from := value (TPtr false false (TPtr false false t_int)) in
  plain_below (q_ty from) /\ is_array (q_ty from) = false /\
  register_functor world1 {| o_params := [from]; o_required := 1; o_result := value t_text; o_const := true |} false
    from (value t_text) = Registered Plain.
Proof.
  cbn zeta. split; [|split; reflexivity]. intros [|[|[|j]]] J; [lia|split; reflexivity..].
Qed.

(** Written the same way, a converter to [char const*] and one from [int const* *] are not accepted. *)
Theorem C64_declared_refuted :
  (exists e fn from to, written_plain fn (mkQ RL (constant (q_ty from))) /\ o_result fn = to /\ o_const fn = true /\
     q_ty to = TPtr false false (TBase true false b_char) /\ register_functor e fn false from to = Ill_formed) /\
  (exists e fn from to, written_plain fn from /\ o_result fn = to /\ o_const fn = true /\
     q_ty from = TPtr false false (TPtr false false (TBase true false b_int)) /\
     register_functor e fn false from to = Ill_formed).
Proof.
  split.
  - exists world1, {| o_params := [cref t_text]; o_required := 1; o_result := value (TPtr false false (TBase true false b_char)); o_const := true |},
      (value t_text), (value (TPtr false false (TBase true false b_char))).
    split; [split; [reflexivity|apply le_n]|]. do 3 (split; [reflexivity|]). reflexivity.
  - exists world1, {| o_params := [value (TPtr false false (TPtr false false (TBase true false b_int)))]; o_required := 1; o_result := value t_text; o_const := true |},
      (value (TPtr false false (TPtr false false (TBase true false b_int)))), (value t_text).
    split; [split; [reflexivity|apply le_n]|]. do 3 (split; [reflexivity|]). reflexivity.
Qed.
Print Assumptions C64_declared_refuted.

(** ** What a converter may do to the content *)

(** Whatever function object is accepted, its first parameter does not name the content so that it could be changed. *)
Theorem C64_content_kept : forall e fn cst from to k,
  register_functor e fn cst from to = Registered k ->
  exists p ps, o_params fn = p :: ps /\
    (q_ref p = RL -> const_at (q_ty p) 0 = true) /\
    (q_ref p = RR -> ~ similar (q_ty (full_decay from)) (q_ty p)).
Proof.
  intros e fn cst from to k R. apply registered_parts in R as [_ [_ [_ [_ [p [ps [P [I _]]]]]]]].
  exists p, ps. split; [exact P|]. apply takes_initialises in I. pose proof (constant_const (q_ty (full_decay from))) as K.
  destruct I as [[S B] _|N C R].
  - split.
    + intro E. rewrite E in B. destruct B as [_ Q]. destruct (Q 0 (le_n 0)) as [Q1 _]. exact (Q1 K).
    + intro E. rewrite E in B. destruct B as [B _]. exfalso. apply B. reflexivity.
  - split; [exact R|]. intros _ S. apply N. eapply similar_trans; [apply constant_similar|exact S].
Qed.
Print Assumptions C64_content_kept.

Example C64_content_example :
  register_functor world1 {| o_params := [mkQ RR (TBase false false b_char)]; o_required := 1; o_result := value t_text; o_const := true |}
    false (value t_int) (value t_text) = Registered Plain /\
  register_functor world1 {| o_params := [mkQ RR t_int]; o_required := 1; o_result := value t_text; o_const := true |}
    false (value t_int) (value t_text) = Ill_formed /\
  register_functor world1 {| o_params := [mkQ RL t_int]; o_required := 1; o_result := value t_text; o_const := true |}
    false (value t_int) (value t_text) = Ill_formed.
Proof. split; [reflexivity|split; reflexivity]. Qed.

(** The parameter takes the content by the rules of C++ also as it was declared, if no qualifier is below the top. *)
Theorem C64_binding_partial : forall e fn cst from to k q a,
  register_functor e fn cst from to = Registered k ->
  full_decay q = full_decay from -> is_array (q_ty q) = false -> has_objects (q_ty q) ->
  plain_below (q_ty q) -> volatile_at (q_ty q) 0 = false -> unmodifiable a (q_ty q) ->
  exists p ps, o_params fn = p :: ps /\ initialises e a p.
Proof.
  intros e fn cst from to k q a R E A O B V U. apply registered_parts in R as [_ [_ [_ [_ [p [ps [P [I _]]]]]]]].
  exists p, ps. split; [exact P|]. apply takes_initialises in I. rewrite <- E in I.
  pose proof (full_decay_not_array q) as D.
  replace a with (source (q_ty (full_decay q))); [exact I|]. symmetry. apply unmodifiable_is; [exact D|].
  destruct U as [U1 [U2 [U3 [U4 U5]]]]. split; [exact U1|].
  split; [eapply similar_trans; [exact U2|apply similar_sym, full_decay_similar; assumption]|].
  split; [exact U3|]. split; [rewrite U4, V; symmetry; apply (full_decay_levels q 0)|].
  intros j J. destruct (U5 j J) as [X Y]. destruct (B j J) as [Z1 Z2]. destruct (full_decay_levels q j) as [W1 W2].
  split; congruence.
Qed.
Print Assumptions C64_binding_partial.

(** A converter that takes [int*] is found for an [int const*], which it may not be given. *)
Theorem C64_binding_refuted : exists e fn from to k q a,
  register_functor e fn false from to = Registered k /\ full_decay q = full_decay from /\
  unmodifiable a (q_ty q) /\ const_at (q_ty q) 1 = true /\
  forall p ps, o_params fn = p :: ps -> ~ initialises e a p.
Proof.
  exists world1, {| o_params := [value (TPtr false false t_int)]; o_required := 1; o_result := value t_text; o_const := true |},
    (value (TPtr false false t_int)), (value t_text), Plain, (value (TPtr false false (TBase true false b_int))),
    (source (TPtr false false (TBase true false b_int))).
  split; [reflexivity|]. split; [reflexivity|]. split; [apply source_unmodifiable; reflexivity|]. split; [reflexivity|].
  intros p ps E H. injection E as <- <-. apply takes_initialises in H. vm_compute in H. discriminate H.
Qed.
Print Assumptions C64_binding_refuted.

Example C64_binding_example :
  let q := value (TPtr true false t_int) in
  plain_below (q_ty q) /\ unmodifiable (source (TPtr false false t_int)) (q_ty q) /\
  full_decay q = full_decay (value (TPtr false false t_int)).
Proof.
  cbn zeta. split; [intros [|[|j]] J; [lia|split; reflexivity..]|]. split; [|reflexivity].
  split; [reflexivity|]. split; [repeat constructor|]. do 2 (split; [reflexivity|]).
  intros [|j] J; [lia|split; reflexivity].
Qed.

(** ** What conversions answer *)

(** A plain converter converts unless its function throws, and then it refuses. *)
Theorem C64_plain_answers : forall e fn cst from to p k does v,
  written_plain fn p -> register_functor e fn cst from to = Registered k ->
  (forall w, convert k fn does v = Converted w <-> a_throws (does v None) = false /\ a_value (does v None) = w) /\
  (a_throws (does v None) = true -> convert k fn does v = Refused None) /\ convert k fn does v <> Escapes.
Proof.
  intros e fn cst from to p k does v W R. unfold register_functor in R.
  rewrite (choose_plain _ _ _ _ _ _ W) in R. destruct (_ && direct _ _ _)%bool in R; [|discriminate]. injection R as <-.
  unfold convert. destruct (a_throws (does v None)).
  - split; [|split; [reflexivity|discriminate]]. intro w. split; [discriminate|]. intros [H _]. discriminate H.
  - split; [|split; discriminate]. intro w. split; [intro H; injection H as H; auto|]. intros [_ H]. now rewrite H.
Qed.
Print Assumptions C64_plain_answers.

(** A reporting converter converts exactly if its function returns and said so; what it throws passes. *)
Theorem C64_reporting_answers : forall e fn cst from to p k does v,
  written_reporting fn p -> register_functor e fn cst from to = Registered k ->
  let a := does v (Some false) in
  (forall w, convert k fn does v = Converted w <-> a_throws a = false /\ a_value a = w /\ a_assigns a = Some true) /\
  (a_throws a = true <-> convert k fn does v = Escapes).
Proof.
  intros e fn cst from to p k does v W R. cbn zeta. unfold register_functor in R.
  rewrite (choose_reporting _ _ _ _ _ _ W) in R. destruct (_ && implicit _ _ _)%bool in R; [|discriminate]. injection R as <-.
  destruct W as [b [P [_ B]]]. subst b. unfold convert. rewrite P.
  replace (is_flag (mkQ RL (TBase false false bool_base))) with true by reflexivity.
  destruct (does v (Some false)) as [th va as']. cbn [a_throws a_value a_assigns]. destruct th.
  - split; [|split; reflexivity]. intro w. split; [discriminate|]. intros [H _]. discriminate H.
  - destruct as' as [[|]|]; (split; [intro w; split; [intro H; try discriminate H|intros [_ [H1 H2]]; try discriminate H2]|
      split; discriminate]).
    + injection H as H. auto.
    + now rewrite H1.
Qed.
Print Assumptions C64_reporting_answers.

Definition digits (v : nat) (_ : option bool) : act := Act (Nat.leb 10 v) (v + 48) (Some true).

Example C64_answers_example :
  convert Plain plain_fn digits 4 = Converted 52 /\ convert Plain plain_fn digits 12 = Refused None /\
  convert Reporting report_fn digits 4 = Converted 52 /\ convert Reporting report_fn digits 12 = Escapes /\
  convert Reporting report_fn (fun v _ => Act false v None) 4 = Refused (Some 4).
Proof. do 4 (split; [reflexivity|]). reflexivity. Qed.

(** A converter taken for a reporting one whose second parameter is not the flag refuses every content. *)
Theorem C64_never_converts : forall fn p1 p2 ps does v w,
  o_params fn = p1 :: p2 :: ps -> detached p2 -> convert Reporting fn does v <> Converted w.
Proof.
  intros fn p1 p2 ps does v w P D. apply is_flag_detached in D. unfold convert. rewrite P, D.
  destruct (a_throws (does v (Some false))); discriminate.
Qed.
Print Assumptions C64_never_converts.

(** That happens to a function object that can be called with the content alone, because its second parameter has a
    default: it is registered, and every conversion is refused although the function never fails. *)
Theorem C64_kind_refuted : exists e fn from to,
  o_required fn = 1 /\ call e fn true [source (q_ty (full_decay from))] = Some (o_result fn) /\
  register_functor e fn false from to = Registered Reporting /\
  forall does v w, convert Reporting fn does v <> Converted w.
Proof.
  exists world1, {| o_params := [value t_int; value t_int]; o_required := 1; o_result := value t_text; o_const := true |},
    (value t_int), (value t_text).
  split; [reflexivity|]. split; [reflexivity|]. split; [reflexivity|]. intros does v w.
  eapply C64_never_converts; [reflexivity|]. left. discriminate.
Qed.
Print Assumptions C64_kind_refuted.

(** ** Converting constructors *)

(** The type of a constructor's argument leads to a converter exactly if it is another type and converts implicitly. *)
Theorem C64_constructor : forall e T arg,
  let F := q_ty (full_decay arg) in let C := TBase false false T in
  (define_constructor e T arg <> None <->
   ~ similar F C /\ becomes e (mkQ (match q_ref arg with RL => RL | _ => RR end) (q_ty arg)) C) /\
  (forall o, define_constructor e T arg = Some o -> b_kind T = KClass ->
   (o = Registered Plain <->
      has_objects F /\ (exists a, unmodifiable a F /\ initialises e a arg) /\
      becomes e (mkQ (match q_ref arg with RNone => RR | _ => RL end) (q_ty arg)) C) /\
   (o = Registered Plain \/ o = Ill_formed)).
Proof.
  intros e T arg F C. unfold define_constructor. split.
  - assert (E : is_converting e T arg = true <->
        ~ similar F C /\ becomes e (mkQ (match q_ref arg with RL => RL | _ => RR end) (q_ty arg)) C).
    { unfold is_converting. rewrite andb_true_iff, implicit_becomes.
      destruct (qty_eq_dec (mkQ RNone (TBase false false T)) (full_decay arg)) as [E|N]; cbn [negb].
      - split; [intros [X _]; discriminate X|]. intros [X _]. exfalso. apply X. unfold F, C. rewrite <- E. apply similar_refl.
      - split; [|tauto]. intros [_ X]. split; [|exact X]. intro S. apply N. unfold F, C in S.
        apply similar_remove_all_cv in S. unfold full_decay in *. cbn [q_ty] in S. f_equal.
        cbn [remove_all_cv] in S. rewrite <- S. generalize (decay (q_ty arg)).
        intro u. induction u; cbn; congruence. }
    destruct (is_converting e T arg).
    + split; [intros _; now apply E|discriminate].
    + split; [congruence|]. intro X. apply E in X. discriminate X.
  - intros o D K. destruct (is_converting e T arg); [|discriminate]. injection D as <-. unfold register_default, register_function.
    pose proof (C64_plain e {| o_params := [arg]; o_required := 1; o_result := mkQ RNone C; o_const := true |} false arg (mkQ RNone C) arg) as P.
    cbn zeta in P. destruct P as [P1 P2]; [split; [reflexivity|apply le_n]|]. fold F in P1. fold C.
    assert (FC : q_ty (full_decay (mkQ RNone C)) = C) by (cbn; rewrite K; reflexivity). rewrite FC in P1.
    unfold returns. cbn [q_ty].
    destruct (implicit e (mkQ match q_ref arg with RNone => RR | _ => RL end (q_ty arg)) C) eqn:I.
    + apply implicit_becomes in I. split; [|exact P2]. rewrite P1. split.
      * intros [X [_ [_ [Y _]]]]. auto.
      * intros [X [Y _]]. split; [exact X|]. split.
        { intros c v b E'. injection E' as _ _ <-. rewrite K. split; discriminate. }
        split; [reflexivity|]. split; [exact Y|]. left. apply be_same; [apply similar_refl| |cbn; congruence].
        intros j J. repeat split; auto. intuition congruence.
    + split; [|now right]. split; [discriminate|]. intros [_ [_ X]]. apply implicit_becomes in X. congruence.
Qed.
Print Assumptions C64_constructor.

(** A converting constructor that takes an rvalue reference, or a reference through which it may change the argument,
    cannot be defined at all: the converter that comes with it does not compile. *)
Theorem C64_constructor_rejected : forall e T arg,
  b_kind T = KClass -> is_array (q_ty arg) = false -> has_objects (q_ty arg) ->
  q_ref arg = RR \/ (q_ref arg = RL /\ const_at (q_ty arg) 0 = false) ->
  define_constructor e T arg = None \/ define_constructor e T arg = Some Ill_formed.
Proof.
  intros e T arg K A O R. destruct (define_constructor e T arg) as [o|] eqn:D; [|now left]. right.
  destruct (C64_constructor e T arg) as [_ H]. destruct (H o D K) as [H1 [E|E]]; [|now subst].
  apply H1 in E as [_ [[a [[U1 [U2 [U3 U4]]] I]] _]]. exfalso.
  assert (S : similar (q_ty a) (q_ty arg)) by (eapply similar_trans; [exact U2|apply full_decay_similar; assumption]).
  destruct I as [[_ B] _|N _ _]; [|contradiction]. destruct R as [R|[R C]]; rewrite R in B; destruct B as [B Q].
  - apply B. exact U1.
  - destruct (Q 0 (le_n 0)) as [Q1 _]. rewrite (Q1 U3) in C. discriminate C.
Qed.
Print Assumptions C64_constructor_rejected.

(** Defining the constructor of a class from a copyable value or from a reference to const registers a converter, if the
    argument has no qualifiers below the top. *)
Theorem C64_constructor_partial : forall e T arg,
  b_kind T = KClass -> is_array (q_ty arg) = false -> has_objects (q_ty arg) -> plain_below (q_ty arg) ->
  volatile_at (q_ty arg) 0 = false ->
  (q_ref arg = RL /\ const_at (q_ty arg) 0 = true) \/
  (q_ref arg = RNone /\ forall c v b, q_ty arg = TBase c v b -> copies e b = true) ->
  define_constructor e T arg = None \/ define_constructor e T arg = Some (Registered Plain).
Proof.
  intros e T arg K A O B V R. destruct (define_constructor e T arg) as [o|] eqn:D; [|now left]. right. f_equal.
  destruct (C64_constructor e T arg) as [[H0 _] H]. destruct (H o D K) as [[_ H1] _]. apply H1. clear H H1.
  destruct H0 as [_ H0]; [congruence|].
  pose proof (full_decay_similar arg A O) as S.
  split; [exact (similar_has _ _ S O)|].
  split; [|destruct R as [[R _]|[R _]]; rewrite R in *; exact H0].
  pose proof (source_unmodifiable _ (full_decay_not_array arg)) as U. exists (source (q_ty (full_decay arg))).
  split; [exact U|]. destruct U as [_ [_ [U3 [U4 U5]]]].
  assert (S' : similar (q_ty (source (q_ty (full_decay arg)))) (q_ty arg))
    by (eapply similar_trans; [apply constant_similar|exact S]).
  assert (Q : qual_ok 1 (q_ty (source (q_ty (full_decay arg)))) (q_ty arg)).
  { intros j J. destruct (U5 j) as [X Y]; [lia|]. destruct (B j) as [Z1 Z2]; [lia|]. destruct (full_decay_levels arg j) as [W1 W2].
    rewrite X, Y, Z1, Z2, W1, W2. repeat split; auto. intuition congruence. }
  apply in_direct.
  - split; [exact S'|]. destruct R as [[R C]|[R _]]; rewrite R; [|exact Q]. split; [now left|].
    intros [|j] J.
    + rewrite U3, U4, (proj2 (full_decay_levels arg 0)), C. repeat split; auto; [discriminate|]. intros _ i _ I. lia.
    + destruct (Q (Datatypes.S j)) as [Q1 [Q2 Q3]]; [lia|]. split; [exact Q1|]. split; [exact Q2|].
      intros N i _ I. destruct i as [|i]; [exact C|]. apply (Q3 N); lia.
  - intro R'. destruct R as [[R _]|[R C]]; [congruence|].
    destruct (q_ty arg) as [c v b|c v t|t n] eqn:Y; [|constructor|discriminate A].
    apply tr_copy; [exact (C c v b eq_refl)|now left].
Qed.
Print Assumptions C64_constructor_partial.

Example C64_constructor_example :
  define_constructor world1 b_text (value (TPtr false false (TBase true false b_char))) = Some (Registered Plain) /\
  define_constructor world1 b_text (mkQ RL (constant t_handle)) = Some (Registered Plain) /\
  define_constructor world1 b_text (mkQ RR t_handle) = Some Ill_formed /\
  define_constructor world1 b_text (value t_int) = None.
Proof. do 3 (split; [reflexivity|]). reflexivity. Qed.

(** A constructor that takes a value that moves but does not copy cannot be defined either. *)
Theorem C64_constructor_refuted : exists e T arg,
  b_kind T = KClass /\ q_ref arg = RNone /\ plain_below (q_ty arg) /\ has_objects (q_ty arg) /\
  becomes e (mkQ RR (q_ty arg)) (TBase false false T) /\ define_constructor e T arg = Some Ill_formed.
Proof.
  exists world1, b_text, (value t_handle). do 2 (split; [reflexivity|]).
  split; [intros [|j] J; [lia|split; reflexivity]|]. split; [intros c v b E; injection E as _ _ <-; split; discriminate|].
  split; [apply implicit_becomes; reflexivity|reflexivity].
Qed.
Print Assumptions C64_constructor_refuted.
