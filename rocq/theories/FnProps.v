(** C57: functions registered as methods and accessors: what the library makes of their types, and finding them by types. *)
From Coq Require Import List Bool Arith NArith String Ascii Lia.
From Verif Require Import TypesModel ListsModel StringsModel StringsSpec StringsProofs FnModel FnSpec FnProofs.
Import ListNotations.

(** ** Names of types for the examples: a prefix code *)

Definition bit_text (b : bool) : text := txt (if b then "y" else "n").
Fixpoint pos_text (p : positive) : text :=
  match p with xH => txt "h" | xO p' => (txt "o" ++ pos_text p')%list | xI p' => (txt "i" ++ pos_text p')%list end.
Definition N_text (n : N) : text := match n with N0 => txt "z" | Npos p => (txt "p" ++ pos_text p)%list end.
Definition kind_text (k : base_kind) : text :=
  txt match k with KVoid => "v" | KIntegral => "i" | KFloat => "f" | KEnum => "e" | KFunction => "u" | KUnion => "n" | KClass => "c"
      | KMemberPointer => "m" | KOther => "o" end.
Definition base_text (b : base) : text :=
  (kind_text (b_kind b) ++ N_text (N.of_nat (b_id b)) ++ N_text (b_size b) ++ N_text (b_traits b))%list.
Fixpoint ty_text (t : ty) : text :=
  match t with
  | TBase c v b => (txt "b" ++ bit_text c ++ bit_text v ++ base_text b)%list
  | TPtr c v t' => (txt "*" ++ bit_text c ++ bit_text v ++ ty_text t')%list
  | TArr t' n => (txt "a" ++ N_text n ++ ty_text t')%list
  end.
Definition code (q : qty) : text :=
  (txt match q_ref q with RNone => "." | RL => "&" | RR => "%" end ++ ty_text (q_ty q))%list.

Lemma bit_text_inj a b r s : (bit_text a ++ r = bit_text b ++ s)%list -> a = b /\ r = s.
Proof. destruct a, b; cbn; intro E; try discriminate; injection E as ->; auto. Qed.
Lemma pos_text_inj p : forall q r s, (pos_text p ++ r = pos_text q ++ s)%list -> p = q /\ r = s.
Proof.
  induction p as [p IH|p IH|]; intros [q|q|] r s E; cbn in E; try discriminate; injection E as E;
    try (apply IH in E as [-> ->]); auto.
Qed.
Lemma N_text_inj a b r s : (N_text a ++ r = N_text b ++ s)%list -> a = b /\ r = s.
Proof.
  destruct a, b; cbn; intro E; try discriminate; injection E as E; [auto|]. apply pos_text_inj in E as [-> ->]. auto.
Qed.
Lemma kind_text_inj a b r s : (kind_text a ++ r = kind_text b ++ s)%list -> a = b /\ r = s.
Proof. destruct a, b; cbn; intro E; try discriminate; injection E as ->; auto. Qed.
Lemma base_text_inj a b r s : (base_text a ++ r = base_text b ++ s)%list -> a = b /\ r = s.
Proof.
  destruct a as [k i z t], b as [k' i' z' t']. unfold base_text. cbn [b_kind b_id b_size b_traits]. rewrite <- !app_assoc. intro E.
  apply kind_text_inj in E as [-> E]. apply N_text_inj in E as [H1 E]. apply N_text_inj in E as [-> E]. apply N_text_inj in E as [-> ->].
  apply Nnat.Nat2N.inj in H1. subst. auto.
Qed.
Lemma ty_text_inj t : forall u r s, (ty_text t ++ r = ty_text u ++ s)%list -> t = u /\ r = s.
Proof.
  induction t as [c v b|c v t IH|t IH n]; intros [c' v' b'|c' v' t'|t' n'] r s E; cbn in E; try discriminate; injection E as E;
    rewrite <- ?app_assoc in E.
  - apply bit_text_inj in E as [-> E]. apply bit_text_inj in E as [-> E]. apply base_text_inj in E as [-> ->]. auto.
  - apply bit_text_inj in E as [-> E]. apply bit_text_inj in E as [-> E]. apply IH in E as [-> ->]. auto.
  - apply N_text_inj in E as [-> E]. apply IH in E as [-> ->]. auto.
Qed.

Definition plain (c : ascii) : bool := negb (is_one_of "([<{)]>}," c).
Lemma plain_atom s : forallb plain s = true -> type_text s = true.
Proof.
  unfold type_text. induction s as [|c s IH]; [reflexivity|]. cbn [forallb]. intro H. apply andb_true_iff in H as [H1 H2].
  unfold plain, is_one_of in H1. apply negb_true_iff in H1. cbn in H1.
  repeat match type of H1 with (_ || _)%bool = false => apply orb_false_iff in H1 as [? H1] end.
  cbn. repeat match goal with K : (_ =? _)%char = false |- _ => rewrite K; clear K end. cbn. apply IH; assumption.
Qed.
Lemma plain_app a b : forallb plain (a ++ b)%list = forallb plain a && forallb plain b.
Proof. apply forallb_app. Qed.
Lemma pos_plain p : forallb plain (pos_text p) = true.
Proof. induction p; cbn; auto. Qed.
Lemma N_plain n : forallb plain (N_text n) = true.
Proof. destruct n; cbn; auto using pos_plain. Qed.
Lemma base_plain b : forallb plain (base_text b) = true.
Proof. destruct b as [[] i z t]; unfold base_text; cbn [b_kind b_id b_size b_traits]; rewrite !plain_app, !N_plain; reflexivity. Qed.
Lemma ty_plain t : forallb plain (ty_text t) = true.
Proof.
  induction t as [c v b|c v t IH|t IH n]; cbn [ty_text]; rewrite !plain_app, ?base_plain, ?IH, ?N_plain; try (destruct c, v; reflexivity).
  reflexivity.
Qed.
Lemma code_good : good_names code.
Proof.
  split.
  - intros [ra a] [rb b] E. unfold code in E. cbn [q_ref q_ty] in E.
    destruct ra, rb; cbn in E; try discriminate; injection E as E;
      rewrite <- (app_nil_r (ty_text a)), <- (app_nil_r (ty_text b)) in E; apply ty_text_inj in E as [-> _]; reflexivity.
  - intros [ra a]. split.
    + apply plain_atom. unfold code. cbn [q_ref q_ty]. rewrite plain_app, ty_plain. destruct ra; reflexivity.
    + unfold code. destruct ra; discriminate.
Qed.

Definition cls_box : base := {| b_kind := KClass; b_id := 1; b_size := 16; b_traits := 0 |}.
Definition cls_lid : base := {| b_kind := KClass; b_id := 2; b_size := 24; b_traits := 0 |}.
Definition int_base : base := {| b_kind := KIntegral; b_id := 3; b_size := 4; b_traits := 0 |}.
Definition q_int : qty := mkQ RNone (TBase false false int_base).
Definition q_cint_ref : qty := mkQ RL (TBase true false int_base).
Definition q_void : qty := mkQ RNone (TBase false false {| b_kind := KVoid; b_id := 4; b_size := 0; b_traits := 0 |}).
Definition no_quals := Quals false false RNone false.
Definition const_ := Quals true false RNone false.
(** `int size() const noexcept`, `void set(int)`, `int &at(int) &`, `int const &at(int) const &`, `static int count()`. *)
Definition f_size := Member cls_box q_int [] (Quals true false RNone true) false.
Definition f_set := Member cls_box q_void [q_int] no_quals false.
Definition f_at := Member cls_box (mkQ RL (TBase false false int_base)) [q_int] (Quals false false RL false) false.
Definition f_cat := Member cls_box q_cint_ref [q_int] (Quals true false RL false) false.
Definition f_count := Free q_int [] false false.
Definition nm (s : string) : text := txt s.
Lemma good_nm t : forallb (fun c => negb (Ascii.eqb c "(")) t && negb (Nat.eqb (List.length t) 0) = true -> good_name t.
Proof.
  intro H. apply andb_true_iff in H as [H1 H2]. split.
  - intro I. rewrite forallb_forall in H1. specialize (H1 _ I). rewrite Ascii.eqb_refl in H1. discriminate.
  - destruct t; [discriminate|discriminate].
Qed.

(** ** Traits *)

(** Where function_traits answers it answers rightly: class, qualifiers, noexcept, result, parameters, and the parameters with
    the object as C++ counts it among them. *)
Theorem C57_traits_faithful : forall f t, function_traits f = Some t ->
  exists m, calls f m (t_result t) (t_args t) /\ t_class t = option_map fst m /\
    t_uniform t = object_and_parameters m (t_args t) /\
    t_noexcept t = is_noexcept f /\
    match m with
    | None => t_const t = false /\ t_volatile t = false /\ t_lref t = false /\ t_rref t = false
    | Some (_, q) =>
        t_const t = m_const q /\ t_volatile t = m_volatile q /\
        (t_lref t = true <-> m_ref q = RL) /\ (t_rref t = true <-> m_ref q = RR)
    end.
Proof. exact traits_calls. Qed.
Print Assumptions C57_traits_faithful.

Example C57_traits_example :
  (exists t, function_traits f_cat = Some t /\ t_const t = true /\ t_lref t = true /\ t_class t = Some cls_box) /\
  option_map t_uniform (function_traits (Member cls_box q_int [q_int] (Quals true true RR false) false)) =
    Some [mkQ RR (TBase true true cls_box); q_int] /\
  option_map t_uniform (function_traits f_size) = Some [mkQ RL (TBase true false cls_box)] /\
  option_map t_noexcept (function_traits f_size) = Some true.
Proof. repeat split. eexists. repeat split. Qed.

(** What a method reports about itself is what was registered; the object is not among the reported parameters. *)
Theorem C57_reports : forall f r, report f = Some r ->
  exists m, calls f m (r_result r) (r_params r) /\ (r_static r = true <-> m = None).
Proof.
  intros f r H. unfold report in H. destruct (function_traits f) as [t|] eqn:E; [|discriminate]. injection H as <-.
  destruct (traits_calls f t E) as (m & C & K & _). exists m. split; [exact C|]. cbn. rewrite K. destruct m; cbn; split; congruence.
Qed.
Print Assumptions C57_reports.

Example C57_reports_example : report f_cat = Some (Reported false q_cint_ref [q_int]) /\ report f_count = Some (Reported true q_int []).
Proof. split; reflexivity. Qed.

(** ** Which functions can be registered *)

Theorem C57_registrable_exactly : forall f, method_compiles f = true <-> accepted f.
Proof. exact compiles_exactly. Qed.
Print Assumptions C57_registrable_exactly.

Example C57_registrable_example : accepted f_size /\ accepted f_at /\ accepted f_cat /\ accepted f_count /\ accepted f_set.
Proof. repeat split; cbn; try lia; try discriminate. Qed.

(** The full statement, every function of at most ten parameters can be registered, fails for: a member function for rvalues; one that
    is noexcept and `&`; one that is noexcept and volatile; one with `...`. Nor can an object with operator() be registered, nor std::function. *)
Theorem C57_registrable_refuted :
  (exists f, is_function f /\ List.length (parameters f) <= 10 /\ method_compiles f = false) /\
  (forall cls r a c v nx, method_compiles (Member cls r a (Quals c v RR nx) false) = false) /\
  (forall cls r a c v, method_compiles (Member cls r a (Quals c v RL true) false) = false) /\
  (forall cls r a c rf, method_compiles (Member cls r a (Quals c true rf true) false) = false) /\
  (forall r a nx, method_compiles (Free r a nx true) = false) /\
  (forall cls r a q, method_compiles (Member cls r a q true) = false) /\
  (forall cls op, method_compiles (Functor cls op) = false) /\
  (forall r a, method_compiles (Wrapped r a) = false).
Proof.
  assert (N : forall f, ~ accepted f -> method_compiles f = false).
  { intros f H. destruct (method_compiles f) eqn:E; [|reflexivity]. exfalso. apply H, compiles_exactly, E. }
  split; [exists (Member cls_box q_void [] (Quals false false RL true) false); split; [exact I|]; split; [cbn; lia|reflexivity]|].
  repeat split; intros; apply N; cbn; try tauto; intros K; decompose [and] K; try discriminate; try congruence;
    try (match goal with X : true = true -> _ |- _ => destruct (X eq_refl); discriminate end).
Qed.
Print Assumptions C57_registrable_refuted.

(** ** Finding methods by types *)

(** A registered function is found by its name and the types of the object and the parameters; what is found is listed under just these. *)
Theorem C57_found_by_types : forall show m ds n f mo r a, good_names show -> good_name n ->
  In (n, f) ds -> accepted f -> calls f mo r a ->
  exists x, lookup_types show (register_all show m ds) n (object_and_parameters mo a) = FSome x /\
    fst x = signature n (map show (object_and_parameters mo a)).
Proof.
  intros show m ds n f mo r a S G I A C.
  assert (B : bound f = object_and_parameters mo a) by (inversion C; subst; try reflexivity; destruct A).
  unfold lookup_types. rewrite <- B. apply all_found; assumption.
Qed.
Print Assumptions C57_found_by_types.

(** And a method found by name and types has that name and those types, in a class that had no methods and without bases. *)
Theorem C57_found_only_by_types : forall show ds n l x, good_names show -> good_name n ->
  (forall n' f, In (n', f) ds -> good_name n') ->
  lookup_types show (register_all show (Methods [] []) ds) n l = FSome x ->
  In (n, snd x) ds /\ accepted (snd x) /\ exists mo r a, calls (snd x) mo r a /\ object_and_parameters mo a = l.
Proof.
  intros show ds n l x Sh G Gs L. unfold lookup_types in L.
  destruct (lookup_sig_spec (register_all show (Methods [] []) ds) n (map show l)) as [(l1 & y & l2 & E & L' & X & _)|[L' _]];
    rewrite L' in L; [|discriminate]. injection L as ->.
  destruct (register_all_grows show ds (Methods [] [])) as (k & _ & Ei). rewrite Ei in E. cbn [inherited] in E. rewrite app_nil_r in E.
  pose proof (register_all_own show ds (Methods [] [])) as F. rewrite Forall_forall in F.
  assert (Ix : In x (own (register_all show (Methods [] []) ds))) by (rewrite E; apply in_or_app; right; left; reflexivity).
  destruct (F x Ix) as [[]|(n' & I & A & N)]. rewrite X in N.
  apply (proj1 (same_listed show Sh n n' l (bound (snd x)) G (Gs _ _ I))) in N as [-> ->].
  split; [exact I|]. split; [exact A|]. destruct (snd x) as [r a nx va|cls r a q va|cls op|r a|cls t0|t0]; try (destruct A; fail).
  - destruct A as [-> _]. exists None, r, a. split; [constructor|reflexivity].
  - destruct A as [-> _]. exists (Some (cls, q)), r, a. split; [constructor|reflexivity].
Qed.
Print Assumptions C57_found_only_by_types.

Definition box_methods : list (text * callable) :=
  [(nm "size", f_size); (nm "at", f_at); (nm "at", f_cat); (nm "set", f_set); (nm "count", f_count)].
Definition object (c : bool) : qty := mkQ RL (TBase c false cls_box).

Example C57_found_example :
  let m := register_all code (Methods [] []) box_methods in
  List.length (own m) = 5 /\
  (exists s, lookup_types code m (nm "at") [object true; q_int] = FSome (s, f_cat)) /\
  (exists s, lookup_types code m (nm "at") [object false; q_int] = FSome (s, f_at)) /\
  (exists s, lookup_types code m (nm "count") [] = FSome (s, f_count)) /\
  lookup_types code m (nm "at") [q_int] = FNone /\ lookup_types code m (nm "size") [] = FNone /\
  calls f_cat (Some (cls_box, Quals true false RL false)) q_cint_ref [q_int] /\ good_name (nm "at").
Proof.
  assert (G : good_name (nm "at")) by (apply good_nm; reflexivity).
  repeat split; try (vm_compute; reflexivity); try (eexists; vm_compute; reflexivity); try constructor; apply G.
Qed.

(** Functions that C++ lets stand side by side in a class are all listed, in order, and each is found by its own types, provided
    that no static function takes the object and the parameters of a member function. *)
Definition overloads (ds : list (text * callable)) : Prop :=
  ForallOrdPairs (fun p q => fst p <> fst q \/
    (may_overload (snd p) (snd q) /\ ~ takes_the_object_of (snd p) (snd q) /\ ~ takes_the_object_of (snd q) (snd p))) ds.

Lemma overloads_apart ds : (forall n f, In (n, f) ds -> accepted f /\ good_name n) -> overloads ds -> ForallOrdPairs apart ds.
Proof.
  intros A O. induction O as [|p ds H O IH]; constructor.
  - rewrite Forall_forall in *. intros q I. destruct (H q I) as [N|(M & T1 & T2)]; [left; exact N|right].
    destruct p as [n f], q as [n' g]. apply overloads_bound; auto; [apply (A n f); left; reflexivity|apply (A n' g); right; exact I].
  - apply IH. intros n f I. apply A. right. exact I.
Qed.

Theorem C57_overloads_apart : forall show ds, good_names show ->
  (forall n f, In (n, f) ds -> accepted f /\ good_name n) -> overloads ds ->
  let m := register_all show (Methods [] []) ds in
  map snd (own m) = map snd ds /\
  forall n f mo r a, In (n, f) ds -> calls f mo r a ->
    exists s, lookup_types show m n (object_and_parameters mo a) = FSome (s, f).
Proof.
  intros show ds Sh A O m. pose proof (overloads_apart ds A O) as P.
  pose proof (apart_listed show Sh ds (Methods [] []) A P ltac:(intros ? ? ? ? [])) as L. fold m in L. cbn [own app] in L.
  split; [rewrite L, map_map; reflexivity|]. intros n f mo r a I C. destruct (A n f I) as [Af Gn].
  assert (B : bound f = object_and_parameters mo a) by (inversion C; subst; try reflexivity; destruct Af).
  destruct (all_found show ds (Methods [] []) n f I Af Gn) as ([s g] & K & X). fold m in K. unfold lookup_types. rewrite <- B, K.
  cbn in X. subst s. eexists. do 2 f_equal.
  destruct (C57_found_only_by_types show ds n (bound f) _ Sh Gn (fun n' f' I' => proj2 (A n' f' I')) K) as (Ig & Ag & mo' & r' & a' & C' & B').
  cbn in *. assert (Bg : bound g = bound f) by (rewrite <- B'; inversion C'; subst; try reflexivity; destruct Ag).
  clear - P I Ig Bg. induction P as [|p ds H P IH]; [destruct I|]. rewrite Forall_forall in H.
  destruct I as [->|I], Ig as [E|Ig].
  - congruence.
  - destruct (H _ Ig) as [K|K]; cbn in K; congruence.
  - subst p. destruct (H _ I) as [K|K]; cbn in K; congruence.
  - apply IH; assumption.
Qed.
Print Assumptions C57_overloads_apart.

Example C57_overloads_example :
  overloads box_methods /\ (forall n f, In (n, f) box_methods -> accepted f /\ good_name n).
Proof.
  split.
  - unfold overloads, box_methods. apply FOP_cons; [|apply FOP_cons; [|repeat (apply FOP_cons || apply Forall_cons || apply Forall_nil || apply FOP_nil || (left; discriminate))]].
    + repeat (apply Forall_cons || apply Forall_nil || (left; discriminate)).
    + apply Forall_cons; [right|repeat (apply Forall_cons || apply Forall_nil || (left; discriminate))].
      split; [cbn; split; [reflexivity|right; split; [split; discriminate|left; discriminate]]|split; intro K; destruct K].
  - intros n f K. pose proof C57_registrable_example as (A1 & A2 & A3 & A4 & A5). unfold box_methods in K.
    destruct K as [K|[K|[K|[K|[K|[]]]]]]; injection K as <- <-; (split; [assumption|apply good_nm; reflexivity]).
Qed.

(** Two functions that may stand side by side share a listing exactly if one is static and takes the object of the other. *)
Theorem C57_collision_exactly : forall show n f g, good_names show -> good_name n ->
  accepted f -> accepted g -> may_overload f g ->
  (listed_name show n f = listed_name show n g <-> takes_the_object_of f g \/ takes_the_object_of g f).
Proof.
  intros show n f g Sh G A B O. rewrite (listed_bound show n f A), (listed_bound show n g B), <- (bound_collision f g A B O).
  split.
  - intros [= E]. apply (proj1 (same_listed show Sh n n (bound f) (bound g) G G)) in E. apply E.
  - intros ->. reflexivity.
Qed.
Print Assumptions C57_collision_exactly.

(** Then the second is dropped without a word: `struct Box { void set(int); static void set(Box &, int); };`. *)
Definition f_static_set := Free q_void [object false; q_int] false false.
Theorem C57_static_collision_refuted :
  exists f g, may_overload f g /\ accepted f /\ accepted g /\
    forall show n m, good_names show -> good_name n -> own m = [] -> inherited m = [] ->
      map snd (own (register_all show m [(n, f); (n, g)])) = [f].
Proof.
  exists f_set, f_static_set. split; [cbn; discriminate|]. split; [cbn; repeat split; try lia; discriminate|]. split; [cbn; split; [reflexivity|lia]|].
  intros show n [o i] Sh G E1 E2. cbn in E1, E2. subst.
  unfold register_all. cbn [fold_left]. unfold register at 2.
  replace (method_compiles f_set) with true by reflexivity.
  rewrite (listed_bound show n f_set) by (cbn; repeat split; try lia; discriminate).
  destruct (lookup_sig_spec (Methods [] []) n (map show (bound f_set))) as [(l1 & x & l2 & E & _)|[L _]];
    [cbn in E; destruct l1; discriminate|]. rewrite L. cbn [own inherited app].
  unfold register. replace (method_compiles f_static_set) with true by reflexivity.
  rewrite (listed_bound show n f_static_set) by (cbn; split; [reflexivity|lia]).
  change (bound f_static_set) with (bound f_set).
  destruct (lookup_sig_spec (Methods [(signature n (map show (bound f_set)), f_set)] []) n (map show (bound f_set)))
    as [(l1 & x & l2 & E & L2 & _)|[_ F]]; [rewrite L2; reflexivity|]. exfalso. inversion F; subst. auto.
Qed.
Print Assumptions C57_static_collision_refuted.

(** The full statement, a member function is found by its name and the types of its parameters, fails for all of them:
    `getMethod<int>("set")` does not find `void set(int)`. *)
Theorem C57_found_by_parameters_refuted : forall show n cls r a q, good_names show -> good_name n ->
  accepted (Member cls r a q false) ->
  lookup_types show (register_all show (Methods [] []) [(n, Member cls r a q false)]) n a = FNone.
Proof.
  intros show n cls r a q Sh G A. set (f := Member cls r a q false) in *.
  destruct (lookup_types show (register_all show (Methods [] []) [(n, f)]) n a) as [|x|] eqn:E; [reflexivity| |].
  - exfalso. destruct (C57_found_only_by_types show [(n, f)] n a x Sh G) as (I & _ & mo & r' & a' & C & B).
    + intros n' f' [I|[]]. injection I as <- <-. exact G.
    + exact E.
    + destruct I as [I|[]]. injection I as I. rewrite <- I in C.
      apply (f_equal (@List.length qty)) in B. inversion C; subst. cbn in B. lia.
  - exfalso. unfold lookup_types in E.
    destruct (lookup_sig_spec (register_all show (Methods [] []) [(n, f)]) n (map show a)) as [(l1 & x & l2 & _ & L & _)|[L _]];
      rewrite L in E; discriminate.
Qed.
Print Assumptions C57_found_by_parameters_refuted.

(** ** Member functions and base classes *)

(** Methods inherited from bases, all member functions of other classes, do not stand in the way of the member functions of
    a class: all of them are listed (unlike static functions and functions inherited by name, C18), and are found before the inherited ones. *)
Theorem C57_overriding_members_kept : forall show cls ih ds, good_names show ->
  (forall n f, In (n, f) ds -> accepted f /\ good_name n /\ exists r a q, f = Member cls r a q false) -> overloads ds ->
  (forall x, In x ih -> exists n c r a q, good_name n /\ c <> cls /\ x = (signature n (map show (implicit_object c q :: a)), Member c r a q false)) ->
  let m := register_all show (Methods [] ih) ds in
  map snd (own m) = map snd ds /\
  forall n f, In (n, f) ds -> exists x g, lookup m n = FSome x /\ In (n, g) ds /\ snd x = g.
Proof.
  intros show cls ih ds Sh A O H m.
  assert (A' : forall n f, In (n, f) ds -> accepted f /\ good_name n) by (intros n f I; destruct (A n f I) as (X & Y & _); auto).
  assert (N : forall n f x, In (n, f) ds -> In x (own (Methods [] ih) ++ inherited (Methods [] ih)) -> fst x <> signature n (map show (bound f))).
  { intros n f x I Ix E. cbn in Ix. destruct (H x Ix) as (n' & c & r & a & q & G & Nc & ->). destruct (A n f I) as (_ & Gn & r' & a' & q' & ->).
    cbn [fst] in E. apply (proj1 (same_listed show Sh _ _ _ _ G Gn)) in E as [_ E]. cbn [bound] in E. injection E as _ _ _ E _. congruence. }
  pose proof (apart_listed show Sh ds (Methods [] ih) A' (overloads_apart ds A' O) N) as L. fold m in L. cbn [own app] in L.
  split; [rewrite L, map_map; reflexivity|]. intros n f I. destruct (A' n f I) as [Af Gn]. 
  assert (Lk : forall x : entry, findMethod (A := entry) fst (own m) n = FSome x -> lookup m n = FSome x).
  { intros x F. unfold lookup, getMethod. destruct n; [destruct Gn; congruence|]. unfold entry in *. rewrite F. reflexivity. }
  destruct (findMethod_spec (fst : entry -> text) (own m) n) as [(l1 & x & l2 & E & F & X & _)|[_ F]].
  - apply Lk in F. exists x, (snd x). split; [exact F|]. split; [|reflexivity].
    assert (Ix : In x (own m)) by (rewrite E; apply in_or_app; right; left; reflexivity).
    rewrite L in Ix. apply in_map_iff in Ix as ([n' g] & <- & Ig). cbn [fst snd] in *.
    assert (n' = n) as ->; [|exact Ig]. destruct (A' n' g Ig) as [_ [Gn' _]]. destruct Gn as [Gn _].
    destruct X as [X|[_ (rest & X)]].
    + exfalso. apply Gn. rewrite X. apply signature_has_paren.
    + rewrite signature_text in X. cbn [lit list_ascii_of_string app] in X. apply split_unique in X as [X _]; auto.
  - exfalso. rewrite Forall_forall in F. apply (F (signature n (map show (bound f)), f)).
    + rewrite L. apply in_map_iff. exists (n, f). auto.
    + right. destruct Gn as [Gn _]. split; [exact Gn|]. cbn [fst]. rewrite signature_text. cbn [lit list_ascii_of_string app]. eauto.
Qed.
Print Assumptions C57_overriding_members_kept.

Definition f_lid_size := Member cls_lid q_int [] const_ false.
Example C57_overriding_example :
  let base := own (register_all code (Methods [] []) [(nm "size", f_size)]) in
  let m := register_all code (Methods [] base) [(nm "size", f_lid_size)] in
  map snd (own m) = [f_lid_size] /\ (exists s, lookup m (nm "size") = FSome (s, f_lid_size)) /\
  (exists s, lookup_types code m (nm "size") [object true] = FSome (s, f_size)) /\
  (* a function inherited and named through the derived class, &Lid::size, has the type of Box's: it is not listed again *)
  own (register_all code (Methods [] base) [(nm "size", f_size)]) = [].
Proof. repeat split; try (eexists; vm_compute; reflexivity); vm_compute; reflexivity. Qed.

(** ** Accessors of properties *)

(** Exactly the pairs of member functions, a getter of something without parameters and a setter of one parameter of the same decayed type. *)
Theorem C57_accessors_exactly : forall g s, accessors_compile g s = true <->
  accepted g /\ accepted s /\
  exists c1 q1 r1 c2 q2 r2 p, g = Member c1 r1 [] q1 false /\ s = Member c2 r2 [p] q2 false /\
    is_void r1 = false /\ is_void r2 = true /\ decay (q_ty r1) = decay (q_ty p).
Proof.
  intros g s. unfold accessors_compile. cbn [is_function_v andb orb]. split.
  - intro H. apply andb_true_iff in H as [H Cs]. apply andb_true_iff in H as [H Cg]. apply andb_true_iff in H as [Hm H].
    apply compiles_exactly in Cs, Cg. split; [exact Cg|]. split; [exact Cs|].
    destruct (function_traits g) as [tg|] eqn:Eg; [|discriminate]. destruct (function_traits s) as [ts|] eqn:Es; [|discriminate].
    destruct g as [| c1 r1 a1 q1 v1| | | |]; try discriminate. destruct s as [| c2 r2 a2 q2 v2| | | |]; try discriminate.
    destruct Cg as [-> _], Cs as [-> _].
    destruct (traits_calls _ _ Eg) as (m1 & K1 & _). destruct (traits_calls _ _ Es) as (m2 & K2 & _). inversion K1; inversion K2; subst.
    apply andb_true_iff in H as [H H4]. apply andb_true_iff in H as [H H3]. apply andb_true_iff in H as [H1 H2].
    destruct (t_args tg); [|discriminate]. destruct (t_args ts) as [|p [|? ?]]; try discriminate.
    destruct (ty_eq_dec _ _) as [D|]; [|discriminate].
    exists c1, q1, (t_result tg), c2, q2, (t_result ts), p. repeat split; auto. apply negb_true_iff. exact H1.
  - intros (Ag & As & c1 & q1 & r1 & c2 & q2 & r2 & p & -> & -> & V1 & V2 & D).
    apply compiles_exactly in Ag, As. rewrite Ag, As, !andb_true_r. cbn [is_member_function andb].
    unfold method_compiles in Ag, As. destruct (function_traits (Member c1 r1 [] q1 false)) as [tg|] eqn:Eg; [|discriminate].
    destruct (function_traits (Member c2 r2 [p] q2 false)) as [ts|] eqn:Es; [|discriminate].
    destruct (traits_calls _ _ Eg) as (m1 & K1 & _). destruct (traits_calls _ _ Es) as (m2 & K2 & _).
    assert (t_result tg = r1 /\ t_args tg = []) as [-> ->] by (inversion K1; auto).
    assert (t_result ts = r2 /\ t_args ts = [p]) as [-> ->] by (inversion K2; auto).
    rewrite V1, V2. cbn. destruct (ty_eq_dec _ _); [reflexivity|contradiction].
Qed.
Print Assumptions C57_accessors_exactly.

Example C57_accessors_example : accessors_compile f_size f_set = true /\ accessors_compile f_set f_set = false.
Proof. split; reflexivity. Qed.

(** The full statement has static accessors of static properties (and of namespaces): none compiles. Accessors of two unrelated classes do. *)
Theorem C57_static_accessors_refuted :
  (forall g s r a nx v, (g = Free r a nx v \/ s = Free r a nx v) -> accessors_compile g s = false) /\
  exists c1 c2 q1 q2 r1 r2 p, c1 <> c2 /\ accessors_compile (Member c1 r1 [] q1 false) (Member c2 r2 [p] q2 false) = true.
Proof.
  split.
  - intros g s r a nx v H. destruct (accessors_compile g s) eqn:E; [|reflexivity]. exfalso.
    apply C57_accessors_exactly in E as (_ & _ & c1 & q1 & r1 & c2 & q2 & r2 & p & -> & -> & _). destruct H; discriminate.
  - exists cls_box, cls_lid, const_, no_quals, q_int, q_void, q_int. split; [discriminate|reflexivity].
Qed.
Print Assumptions C57_static_accessors_refuted.
