(** Invariants of the registrations when memory runs out. *)
From Coq Require Import List Bool Arith Lia Permutation.
From Verif Require Import OomModel OomSpec.
Import ListNotations.

Lemma cat_refl k : category_eqb k k = true.
Proof. destruct k; reflexivity. Qed.
Lemma cat_eq a b : category_eqb a b = true <-> a = b.
Proof. split; [destruct a, b; try discriminate; reflexivity|intros ->; apply cat_refl]. Qed.

Lemma key_eq c c' k k' n n' : (c' =? c) && category_eqb k' k && (n' =? n) = true <-> c' = c /\ k' = k /\ n' = n.
Proof. rewrite !andb_true_iff, !Nat.eqb_eq, cat_eq. tauto. Qed.

(** Lists grow. *)
Lemma of_list_app es more s c k : entries s = es ++ more ->
  of_list s c k = filter (fun e => (e_in e =? c) && category_eqb (e_category e) k) es ++ filter (fun e => (e_in e =? c) && category_eqb (e_category e) k) more.
Proof. intro E. unfold of_list. rewrite E. apply filter_app. Qed.
Lemma of_list_grow s s' more c k : entries s' = entries s ++ more -> exists m, of_list s' c k = of_list s c k ++ m.
Proof. intro E. eexists. exact (of_list_app _ _ _ _ _ E). Qed.
Lemma of_list_same s s' c k : entries s' = entries s -> of_list s' c k = of_list s c k.
Proof. intro E. unfold of_list. rewrite E. reflexivity. Qed.
Lemma of_list_listed s e c k : of_list (listed s e) c k =
  of_list s c k ++ (if (e_in e =? c) && category_eqb (e_category e) k then [e] else []).
Proof. unfold of_list, listed. cbn [entries]. rewrite filter_app. cbn. destruct ((e_in e =? c) && category_eqb (e_category e) k); reflexivity. Qed.

(** Positions in the map of names are right; walked lists have no name twice; objects are different and alive; classes of
    types are found by name; the same for attributes; the derived classes mirror bases. *)
Record valid (s : state) : Prop := Valid {
  v_index : forall c k n i, position (index s) c k n = Some i -> exists e, nth_error (of_list s c k) i = Some e /\ e_name e = n;
  v_walked : forall c k n, walked k = true -> named s c k n <= 1;
  v_objects : NoDup (map e_object (entries s) ++ map a_object (attrs s));
  v_alive : forall x, In x (map e_object (entries s) ++ map a_object (attrs s)) -> In x (heap s);
  v_next : forall x, In x (heap s) -> x < next s;
  v_heap : NoDup (heap s);
  v_link : forall t x, assoc (links s) t = Some x -> exists c n, get s c Class n = Some x;
  v_class : forall c n x, get s c Class n = Some x -> exists t, assoc (links s) t = Some x;
  v_attr : forall x n i, attr_position (attr_index s) x n = Some i -> exists a, nth_error (attrs_of s x) i = Some a /\ a_name a = n;
  v_derived : forall b d, In (b, d) (derived s) -> In (d, b) (bases s);
  v_once : NoDup (bases s) /\ NoDup (derived s);
  v_types : forall n t, In (n, t) (types s) -> 0 < t <= infos s;
  v_type1 : forall n n' t, In (n, t) (types s) -> In (n', t) (types s) -> n = n'
}.

Lemma valid_empty : valid empty.
Proof.
  constructor; cbn; try discriminate; try contradiction; try (constructor; fail).
  - intros c k n H. cbn. lia.
  - split; constructor.
Qed.

(** What is not found is not in the map of names, so [add] is never refused. *)
Lemma lookup_position s c k n : valid s -> lookup s c k n = None -> position (index s) c k n = None.
Proof.
  intros V H. destruct (position (index s) c k n) as [i|] eqn:E; [|reflexivity]. destruct (v_index _ V _ _ _ _ E) as (e & He & Hn).
  assert (G : get s c k n = Some (e_object e)) by (unfold get; rewrite E, He; reflexivity).
  assert (F : find_method s c k n <> None).
  { unfold find_method. destruct (find (fun e => e_name e =? n) (of_list s c k)) as [e'|] eqn:Ef; [discriminate|].
    apply nth_error_In in He. pose proof (find_none _ _ Ef e He) as Q. cbn in Q. apply Nat.eqb_neq in Q. contradiction. }
  destruct k; cbn in H; congruence.
Qed.

(** The result of [create] in the four cases that happen. *)
Inductive created (s : state) (c : nat) (k : category) (n t : nat) : result (option nat) -> Prop :=
  | c_old x : lookup s c k n = Some x -> created s c k n t (Done s (Some x))
  | c_error : k = Class -> assoc (links s) t <> None -> lookup s c k n = None -> created s c k n t (Error s)
  | c_new_fails : lookup s c k n = None -> position (index s) c k n = None -> created s c k n t (Bad s)
  | c_push_fails : lookup s c k n = None -> position (index s) c k n = None -> created s c k n t (Bad (allocated s))
  | c_name_fails : lookup s c k n = None -> position (index s) c k n = None ->
      created s c k n t (Bad (listed (allocated s) (Entry c k n (next s))))
  | c_made : lookup s c k n = None -> position (index s) c k n = None -> (k = Class -> assoc (links s) t = None) ->
      created s c k n t (Done (let s1 := indexed (listed (allocated s) (Entry c k n (next s))) c k n (length (of_list s c k)) in
                               if category_eqb k Class then linking s1 t (next s) else s1) (Some (next s))).

Lemma create_cases s o c k n t : valid s -> created s c k n t (create s o c k n t).
Proof.
  intros V. unfold create. destruct (lookup s c k n) as [x|] eqn:El; [exact (c_old _ _ _ _ _ x El)|].
  pose proof (lookup_position _ _ _ _ V El) as P.
  destruct (category_eqb k Class && _) eqn:B.
  { apply andb_true_iff in B. destruct B as [B1 B2]. apply c_error; [apply cat_eq; exact B1| |exact El]. destruct (assoc (links s) t); [discriminate|discriminate B2]. }
  destruct (fails o); [apply c_new_fails; assumption|]. unfold add. change (index (allocated s)) with (index s). rewrite P.
  destruct (fails (tl o)); [apply c_push_fails; assumption|]. destruct (fails (tl (tl o))); [apply c_name_fails; assumption|].
  change (of_list (allocated s) c k) with (of_list s c k). apply c_made; [assumption|assumption|].
  intros ->. cbn in B. destruct (assoc (links s) t); [discriminate|reflexivity].
Qed.

(** Nothing in the lists is forgotten. *)
Record keeps (s s' : state) : Prop := Keeps {
  k_entries : exists more, entries s' = entries s ++ more;
  k_index : forall c k n i, position (index s) c k n = Some i -> position (index s') c k n = Some i;
  k_attrs : exists more, map (fun a => (a_item a, a_name a, a_object a)) (attrs s') = map (fun a => (a_item a, a_name a, a_object a)) (attrs s) ++ more;
  k_attr_index : forall x n i, attr_position (attr_index s) x n = Some i -> attr_position (attr_index s') x n = Some i;
  k_types : forall n t, assoc (types s) n = Some t -> assoc (types s') n = Some t;
  k_links : forall t x, assoc (links s) t = Some x -> assoc (links s') t = Some x;
  k_bases : exists more, bases s' = bases s ++ more;
  k_derived : exists more, derived s' = derived s ++ more;
  k_converters : forall f t g, converter (converters s) f t = Some g -> converter (converters s') f t = Some g
}.
Lemma keeps_refl s : keeps s s.
Proof. constructor; try (exists []; symmetry; apply app_nil_r); auto. Qed.
Lemma keeps_trans a b c : keeps a b -> keeps b c -> keeps a c.
Proof.
  intros [(m1 & E1) A2 (m3 & E3) A4 A5 A6 (m7 & E7) (m8 & E8) A9] [(n1 & F1) B2 (n3 & F3) B4 B5 B6 (n7 & F7) (n8 & F8) B9].
  constructor; auto.
  - exists (m1 ++ n1). rewrite F1, E1, app_assoc. reflexivity.
  - exists (m3 ++ n3). rewrite F3, E3, app_assoc. reflexivity.
  - exists (m7 ++ n7). rewrite F7, E7, app_assoc. reflexivity.
  - exists (m8 ++ n8). rewrite F8, E8, app_assoc. reflexivity.
Qed.

Lemma get_keeps s s' c k n x : keeps s s' -> valid s -> get s c k n = Some x -> get s' c k n = Some x.
Proof.
  intros K V. unfold get. destruct (position (index s) c k n) as [i|] eqn:E; [|discriminate].
  rewrite (k_index _ _ K _ _ _ _ E). destruct (k_entries _ _ K) as (more & Em). destruct (of_list_grow _ _ _ c k Em) as (m & ->).
  intro H. destruct (nth_error (of_list s c k) i) as [e|] eqn:He; [|discriminate]. rewrite nth_error_app1; [rewrite He; exact H|].
  apply nth_error_Some. congruence.
Qed.
Lemma find_app1 {A} f (l m : list A) x : find f l = Some x -> find f (l ++ m) = Some x.
Proof. induction l as [|a l IH]; [discriminate|]. cbn. destruct (f a); auto. Qed.
Lemma lookup_keeps s s' c k n x : keeps s s' -> valid s -> lookup s c k n = Some x -> lookup s' c k n = Some x.
Proof.
  intros K V. assert (F : find_method s c k n = Some x -> find_method s' c k n = Some x).
  { unfold find_method. destruct (k_entries _ _ K) as (more & Em). destruct (of_list_grow _ _ _ c k Em) as (m & ->).
    destruct (find _ (of_list s c k)) as [e|] eqn:E; [|discriminate]. rewrite (find_app1 _ _ _ _ E). auto. }
  destruct k; cbn [lookup]; try exact F; apply get_keeps; assumption.
Qed.

Ltac same := first [exists []; cbn; symmetry; apply app_nil_r|assumption|solve [auto]].

Lemma keeps_allocated s : keeps s (allocated s).
Proof. constructor; same. Qed.
Lemma keeps_listed s e : keeps s (listed s e).
Proof. constructor; try same. exists [e]. reflexivity. Qed.
Lemma keeps_indexed s c k n i : position (index s) c k n = None -> keeps s (indexed s c k n i).
Proof.
  intro N. constructor; try same. intros c0 k0 n0 i0 H. cbn. destruct ((c =? c0) && category_eqb k k0 && (n =? n0)) eqn:E; [|exact H].
  apply key_eq in E. destruct E as (-> & -> & ->). congruence.
Qed.
Lemma keeps_linking s t x : assoc (links s) t = None -> keeps s (linking s t x).
Proof.
  intro N. constructor; try same. intros t0 x0 H. cbn. destruct (t =? t0) eqn:E; [|exact H]. apply Nat.eqb_eq in E. congruence.
Qed.

Lemma created_keeps s c k n t r s' : created s c k n t r -> leaves r s' -> keeps s s'.
Proof.
  intros C L. destruct C; cbn in L; subst; try apply keeps_refl; try apply keeps_allocated.
  - eapply keeps_trans; [apply keeps_allocated|apply keeps_listed].
  - assert (K : keeps s (indexed (listed (allocated s) (Entry c k n (next s))) c k n (length (of_list s c k)))).
    { eapply keeps_trans; [apply keeps_allocated|]. eapply keeps_trans; [apply keeps_listed|]. apply keeps_indexed. assumption. }
    cbn zeta. destruct (category_eqb k Class) eqn:E; [|exact K]. eapply keeps_trans; [exact K|]. apply keeps_linking. apply H1, cat_eq, E.
Qed.

(** ** Creating items *)

Lemma fresh_object s : valid s -> ~ In (next s) (map e_object (entries s) ++ map a_object (attrs s)).
Proof. intros V H. apply (v_alive _ V) in H. apply (v_next _ V) in H. lia. Qed.

Lemma valid_allocated s : valid s -> valid (allocated s).
Proof.
  intros V. destruct V. constructor; try assumption; cbn [heap next allocated].
  - intros x H. right. exact (v_alive0 x H).
  - intros x [<-|H]; [lia|]. apply v_next0 in H. lia.
  - constructor; [|assumption]. intro H. apply v_next0 in H. lia.
Qed.

Lemma nodup_entry (A B : list nat) x : ~ In x (A ++ B) -> NoDup (A ++ B) -> NoDup ((A ++ [x]) ++ B).
Proof.
  intros N D. rewrite <- app_assoc. cbn. apply (Permutation_NoDup (l := x :: A ++ B)); [apply Permutation_middle|]. constructor; assumption.
Qed.
Lemma nodup_attr (A B : list nat) x : ~ In x (A ++ B) -> NoDup (A ++ B) -> NoDup (A ++ B ++ [x]).
Proof.
  intros N D. rewrite app_assoc. apply (Permutation_NoDup (l := x :: A ++ B)); [|constructor; assumption]. apply Permutation_cons_append.
Qed.

Lemma get_listed s e c k n : valid s -> get (listed s e) c k n = get s c k n.
Proof.
  intros V. unfold get. change (index (listed s e)) with (index s). destruct (position (index s) c k n) as [i|] eqn:E; [|reflexivity].
  destruct (v_index _ V _ _ _ _ E) as (a & Ha & _). rewrite of_list_listed, nth_error_app1; [reflexivity|]. apply nth_error_Some. congruence.
Qed.

Lemma named_listed s e c k n : named (listed s e) c k n =
  named s c k n + (if (e_in e =? c) && category_eqb (e_category e) k && (e_name e =? n) then 1 else 0).
Proof.
  unfold named. rewrite of_list_listed, filter_app, app_length. f_equal.
  destruct ((e_in e =? c) && category_eqb (e_category e) k); [|reflexivity]. cbn. destruct (e_name e =? n); reflexivity.
Qed.
Lemma not_walked_there s c k n : walked k = true -> lookup s c k n = None -> named s c k n = 0.
Proof.
  intros W H. assert (F : find_method s c k n = None) by (destruct k; try discriminate; exact H). unfold find_method in F.
  destruct (find (fun e => e_name e =? n) (of_list s c k)) as [e|] eqn:Ef; [discriminate|].
  unfold named. destruct (filter _ _) as [|a l] eqn:Eq; [reflexivity|]. assert (I : In a (a :: l)) by (left; reflexivity). rewrite <- Eq in I.
  apply filter_In in I. destruct I as [I1 I2]. pose proof (find_none _ _ Ef a I1). congruence.
Qed.

Lemma valid_listed s c k n : valid s -> lookup s c k n = None -> valid (listed (allocated s) (Entry c k n (next s))).
Proof.
  intros V N. pose proof (valid_allocated _ V) as V1. pose proof (fresh_object _ V) as Fr. set (e := Entry c k n (next s)).
  constructor; try (destruct V1; assumption).
  - intros c0 k0 n0 i H. change (index (listed (allocated s) e)) with (index (allocated s)) in H. destruct (v_index _ V1 _ _ _ _ H) as (a & Ha & Hn).
    exists a. split; [|exact Hn]. rewrite of_list_listed, nth_error_app1; [exact Ha|]. apply nth_error_Some. congruence.
  - intros c0 k0 n0 W. rewrite named_listed. pose proof (v_walked _ V1 c0 k0 n0 W) as L.
    destruct ((e_in e =? c0) && category_eqb (e_category e) k0 && (e_name e =? n0)) eqn:E; [|lia].
    apply key_eq in E. cbn in E. destruct E as (<- & <- & <-). pose proof (not_walked_there _ _ _ _ W N) as Z.
    change (named (allocated s) c k n) with (named s c k n). lia.
  - cbn [entries attrs listed allocated]. rewrite map_app. apply nodup_entry; [exact Fr|exact (v_objects _ V)].
  - cbn [entries attrs listed allocated heap]. intros x H. rewrite map_app, <- app_assoc in H. apply in_app_or in H. destruct H as [H|H].
    + right. apply (v_alive _ V). apply in_or_app. left. exact H.
    + destruct H as [<-|H]; [left; reflexivity|]. right. apply (v_alive _ V). apply in_or_app. right. exact H.
  - intros t x H. destruct (v_link _ V1 _ _ H) as (c0 & n0 & G). exists c0, n0. rewrite get_listed; assumption.
  - intros c0 n0 x G. rewrite get_listed in G; [|assumption]. exact (v_class _ V1 _ _ _ G).
Qed.

Lemma valid_made s c k n t : valid s -> lookup s c k n = None -> position (index s) c k n = None -> (k = Class -> assoc (links s) t = None) ->
  valid (let s1 := indexed (listed (allocated s) (Entry c k n (next s))) c k n (length (of_list s c k)) in
         if category_eqb k Class then linking s1 t (next s) else s1) /\
  get (let s1 := indexed (listed (allocated s) (Entry c k n (next s))) c k n (length (of_list s c k)) in
         if category_eqb k Class then linking s1 t (next s) else s1) c k n = Some (next s).
Proof.
  intros V N P T. pose proof (valid_listed _ _ _ _ V N) as V2. set (s2 := listed (allocated s) (Entry c k n (next s))) in *.
  set (s3 := indexed s2 c k n (length (of_list s c k))). cbn zeta.
  assert (K3 : keeps s2 s3) by (apply keeps_indexed; exact P).
  assert (E3 : nth_error (of_list s3 c k) (length (of_list s c k)) = Some (Entry c k n (next s))).
  { change (of_list s3 c k) with (of_list s2 c k). unfold s2. rewrite of_list_listed. cbn [e_in e_category]. rewrite Nat.eqb_refl, cat_refl. cbn [andb].
    change (of_list (allocated s) c k) with (of_list s c k). rewrite nth_error_app2 by lia. rewrite Nat.sub_diag. reflexivity. }
  assert (P3 : position (index s3) c k n = Some (length (of_list s c k))).
  { cbn. rewrite !Nat.eqb_refl, cat_refl. reflexivity. }
  assert (G3 : get s3 c k n = Some (next s)) by (unfold get; rewrite P3, E3; reflexivity).
  assert (O3 : forall c0 k0 n0, (c0, k0, n0) <> (c, k, n) -> get s3 c0 k0 n0 = get s2 c0 k0 n0).
  { intros c0 k0 n0 D. unfold get. cbn [s3 indexed index position]. destruct ((c =? c0) && category_eqb k k0 && (n =? n0)) eqn:E; [|reflexivity].
    apply key_eq in E. destruct E as (-> & -> & ->). congruence. }
  assert (I3 : forall c0 k0 n0 i, position (index s3) c0 k0 n0 = Some i -> exists e, nth_error (of_list s3 c0 k0) i = Some e /\ e_name e = n0).
  { intros c0 k0 n0 i H. cbn [s3 indexed index position] in H. destruct ((c =? c0) && category_eqb k k0 && (n =? n0)) eqn:E.
    - apply key_eq in E. destruct E as (<- & <- & <-). injection H as <-. exists (Entry c k n (next s)). split; [exact E3|reflexivity].
    - exact (v_index _ V2 _ _ _ _ H). }
  destruct (category_eqb k Class) eqn:Ek.
  - apply cat_eq in Ek. subst k. split; [|exact G3].
    constructor; try (destruct V2; assumption); try exact I3.
    + intros t0 x H. cbn [linking links assoc] in H. destruct (t =? t0) eqn:Et.
      * injection H as <-. exists c, n. exact G3.
      * destruct (v_link _ V2 _ _ H) as (c0 & n0 & G). exists c0, n0. exact (get_keeps _ _ _ _ _ _ K3 V2 G).
    + intros c0 n0 x G. change (get (linking s3 t (next s)) c0 Class n0) with (get s3 c0 Class n0) in G. cbn [linking links assoc].
      destruct (Nat.eq_dec c0 c) as [->|Nc]; [destruct (Nat.eq_dec n0 n) as [->|Nn]|].
      * rewrite G3 in G. injection G as <-. exists t. rewrite Nat.eqb_refl. reflexivity.
      * rewrite O3 in G by congruence. destruct (v_class _ V2 _ _ _ G) as (t0 & H). exists t0. destruct (t =? t0) eqn:Et; [|exact H].
        apply Nat.eqb_eq in Et. subst t0. cbn in H. rewrite (T eq_refl) in H. discriminate.
      * rewrite O3 in G by congruence. destruct (v_class _ V2 _ _ _ G) as (t0 & H). exists t0. destruct (t =? t0) eqn:Et; [|exact H].
        apply Nat.eqb_eq in Et. subst t0. cbn in H. rewrite (T eq_refl) in H. discriminate.
  - split; [|exact G3]. constructor; try (destruct V2; assumption); try exact I3.
    + intros t0 x H. destruct (v_link _ V2 _ _ H) as (c0 & n0 & G). exists c0, n0. exact (get_keeps _ _ _ _ _ _ K3 V2 G).
    + intros c0 n0 x G. rewrite O3 in G; [exact (v_class _ V2 _ _ _ G)|]. intro D. injection D as _ <- _. discriminate.
Qed.

Lemma created_valid s c k n t r s' : valid s -> created s c k n t r -> leaves r s' -> valid s'.
Proof.
  intros V C L. destruct C; cbn in L; subst; try assumption.
  - apply valid_allocated, V.
  - apply valid_listed; assumption.
  - apply valid_made; assumption.
Qed.

(** What [create] returns is found. *)
Lemma lookup_walked s c k n : walked k = false -> lookup s c k n = get s c k n.
Proof. destruct k; try discriminate; reflexivity. Qed.
Lemma created_found s c k n t s' x : valid s -> created s c k n t (Done s' x) -> exists y, x = Some y /\ lookup s' c k n = Some y.
Proof.
  intros V C. inversion C as [y H|H1 H2 H|H H0|H H0|H H0|H H0 H1]; subst; [eexists; split; [reflexivity|assumption]|]. exists (next s). split; [reflexivity|].
  destruct (valid_made s c k n t) as [V' G]; try assumption. destruct (walked k) eqn:W; [|rewrite lookup_walked; assumption].
  assert (E : lookup s c k n = find_method s c k n) by (destruct k; try discriminate; reflexivity). rewrite E in H.
  assert (F : find_method (listed (allocated s) (Entry c k n (next s))) c k n = Some (next s)).
  { unfold find_method in *. rewrite of_list_listed. cbn [e_in e_category]. rewrite Nat.eqb_refl, cat_refl. cbn [andb]. change (of_list (allocated s) c k) with (of_list s c k).
    destruct (find (fun e => e_name e =? n) (of_list s c k)) eqn:Ef; [discriminate|]. clear - Ef. induction (of_list s c k) as [|a l IH]; cbn in *.
    - rewrite Nat.eqb_refl. reflexivity.
    - destruct (e_name a =? n); [discriminate|]. exact (IH Ef). }
  cbn zeta. destruct k; try discriminate; exact F.
Qed.

(** ** Attributes *)

Lemma attrs_of_app s l x m i : attrs_of (with_attrs s (l ++ m) i) x = filter (fun a => a_item a =? x) l ++ filter (fun a => a_item a =? x) m.
Proof. unfold attrs_of. cbn. apply filter_app. Qed.

Lemma assign_shape l x i v : map (fun a => (a_item a, a_name a, a_object a)) (assign l x i v) = map (fun a => (a_item a, a_name a, a_object a)) l.
Proof.
  revert i. induction l as [|a l IH]; intro i; [reflexivity|]. cbn. destruct (a_item a =? x) eqn:E.
  - destruct i; cbn; [apply Nat.eqb_eq in E; rewrite E; reflexivity|]. rewrite IH. reflexivity.
  - cbn. rewrite IH. reflexivity.
Qed.
Lemma assign_objects l x i v : map a_object (assign l x i v) = map a_object l.
Proof.
  revert i. induction l as [|a l IH]; intro i; [reflexivity|]. cbn. destruct (a_item a =? x).
  - destruct i; cbn; [reflexivity|]. rewrite IH. reflexivity.
  - cbn. rewrite IH. reflexivity.
Qed.
Lemma assign_nth l x i v : forall y j, nth_error (filter (fun a => a_item a =? y) (assign l x i v)) j =
  match nth_error (filter (fun a => a_item a =? y) l) j with
  | Some a => Some (if (x =? y) && (i =? j) then Attr x (a_name a) v (a_object a) else a)
  | None => None
  end.
Proof.
  revert i. induction l as [|a l IH]; intros i y j; [destruct j; reflexivity|]. cbn [assign filter].
  destruct (a_item a =? x) eqn:Ex.
  - apply Nat.eqb_eq in Ex. destruct i as [|i].
    + cbn [filter a_item]. rewrite Ex. destruct (x =? y) eqn:Exy.
      * destruct j; [reflexivity|]. cbn. destruct (nth_error _ j); reflexivity.
      * cbn. destruct (nth_error _ j); reflexivity.
    + cbn [filter]. rewrite Ex. destruct (x =? y) eqn:Exy.
      * destruct j; [reflexivity|]. cbn [nth_error]. rewrite IH, Exy. reflexivity.
      * rewrite IH, Exy. reflexivity.
  - cbn [filter]. destruct (a_item a =? y) eqn:Ey.
    + destruct j; [|cbn [nth_error]; rewrite IH].
      * cbn. destruct (x =? y) eqn:Exy; [|reflexivity]. apply Nat.eqb_eq in Ey, Exy. apply Nat.eqb_neq in Ex. congruence.
      * assert (Exy : x =? y = false). { apply Nat.eqb_neq. apply Nat.eqb_eq in Ey. apply Nat.eqb_neq in Ex. congruence. }
        rewrite Exy. reflexivity.
    + apply IH.
Qed.

Inductive setting (s : state) (x n v : nat) : result unit -> Prop :=
  | s_new_fails : setting s x n v (Bad s)
  | s_push_fails : attr_position (attr_index s) x n = None -> setting s x n v (Bad (allocated s))
  | s_name_fails : attr_position (attr_index s) x n = None ->
      setting s x n v (Bad (with_attrs (allocated s) (attrs s ++ [Attr x n v (next s)]) (attr_index s)))
  | s_made : attr_position (attr_index s) x n = None ->
      setting s x n v (Done (with_attrs (allocated s) (attrs s ++ [Attr x n v (next s)]) ((x, n, length (attrs_of s x)) :: attr_index s)) tt)
  | s_changed i : attr_position (attr_index s) x n = Some i ->
      setting s x n v (Done (with_attrs s (assign (attrs s) x i v) (attr_index s)) tt).
Lemma set_cases s o x n v : setting s x n v (set_attribute s o x n v).
Proof.
  unfold set_attribute. destruct (attr_position (attr_index s) x n) as [i|] eqn:E.
  - destruct (fails o); [constructor|apply s_changed; exact E].
  - destruct (fails o); [constructor|]. destruct (fails (tl o)); [apply s_push_fails; exact E|].
    destruct (fails (tl (tl o))); [apply s_name_fails; exact E|apply s_made; exact E].
Qed.
Lemma setting_keeps s x n v r s' : setting s x n v r -> leaves r s' -> keeps s s'.
Proof.
  intros C L. destruct C; cbn in L; subst; try apply keeps_refl; try apply keeps_allocated.
  - constructor; try same. cbn. rewrite map_app. eexists. reflexivity.
  - constructor; try same; cbn.
    + rewrite map_app. eexists. reflexivity.
    + intros x0 n0 i H0. destruct ((x =? x0) && (n =? n0)) eqn:E; [|exact H0]. apply andb_true_iff in E. rewrite !Nat.eqb_eq in E. destruct E as [-> ->]. congruence.
  - constructor; try same; cbn. exists []. rewrite app_nil_r. apply assign_shape.
Qed.
Lemma setting_valid s x n v r s' : valid s -> setting s x n v r -> leaves r s' -> valid s'.
Proof.
  intros V C L. pose proof (fresh_object _ V) as Fr. destruct C; cbn in L; subst; try assumption.
  - apply valid_allocated, V.
  - pose proof (valid_allocated _ V) as V1. constructor; try (destruct V1; assumption); cbn [entries attrs with_attrs allocated heap].
    + rewrite map_app. apply nodup_attr; [exact Fr|exact (v_objects _ V)].
    + intros y H0. rewrite map_app, app_assoc in H0. apply in_app_or in H0. destruct H0 as [H0|[<-|[]]]; [right; apply (v_alive _ V); exact H0|left; reflexivity].
    + intros x0 n0 i H0. destruct (v_attr _ V1 _ _ _ H0) as (a & Ha & Hn). exists a. split; [|exact Hn].
      rewrite attrs_of_app. rewrite nth_error_app1; [exact Ha|]. apply nth_error_Some. change (nth_error (attrs_of s x0) i <> None). change (attrs_of (allocated s) x0) with (attrs_of s x0) in Ha. congruence.
  - pose proof (valid_allocated _ V) as V1. constructor; try (destruct V1; assumption); cbn [entries attrs with_attrs allocated heap].
    + rewrite map_app. apply nodup_attr; [exact Fr|exact (v_objects _ V)].
    + intros y H0. rewrite map_app, app_assoc in H0. apply in_app_or in H0. destruct H0 as [H0|[<-|[]]]; [right; apply (v_alive _ V); exact H0|left; reflexivity].
    + intros x0 n0 i H0. cbn in H0. rewrite attrs_of_app. destruct ((x =? x0) && (n =? n0)) eqn:E.
      * apply andb_true_iff in E. rewrite !Nat.eqb_eq in E. destruct E as [<- <-]. injection H0 as <-. exists (Attr x n v (next s)). split; [|reflexivity].
        change (filter (fun a => a_item a =? x) (attrs s)) with (attrs_of s x). rewrite nth_error_app2 by lia. rewrite Nat.sub_diag. cbn. rewrite Nat.eqb_refl. reflexivity.
      * destruct (v_attr _ V1 _ _ _ H0) as (a & Ha & Hn). exists a. split; [|exact Hn]. change (attrs_of (allocated s) x0) with (attrs_of s x0) in Ha.
        rewrite nth_error_app1; [exact Ha|]. apply nth_error_Some. change (nth_error (attrs_of s x0) i <> None). congruence.
  - constructor; try (destruct V; assumption); cbn [entries attrs with_attrs heap]; rewrite ?assign_objects; try (destruct V; assumption).
    intros x0 n0 i0 H0. destruct (v_attr _ V _ _ _ H0) as (a & Ha & Hn). unfold attrs_of. cbn [attrs with_attrs]. rewrite assign_nth.
    unfold attrs_of in Ha. rewrite Ha. eexists. split; [reflexivity|]. destruct ((x =? x0) && (i =? i0)); [exact Hn|exact Hn].
Qed.

(** The value read by name after a call. *)
Lemma setting_value s x n v r s' : valid s -> setting s x n v r -> leaves r s' -> forall y m,
  get_attribute s' y m = match r with Done _ _ => if (x =? y) && (n =? m) then Some v else get_attribute s y m | _ => get_attribute s y m end.
Proof.
  intros V C L y m. destruct C; cbn in L; subst; try reflexivity; unfold get_attribute.
  - cbn [attr_index with_attrs]. change (attr_index (allocated s)) with (attr_index s). destruct (attr_position (attr_index s) y m) as [i|] eqn:E; [|reflexivity].
    destruct (v_attr _ V _ _ _ E) as (a & Ha & _). rewrite attrs_of_app, nth_error_app1; [reflexivity|]. apply nth_error_Some. change (nth_error (attrs_of s y) i <> None). congruence.
  - cbn [attr_index with_attrs attr_position]. destruct ((x =? y) && (n =? m)) eqn:E.
    + apply andb_true_iff in E. rewrite !Nat.eqb_eq in E. destruct E as [<- <-]. rewrite attrs_of_app.
      change (filter (fun a => a_item a =? x) (attrs s)) with (attrs_of s x). rewrite nth_error_app2 by lia. rewrite Nat.sub_diag. cbn. rewrite Nat.eqb_refl. reflexivity.
    + destruct (attr_position (attr_index s) y m) as [i|] eqn:E0; [|reflexivity].
      destruct (v_attr _ V _ _ _ E0) as (a & Ha & _). rewrite attrs_of_app, nth_error_app1; [reflexivity|]. apply nth_error_Some. change (nth_error (attrs_of s y) i <> None). congruence.
  - cbn [attr_index with_attrs]. destruct ((x =? y) && (n =? m)) eqn:E.
    + apply andb_true_iff in E. rewrite !Nat.eqb_eq in E. destruct E as [<- <-]. rewrite H. unfold attrs_of. cbn [attrs with_attrs]. rewrite assign_nth.
      destruct (v_attr _ V _ _ _ H) as (a & Ha & _). unfold attrs_of in Ha. rewrite Ha, !Nat.eqb_refl. reflexivity.
    + destruct (attr_position (attr_index s) y m) as [j|] eqn:E0; [|reflexivity]. unfold attrs_of. cbn [attrs with_attrs]. rewrite assign_nth.
      destruct (v_attr _ V _ _ _ E0) as (a & Ha & Hn). unfold attrs_of in Ha. rewrite Ha. destruct ((x =? y) && (i =? j)) eqn:E1; [|reflexivity].
      apply andb_true_iff in E1. rewrite !Nat.eqb_eq in E1. destruct E1 as [<- <-]. destruct (v_attr _ V _ _ _ H) as (b & Hb & Hm). unfold attrs_of in Hb.
      assert (a = b) by congruence. subst b. assert (Q : (n =? m) = true) by (apply Nat.eqb_eq; congruence). rewrite Q, Nat.eqb_refl in E. discriminate.
Qed.

(** ** Types, bases, converters *)

Definition with_types (s : state) (l : list (nat * nat)) (i : nat) : state :=
  State (entries s) (index s) (attrs s) (attr_index s) l i (links s) (bases s) (derived s) (converters s) (heap s) (next s).
Inductive registering (s : state) (n : nat) : result nat -> Prop :=
  | r_old t : assoc (types s) n = Some t -> registering s n (Done s t)
  | r_info_fails : assoc (types s) n = None -> registering s n (Bad s)
  | r_name_fails : assoc (types s) n = None -> registering s n (Bad (with_types s (types s) (S (infos s))))
  | r_made : assoc (types s) n = None -> registering s n (Done (with_types s ((n, S (infos s)) :: types s) (S (infos s))) (S (infos s))).
Lemma register_cases s o n : registering s n (register s o n).
Proof.
  unfold register. destruct (assoc (types s) n) as [t|] eqn:E; [exact (r_old _ _ _ E)|].
  destruct (fails o); [exact (r_info_fails _ _ E)|]. destruct (fails (tl o)); [exact (r_name_fails _ _ E)|exact (r_made _ _ E)].
Qed.
Lemma registering_keeps s n r s' : registering s n r -> leaves r s' -> keeps s s'.
Proof.
  intros C L. destruct C; cbn in L; subst; try apply keeps_refl; constructor; try same.
  intros m t Ht. cbn. destruct (n =? m) eqn:E; [|exact Ht]. apply Nat.eqb_eq in E. congruence.
Qed.
Lemma assoc_in l x v : assoc l x = Some v -> In (x, v) l.
Proof.
  induction l as [|[y w] l IH]; [discriminate|]. cbn. destruct (y =? x) eqn:E; intro H; [|right; exact (IH H)].
  apply Nat.eqb_eq in E. injection H as <-. subst y. left. reflexivity.
Qed.
Lemma registering_valid s n r s' : valid s -> registering s n r -> leaves r s' -> valid s'.
Proof.
  intros V C L. destruct C; cbn in L; subst; try exact V; constructor; try (destruct V; assumption); cbn [types infos with_types].
  - intros m t Ht. apply (v_types _ V) in Ht. lia.
  - intros m t [Ht|Ht]; [injection Ht as <- <-; lia|]. apply (v_types _ V) in Ht. lia.
  - intros m m' t [Ht|Ht] [Hu|Hu]; try congruence.
    + injection Ht as <- <-. apply (v_types _ V) in Hu. lia.
    + injection Hu as <- <-. apply (v_types _ V) in Ht. lia.
    + exact (v_type1 _ V _ _ _ Ht Hu).
Qed.

Lemma linked_in l a b : linked l a b = true <-> In (a, b) l.
Proof.
  unfold linked. rewrite existsb_exists. split.
  - intros ([x y] & H & E). cbn in E. apply andb_true_iff in E. rewrite !Nat.eqb_eq in E. destruct E as [-> ->]. exact H.
  - intro H. exists (a, b). split; [exact H|]. cbn. rewrite !Nat.eqb_refl. reflexivity.
Qed.
Lemma nodup_snoc {A} (l : list A) x : NoDup l -> ~ In x l -> NoDup (l ++ [x]).
Proof. intros D N. apply (Permutation_NoDup (l := x :: l)); [apply Permutation_cons_append|]. constructor; assumption. Qed.

Definition with_bases (s : state) (b d : list (nat * nat)) : state :=
  State (entries s) (index s) (attrs s) (attr_index s) (types s) (infos s) (links s) b d (converters s) (heap s) (next s).
(** [b1] and [d1]: the lists before; what is added is not there yet. *)
Inductive based (s : state) (d b : nat) : result unit -> Prop :=
  | b_error : assoc (links s) d = None \/ assoc (links s) b = None -> based s d b (Error s)
  | b_base_fails : ~ In (d, b) (bases s) -> based s d b (Bad s)
  | b_derived_fails more : ~ In (b, d) (derived s) -> In (d, b) (bases s ++ more) -> (more = [] \/ (more = [(d, b)] /\ ~ In (d, b) (bases s))) ->
      based s d b (Bad (with_bases s (bases s ++ more) (derived s)))
  | b_made more more' : In (d, b) (bases s ++ more) -> In (b, d) (derived s ++ more') ->
      (more = [] \/ (more = [(d, b)] /\ ~ In (d, b) (bases s))) -> (more' = [] \/ (more' = [(b, d)] /\ ~ In (b, d) (derived s))) ->
      based s d b (Done (with_bases s (bases s ++ more) (derived s ++ more')) tt).
Lemma base_cases s o d b : based s d b (add_base s o d b).
Proof.
  unfold add_base. destruct (assoc (links s) d) eqn:Ed; [|apply b_error; auto]. destruct (assoc (links s) b) eqn:Eb; [|apply b_error; auto].
  assert (LB : (linked (bases s) d b = true /\ In (d, b) (bases s)) \/ (linked (bases s) d b = false /\ ~ In (d, b) (bases s))).
  { destruct (linked (bases s) d b) eqn:E; [left|right]; (split; [reflexivity|]); rewrite <- linked_in, E; [reflexivity|discriminate]. }
  assert (LD : (linked (derived s) b d = true /\ In (b, d) (derived s)) \/ (linked (derived s) b d = false /\ ~ In (b, d) (derived s))).
  { destruct (linked (derived s) b d) eqn:E; [left|right]; (split; [reflexivity|]); rewrite <- linked_in, E; [reflexivity|discriminate]. }
  destruct LB as [[-> HB]|[-> HB]]; cbn [negb andb].
  - destruct LD as [[-> HD]|[-> HD]].
    + pose proof (b_made s d b [] []) as Q. rewrite !app_nil_r in Q. apply Q; auto.
    + destruct (fails o).
      * pose proof (b_derived_fails s d b []) as Q. rewrite !app_nil_r in Q. apply Q; auto.
      * pose proof (b_made s d b [] [(b, d)]) as Q. rewrite !app_nil_r in Q. apply Q; auto. apply in_or_app. right. left. reflexivity.
  - destruct (fails o); [apply b_base_fails; exact HB|]. assert (I : In (d, b) (bases s ++ [(d, b)])) by (apply in_or_app; right; left; reflexivity).
    destruct LD as [[-> HD]|[-> HD]].
    + pose proof (b_made s d b [(d, b)] []) as Q. rewrite !app_nil_r in Q. apply Q; auto.
    + destruct (fails (tl o)).
      * apply (b_derived_fails s d b [(d, b)]); auto.
      * apply (b_made s d b [(d, b)] [(b, d)]); auto. apply in_or_app. right. left. reflexivity.
Qed.
Lemma based_keeps s d b r s' : based s d b r -> leaves r s' -> keeps s s'.
Proof.
  intros C L. destruct C; cbn in L; subst; try apply keeps_refl; constructor; try same; eexists; reflexivity.
Qed.
Lemma based_valid s d b r s' : valid s -> based s d b r -> leaves r s' -> valid s'.
Proof.
  intros V C L. destruct (v_once _ V) as [OB OD].
  assert (X : forall (l more : list (nat * nat)) p, NoDup l -> (more = [] \/ (more = [p] /\ ~ In p l)) -> NoDup (l ++ more)).
  { intros l more p Hl [->|[-> N]]; [rewrite app_nil_r; exact Hl|apply nodup_snoc; assumption]. }
  destruct C; cbn in L; subst; try exact V; constructor; try (destruct V; assumption); cbn [bases derived with_bases].
  - intros b0 d0 H2. apply in_or_app. left. exact (v_derived _ V _ _ H2).
  - split; [exact (X _ _ _ OB H1)|exact OD].
  - intros b0 d0 H3. apply in_app_or in H3. destruct H3 as [H3|H3]; [apply in_or_app; left; exact (v_derived _ V _ _ H3)|].
    destruct H2 as [->|[-> _]]; [contradiction|]. destruct H3 as [H3|[]]. injection H3 as <- <-. exact H.
  - split; [exact (X _ _ _ OB H1)|exact (X _ _ _ OD H2)].
Qed.

Definition with_converters (s : state) (l : list (nat * nat * nat)) : state :=
  State (entries s) (index s) (attrs s) (attr_index s) (types s) (infos s) (links s) (bases s) (derived s) l (heap s) (next s).
Inductive converting (s : state) (f t g : nat) : result bool -> Prop :=
  | v_old h : converter (converters s) f t = Some h -> converting s f t g (Done s false)
  | v_fails : converter (converters s) f t = None -> converting s f t g (Bad s)
  | v_made : converter (converters s) f t = None -> converting s f t g (Done (with_converters s ((f, t, g) :: converters s)) true).
Lemma converter_cases s o f t g : converting s f t g (add_converter s o f t g).
Proof.
  unfold add_converter. destruct (converter (converters s) f t) as [h|] eqn:E; [exact (v_old _ _ _ _ _ E)|].
  destruct (fails o); [exact (v_fails _ _ _ _ E)|exact (v_made _ _ _ _ E)].
Qed.
Lemma converting_keeps s f t g r s' : converting s f t g r -> leaves r s' -> keeps s s'.
Proof.
  intros C L. destruct C; cbn in L; subst; try apply keeps_refl; constructor; try same. intros f0 t0 g0 H0. cbn.
  destruct ((f =? f0) && (t =? t0)) eqn:E; [|exact H0]. apply andb_true_iff in E. rewrite !Nat.eqb_eq in E. destruct E as [-> ->]. congruence.
Qed.
Lemma converting_valid s f t g r s' : valid s -> converting s f t g r -> leaves r s' -> valid s'.
Proof. intros V C L. destruct C; cbn in L; subst; try exact V. constructor; destruct V; assumption. Qed.

(** hasConverter only registers types. *)
Lemma has_converter_types s o f t s' b : has_converter s o f t = Done s' b -> exists s1 i j,
  registering s f (Done s1 i) /\ registering s1 t (Done s' j) /\ b = match converter (converters s') i j with Some _ => true | None => false end.
Proof.
  unfold has_converter. pose proof (register_cases s o f) as C1. destruct (register s o f) as [s1 i| | |]; try discriminate.
  set (o2 := match assoc (types s) f with Some _ => o | None => tl (tl o) end). pose proof (register_cases s1 o2 t) as C2.
  destruct (register s1 o2 t) as [s2 j| | |]; try discriminate. intro E. injection E as <- <-. exists s1, i, j. auto.
Qed.
Lemma has_converter_ends s o f t : match has_converter s o f t with Bad _ | Error _ => False | _ => True end.
Proof. unfold has_converter. destruct (register s o f); try exact I. destruct (register _ _ t); exact I. Qed.

(** ** Calls and runs *)

Lemma give_leaves {A} (f : A -> value) r s : leaves (give f r) s <-> leaves r s.
Proof. destruct r; reflexivity. Qed.

Lemma perform_ok s x o s' : valid s -> leaves (perform s x o) s' -> keeps s s' /\ valid s'.
Proof.
  intros V L. destruct x; cbn [perform] in L; apply give_leaves in L.
  - pose proof (create_cases s o c k n t V) as C. split; [exact (created_keeps _ _ _ _ _ _ _ C L)|exact (created_valid _ _ _ _ _ _ _ V C L)].
  - pose proof (set_cases s o x n v) as C. split; [exact (setting_keeps _ _ _ _ _ _ C L)|exact (setting_valid _ _ _ _ _ _ V C L)].
  - pose proof (register_cases s o n) as C. split; [exact (registering_keeps _ _ _ _ C L)|exact (registering_valid _ _ _ _ V C L)].
  - pose proof (base_cases s o d b) as C. split; [exact (based_keeps _ _ _ _ _ C L)|exact (based_valid _ _ _ _ _ V C L)].
  - pose proof (converter_cases s o f t g) as C. split; [exact (converting_keeps _ _ _ _ _ _ C L)|exact (converting_valid _ _ _ _ _ _ V C L)].
  - pose proof (has_converter_ends s o f t) as N. destruct (has_converter s o f t) as [s1 b|s1|s1|] eqn:E; try contradiction. cbn in L. subst s1.
    apply has_converter_types in E. destruct E as (s1 & i & j & C1 & C2 & _).
    pose proof (registering_valid _ _ _ _ V C1 eq_refl) as V1. split.
    + exact (keeps_trans _ _ _ (registering_keeps _ _ _ _ C1 eq_refl) (registering_keeps _ _ _ _ C2 eq_refl)).
    + exact (registering_valid _ _ _ _ V1 C2 eq_refl).
Qed.

(** One step of a run. *)
Lemma run_cons s x o r s2 h : run s ((x, o) :: r) = Some (s2, h) -> exists s1 e h', leaves (perform s x o) s1 /\
  (match perform s x o with Done _ v => e = Returned v | Bad _ => e = Out_of_memory | Error _ => e = Other | Terminated => False end) /\
  run s1 r = Some (s2, h') /\ h = (x, e) :: h'.
Proof.
  cbn [run]. destruct (perform s x o) as [s1 v|s1|s1|]; try discriminate; destruct (run s1 r) as [[s3 h']|] eqn:E; try discriminate;
    intro Q; injection Q as <- <-; eexists; eexists; eexists; (split; [reflexivity|]); (split; [reflexivity|]); (split; [exact E|reflexivity]).
Qed.
Lemma run_ok l : forall s s' h, valid s -> run s l = Some (s', h) -> keeps s s' /\ valid s'.
Proof.
  induction l as [|[x o] l IH]; intros s s' h V E.
  - cbn in E. injection E as <- _. split; [apply keeps_refl|exact V].
  - apply run_cons in E. destruct E as (s1 & e & h' & L & _ & E & _). destruct (perform_ok _ _ _ _ V L) as [K1 V1].
    destruct (IH _ _ _ V1 E) as [K2 V2]. split; [exact (keeps_trans _ _ _ K1 K2)|exact V2].
Qed.
