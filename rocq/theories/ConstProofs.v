(** Proofs about const objects and typed pointers in programs that use the library. *)
From Coq Require Import NArith List Bool Arith Lia.
From Verif Require Import TypesModel TypesSpec TypesProofs InheritModel InheritSpec InheritProofs AccModel AccSpec AccProofs
  CallModel CallSpec CallProofs ConstModel ConstSpec.
Import ListNotations.

(** ** Pointers *)

Lemma pointed_addr p : pointed (addr p) = Some p.
Proof.
  unfold pointed, addr. rewrite Nat.even_mul, Nat.div2_double. reflexivity.
Qed.

(** ** Const, level by level *)

Lemma keeps_refl t : keeps_const t t.
Proof. intro j. split; [auto|]. intro H. destruct (H eq_refl). Qed.

Lemma keeps_trans a b c : keeps_const a b -> keeps_const b c -> keeps_const a c.
Proof.
  intros H1 H2 j. destruct (H1 j) as [A1 A2], (H2 j) as [B1 B2]. split; [auto|]. intros N i Hi.
  destruct (bool_dec (const_at b j) (const_at c j)) as [E|E]; [|auto].
  destruct (H2 i) as [C1 _]. apply C1. apply A2; [congruence|exact Hi].
Qed.

Lemma keeps_tail c v c' v' t u : keeps_const (TPtr c v t) (TPtr c' v' u) -> keeps_const t u.
Proof.
  intros H j. destruct (H (S j)) as [A B]. cbn in A, B. split; [exact A|]. intros N i Hi.
  specialize (B N (S i)). cbn in B. apply B. lia.
Qed.

Lemma keeps_element t n u : keeps_const (TArr t n) (TArr u n) -> keeps_const t u.
Proof.
  intros H j. destruct (H (S j)) as [A B]. cbn in A, B. split; [exact A|]. intros N i Hi.
  specialize (B N (S i)). cbn in B. apply B. lia.
Qed.

Lemma keeps_back d t : keeps_const d t -> const_at t 0 = false -> keeps_const t d.
Proof.
  intros H Z. assert (E : forall j, const_at d j = const_at t j).
  { intro j. destruct (bool_dec (const_at d j) (const_at t j)) as [E|E]; [exact E|]. exfalso. destruct (H j) as [A B].
    destruct j as [|j].
    - destruct (const_at d 0); [specialize (A eq_refl)|]; congruence.
    - specialize (B E 0). rewrite B in Z; [discriminate|lia]. }
  intro j. rewrite E. split; [auto|]. intro N. destruct (N eq_refl).
Qed.

Lemma qual_keeps t u : qual_ok 0 t u -> keeps_const t u.
Proof. intros H j. destruct (H j) as (A & _ & B); [lia|]. split; [exact A|]. intros N i Hi. apply B; auto; lia. Qed.

Lemma qual_keeps_pointee c v c' v' t u : qual_ok 1 (TPtr c v t) (TPtr c' v' u) -> keeps_const t u.
Proof.
  intros H j. destruct (H (S j)) as (A & _ & B); [lia|]. cbn in A, B. split; [exact A|]. intros N i Hi.
  specialize (B (or_introl N) (S i)). cbn in B. apply B; lia.
Qed.

Lemma keeps_constify t : keeps_const t (constify t).
Proof.
  destruct t as [c v b|c v t|t n].
  - intros [|j]; cbn; (split; [auto|]); [intros _ i Hi; lia|intro N; destruct (N eq_refl)].
  - intros [|j]; cbn; (split; [auto|]); [intros _ i Hi; lia|intro N; destruct (N eq_refl)].
  - assert (G : forall t j, const_at t j = true -> const_at (constify t) j = true).
    { intros t0 j H. rewrite const_constify. unfold protected. rewrite H. reflexivity. }
    intro j. split; [apply G|]. intros N i Hi. rewrite const_constify in *. unfold protected in *.
    destruct (Nat.leb_spec j (dims (TArr t n))) as [L|L].
    + destruct (Nat.leb_spec i (dims (TArr t n))); [|lia]. cbn [andb]. apply orb_true_r.
    + cbn [andb] in N. rewrite orb_false_r in N. destruct (N eq_refl).
Qed.

Lemma keeps_copy t : is_array t = false -> keeps_const (copy_type t) t.
Proof.
  intros Ha. destruct t as [c v b|c v t|t n]; [| |discriminate];
    intros [|j]; cbn; (split; [try discriminate; auto|]); [intros _ i Hi; lia|intro N; destruct (N eq_refl)|intros _ i Hi; lia|intro N; destruct (N eq_refl)].
Qed.

Lemma class_similar t u k : class_type t k -> similar t u -> class_type u k.
Proof. intros (c & v & b & -> & K & I) H. inversion H; subst. repeat eexists; eauto. Qed.

Lemma strip_copy t : is_array t = false -> strip t = copy_type t.
Proof. destruct t; cbn; congruence. Qed.

Lemma flat_held t f x st : flat t -> is_array (held (content_at st f t x)) = false.
Proof. intros [_ H]. unfold held. cbn. destruct f; [|exact H]. destruct t; cbn in *; congruence. Qed.

Section World.
  Variable P : places.
  Variable e : env.
  Variable hosts : nat -> nat -> Prop.
  Hypothesis HS : sound P e hosts.
  Hypothesis HC : no_converted_pointers e.

  Notation views := (may_be_seen P hosts).

  Lemma views_similar x t u : views x t -> similar t u -> keeps_const t u -> views x u.
  Proof.
    intros [A B] S K. split; [eapply keeps_trans; eauto|]. destruct B as [(k & C & H)|[N H]].
    - left. exists k. split; [eapply class_similar; eauto|exact H].
    - right. split; [|eapply similar_trans; eauto]. intros k C. apply (N k). eapply class_similar; [exact C|apply similar_sym, S].
  Qed.

  Lemma class_dec t : (exists k, class_type t k) \/ forall k, ~ class_type t k.
  Proof.
    destruct t as [c v b|c v t|t n]; [|right; intros k (c' & v' & b' & E & _); discriminate..].
    destruct (base_kind_eq_dec (b_kind b) KClass) as [E|E].
    - left. exists (b_id b). repeat eexists. exact E.
    - right. intros k (c' & v' & b' & E' & K & _). injection E' as _ _ <-. contradiction.
  Qed.

  Lemma views_decl x t : decl P x = t -> views x t.
  Proof.
    intros <-. split; [apply keeps_refl|]. destruct (class_dec (decl P x)) as [[k C]|N].
    - left. exists k. split; [exact C|]. apply (so_class _ _ _ HS), C.
    - right. split; [exact N|apply similar_refl].
  Qed.

  Lemma views_hosts x t k : views x t -> class_type t k -> hosts x k.
  Proof.
    intros [_ [(k' & C & H)|[N _]]] C'; [|destruct (N k C')].
    destruct C as (c & v & b & -> & _ & <-). destruct C' as (c' & v' & b' & E & _ & <-). injection E as _ _ <-. exact H.
  Qed.

  Lemma views_pointer x c v t : views x (TPtr c v t) -> exists c' v' d, decl P x = TPtr c' v' d /\ similar d t /\ keeps_const d t.
  Proof.
    intros [K [(k & (c0 & v0 & b & E & _) & _)|[_ S]]]; [discriminate|]. inversion S as [|c1 v1 c2 v2 d u S' E1 E2|]; subst.
    rewrite <- E1 in K. apply keeps_tail in K. eauto 7.
  Qed.

  (** ** Values *)

  Definition fits (t : ty) (w : nat) : Prop := forall c v u p, t = TPtr c v u -> pointed w = Some p -> views p u.

  Lemma fits_convert t u w : fits t w -> similar t u -> qual_ok 1 t u -> fits u w.
  Proof.
    intros F S Q c v u' p -> Hp. inversion S as [|c1 v1 c2 v2 t' u0 S' E1 E2|]; subst.
    specialize (F _ _ _ p eq_refl Hp). eapply views_similar; [exact F|exact S'|eapply qual_keeps_pointee, Q].
  Qed.

  Lemma fits_copy t w : is_array t = false -> (fits (copy_type t) w <-> fits t w).
  Proof.
    intro Ha. destruct t as [c v b|c v t|t n]; [| |discriminate]; cbn; split; intros F c0 v0 u p E; try discriminate.
    - injection E as <- <- <-. eapply F. reflexivity.
    - injection E as <- <- <-. eapply F. reflexivity.
  Qed.

  Lemma fits_constify t w : is_array t = false -> (fits (constify t) w <-> fits t w).
  Proof.
    intro Ha. destruct t as [c v b|c v t|t n]; [| |discriminate]; cbn; split; intros F c0 v0 u p E; try discriminate.
    - injection E as <- <- <-. eapply F. reflexivity.
    - injection E as <- <- <-. eapply F. reflexivity.
  Qed.

  Lemma fits_read x t w : views x t -> fits (decl P x) w -> fits t w.
  Proof.
    intros V F c v u p -> Hp. destruct (views_pointer _ _ _ _ V) as (c' & v' & d & E & S & K).
    eapply views_similar; [eapply F; eauto|exact S|exact K].
  Qed.

  Lemma fits_write x t w : views x t -> is_const t = false -> fits t w -> fits (decl P x) w.
  Proof.
    intros [K I] Z F c v d p E Hp. destruct I as [(k & C & H)|[_ S]].
    - destruct (so_hosts _ _ _ HS _ _ H) as (k' & c0 & v0 & b & E' & _). congruence.
    - rewrite E in S, K. inversion S as [|c1 v1 c2 v2 d' u S' E1 E2|]; subst.
      rewrite is_const_at0 in Z. pose proof (keeps_tail _ _ _ _ _ _ (keeps_back _ _ K Z)) as K'.
      eapply views_similar; [eapply F; [reflexivity|exact Hp]|apply similar_sym, S'|exact K'].
  Qed.

  Lemma views_writable x t : views x t -> is_const t = false -> is_const (decl P x) = false.
  Proof.
    intros [K _] Z. rewrite is_const_at0 in *. destruct (const_at (decl P x) 0) eqn:E; [|reflexivity].
    destruct (K 0) as [A _]. rewrite (A E) in Z. discriminate.
  Qed.

  (** ** The invariant *)

  (** The place of the content of a variant may be seen as what the variant tells. *)
  Definition grants (k : bool) (f : form) (t : ty) (x : nat) : Prop :=
    flat t /\ views x (match f with Refw => t | Val => if k then constify (copy_type t) else copy_type t end).

  Record inv (st : state) : Prop := {
    in_refs : forall t x, In (LV t x) (refs st) -> views x t;
    in_mem : forall x, fits (decl P x) (mem st x);
    in_vars : forall v f t x, In v (vars st) -> v_content v = Some (f, t, x) -> grants (v_const v) f t x }.

  Lemma start_inv : inv start.
  Proof.
    split.
    - intros t x [].
    - intros x c v u p _ H. discriminate.
    - intros v f t x [].
  Qed.

  Lemma inv_add_ref st t x : inv st -> views x t -> inv (add_ref st (LV t x)).
  Proof.
    intros [R M V] H. split; cbn; auto. intros t' x' [E|E]; [injection E as <- <-; exact H|auto].
  Qed.

  Lemma inv_add_var st k f t x : inv st -> grants k f t x -> inv (add_var st (Holder k (Some (f, t, x)))).
  Proof.
    intros [R M V] H. split; cbn; auto. intros v f' t' x' I E. apply in_app_or in I. destruct I as [I|[<-|[]]]; [eauto|].
    cbn in *. injection E as <- <- <-. exact H.
  Qed.

  Lemma mem_write m x w : (forall y, fits (decl P y) (m y)) -> fits (decl P x) w -> forall y, fits (decl P y) (write m x w y).
  Proof. intros M F y. unfold write. destruct (Nat.eqb_spec y x) as [->|_]; auto. Qed.

  Lemma inv_set_mem st m : inv st -> (forall x, fits (decl P x) (m x)) -> inv (set_mem st m).
  Proof. intros [R M V] H. split; cbn; auto. Qed.

  Lemma inv_create st y w : inv st -> fits (decl P y) w -> inv (create st y w).
  Proof. intros [R M V] H. split; cbn; auto. apply mem_write; auto. Qed.

  Lemma expr_fits st t w : inv st -> expr P st t w -> fits t w.
  Proof.
    intros I H. induction H as [b n|t|t x Hx|t n x Hx Hn|t x Hx Ha|t u w H IH S Q]; intros c v u' p E Hp; try discriminate.
    - injection E as <- <- <-. rewrite pointed_addr in Hp. injection Hp as <-. eapply in_refs; eauto.
    - injection E as <- <- <-. rewrite pointed_addr in Hp. injection Hp as <-.
      pose proof (in_refs _ I _ _ Hx) as [K [(k & (c0 & v0 & b & E & _) & _)|[_ S]]]; [discriminate|].
      inversion S as [| |d u n' S' E1 E2]; subst. symmetry in E1.
      pose proof (so_element _ _ _ HS x d n 0 E1) as D. specialize (D Hn).
      rewrite E1 in K. eapply views_similar; [apply views_decl, D|exact S'|eapply keeps_element, K].
    - assert (F : fits (strip t) (mem st x)).
      { rewrite (strip_copy t Ha). apply (proj2 (fits_copy _ _ Ha)). eapply fits_read; [eapply in_refs; eauto|eapply in_mem; eauto]. }
      eapply F; eauto.
    - eapply fits_convert; eauto.
  Qed.

  (** ** Bases *)

  Lemma chain_hosts d k fs : first_chain (e_graph e) d k fs -> forall y, hosts y d ->
    hosts (along fs y) k /\ const_at (decl P (along fs y)) 0 = const_at (decl P y) 0.
  Proof.
    induction 1 as [a|a b l1 d f l2 fs N En _ _ IH]; intros y Hy; [auto|].
    destruct (so_base _ _ _ HS y a _ d f Hy En) as [H1 H2]; [apply in_elt|].
    cbn. destruct (IH (f y) H1) as [H3 H4]. unfold along in *. split; [exact H3|congruence].
  Qed.

  Lemma known_hosts k x d y : known e k x d y -> hosts x k -> hosts y d /\ const_at (decl P y) 0 = const_at (decl P x) 0.
  Proof. intros K H. inversion K as [D|D]; subst; [auto|]. apply (so_dynamic _ _ _ HS); auto. Qed.

  (** The base of a content: it is there and as const as the object. *)
  Lemma base_hosts c k z : (forall i, class_type (held c) i -> hosts (c_at c) i) ->
    (forall i p, pointer_type (held c) i -> c_ptr c = Some p -> hosts p i) -> base_at e c k z ->
    hosts z k /\ ((exists i, class_type (held c) i) /\ const_at (decl P z) 0 = const_at (decl P (c_at c)) 0 \/
                  exists i p, pointer_type (held c) i /\ c_ptr c = Some p /\ const_at (decl P z) 0 = const_at (decl P p) 0).
  Proof.
    intros H1 H2 (d & y & fs & O & _ & _ & F & <-). inversion O as [i d' y' C K|i p d' y' C E K]; subst.
    - destruct (known_hosts _ _ _ _ K (H1 i C)) as [A B]. destruct (chain_hosts _ _ _ F y A) as [D G]. split; [exact D|].
      left. split; [eauto|congruence].
    - destruct (known_hosts _ _ _ _ K (H2 i p C E)) as [A B]. destruct (chain_hosts _ _ _ F y A) as [D G]. split; [exact D|].
      right. exists i, p. split; [exact C|]. split; [exact E|congruence].
  Qed.

  (** ** Contents *)

  (** What a content may be taken for: [k], only as const. *)
  Definition holds (st : state) (k : bool) (c : content) : Prop :=
    usable (c_src c) /\ is_array (held c) = false /\ views (c_at c) (if k then constify (held c) else held c) /\
    c_ptr c = pointed (mem st (c_at c)).

  Lemma holds_weaken st k c : holds st false c -> holds st k c.
  Proof.
    intros (U & A & V & E). destruct k; [|exact (conj U (conj A (conj V E)))]. split; [exact U|]. split; [exact A|]. split; [|exact E].
    eapply views_similar; [exact V|apply constify_similar|apply keeps_constify].
  Qed.

  Lemma holds_hosts st k c i : holds st k c -> class_type (held c) i -> hosts (c_at c) i.
  Proof. intros (_ & _ & V & _) C. eapply views_hosts; [exact V|]. destruct k; [apply class_constify|]; exact C. Qed.

  Lemma holds_fits st k c : inv st -> holds st k c -> fits (held c) (mem st (c_at c)).
  Proof.
    intros I (_ & A & V & _). pose proof (fits_read _ _ _ V (in_mem _ I _)) as F. destruct k; [|exact F].
    exact (proj1 (fits_constify _ _ A) F).
  Qed.

  Lemma holds_pointee st k c i p : inv st -> holds st k c -> pointer_type (held c) i -> c_ptr c = Some p ->
    exists c' v' u, held c = TPtr c' v' u /\ class_type u i /\ views p u.
  Proof.
    intros I H (c' & v' & u & E & C) Hp. exists c', v', u. split; [exact E|]. split; [exact C|].
    eapply (holds_fits st k c I H); [exact E|]. destruct H as (_ & _ & _ & E'). congruence.
  Qed.

  Lemma holds_base st k c j z : inv st -> holds st k c -> base_at e c j z ->
    hosts z j /\ ((exists i, class_type (held c) i) /\ const_at (decl P z) 0 = const_at (decl P (c_at c)) 0 \/
                  exists i p, pointer_type (held c) i /\ c_ptr c = Some p /\ const_at (decl P z) 0 = const_at (decl P p) 0).
  Proof.
    intros I H B. apply base_hosts; [| |exact B].
    - intros i C. eapply holds_hosts; eauto.
    - intros i p C E. destruct (holds_pointee st k c i p I H C E) as (c' & v' & u & _ & C' & V). eapply views_hosts; eauto.
  Qed.

  Lemma class_views z T j : hosts z j -> class_type T j -> (const_at (decl P z) 0 = true -> const_at T 0 = true) -> views z T.
  Proof.
    intros H C Z. split; [|left; eauto]. destruct (so_hosts _ _ _ HS _ _ H) as (k' & c & v & b & E & _).
    destruct C as (c' & v' & b' & -> & _). rewrite E in *. intros [|n]; cbn in *; (split; [auto|]).
    - intros _ i Hi. lia.
    - intro N. destruct (N eq_refl).
  Qed.

  (** ** Accessors *)

  Lemma access_sound st k c a T p y : inv st -> holds st k c -> (k = true -> on_const a = true) -> flat T -> p <> Slot ->
    access e a (Some c) T = Got (Some p) -> place_of c p = Some y -> views y (q_ty (returned a T)).
  Proof.
    intros I H Hk [HT HaT] Np A E. pose proof H as (U & Ha & V & Ep).
    apply (access_cast e a c T p U) in A. destruct (cast_allowed e a c T p (so_env _ _ _ HS) U HT A) as [L Z].
    assert (V' : views (c_at c) (q_ty (expression a (held c)))).
    { rewrite expression_ty. destruct k; [rewrite (Hk eq_refl); exact V|]. destruct (on_const a); [|exact V].
      eapply views_similar; [exact V|apply constify_similar|apply keeps_constify]. }
    inversion L as [B|t n t' m E1 E2|t n c' v' t' E1 E2|i j z C1 C2 B|i j z P1 P2 B]; subst.
    - injection E as <-. destruct B as [S B]. eapply views_similar; [exact V'|exact S|].
      apply qual_keeps. destruct a; cbn in B |- *; destruct B; assumption.
    - rewrite E1 in Ha. discriminate.
    - discriminate.
    - injection E as <-. destruct (holds_base st k c j z I H B) as [Hz D]. apply class_views with j; [exact Hz|apply class_returned, C2|].
      intro Cz. apply Z. destruct D as [[_ D]|(i' & p & P1 & _)]; [|destruct (class_not_pointer _ _ _ C1 P1)].
      rewrite D in Cz. destruct V' as [K _]. exact (proj1 (K 0) Cz).
    - destruct (Np eq_refl).
  Qed.

  (** ** Conversions *)

  Lemma flat_regular r T : flat T -> regular (mkQ r T) /\ not_array (mkQ r T).
  Proof. intros [[R _] A]. split; [exact R|]. apply not_array_iff. exact A. Qed.

  Lemma to_sound st k k' c T g : inv st -> holds st k c -> flat T -> v_to e k' (Some c) T = Got g ->
    fits T (value_of P st c T g).
  Proof.
    intros I H HT A. pose proof H as (U & Ha & V & Ep). pose proof (usable_arrays _ U) as Hp. pose proof HT as [HuT HaT].
    unfold v_to, metafunc_to in A. rewrite (type_id_exp c k' Hp) in A.
    assert (Oth : forall o, bind (convert e c (exp_of k' (held c)) (mkQ RNone T)) (fun r => match r with Some w => Got (Converted w) | None => Throw end) = Got o ->
      fits T (value_of P st c T o)).
    { intros o Ho. unfold convert in Ho. destruct (is_pointer T) eqn:Ip.
      - rewrite HC in Ho; [discriminate|]. destruct T; [discriminate|reflexivity|discriminate].
      - intros c0 v0 u p ->. discriminate. }
    unfold when_compatible in A. destruct (compat _ _) eqn:Cp; [|apply Oth, A|discriminate].
    assert (Uh : usable (held c)) by (apply usable_held, U).
    destruct (same_decay (exp_of k' (held c)) (mkQ RNone T)) eqn:Sd.
    - unfold copied in A. destruct (e_copies e T); [|discriminate]. rewrite (stored_held c Hp), Ha in A. injection A as <-. cbn.
      apply same_decay_iff in Sd.
      assert (F : flat (if k' then constify (held c) else held c)).
      { split; [destruct k'; [apply usable_constify|]; exact Uh|]. destruct k'; [rewrite constify_array|]; exact Ha. }
      destruct (flat_regular RL _ F) as [R1 N1], (flat_regular RNone _ HT) as [R2 N2].
      pose proof (proj1 (compat_iff_binds _ _ R1 R2 N1 N2 Sd) Cp) as [S Q]. cbn in S, Q.
      eapply fits_convert; [|exact S|exact Q]. pose proof (holds_fits st k c I H) as Fc. destruct k'; [|exact Fc].
      exact (proj2 (fits_constify _ _ Ha) Fc).
    - destruct (tag_of (mkQ RNone T)) as [|j|j] eqn:Tg; [apply Oth, A| |].
      + apply tag_class in Tg. cbn in Tg. destruct Tg as (c0 & v0 & b & -> & _). intros c1 v1 u p E. discriminate.
      + pose proof (tag_pointer _ _ Tg HaT) as Pt. cbn in Pt. destruct (isClassPtr _) eqn:Cq; [|apply Oth, A].
        destruct (cast_imp e c j) as [[z|]| | | |] eqn:Ci; try discriminate; cbn [bind] in A; [|apply Oth, A].
        unfold copied in A. destruct (e_copies e T); [|discriminate]. injection A as <-. cbn.
        apply (cast_imp_spec e c j (so_env _ _ _ HS) Hp) in Ci.
        destruct (holds_base st k c j z I H Ci) as [Hz D].
        assert (Ph : exists i, pointer_type (held c) i).
        { destruct (base_at_types _ _ _ _ Ci) as [i [C|C]]; [|eauto]. exfalso.
          rewrite (class_not_isClassPtr _ i) in Cq; [discriminate|]. apply class_exp, C. }
        destruct Ph as [i0 Ph]. destruct D as [[[i C] _]|(i & p & P1 & P2 & P3)]; [destruct (class_not_pointer _ _ _ C Ph)|].
        destruct (holds_pointee st k c i p I H P1 P2) as (c' & v' & u & E1 & C1 & V1).
        intros c2 v2 u2 p2 E2 Hp2. rewrite pointed_addr in Hp2. injection Hp2 as <-.
        destruct Pt as (c3 & v3 & u3 & E3 & C3). rewrite E3 in E2. injection E2 as <- <- <-.
        apply class_views with j; [exact Hz|exact C3|]. rewrite P3. intro Cz.
        destruct V1 as [K1 _]. pose proof (proj1 (K1 0) Cz) as Cu.
        destruct C1 as (c4 & v4 & b4 & -> & _). destruct C3 as (c5 & v5 & b5 & -> & _). subst T.
        assert (Ee : exists c6, q_ty (exp_of k' (held c)) = TPtr c6 v' (TBase c4 v4 b4)) by (rewrite E1; destruct k'; cbn; eauto).
        destruct Ee as [c6 Ee]. apply (compat_pointer _ _ _ _ _ _ c3 v3 c5 v5 b5 Ee) in Cp; auto.
  Qed.

  (** ** Variables and arguments *)

  Lemma grants_holds st k f t x : grants k f t x -> holds st k (content_at st f t x).
  Proof.
    intros [F V]. split; [apply F|]. split; [apply flat_held, F|]. split; [|reflexivity]. unfold held. cbn.
    destruct f; [exact V|]. destruct k; [|exact V]. eapply views_similar; [exact V|apply constify_similar|apply keeps_constify].
  Qed.

  Lemma var_holds st i v k c : inv st -> nth_error (vars st) i = Some v -> (v_const v = true -> k = true) ->
    contents st v = Some c -> holds st k c.
  Proof.
    intros I Hv Hk Hc. unfold contents in Hc. destruct (v_content v) as [[[f t] x]|] eqn:E; [|discriminate]. injection Hc as <-.
    pose proof (grants_holds st _ _ _ _ (in_vars _ I _ _ _ _ (nth_error_In _ _ Hv) E)) as H.
    destruct (v_const v); [rewrite (Hk eq_refl); exact H|apply holds_weaken, H].
  Qed.

  (** The content an argument refers to, and whether the argument itself may be written. *)
  Lemma passes_holds st p rv : inv st -> passes st p ->
    forall c, referred_content (make_argument rv p) = Some c -> flat_source (source (make_argument rv p)) ->
    exists k, holds st k c /\
      match g_value (make_argument rv p) with Some (Inner k' _) => k' = k | Some (Plain _) => k = false | None => False end.
  Proof.
    intros I H c Hc Hf. inversion H as [t x Hx|t x Hx|i v k Hv Hk]; subst; cbn in *.
    - injection Hc as <-. exists false. split; [|reflexivity]. split; [apply Hf|]. split; [apply Hf|]. split; [|reflexivity].
      cbn. apply (in_refs _ I), Hx.
    - injection Hc as <-. exists false. split; [|reflexivity]. split; [apply Hf|]. split; [apply Hf|]. split; [|reflexivity].
      cbn. apply (in_refs _ I), Hx.
    - unfold referred_content in Hc. cbn in Hc. exists k. split; [|reflexivity]. eapply var_holds; eauto.
  Qed.

  Lemma flat_copy T : flat T -> flat (copy_type T).
  Proof. intros [U A]. split; [apply copy_usable, U|]. destruct T; cbn in *; congruence. Qed.

  (** A parameter bound to an object of the caller. *)
  Lemma bound_sound st p rv q pl c y : inv st -> passes st p -> flat (q_ty q) -> parameter_type (q_ty q) -> pl <> Slot ->
    flat_source (source (make_argument rv p)) -> arg_value e (make_argument rv p) q = Got (Direct pl) ->
    referred_content (make_argument rv p) = Some c -> place_of c pl = Some y -> views y (q_ty q).
  Proof.
    intros I Hp HT Hpar Np Hf A Hc E. destruct (passes_holds st p rv I Hp c Hc Hf) as (k & H & Hk).
    pose proof (flat_copy _ HT) as HT'. unfold arg_value in A. unfold referred_content in Hc.
    destruct (g_value (make_argument rv p)) as [r|] eqn:Er; [|contradiction].
    rewrite (decay_parameter _ Hpar) in A.
    assert (Sim : similar (copy_type (q_ty q)) (q_ty q)) by apply similar_sym, copy_similar.
    assert (Kc : keeps_const (copy_type (q_ty q)) (q_ty q)) by (apply keeps_copy, HT).
    destruct (q_ref q).
    - unfold value_copy in A. destruct (v_to _ _ _ _); discriminate.
    - destruct (is_const (q_ty q)) eqn:Cq.
      + unfold value_cref in A. destruct (access e DataC (const_content r) (copy_type (q_ty q))) as [[d|]| | | |] eqn:D; try discriminate; cbn [bind] in A.
        2:{ destruct (v_to _ _ _ _); discriminate. }
        injection A as ->. rewrite Hc in D.
        pose proof (access_sound st k c DataC _ pl y I H (fun _ => eq_refl) HT' Np D E) as V. cbn in V.
        eapply views_similar; [exact V| |].
        * eapply similar_trans; [apply similar_sym, constify_similar|exact Sim].
        * destruct HT as [_ Ha]. destruct (q_ty q) as [c0 v0 b|c0 v0 t|]; [| |discriminate]; cbn in Cq; subst; intro j; destruct j; cbn; split; auto;
            intro N; destruct (N eq_refl).
      + unfold value_lref in A. destruct (g_rvalue _); [discriminate|].
        destruct r as [c0|k' v]; cbn [mutable_content bind] in A.
        * destruct (access e RefL (Some c0) _) as [[d|]| | | |] eqn:D; try discriminate. injection A as ->. cbn in Hc. injection Hc as ->. subst k.
          eapply views_similar; [|exact Sim|exact Kc].
          exact (access_sound st false c RefL _ pl y I H ltac:(discriminate) HT' Np D E).
        * destruct k'; [discriminate|]. cbn [bind] in A. destruct (access e RefL v _) as [[d|]| | | |] eqn:D; try discriminate. injection A as ->.
          cbn in Hc. subst v k. eapply views_similar; [|exact Sim|exact Kc].
          exact (access_sound st false c RefL _ pl y I H ltac:(discriminate) HT' Np D E).
    - unfold value_rref in A. destruct (g_rvalue _); [cbn [negb] in A|discriminate].
      destruct r as [c0|k' v]; cbn [mutable_content bind] in A.
      * destruct (access e DataL (Some c0) _) as [[d|]| | | |] eqn:D; try discriminate; cbn [bind] in A.
        2:{ destruct (v_to _ _ _ _); discriminate. }
        injection A as ->. cbn in Hc. injection Hc as ->. subst k.
        eapply views_similar; [|exact Sim|exact Kc].
        exact (access_sound st false c DataL _ pl y I H ltac:(discriminate) HT' Np D E).
      * destruct k'; [discriminate|]. cbn [bind] in A. destruct (access e DataL v _) as [[d|]| | | |] eqn:D; try discriminate; cbn [bind] in A.
        2:{ destruct (v_to _ _ _ _); discriminate. }
        injection A as ->. cbn in Hc. subst v k. eapply views_similar; [|exact Sim|exact Kc].
        exact (access_sound st false c DataL _ pl y I H ltac:(discriminate) HT' Np D E).
  Qed.

  (** A parameter that is a temporary. *)
  Lemma temporary_sound st p rv q g c : inv st -> passes st p -> flat (q_ty q) -> parameter_type (q_ty q) ->
    flat_source (source (make_argument rv p)) -> arg_value e (make_argument rv p) q = Got (Temp g) ->
    referred_content (make_argument rv p) = Some c -> fits (decay (q_ty q)) (value_of P st c (decay (q_ty q)) g).
  Proof.
    intros I Hp HT Hpar Hf A Hc. destruct (passes_holds st p rv I Hp c Hc Hf) as (k & H & Hk).
    pose proof (flat_copy _ HT) as HT'. unfold arg_value in A. unfold referred_content in Hc.
    destruct (g_value (make_argument rv p)) as [r|] eqn:Er; [|contradiction].
    rewrite (decay_parameter _ Hpar) in *.
    assert (G : exists k', v_to e k' (Some c) (copy_type (q_ty q)) = Got g).
    { destruct (q_ref q).
      - unfold value_copy in A. rewrite Hc in A. destruct (v_to _ _ _ _) eqn:D; try discriminate. injection A as ->. eauto.
      - destruct (is_const (q_ty q)).
        + unfold value_cref in A. rewrite Hc in A. destruct (access _ _ _ _) as [[d|]| | | |]; try discriminate. cbn [bind] in A.
          destruct (v_to _ _ _ _) eqn:D; try discriminate. injection A as ->. eauto.
        + unfold value_lref in A. destruct (g_rvalue _); [discriminate|]. destruct (mutable_content r); try discriminate. cbn [bind] in A.
          destruct (access _ _ _ _) as [[d|]| | | |]; discriminate.
      - unfold value_rref in A. destruct (g_rvalue _); [cbn [negb] in A|discriminate].
        destruct r as [c0|k' v]; cbn [mutable_content bind] in A.
        + cbn in Hc. injection Hc as ->. destruct (access _ _ _ _) as [[d|]| | | |]; try discriminate. cbn [bind] in A.
          destruct (v_to _ _ _ _) eqn:D; try discriminate. injection A as ->. eauto.
        + destruct k'; [discriminate|]. cbn [bind] in A. cbn in Hc. subst v. destruct (access _ _ _ _) as [[d|]| | | |]; try discriminate. cbn [bind] in A.
          destruct (v_to _ _ _ _) eqn:D; try discriminate. injection A as ->. eauto. }
    destruct G as [k' G]. eapply to_sound; eauto.
  Qed.

  (** ** Member functions *)

  Lemma class_t_flat b cm : flat (class_t b cm).
  Proof. split; [apply class_t_usable|reflexivity]. Qed.

  Lemma member_sound st k v m x : inv st -> b_kind (m_class m) = KClass ->
    (forall c, v = Some c -> holds st k c) ->
    member_object e k v m = Done (Some x) -> views x (class_t (m_class m) (m_const m)).
  Proof.
    intros I Hb Hv A. destruct v as [c|]; [|discriminate]. pose proof (Hv c eq_refl) as H. unfold member_object in A.
    destruct (holds_class (Some c)).
    - destruct (k && negb (m_const m)) eqn:Km; [discriminate|].
      unfold ref_object in A. set (a := if k then RefC else RefL) in *.
      destruct (access e a (Some c) (class_t (m_class m) (m_const m))) as [[p|]| | | |] eqn:D; try discriminate. cbn [run andThen] in A.
      assert (E : place_of c p = Some x /\ p <> Slot) by (destruct p; cbn in A; try discriminate; injection A as <-; split; auto; discriminate).
      destruct E as [E Np].
      assert (Ok : k = true -> on_const a = true) by (intros ->; reflexivity).
      pose proof (access_sound st k c a _ p x I H Ok (class_t_flat _ _) Np D E) as V.
      unfold a in V. destruct k; [|exact V]. cbn in Km. destruct (m_const m); [exact V|discriminate].
    - destruct (holds_class_ptr (Some c)); [|discriminate]. unfold ptr_object in A.
      set (T := TPtr false false (class_t (m_class m) (m_const m))) in *.
      destruct (v_to e k (Some c) T) as [g| | | |] eqn:D; try discriminate. cbn [run andThen] in A.
      assert (FT : flat T) by (split; [apply class_ptr_usable|reflexivity]).
      pose proof (to_sound st k k c T g I H FT D) as F.
      assert (E : pointed (value_of P st c T g) = Some x).
      { pose proof H as (_ & _ & _ & Ep). destruct g as [| |z|z|w]; cbn in A |- *; try discriminate.
        - rewrite <- Ep. destruct (c_ptr c); [injection A as <-; reflexivity|discriminate].
        - injection A as <-. apply pointed_addr.
        - injection A as <-. apply pointed_addr. }
      eapply F; [reflexivity|exact E].
  Qed.

  Lemma views_member x b c v off t : views x (TBase c v b) -> b_kind b = KClass -> field P b off = Some t ->
    views (x + off) (if c then constify t else t).
  Proof.
    intros V K F. assert (C : class_type (TBase c v b) (b_id b)) by (repeat eexists; exact K).
    pose proof (views_hosts _ _ _ V C) as Hh. pose proof (so_member _ _ _ HS x b off t Hh K F) as D.
    pose proof (views_decl _ _ D) as W. destruct V as [Kc _]. destruct (Kc 0) as [Z _]. cbn in Z.
    destruct (const_at (decl P x) 0); [rewrite (Z eq_refl); exact W|]. destruct c; [|exact W].
    eapply views_similar; [exact W|apply constify_similar|apply keeps_constify].
  Qed.

  Lemma views_got x T : views x T -> views x (got_type T).
  Proof. intro V. unfold got_type. rewrite add_const_constify. eapply views_similar; [exact V|apply constify_similar|apply keeps_constify]. Qed.

  Lemma flat_got T : flat T -> flat (got_type T).
  Proof. intros [U A]. unfold got_type. rewrite add_const_constify. split; [apply usable_constify, U|rewrite constify_array; exact A]. Qed.

  Lemma instance_holds st i k v : inv st -> instances st (Some i) -> instance_variant i = (k, v) ->
    forall c, v = Some c -> holds st k c.
  Proof.
    intros I H E c Hc. inversion H as [|j u k' Hu Hk]; subst. cbn in E. injection E as <- E. eapply var_holds; eauto.
  Qed.

  (** ** Every step keeps the invariant and the const objects *)

  Definition kept (st st' : state) : Prop :=
    forall x, In x (live st) -> In x (live st') /\ (is_const (decl P x) = true -> mem st' x = mem st x).

  Lemma kept_same st st' : mem st' = mem st -> live st' = live st -> kept st st'.
  Proof. intros M L x H. rewrite M, L. auto. Qed.

  Lemma kept_create st st' y w : ~ In y (live st) -> mem st' = write (mem st) y w -> live st' = y :: live st -> kept st st'.
  Proof.
    intros N M L x H. rewrite M, L. split; [right; exact H|]. intros _. unfold write. destruct (Nat.eqb_spec x y) as [->|_]; [contradiction|reflexivity].
  Qed.

  Lemma kept_write st x w : is_const (decl P x) = false -> kept st (set_mem st (write (mem st) x w)).
  Proof.
    intros Z y H. split; [exact H|]. cbn. intro C. unfold write. destruct (Nat.eqb_spec y x) as [->|_]; [congruence|reflexivity].
  Qed.

  Lemma stored_copy st k t y : flat t -> stored (content_at st k t y) = match k with Refw => t | Val => copy_type t end.
  Proof. intros [U A]. unfold stored. cbn. destruct k; [|reflexivity]. destruct t; cbn in *; congruence. Qed.

  Lemma grants_value (k : bool) t y st : flat t -> decl P y = (let u := stored (content_at st Val t y) in if k then add_const u else u) ->
    grants k Val t y.
  Proof.
    intros F D. split; [exact F|]. cbn zeta in D. rewrite (stored_copy st Val t y F) in D. rewrite add_const_constify in D. apply views_decl, D.
  Qed.

  Lemma fits_value (k : bool) t y st w : flat t -> decl P y = (let u := stored (content_at st Val t y) in if k then add_const u else u) ->
    fits t w -> fits (decl P y) w.
  Proof.
    intros F D H. cbn zeta in D. rewrite (stored_copy st Val t y F) in D. rewrite add_const_constify in D. rewrite D. destruct F as [_ A].
    assert (A' : is_array (copy_type t) = false) by (destruct t; cbn in *; congruence).
    apply (fits_copy _ _ A) in H. destruct k; [exact (proj2 (fits_constify _ _ A') H)|exact H].
  Qed.

  Lemma step_sound st l st' : inv st -> step P e st l st' -> tame l -> inv st' /\ kept st st'.
  Proof.
    intros I H G. inversion H; subst; cbn [tame] in G.
    - (* SWrite *)
      match goal with Hx : In (LV t x) _ |- _ => pose proof (in_refs _ I _ _ Hx) as V end.
      pose proof (views_writable _ _ V H1) as Z.
      assert (F : fits (decl P x) w).
      { eapply fits_write; [exact V|assumption|]. pose proof (expr_fits st _ w I H3) as F. rewrite strip_copy in F by assumption.
        refine (proj1 (fits_copy _ _ _) F); assumption. }
      split; [|apply kept_write, Z]. apply inv_set_mem; [exact I|]. apply mem_write; [apply (in_mem _ I)|exact F].
    - (* SNew *)
      split.
      + apply inv_add_ref; [|apply views_decl; reflexivity]. apply inv_create; [exact I|].
        pose proof (expr_fits st _ w I H2) as F. rewrite strip_copy in F by assumption. refine (proj1 (fits_copy _ _ _) F); assumption.
      + eapply kept_create; [eassumption|reflexivity|reflexivity].
    - (* SNewArray *)
      split.
      + apply inv_add_ref; [|apply views_decl; reflexivity]. apply inv_create; [exact I|]. intros c v u p _ E. discriminate.
      + eapply kept_create; [eassumption|reflexivity|reflexivity].
    - (* SFollow *)
      split; [|apply kept_same; reflexivity]. apply inv_add_ref; [exact I|].
      pose proof (fits_read _ _ _ (in_refs _ I _ _ H0) (in_mem _ I x)) as F. eapply F; [reflexivity|assumption].
    - (* SBind *)
      split; [|apply kept_same; reflexivity]. apply inv_add_ref; [exact I|].
      eapply views_similar; [eapply (in_refs _ I); eassumption|assumption|apply qual_keeps; assumption].
    - (* SBase *)
      split; [|apply kept_same; reflexivity]. apply inv_add_ref; [exact I|].
      pose proof (in_refs _ I _ _ H0) as V.
      assert (C : class_type (TBase c v b) (b_id b)) by (repeat eexists; assumption).
      pose proof (views_hosts _ _ _ V C) as Hh. destruct (so_base _ _ _ HS x _ _ _ f Hh H2 H3) as [A1 A2].
      apply class_views with (b_id b'); [exact A1|repeat eexists; assumption|]. rewrite A2. destruct V as [K _]. exact (proj1 (K 0)).
    - (* SMember *)
      split; [|apply kept_same; reflexivity]. apply inv_add_ref; [exact I|]. rewrite add_const_constify. eapply views_member; eauto. apply (in_refs _ I); eassumption.
    - (* SElement *)
      split; [|apply kept_same; reflexivity]. apply inv_add_ref; [exact I|].
      pose proof (in_refs _ I _ _ H0) as [K [(k & (c0 & v0 & b & E & _) & _)|[_ S]]]; [discriminate|].
      inversion S as [| |d u n' S' E1 E2]; subst. symmetry in E1.
      pose proof (so_element _ _ _ HS x d n i E1 H1) as D. rewrite E1 in K.
      eapply views_similar; [apply views_decl, D|exact S'|eapply keeps_element, K].
    - (* SWrap *)
      split; [|apply kept_same; reflexivity]. apply inv_add_var; [exact I|]. split; [exact G|]. apply (in_refs _ I); assumption.
    - (* SHold *)
      split.
      + apply inv_add_var; [|eapply grants_value; eassumption]. apply inv_create; [exact I|]. eapply fits_value; [exact G|eassumption|].
        eapply fits_read; [eapply (in_refs _ I); eassumption|apply (in_mem _ I)].
      + eapply kept_create; [eassumption|reflexivity|reflexivity].
    - (* SCopyWrapper *)
      split; [|apply kept_same; reflexivity]. apply inv_add_var; [exact I|].
      destruct (in_vars _ I _ _ _ _ (nth_error_In _ _ H0) H1) as [F V]. split; [exact F|exact V].
    - (* SCopyValue *)
      destruct (in_vars _ I _ _ _ _ (nth_error_In _ _ H0) H1) as [F V].
      split.
      + apply inv_add_var; [|eapply grants_value; eassumption]. apply inv_create; [exact I|]. eapply fits_value; [exact F|eassumption|].
        pose proof (fits_read _ _ _ V (in_mem _ I x)) as W. destruct F as [_ Ha].
        assert (A' : is_array (copy_type t) = false) by (destruct t; cbn in *; congruence).
        apply (fits_copy _ _ Ha). destruct (v_const v); [exact (proj1 (fits_constify _ _ A') W)|exact W].
      + eapply kept_create; [eassumption|reflexivity|reflexivity].
    - (* SAccess *)
      split; [|apply kept_same; reflexivity]. apply inv_add_ref; [exact I|]. rewrite seen_returned.
      destruct G as [FT Np]. eapply (access_sound st (v_const v)); try eassumption. eapply var_holds; eauto.
    - (* STo *)
      split.
      + apply inv_add_ref; [|apply views_decl; reflexivity]. apply inv_create; [exact I|].
        eapply to_sound; try eassumption. eapply var_holds; eauto.
      + eapply kept_create; [eassumption|reflexivity|reflexivity].
    - (* SArgument *)
      destruct G as (G1 & G2 & G3 & G4). split; [|apply kept_same; reflexivity]. apply inv_add_ref; [exact I|].
      eapply bound_sound; try eassumption. congruence.
    - (* STemporary *)
      destruct G as (G1 & G2 & G3 & G4). split.
      + apply inv_add_ref.
        * apply inv_create; [exact I|]. match goal with D : decl P y = _ |- _ => rewrite D end. eapply temporary_sound; eassumption.
        * match goal with D : decl P y = _ |- _ => rewrite (decay_parameter _ G2) in D; pose proof (views_decl _ _ D) as V end.
          eapply views_similar; [exact V|apply similar_sym, copy_similar|apply keeps_copy, G1].
      + eapply kept_create; [eassumption|reflexivity|reflexivity].
    - (* SCall *)
      split; [|apply kept_same; reflexivity]. apply inv_add_ref; [exact I|].
      eapply member_sound; try eassumption. intros c Hc. eapply var_holds; eauto.
    - (* SGet *)
      split; [|apply kept_same; reflexivity]. apply inv_add_var; [exact I|]. split; [apply flat_got, G|].
      match goal with D : declared P st _ |- _ => inversion D as [x0 T0 Hx|b off T0 Hf Hb]; subst end; cbn in H1; injection H1 as ->.
      + unfold property_get in H3. destruct i; cbn in H3; [discriminate|]. injection H3 as <-. apply views_got, (in_refs _ I), Hx.
      + unfold property_get in H3. destruct i as [i|]; cbn [isStatic] in H3; [|discriminate]. destruct (instance_variant i) as [k0 v] eqn:Ei. cbn [snd get_field] in H3.
        destruct (get_object e v b) as [[z|]| | | | |] eqn:Go; try discriminate. cbn [andThen] in H3. injection H3 as <-.
        rewrite get_object_member in Go.
        assert (Hh : forall c, v = Some c -> holds st true c).
        { intros c Hc. inversion H2 as [|j u k' Hu Hk]; subst. cbn in Ei. injection Ei as <- Ei. eapply var_holds; [exact I|exact Hu|reflexivity|congruence]. }
        pose proof (member_sound st true v (Member b true []) z I Hb Hh Go) as V. cbn in V.
        apply (views_member _ _ _ _ _ _ V Hb) in Hf. cbn in Hf. unfold got_type. rewrite add_const_constify. exact Hf.
    - (* SSet *)
      destruct G as (FT & Hpar & Hfs).
      assert (Done_ : forall x g c, views x T -> is_const T = false -> arg_value e (make_argument rv q) (mkQ RNone T) = Got (Temp g) ->
        referred_content (make_argument rv q) = Some c ->
        inv (set_mem st (write (mem st) x (read_as P st T (make_argument rv q) (Temp g)))) /\
        kept st (set_mem st (write (mem st) x (read_as P st T (make_argument rv q) (Temp g))))).
      { intros x g c V Z A Hc. pose proof (views_writable _ _ V Z) as Zx. split; [|apply kept_write, Zx].
        apply inv_set_mem; [exact I|]. apply mem_write; [apply (in_mem _ I)|].
        eapply fits_write; [exact V|exact Z|]. unfold read_as. rewrite Hc.
        pose proof (temporary_sound st q rv (mkQ RNone T) g c I H3 FT Hpar Hfs A Hc) as F. cbn [q_ty] in F.
        rewrite (decay_parameter _ Hpar) in F. rewrite (copy_id T Z (proj1 FT) Hpar) in F. exact F. }
      assert (Arg : forall b, arg_value e (make_argument rv q) (mkQ RNone T) = Got b -> exists g c, b = Temp g /\ referred_content (make_argument rv q) = Some c).
      { intros b A. unfold arg_value in A. unfold referred_content. destruct (g_value (make_argument rv q)) as [r|]; [|discriminate].
        cbn [q_ref q_ty] in A. unfold value_copy in A. destruct (const_content r) as [c|]; [|discriminate].
        destruct (v_to _ _ _ _) as [g| | | |]; try discriminate. injection A as <-. eauto. }
      assert (Nothing_ : inv (set_mem st (mem st)) /\ kept st (set_mem st (mem st))).
      { split; [apply inv_set_mem; [exact I|apply (in_mem _ I)]|apply kept_same; reflexivity]. }
      match goal with D : declared P st _ |- _ => inversion D as [x0 T0 Hx|b off T0 Hf Hb]; subst end; cbn in H1; injection H1 as ->;
      unfold property_set in H5; destruct i as [i|]; cbn [isStatic] in H5.
      + injection H5 as <- _. exact Nothing_.
      + cbn [set_static] in H5. destruct (is_const T) eqn:Z; [injection H5 as <- _; exact Nothing_|].
        destruct (arg_value e _ _) as [bd| | | |] eqn:A; cbn [run failed] in H5; try (injection H5 as <- _; exact Nothing_).
        destruct (Arg bd eq_refl) as (g & c & -> & Hc). injection H5 as <- _. eapply Done_; eauto. apply (in_refs _ I), Hx.
      + destruct (instance_variant i) as [k0 v] eqn:Ei. cbn [set_field] in H5.
        destruct (is_const T) eqn:Z; [injection H5 as <- _; exact Nothing_|].
        destruct (k0 && holds_class v); [injection H5 as <- _; exact Nothing_|].
        destruct (negb (holds_class v || holds_class_ptr v)); [injection H5 as <- _; exact Nothing_|].
        destruct (arg_value e _ _) as [bd| | | |] eqn:A; cbn [run failed] in H5; try (injection H5 as <- _; exact Nothing_).
        destruct (Arg bd eq_refl) as (g & c & -> & Hc).
        destruct (set_object e k0 v b) as [[z|]| | | | |] eqn:So; cbn [failed] in H5; try (injection H5 as <- _; exact Nothing_).
        injection H5 as <- _. rewrite set_object_member in So.
        pose proof (member_sound st k0 v (Member b false []) z I Hb (instance_holds st i k0 v I H2 Ei) So) as V. cbn in V.
        eapply Done_; eauto. apply (views_member _ _ _ _ _ _ V Hb) in Hf. exact Hf.
      + injection H5 as <- _. exact Nothing_.
  Qed.

  Lemma kept_trans a b c : kept a b -> kept b c -> kept a c.
  Proof. intros H1 H2 x Hx. destruct (H1 x Hx) as [A B], (H2 x A) as [C D]. split; [exact C|]. intro Z. rewrite (D Z). auto. Qed.

  Lemma steps_sound st ls st' : steps P e st ls st' -> Forall tame ls -> inv st -> inv st' /\ kept st st'.
  Proof.
    induction 1 as [st|st l st' ls st'' H _ IH]; intros G I.
    - split; [exact I|apply kept_same; reflexivity].
    - inversion G; subst. destruct (step_sound st l st' I H) as [I' K]; [assumption|]. destruct (IH H3 I') as [I'' K'].
      split; [exact I''|eapply kept_trans; eauto].
  Qed.
End World.

(** ** What const variants hold *)

Definition own_places (P : places) (st : state) : Prop :=
  forall v t x, In v (vars st) -> v_content v = Some (Val, t, x) ->
    In x (live st) /\ (v_const v = true -> is_array t = false -> const_at (decl P x) 0 = true).

Lemma own_step P e st l st' : own_places P st -> step P e st l st' -> own_places P st'.
Proof.
  intros O H.
  assert (Same : forall s, vars s = vars st -> (forall x, In x (live st) -> In x (live s)) -> own_places P s).
  { intros s E L v t x Hv Hc. rewrite E in Hv. destruct (O v t x Hv Hc) as [A B]. split; auto. }
  assert (Wrapper : forall k t x, own_places P (add_var st (Holder k (Some (Refw, t, x))))).
  { intros k t x v t' x' Hv Hc. cbn in Hv. apply in_app_or in Hv. destruct Hv as [Hv|[<-|[]]]; [apply (O v t' x' Hv Hc)|discriminate]. }
  assert (Own : forall (k : bool) t y w, decl P y = (let u := stored (content_at st Val t y) in if k then add_const u else u) ->
    own_places P (add_var (create st y w) (Holder k (Some (Val, t, y))))).
  { intros k t y w D v t' x' Hv Hc. cbn in Hv. apply in_app_or in Hv. destruct Hv as [Hv|[<-|[]]].
    - destruct (O v t' x' Hv Hc) as [A B]. split; [right; exact A|exact B].
    - cbn in Hc. injection Hc as <- <-. split; [left; reflexivity|]. cbn. intros -> Ha. rewrite D. unfold stored. cbn.
      destruct t; cbn in *; congruence. }
  inversion H; subst; try (apply Same; cbn; auto; fail); try apply Wrapper; apply Own; assumption.
Qed.

Lemma own_steps P e st ls st' : steps P e st ls st' -> own_places P st -> own_places P st'.
Proof. induction 1 as [|st l st' ls st'' H _ IH]; eauto using own_step. Qed.

Lemma own_start P : own_places P start.
Proof. intros v t x []. Qed.
