(** Proofs about processes made of modules (C66): a process with one copy of the library is simulated by one in which
    everything is linked into one module. *)
From Coq Require Import NArith List Bool Arith String Lia.
From Verif Require Import TypesModel TypesSpec TypesProofs InheritModel RegistryModel AccModel ModuleModel ModuleSpec.
Import ListNotations.
Local Open Scope list_scope.

(** ** Lists *)

Lemma qeqb_eq a b : qeqb a b = true <-> a = b.
Proof. unfold qeqb. destruct (qty_eq_dec a b); split; congruence. Qed.
Lemma key_eqb_eq a b : key_eqb a b = true <-> a = b.
Proof.
  destruct a as [m q], b as [n r]. unfold key_eqb. cbn. rewrite andb_true_iff, Nat.eqb_eq, qeqb_eq. split; [intros [-> ->]; reflexivity|intros [= -> ->]; auto].
Qed.
Lemma id_eqb_eq a b : id_eqb a b = true <-> a = b.
Proof. destruct a, b. unfold id_eqb. cbn. rewrite andb_true_iff, !Nat.eqb_eq. split; [intros [-> ->]; reflexivity|intros [= -> ->]; auto]. Qed.
Lemma object_eqb_eq a b : object_eqb a b = true <-> a = b.
Proof.
  destruct a as [m [[f t] k]], b as [m' [[f' t'] k']]. unfold object_eqb. rewrite !andb_true_iff, !Nat.eqb_eq, !qeqb_eq.
  split; [intros [[[-> ->] ->] ->]; reflexivity|intros [= -> -> -> ->]; auto].
Qed.

Section Assoc.
  Context {K V : Type} (eqb : K -> K -> bool) (Heq : forall a b, eqb a b = true <-> a = b).
  Lemma assoc_app k (l : list (K * V)) k' v :
    assoc eqb k (l ++ [(k', v)]) = match assoc eqb k l with Some x => Some x | None => if eqb k k' then Some v else None end.
  Proof. induction l as [|[j x] l IH]; cbn; [reflexivity|]. destruct (eqb k j); [reflexivity|exact IH]. Qed.
  Lemma assoc_filter f k (l : list (K * V)) : (forall p, fst p = k -> f p = true) -> assoc eqb k (filter f l) = assoc eqb k l.
  Proof.
    intro Hf. induction l as [|[j x] l IH]; [reflexivity|]. cbn [filter assoc]. destruct (eqb k j) eqn:E.
    - apply Heq in E. subst j. rewrite (Hf (k, x) eq_refl). cbn [assoc]. rewrite (proj2 (Heq k k) eq_refl). reflexivity.
    - destruct (f (j, x)); [cbn [assoc]; rewrite E; exact IH|exact IH].
  Qed.
  Lemma assoc_filter_none f k (l : list (K * V)) : (forall p, fst p = k -> f p = false) -> assoc eqb k (filter f l) = None.
  Proof.
    intro Hf. induction l as [|[j x] l IH]; [reflexivity|]. cbn [filter]. destruct (f (j, x)) eqn:E; [|exact IH].
    cbn [assoc]. destruct (eqb k j) eqn:E'; [|exact IH]. apply Heq in E'. subst j. rewrite (Hf (k, x) eq_refl) in E. discriminate.
  Qed.
  Lemma assoc_in k v (l : list (K * V)) : assoc eqb k l = Some v -> In (k, v) l.
  Proof.
    induction l as [|[j x] l IH]; cbn; [discriminate|]. destruct (eqb k j) eqn:E; [|intro H; right; auto]. apply Heq in E. subst. intros [= ->]. left. reflexivity.
  Qed.
End Assoc.

Lemma is_loaded_iff st m : is_loaded st m = true <-> In m (loaded st).
Proof.
  unfold is_loaded. rewrite existsb_exists. split.
  - intros (x & Hx & E). apply Nat.eqb_eq in E. subst. exact Hx.
  - intro H. exists m. split; [exact H|apply Nat.eqb_refl].
Qed.

Lemma position_app n l l' p : position n l = Some p -> position n (l ++ l') = Some p.
Proof.
  revert p. induction l as [|x l IH]; intros p; cbn; [discriminate|]. destruct (en_name x =? n)%string; [auto|].
  destruct (position n l) as [r|]; [|discriminate]. intros [= <-]. rewrite (IH r eq_refl). reflexivity.
Qed.
Lemma position_new n l x : position n l = None -> en_name x = n -> position n (l ++ [x]) = Some (List.length l).
Proof.
  intros H E. induction l as [|y l IH]; cbn in *.
  - rewrite E, String.eqb_refl. reflexivity.
  - destruct (en_name y =? n)%string; [discriminate|]. destruct (position n l); [discriminate|]. rewrite (IH eq_refl). reflexivity.
Qed.
Lemma position_nth n l p : position n l = Some p -> exists x, nth_error l p = Some x /\ en_name x = n.
Proof.
  revert p. induction l as [|y l IH]; intros p; cbn; [discriminate|]. destruct (en_name y =? n)%string eqn:E.
  - intros [= <-]. exists y. split; [reflexivity|]. apply String.eqb_eq. exact E.
  - destruct (position n l) as [r|]; [|discriminate]. intros [= <-]. apply IH. reflexivity.
Qed.

Lemma Forall2_app1 {A B} (R : A -> B -> Prop) l l' x y : Forall2 R l l' -> R x y -> Forall2 R (l ++ [x]) (l' ++ [y]).
Proof. intros H1 H2. apply Forall2_app; [exact H1|]. constructor; [exact H2|constructor]. Qed.
Lemma Forall2_len {A B} (R : A -> B -> Prop) l l' : Forall2 R l l' -> List.length l = List.length l'.
Proof. induction 1; cbn; congruence. Qed.
Lemma Forall2_nth1 {A B} (R : A -> B -> Prop) l l' i x : Forall2 R l l' -> nth_error l i = Some x -> exists y, nth_error l' i = Some y /\ R x y.
Proof.
  intro H. revert i. induction H as [|a b l l' Hab _ IH]; intros [|i]; cbn; try discriminate; [intros [= ->]; eauto|apply IH].
Qed.
Lemma Forall2_set_nth {A B} (R : A -> B -> Prop) l l' i x y : Forall2 R l l' -> R x y -> Forall2 R (set_nth i x l) (set_nth i y l').
Proof.
  intros H Hxy. revert i. induction H as [|a b l l' Hab Hl IH]; intros [|i]; cbn; constructor; auto.
Qed.
Lemma Forall2_imp {A B} (R S : A -> B -> Prop) l l' : (forall x y, In x l -> In y l' -> R x y -> S x y) -> Forall2 R l l' -> Forall2 S l l'.
Proof.
  intros H H2. induction H2 as [|a b l l' Hab Hl IH]; constructor.
  - apply H; [left; reflexivity|left; reflexivity|exact Hab].
  - apply IH. intros x y Hx Hy. apply H; right; assumption.
Qed.

(** ** The simulation *)

Section Sim.
Variable L : linkage.
Variable nm : qty -> string.
Variable hash : string -> nat.
Variable e : env.
Hypothesis HL : shared L.

Notation ident := (ident L nm hash).
Notation ident1 := (ModuleModel.ident single nm hash).
Notation enter := (enter L nm hash).
Notation enter1 := (ModuleModel.enter single nm hash).

Definition entry_rel (ms : list nat) (x y : entry) : Prop :=
  en_name y = en_name x /\ en_owner y = en_owner x /\ en_decay y = en_decay x /\ en_class y = en_class x /\
  In (en_text x) ms /\ In (en_table x) ms /\ en_text y = 0 /\ en_table y = 0.

(** What the static of a type in the single module means. *)
Definition known (st' : state) (q : qty) (t : ident_t) : Prop :=
  (nm q = ""%string /\ t = None) \/ (nm q <> ""%string /\ exists p, position (nm q) (types st' 0) = Some p /\ t = Some (0, p)).
Definition decay_known (st' : state) (q : qty) : Prop :=
  q = full_decay q \/ is_void (full_decay q) = true \/ exists d, assoc key_eqb (0, full_decay q) (ids st') = Some d.

(** What an entry of the single process says about its type and the decayed type. *)
Definition entry_ok (st' : state) (p : nat) (x : entry) : Prop :=
  let q := en_owner x in let d := full_decay q in
  en_name x = nm q /\ position (nm q) (types st' 0) = Some p /\
  (((q = d \/ is_void d = true \/ nm d = ""%string) /\ en_decay x = (0, p)) \/
   (q <> d /\ is_void d = false /\ exists r, position (nm d) (types st' 0) = Some r /\ en_decay x = (0, r))).
Definition decay_given (st' : state) (q : qty) (dec : ident_t) : Prop :=
  let d := full_decay q in
  (q = d /\ dec = None) \/ (q <> d /\ is_void d = true /\ dec = None) \/ (q <> d /\ is_void d = false /\ known st' d dec).

Record trel (st st' : state) : Prop := {
  t_loaded : loaded st' = loaded st;
  t_closed : closed L (loaded st);
  t_types : Forall2 (entry_rel (loaded st)) (types st 0) (types st' 0);
  t_ids : forall m q t, assoc key_eqb (m, q) (ids st) = Some t -> assoc key_eqb (0, q) (ids st') = Some t;
  t_known : forall q t, assoc key_eqb (0, q) (ids st') = Some t -> known st' q t /\ decay_known st' q;
  t_entries : forall p x, nth_error (types st' 0) p = Some x -> entry_ok st' p x }.

(** Only the registry of types and the statics of identifiers differ. *)
Record keeps (st st1 : state) : Prop := {
  k_loaded : loaded st1 = loaded st; k_vars : vars st1 = vars st; k_items : items st1 = items st;
  k_convs : convs st1 = convs st; k_objects : objects st1 = objects st;
  k_types : exists l, types st1 0 = types st 0 ++ l }.
Lemma keeps_refl st : keeps st st.
Proof. constructor; auto. exists []. rewrite app_nil_r. reflexivity. Qed.
Lemma keeps_trans a b c : keeps a b -> keeps b c -> keeps a c.
Proof.
  intros [A1 A2 A3 A4 A5 [l A6]] [B1 B2 B3 B4 B5 [l' B6]]. constructor; try congruence. exists (l ++ l'). rewrite B6, A6, app_assoc. reflexivity.
Qed.
(** Nothing but entries of [q] and its decayed type is new. *)
Definition adds (q : qty) (st st1 : state) : Prop :=
  forall x, In x (types st1 0) -> In x (types st 0) \/ en_owner x = q \/ en_owner x = full_decay q.
Lemma keeps_add_id st k t : keeps st (add_id st k t).
Proof. constructor; auto. exists []. rewrite app_nil_r. reflexivity. Qed.

Lemma position_rel ms l l' n : Forall2 (entry_rel ms) l l' -> position n l' = position n l.
Proof. induction 1 as [|x y l l' (E & _) _ IH]; cbn; [reflexivity|]. rewrite E, IH. reflexivity. Qed.

Lemma find_name_rel st st' n : trel st st' -> find_name hash st 0 n = Some (position n (types st 0)).
Proof.
  intro R. unfold find_name. replace (existsb _ (types st 0)) with false; [reflexivity|]. symmetry. apply not_true_is_false.
  intro H. apply existsb_exists in H as (x & Hx & E). apply andb_prop in E as [_ E].
  apply In_nth_error in Hx as [i Hi]. destruct (Forall2_nth1 _ _ _ _ _ (t_types _ _ R) Hi) as (y & _ & _ & _ & _ & _ & Hl & _).
  apply negb_true_iff in E. apply is_loaded_iff in Hl. congruence.
Qed.
Lemma find_name_rel1 st st' n : trel st st' -> find_name hash st' 0 n = Some (position n (types st 0)).
Proof.
  intro R. unfold find_name. replace (existsb _ (types st' 0)) with false.
  - rewrite (position_rel _ _ _ n (t_types _ _ R)). reflexivity.
  - symmetry. apply not_true_is_false. intro H. apply existsb_exists in H as (y & Hy & E). apply andb_prop in E as [_ E].
    assert (Hy0 : en_text y = 0).
    { revert Hy. generalize (t_types _ _ R). induction 1 as [|a b l l' Hab _ IH]; [intros []|]. intros [<-|Hy]; [apply Hab|apply IH; exact Hy]. }
    rewrite Hy0 in E. apply negb_true_iff in E. pose proof (proj1 (t_closed _ _ R)) as H0. rewrite <- (t_loaded _ _ R) in H0. apply is_loaded_iff in H0. congruence.
Qed.

Lemma known_ext st' st1' q t : (exists l, types st1' 0 = types st' 0 ++ l) -> known st' q t -> known st1' q t.
Proof. intros [l E] [K|(H & p & Hp & Ht)]; [left; exact K|right]. split; [exact H|]. exists p. split; [rewrite E; apply position_app; exact Hp|exact Ht]. Qed.

Lemma enter_known m q st st' t dec : trel st st' -> known st' q t -> enter m q st dec = Some (st, t).
Proof.
  intros R K. unfold ModuleModel.enter. rewrite HL. destruct K as [[E ->]|(E & p & Hp & ->)].
  - rewrite E. reflexivity.
  - apply String.eqb_neq in E. rewrite E, (find_name_rel _ _ _ R). rewrite (position_rel _ _ _ _ (t_types _ _ R)) in Hp. rewrite Hp. reflexivity.
Qed.
Lemma enter_known1 m q st st' t dec : trel st st' -> known st' q t -> enter1 m q st' dec = Some (st', t).
Proof.
  intros R K. unfold ModuleModel.enter. cbn [image single]. destruct K as [[E ->]|(E & p & Hp & ->)].
  - rewrite E. reflexivity.
  - apply String.eqb_neq in E. rewrite E, (find_name_rel1 _ _ _ R). rewrite (position_rel _ _ _ _ (t_types _ _ R)) in Hp. rewrite Hp. reflexivity.
Qed.

Lemma entry_ok_ext st' st1' p x : (exists l, types st1' 0 = types st' 0 ++ l) -> entry_ok st' p x -> entry_ok st1' p x.
Proof.
  intros [l E] (H1 & H2 & H3). unfold entry_ok. cbn zeta. rewrite E. split; [exact H1|]. split; [apply position_app; exact H2|].
  destruct H3 as [H3|(N & V & r & Hr & Hd)]; [left; exact H3|right]. split; [exact N|]. split; [exact V|]. exists r. split; [apply position_app; exact Hr|exact Hd].
Qed.

Lemma enter_sim m q st st' dec : trel st st' -> In m (loaded st) -> decay_given st' q dec ->
  exists st1 st1' t, enter m q st dec = Some (st1, t) /\ enter1 m q st' dec = Some (st1', t) /\ trel st1 st1' /\
    known st1' q t /\ keeps st st1 /\ keeps st' st1' /\ ids st1' = ids st' /\ adds q st' st1'.
Proof.
  intros R Hm Hdec. destruct (nm q =? "")%string eqn:En.
  - exists st, st', None. unfold ModuleModel.enter. rewrite En. apply String.eqb_eq in En.
    split; [reflexivity|]. split; [reflexivity|]. split; [exact R|]. split; [left; auto|]. split; [apply keeps_refl|]. split; [apply keeps_refl|split; [reflexivity|intros x Hx; auto]].
  - apply String.eqb_neq in En as En'. destruct (position (nm q) (types st 0)) as [p|] eqn:Ep.
    + assert (K : known st' q (Some (0, p))).
      { right. split; [exact En'|]. exists p. split; [rewrite (position_rel _ _ _ _ (t_types _ _ R)); exact Ep|reflexivity]. }
      exists st, st', (Some (0, p)). split; [eapply enter_known; eauto|]. split; [eapply enter_known1; eauto|]. split; [exact R|].
      split; [exact K|]. split; [apply keeps_refl|]. split; [apply keeps_refl|split; [reflexivity|intros x Hx; auto]].
    + pose proof (Forall2_len _ _ _ (t_types _ _ R)) as Hlen.
      unfold ModuleModel.enter. rewrite HL, En. cbn [image single copy]. rewrite (find_name_rel _ _ _ R), (find_name_rel1 _ _ _ R), Ep, <- Hlen.
      set (p := List.length (types st 0)) in *. set (d := match dec with Some d => d | None => (0, p) end).
      eexists _, _, _. split; [reflexivity|]. split; [reflexivity|].
      set (x := Entry (nm q) (copy L m (SText q)) q d (copy L m (STable q)) None).
      set (y := Entry (nm q) 0 q d 0 None).
      assert (Epy : position (nm q) (types st' 0 ++ [y]) = Some p).
      { rewrite Hlen. apply position_new; [rewrite (position_rel _ _ _ _ (t_types _ _ R)); exact Ep|reflexivity]. }
      assert (Kx : keeps st (set_types st 0 (types st 0 ++ [x]))) by (constructor; auto; exists [x]; reflexivity).
      assert (Ky : keeps st' (set_types st' 0 (types st' 0 ++ [y]))) by (constructor; auto; exists [y]; reflexivity).
      split; [|split; [|split; [exact Kx|split; [exact Ky|split; [reflexivity|]]]]].
      * constructor.
        5:{ intros r t Hr. destruct (t_known _ _ R r t Hr) as [K D]. split; [eapply known_ext; [apply (k_types _ _ Ky)|exact K]|exact D]. }
        5:{ intros r z Hz. cbn in Hz. destruct (Nat.lt_ge_cases r (List.length (types st' 0))) as [Hlt|Hge].
            - rewrite nth_error_app1 in Hz by exact Hlt. eapply entry_ok_ext; [exact (k_types _ _ Ky)|]. apply (t_entries _ _ R). exact Hz.
            - rewrite nth_error_app2 in Hz by exact Hge. destruct (r - List.length (types st' 0)) as [|j] eqn:Ej; [|destruct j; discriminate].
              cbn in Hz. injection Hz as <-. assert (r = p) as -> by lia. split; [reflexivity|]. split; [exact Epy|]. cbn [en_owner en_decay y].
              destruct Hdec as [[H1 H2]|[(H1 & H2 & H3)|(H1 & H2 & [[H3 H4]|(H3 & u & Hu & H4)])]].
              + left. split; [left; exact H1|]. unfold d. rewrite H2. reflexivity.
              + left. split; [right; left; exact H2|]. unfold d. rewrite H3. reflexivity.
              + left. split; [right; right; exact H3|]. unfold d. rewrite H4. reflexivity.
              + right. split; [exact H1|]. split; [exact H2|]. exists u. split; [cbn; apply position_app; exact Hu|]. unfold d. rewrite H4. reflexivity. }
        all: cbn.
        -- exact (t_loaded _ _ R).
        -- exact (t_closed _ _ R).
        -- apply Forall2_app1; [exact (t_types _ _ R)|]. unfold entry_rel. cbn. repeat split; auto; apply (t_closed _ _ R); exact Hm.
        -- exact (t_ids _ _ R).
      * right. split; [exact En'|]. exists p. split; [exact Epy|reflexivity].
      * intros z Hz. cbn in Hz. apply in_app_or in Hz as [Hz|[<-|[]]]; auto.
Qed.

(** The statics. *)
Lemma trel_add_id st st' m q t : trel st st' -> assoc key_eqb (0, q) (ids st') = Some t -> trel (add_id st (m, q) t) st'.
Proof.
  intros R H. constructor; cbn; try apply R.
  intros m' q' t'. rewrite assoc_app. destruct (assoc key_eqb (m', q') (ids st)) as [u|] eqn:E; [intros [= <-]; eapply t_ids; eauto|].
  destruct (key_eqb (m', q') (m, q)) eqn:Ek; [|discriminate]. apply key_eqb_eq in Ek. injection Ek as -> ->. intros [= <-]. exact H.
Qed.
Lemma trel_add_both st st' m q t : trel st st' -> assoc key_eqb (0, q) (ids st') = None -> known st' q t -> decay_known st' q ->
  trel (add_id st (m, q) t) (add_id st' (0, q) t).
Proof.
  intros R H K D. constructor; cbn; try apply R.
  - intros m' q' t'. rewrite !assoc_app. destruct (assoc key_eqb (m', q') (ids st)) as [u|] eqn:E.
    + intros [= <-]. rewrite (t_ids _ _ R _ _ _ E). reflexivity.
    + destruct (key_eqb (m', q') (m, q)) eqn:Ek; [|discriminate]. apply key_eqb_eq in Ek. injection Ek as -> ->. intros [= <-].
      rewrite H. rewrite (proj2 (key_eqb_eq (0, q) (0, q)) eq_refl). reflexivity.
  - assert (DE : forall r, decay_known st' r -> decay_known (add_id st' (0, q) t) r).
    { intros r [Hr|[Hr|[d Hd]]]; [left; exact Hr|right; left; exact Hr|]. right. right. exists d. cbn. rewrite assoc_app, Hd. reflexivity. }
    intros r u. rewrite assoc_app. destruct (assoc key_eqb (0, r) (ids st')) as [v|] eqn:E.
    + intros [= <-]. destruct (t_known _ _ R _ _ E) as [K1 D1]. split; [exact K1|apply DE; exact D1].
    + destruct (key_eqb (0, r) (0, q)) eqn:Ek; [|discriminate]. apply key_eqb_eq in Ek. injection Ek as ->. intros [= <-].
      split; [exact K|apply DE; exact D].
Qed.

Definition sim (m : nat) (q : qty) (st st' : state) (r r' : result ident_t) : Prop :=
  exists st1 st1' t, r = Some (st1, t) /\ r' = Some (st1', t) /\ trel st1 st1' /\ keeps st st1 /\ keeps st' st1' /\
    (is_void q = true -> t = None) /\ (is_void q = false -> known st1' q t /\ assoc key_eqb (0, q) (ids st1') = Some t) /\ adds q st' st1'.

(** No static of void. *)
Lemma once_decayed m d st st' : trel st st' -> In m (loaded st) -> d = full_decay d ->
  sim m d st st' (once L m d st (fun st => enter m d st None)) (once single m d st' (fun st => enter1 m d st None)).
Proof.
  intros R Hm Hd. unfold once, next, sim. destruct (is_void d) eqn:Ev.
  { exists st, st', None. do 5 (split; [first [reflexivity|exact R|apply keeps_refl]|]). split; [reflexivity|]. split; [discriminate|intros x Hx; auto]. }
  cbn [copy single]. destruct (assoc key_eqb (0, d) (ids st')) as [t|] eqn:E'.
  - destruct (t_known _ _ R _ _ E') as [K _].
    destruct (assoc key_eqb (copy L m (SId d), d) (ids st)) as [u|] eqn:E.
    + pose proof (t_ids _ _ R _ _ _ E) as Hu. rewrite E' in Hu. injection Hu as <-.
      exists st, st', t. do 6 (split; [first [reflexivity|exact R|apply keeps_refl|discriminate]|]). split; [intros _; split; [exact K|reflexivity || exact E']|intros x Hx; auto].
    + rewrite (enter_known m d st st' t None R K). exists (add_id st (copy L m (SId d), d) t), st', t.
      split; [reflexivity|]. split; [reflexivity|]. split; [apply trel_add_id; assumption|]. split; [apply keeps_add_id|]. split; [apply keeps_refl|].
      split; [discriminate|]. split; [intros _; split; [exact K|assumption]|intros x Hx; auto].
  - destruct (assoc key_eqb (copy L m (SId d), d) (ids st)) as [u|] eqn:E.
    { apply (t_ids _ _ R) in E. rewrite E' in E. discriminate. }
    destruct (enter_sim m d st st' None R Hm (or_introl (conj Hd eq_refl))) as (st1 & st1' & t & E1 & E2 & R1 & K & Ka & Kb & Ei & Ad).
    rewrite E1, E2. exists (add_id st1 (copy L m (SId d), d) t), (add_id st1' (0, d) t), t.
    split; [reflexivity|]. split; [reflexivity|].
    split; [apply trel_add_both; [exact R1|rewrite Ei; exact E'|exact K|left; exact Hd]|].
    split; [eapply keeps_trans; [exact Ka|apply keeps_add_id]|]. split; [eapply keeps_trans; [exact Kb|apply keeps_add_id]|].
    split; [discriminate|]. split; [|exact Ad]. intros _. split; [exact K|]. cbn. rewrite assoc_app, Ei, E'. rewrite (proj2 (key_eqb_eq (0, d) (0, d)) eq_refl). reflexivity.
Qed.

Lemma once_decayed_ids m d st st' st1' t q : once single m d st' (fun st => enter1 m d st None) = Some (st1', t) -> trel st st' -> In m (loaded st) -> d = full_decay d ->
  q <> d -> assoc key_eqb (0, q) (ids st1') = assoc key_eqb (0, q) (ids st').
Proof.
  intros H R Hm Hd Hq. unfold once, next in H. destruct (is_void d); [congruence|]. cbn [copy single] in H.
  destruct (assoc key_eqb (0, d) (ids st')) as [u|]; [congruence|].
  destruct (enter_sim m d st st' None R Hm (or_introl (conj Hd eq_refl))) as (st2 & st2' & t2 & _ & E2 & _ & _ & _ & _ & Ei & _). rewrite E2 in H. injection H as <- <-.
  cbn. rewrite assoc_app, Ei. destruct (assoc key_eqb (0, q) (ids st')); [reflexivity|].
  destruct (key_eqb (0, q) (0, d)) eqn:Ek; [|reflexivity]. apply key_eqb_eq in Ek. congruence.
Qed.

Lemma ident_sim m st st' q : trel st st' -> In m (loaded st) -> sim m q st st' (ident m st q) (ident1 m st' q).
Proof.
  intros R Hm. unfold ModuleModel.ident. destruct (qeqb q (full_decay q)) eqn:Eq.
  { apply qeqb_eq in Eq. apply once_decayed; assumption. }
  assert (Hne : q <> full_decay q) by (intro X; apply qeqb_eq in X; congruence).
  set (d := full_decay q) in *. assert (Hd : d = full_decay d) by (symmetry; apply full_decay_idem).
  unfold once at 1 3, sim. destruct (is_void q) eqn:Ev.
  { exists st, st', None. do 5 (split; [first [reflexivity|exact R|apply keeps_refl]|]). split; [reflexivity|]. split; [discriminate|intros x Hx; auto]. }
  cbn [copy single]. destruct (once_decayed m d st st' R Hm Hd) as (s1 & s1' & td & H1 & H1' & R1 & K1 & K1' & Hvoid & Hknown & Ad1).
  pose proof (once_decayed_ids m d st st' s1' td q H1' R Hm Hd Hne) as Hids.
  destruct (assoc key_eqb (0, q) (ids st')) as [t|] eqn:E'.
  - destruct (t_known _ _ R _ _ E') as [K D].
    destruct (assoc key_eqb (copy L m (SId q), q) (ids st)) as [u|] eqn:E.
    + pose proof (t_ids _ _ R _ _ _ E) as Hu. rewrite E' in Hu. injection Hu as <-.
      exists st, st', t. do 6 (split; [first [reflexivity|exact R|apply keeps_refl|discriminate]|]). split; [intros _; split; [exact K|reflexivity || exact E']|intros x Hx; auto].
    + (* the decayed type has its static already: the single process is left alone *)
      assert (Hs : s1' = st').
      { unfold once in H1'. destruct D as [D|[D|[u D]]]; [contradiction|fold d in D; rewrite D in H1'; congruence|].
        fold d in D. destruct (is_void d); [congruence|]. cbn [copy single] in H1'. rewrite D in H1'. congruence. }
      subst s1'. rewrite H1. cbn [next].
      rewrite (enter_known m q s1 st' t td R1 K). cbn [next]. exists (add_id s1 (copy L m (SId q), q) t), st', t.
      split; [reflexivity|]. split; [reflexivity|]. split; [apply trel_add_id; assumption|].
      split; [eapply keeps_trans; [exact K1|apply keeps_add_id]|]. split; [apply keeps_refl|]. split; [discriminate|]. split; [intros _; split; [exact K|assumption]|intros x Hx; auto].
  - destruct (assoc key_eqb (copy L m (SId q), q) (ids st)) as [u|] eqn:E.
    { apply (t_ids _ _ R) in E. rewrite E' in E. discriminate. }
    rewrite H1, H1'. cbn [next]. assert (Hm1 : In m (loaded s1)) by (rewrite (k_loaded _ _ K1); exact Hm).
    assert (DG : decay_given s1' q td).
    { right. destruct (is_void d) eqn:Evd; [left|right]; (split; [exact Hne|]); (split; [exact Evd|]); [apply Hvoid; reflexivity|apply Hknown; reflexivity]. }
    destruct (enter_sim m q s1 s1' td R1 Hm1 DG) as (st2 & st2' & t & E1 & E2 & R2 & K & Ka & Kb & Ei & Ad).
    rewrite E1, E2. cbn [next]. exists (add_id st2 (copy L m (SId q), q) t), (add_id st2' (0, q) t), t.
    split; [reflexivity|]. split; [reflexivity|].
    split.
    { apply trel_add_both; [exact R2|rewrite Ei, Hids; reflexivity|exact K|].
      destruct (is_void d) eqn:Evd; [right; left; exact Evd|]. right. right. exists td. fold d. rewrite Ei. apply Hknown. reflexivity. }
    split; [eapply keeps_trans; [exact K1|eapply keeps_trans; [exact Ka|apply keeps_add_id]]|].
    split; [eapply keeps_trans; [exact K1'|eapply keeps_trans; [exact Kb|apply keeps_add_id]]|].
    split; [discriminate|]. split.
    2:{ intros x Hx. destruct (Ad x Hx) as [Hx1|Hx1]; [|auto]. destruct (Ad1 x Hx1) as [Hx2|[Hx2|Hx2]]; auto. right. right. rewrite Hx2. symmetry. exact Hd. }
    intros _. split; [exact K|]. cbn. rewrite assoc_app, Ei, Hids. rewrite (proj2 (key_eqb_eq (0, q) (0, q)) eq_refl). reflexivity.
Qed.

(** ** Entries *)

Definition oentry (ms : list nat) (x y : option entry) : Prop :=
  match x, y with Some x, Some y => entry_rel ms x y | None, None => True | _, _ => False end.
Lemma oentry_described ms x y : oentry ms x y -> described y = described x.
Proof. destruct x, y; cbn; try tauto. intros (_ & E & _). rewrite E. reflexivity. Qed.
Lemma oentry_decay ms x y x' y' : oentry ms x y -> oentry ms x' y' -> same_decay_id y y' = same_decay_id x x'.
Proof. destruct x, y, x', y'; cbn; try tauto. intros (_ & _ & E & _) (_ & _ & E' & _). rewrite E, E'. reflexivity. Qed.

Definition points (t : ident_t) : Prop := match t with None => True | Some (i, _) => i = 0 end.
Lemma deref_keeps st st1 t x : points t -> deref st t = Some (st, x) -> keeps st st1 -> deref st1 t = Some (st1, x).
Proof.
  intros Hp H K. destruct t as [[i p]|]; [|cbn in *; congruence]. cbn in Hp. subst i. cbn in *. unfold is_loaded in *. rewrite (k_loaded _ _ K).
  destruct (existsb (Nat.eqb 0) (loaded st)); [|discriminate]. destruct (nth_error (types st 0) p) as [y|] eqn:E; [|discriminate].
  destruct (k_types _ _ K) as [l ->]. rewrite nth_error_app1; [rewrite E; congruence|]. apply nth_error_Some. congruence.
Qed.

Lemma look m st st' q : trel st st' -> In m (loaded st) ->
  exists st1 st1' t x y, ident m st q = Some (st1, t) /\ ident1 m st' q = Some (st1', t) /\
    deref st1 t = Some (st1, x) /\ deref st1' t = Some (st1', y) /\ oentry (loaded st) x y /\ points t /\
    trel st1 st1' /\ keeps st st1 /\ keeps st' st1'.
Proof.
  intros R Hm. destruct (ident_sim m st st' q R Hm) as (st1 & st1' & t & E1 & E2 & R1 & K1 & K2 & Hv & Hk & _).
  exists st1, st1', t. destruct t as [[i p]|].
  - destruct (is_void q); [specialize (Hv eq_refl); discriminate|]. destruct (Hk eq_refl) as [[[_ X]|(Hn & p' & Hp & [= -> ->])] _]; [discriminate|].
    pose proof (t_types _ _ R1) as HT. rewrite (position_rel _ _ _ _ HT) in Hp. apply position_nth in Hp as (x & Hx & _).
    destruct (Forall2_nth1 _ _ _ _ _ HT Hx) as (y & Hy & Hxy). exists (Some x), (Some y).
    pose proof (proj1 (t_closed _ _ R1)) as H0.
    assert (H0' : is_loaded st1' 0 = true) by (apply is_loaded_iff; rewrite (t_loaded _ _ R1); exact H0).
    apply is_loaded_iff in H0. cbn [deref]. rewrite H0, H0', Hx, Hy. split; [exact E1|]. split; [exact E2|]. split; [reflexivity|]. split; [reflexivity|].
    split; [rewrite <- (k_loaded _ _ K1); exact Hxy|]. split; [reflexivity|]. auto.
  - exists None, None. cbn. auto 10.
Qed.

(** ** Variants *)

Definition var_rel (ms : list nat) (v w : variable) : Prop :=
  v_content w = v_content v /\ In (v_module v) ms /\ v_module w = 0 /\ (v_content v = None -> v_module v = table L 0 None).

Lemma is_empty_rel m ms v w : var_rel ms v w ->
  is_empty L m v = match v_content v with None => true | _ => false end /\ is_empty single m w = match v_content v with None => true | _ => false end.
Proof.
  intros (E & _ & E0 & HN). unfold is_empty. rewrite HL, E. cbn. rewrite E0. cbn. destruct (v_content v) as [c|]; [split; [apply andb_false_r|reflexivity]|].
  rewrite (HN eq_refl), Nat.eqb_refl. split; reflexivity.
Qed.
Lemma empty_rel m st : closed L (loaded st) -> var_rel (loaded st) (empty_variant L m) (empty_variant single m).
Proof. intros [H0 H]. unfold var_rel, empty_variant. rewrite HL. cbn. repeat split; auto. apply H. exact H0. Qed.

Lemma type_in_sim st st' v w a : trel st st' -> var_rel (loaded st) v w ->
  exists st1 st1' t x y, type_in L nm hash st v a = Some (st1, t) /\ type_in single nm hash st' w a = Some (st1', t) /\
    deref st1 t = Some (st1, x) /\ deref st1' t = Some (st1', y) /\ oentry (loaded st) x y /\ points t /\
    trel st1 st1' /\ keeps st st1 /\ keeps st' st1'.
Proof.
  intros R (E & Hl & E0 & HN). unfold type_in, run_table.
  assert (H1 : is_loaded st (v_module v) = true) by (apply is_loaded_iff; exact Hl).
  assert (H2 : is_loaded st' (v_module w) = true).
  { apply is_loaded_iff. rewrite E0, (t_loaded _ _ R). apply (t_closed _ _ R). }
  rewrite H1, H2, E. destruct (v_content v) as [c|].
  - exact (look (v_module v) st st' (type_id c a) R Hl).
  - exists st, st', None, None, None. cbn. pose proof (keeps_refl st). pose proof (keeps_refl st'). auto 10.
Qed.

Lemma m_is_sim m st st' v w a T : trel st st' -> In m (loaded st) -> var_rel (loaded st) v w ->
  exists st1 st1' b, m_is L nm hash e m st v a T = Some (st1, b) /\ m_is single nm hash e m st' w a T = Some (st1', b) /\
    trel st1 st1' /\ keeps st st1 /\ keeps st' st1'.
Proof.
  intros R Hm HV. destruct (type_in_sim st st' v w a R HV) as (s1 & s1' & t & x & y & E1 & E2 & D1 & D2 & Hxy & Hp & R1 & K1 & K2).
  unfold m_is. rewrite E1, E2. cbn [next]. destruct (is_empty_rel m _ v w HV) as [-> ->]. destruct HV as (EC & HV).
  destruct (v_content v) as [c|]; [|exists s1, s1', (Got false); auto].
  assert (Hm1 : In m (loaded s1)) by (rewrite (k_loaded _ _ K1); exact Hm).
  destruct (look m s1 s1' T R1 Hm1) as (s2 & s2' & t2 & x2 & y2 & F1 & F2 & G1 & G2 & Hxy2 & Hp2 & R2 & K3 & K4).
  rewrite F1, F2. cbn [next]. rewrite (deref_keeps _ _ _ _ Hp D1 K3), (deref_keeps _ _ _ _ Hp D2 K4). cbn [next]. rewrite G1, G2. cbn [next].
  rewrite (k_loaded _ _ K1) in Hxy2. rewrite (oentry_described _ _ _ Hxy), (oentry_described _ _ _ Hxy2), (oentry_decay _ _ _ _ _ Hxy Hxy2), EC.
  eexists s2, s2', _. split; [reflexivity|]. split; [reflexivity|]. split; [exact R2|]. split; eapply keeps_trans; eauto.
Qed.

Lemma m_access_sim m st st' v w a T : trel st st' -> In m (loaded st) -> var_rel (loaded st) v w ->
  exists st1 st1' b, m_access L nm hash e m st v a T = Some (st1, b) /\ m_access single nm hash e m st' w a T = Some (st1', b) /\
    trel st1 st1' /\ keeps st st1 /\ keeps st' st1'.
Proof.
  intros R Hm HV. destruct (type_in_sim st st' v w (from_attr a) R HV) as (s1 & s1' & t & x & y & E1 & E2 & D1 & D2 & Hxy & Hp & R1 & K1 & K2).
  unfold m_access. rewrite E1, E2. cbn [next].
  assert (Hm1 : In m (loaded s1)) by (rewrite (k_loaded _ _ K1); exact Hm).
  destruct (look m s1 s1' (seen a T) R1 Hm1) as (s2 & s2' & t2 & x2 & y2 & F1 & F2 & G1 & G2 & Hxy2 & Hp2 & R2 & K3 & K4).
  rewrite F1, F2. cbn [next]. assert (KA : keeps st s2) by (eapply keeps_trans; eauto). assert (KB : keeps st' s2') by (eapply keeps_trans; eauto).
  destruct (is_empty_rel m _ v w HV) as [-> ->]. destruct HV as (EC & HV). rewrite EC.
  destruct (v_content v) as [c|]; [|exists s2, s2', Throw; auto].
  rewrite (deref_keeps _ _ _ _ Hp D1 K3), (deref_keeps _ _ _ _ Hp D2 K4). cbn [next]. rewrite G1, G2. cbn [next].
  rewrite (k_loaded _ _ K1) in Hxy2. rewrite (oentry_described _ _ _ Hxy), (oentry_described _ _ _ Hxy2), (oentry_decay _ _ _ _ _ Hxy Hxy2).
  eexists s2, s2', _. split; [reflexivity|]. split; [reflexivity|]. split; [exact R2|]. split; assumption.
Qed.

Lemma converter_key_sim m st st' f t : trel st st' -> In m (loaded st) ->
  exists st1 st1' k, converter_key L nm hash m st f t = Some (st1, k) /\ converter_key single nm hash m st' f t = Some (st1', k) /\
    trel st1 st1' /\ keeps st st1 /\ keeps st' st1'.
Proof.
  intros R Hm. destruct (look m st st' f R Hm) as (s1 & s1' & a & x & y & E1 & E2 & D1 & D2 & Hxy & Hp & R1 & K1 & K2).
  assert (Hm1 : In m (loaded s1)) by (rewrite (k_loaded _ _ K1); exact Hm).
  destruct (look m s1 s1' t R1 Hm1) as (s2 & s2' & t2 & x2 & y2 & F1 & F2 & G1 & G2 & Hxy2 & Hp2 & R2 & K3 & K4).
  unfold converter_key. rewrite E1, E2. cbn [next]. rewrite F1, F2. cbn [next].
  rewrite (deref_keeps _ _ _ _ Hp D1 K3), (deref_keeps _ _ _ _ Hp D2 K4). cbn [next]. rewrite G1, G2. cbn [next].
  eexists s2, s2', _. split; [reflexivity|]. split; [|split; [exact R2|split; eapply keeps_trans; eauto]].
  repeat f_equal. destruct x, y, x2, y2; cbn in *; try tauto. destruct Hxy as (_ & _ & -> & _), Hxy2 as (_ & _ & -> & _). reflexivity.
Qed.

(** ** Programs *)

Definition conv_rel (ob : list nat) (x y : converter) : Prop :=
  cv_key y = cv_key x /\ cv_fun y = cv_fun x /\ In (cv_module x) ob /\ cv_module y = 0.
Definition owners (st : state) : list nat := map (fun x => fst (fst x)) (objects st).

Record orel (used : list (qty * qty * nat)) (st st' : state) : Prop := {
  o_vars : Forall2 (var_rel (loaded st)) (vars st) (vars st');
  o_items : items st' 0 = items st 0;
  o_items_loaded : forall x, In x (items st 0) -> In (it_module x) (loaded st);
  o_convs : Forall2 (conv_rel (owners st)) (convs st 0) (convs st' 0);
  o_objects : forall x, In x (objects st) -> In (fst (fst x)) (loaded st) /\ In (snd (fst x)) used;
  o_objects1 : forall x, In x (objects st') -> fst (fst x) = 0 /\ In (snd (fst x)) used }.

Definition rel used st st' := trel st st' /\ orel used st st'.

Lemma orel_keeps used st st' st1 st1' : orel used st st' -> keeps st st1 -> keeps st' st1' -> orel used st1 st1'.
Proof.
  intros [A B C D E F] [K1 K2 K3 K4 K5 _] [J1 J2 J3 J4 J5 _]. constructor; unfold owners in *; rewrite ?K1, ?K2, ?K3, ?K4, ?K5, ?J2, ?J3, ?J4, ?J5; assumption.
Qed.

Lemma find_conv_rel ob k l l' : Forall2 (conv_rel ob) l l' ->
  match find_conv k l, find_conv k l' with Some x, Some y => conv_rel ob x y | None, None => True | _, _ => False end.
Proof.
  induction 1 as [|x y l l' H _ IH]; cbn; [exact I|]. destruct H as (E & H). rewrite E. destruct (pair_eqb (cv_key x) k); [split; assumption|exact IH].
Qed.
Lemma filter_conv_rel ob k l l' : Forall2 (conv_rel ob) l l' ->
  Forall2 (conv_rel ob) (filter (fun x => negb (pair_eqb (cv_key x) k)) l) (filter (fun x => negb (pair_eqb (cv_key x) k)) l').
Proof.
  induction 1 as [|x y l l' H _ IH]; cbn; [constructor|]. destruct H as (E & H). rewrite E. destruct (pair_eqb (cv_key x) k); cbn; [exact IH|].
  constructor; [split; assumption|exact IH].
Qed.

Lemma rel_vars used st st' l l' : rel used st st' -> Forall2 (var_rel (loaded st)) l l' -> rel used (set_vars st l) (set_vars st' l').
Proof. intros [[A1 A2 A3 A4 A5 A6] [B1 B2 B3 B4 B5 B6]] H. split; constructor; cbn; assumption. Qed.
Lemma rel_convs used st st' l l' : rel used st st' -> Forall2 (conv_rel (owners st)) l l' -> rel used (set_convs st 0 l) (set_convs st' 0 l').
Proof. intros [[A1 A2 A3 A4 A5 A6] [B1 B2 B3 B4 B5 B6]] H. split; constructor; cbn; assumption. Qed.
Lemma rel_items used st st' l : rel used st st' -> (forall x, In x l -> In (it_module x) (loaded st)) -> rel used (set_items st 0 l) (set_items st' 0 l).
Proof. intros [[A1 A2 A3 A4 A5 A6] [B1 B2 B3 B4 B5 B6]] H. split; constructor; cbn; auto. Qed.
Lemma rel_keeps used st st' st1 st1' : rel used st st' -> trel st1 st1' -> keeps st st1 -> keeps st' st1' -> rel used st1 st1'.
Proof. intros [_ O] T K1 K2. split; [exact T|]. eapply orel_keeps; eauto. Qed.

Lemma position_set_class n l p c : position n (set_class l p c) = position n l.
Proof.
  unfold set_class. destruct (nth_error l p) as [x|] eqn:E; [|reflexivity]. revert p E. induction l as [|y l IH]; intros [|p]; cbn; try discriminate.
  - intros [= <-]. reflexivity.
  - intro E. rewrite (IH p E). reflexivity.
Qed.
Lemma nth_set_nth {A} i (a : A) l : i < List.length l -> nth_error (set_nth i a l) i = Some a.
Proof. revert i. induction l as [|b l IH]; intros [|i]; cbn; intro H; try lia; [reflexivity|apply IH; lia]. Qed.
Lemma nth_set_nth_other {A} i j (a : A) l : j <> i -> nth_error (set_nth i a l) j = nth_error l j.
Proof. revert i j. induction l as [|b l IH]; intros [|i] [|j]; cbn; intro H; try reflexivity; [congruence|]. apply IH. congruence. Qed.
Lemma set_class_rel ms l l' p c : Forall2 (entry_rel ms) l l' -> Forall2 (entry_rel ms) (set_class l p c) (set_class l' p c).
Proof.
  intro H. unfold set_class. destruct (nth_error l p) as [x|] eqn:E.
  - destruct (Forall2_nth1 _ _ _ _ _ H E) as (y & -> & A1 & A2 & A3 & A4 & A5 & A6 & A7 & A8). apply Forall2_set_nth; [exact H|]. unfold entry_rel. cbn. auto 10.
  - destruct (nth_error l' p) as [y|] eqn:E'; [|exact H]. apply nth_error_None in E. rewrite (Forall2_len _ _ _ H) in E. apply nth_error_None in E. congruence.
Qed.
Lemma rel_class used st st' p c : rel used st st' ->
  rel used (set_types st 0 (set_class (types st 0) p c)) (set_types st' 0 (set_class (types st' 0) p c)).
Proof.
  intros [[A1 A2 A3 A4 A5 A6] [B1 B2 B3 B4 B5 B6]]. split; constructor; cbn; auto.
  - apply set_class_rel. exact A3.
  - intros q t H. destruct (A5 q t H) as [K D]. split; [|exact D]. destruct K as [K|(Hn & r & Hr & Ht)]; [left; exact K|right]. split; [exact Hn|].
    exists r. split; [|exact Ht]. cbn. rewrite position_set_class. exact Hr.
  - intros r x Hx. cbn in Hx. unfold set_class in Hx. destruct (nth_error (types st' 0) p) as [y|] eqn:E; [|].
    + destruct (Nat.eq_dec r p) as [->|Hne].
      * rewrite nth_set_nth in Hx by (apply nth_error_Some; congruence). injection Hx as <-. destruct (A6 _ _ E) as (H1 & H2 & H3).
        unfold entry_ok. cbn. rewrite !position_set_class. auto.
      * rewrite nth_set_nth_other in Hx by exact Hne. destruct (A6 _ _ Hx) as (H1 & H2 & H3). unfold entry_ok. cbn. rewrite !position_set_class. auto.
    + destruct (A6 _ _ Hx) as (H1 & H2 & H3). unfold entry_ok. cbn. rewrite !position_set_class. auto.
Qed.

Lemma find_name_rel2 st st' m n : trel st st' ->
  find_name hash st (image L m) n = Some (position n (types st 0)) /\ find_name hash st' 0 n = Some (position n (types st 0)).
Proof. intro R. rewrite HL. split; [exact (find_name_rel _ _ _ R)|exact (find_name_rel1 _ _ _ R)]. Qed.

Definition step_sim used st st' o : Prop :=
  exists st1 st1' a, exec L nm hash e st o = Some (st1, a) /\ exec single nm hash e st' o = Some (st1', a) /\ rel (used ++ functor_types [o]) st1 st1'.

Lemma used_nil {A} (l : list A) : l ++ [] = l. Proof. apply app_nil_r. Qed.

Lemma var_sim used st st' i : rel used st st' -> i < List.length (vars st) ->
  exists v w, nth_error (vars st) i = Some v /\ nth_error (vars st') i = Some w /\ var_rel (loaded st) v w.
Proof.
  intros [_ O] H. destruct (nth_error (vars st) i) as [v|] eqn:E; [|apply nth_error_None in E; lia].
  destruct (Forall2_nth1 _ _ _ _ _ (o_vars _ _ _ O) E) as (w & Hw & HR). eauto.
Qed.
Lemma run_table_sim {A} used st st' v w (f : state -> result A) (g : state -> result A) : rel used st st' -> var_rel (loaded st) v w ->
  run_table st v f = f st /\ run_table st' w g = g st'.
Proof.
  intros [T O] (_ & Hl & E0 & _). unfold run_table.
  assert (H1 : is_loaded st (v_module v) = true) by (apply is_loaded_iff; exact Hl).
  assert (H2 : is_loaded st' (v_module w) = true). { apply is_loaded_iff. rewrite E0, (t_loaded _ _ T). apply (t_closed _ _ T). }
  rewrite H1, H2. split; reflexivity.
Qed.

Ltac finish := rewrite ?used_nil; eexists _, _, _; split; [reflexivity|]; split; [reflexivity|]; try assumption.

Lemma act_sim used st st' o m : rel used st st' -> actor o = Some m -> sensible L st o ->
  (forall k, In k (functor_types [o]) -> ~ In k used) -> step_sim used st st' o.
Proof.
  intros RR Ho Hs Hnew. pose proof RR as [R O]. unfold step_sim, exec. rewrite Ho.
  assert (HS : (forall n, actor o = Some n -> In n (loaded st)) /\ (forall i, subject o = Some i -> i < List.length (vars st))).
  { destruct o; cbn in Ho; try discriminate; exact Hs. }
  destruct HS as [Hm Hi]. specialize (Hm m Ho). clear Hs.
  assert (Hm1 : is_loaded st m = true) by (apply is_loaded_iff; exact Hm).
  assert (Hm2 : is_loaded st' m = true) by (apply is_loaded_iff; rewrite (t_loaded _ _ R); exact Hm).
  rewrite Hm1, Hm2.
  destruct o; try discriminate Ho; cbn [functor_types flat_map app] in *; unfold act.
  - (* TypeId *) destruct (look m st st' q R Hm) as (s1 & s1' & a & x & y & E1 & E2 & D1 & D2 & Hxy & Hp & R1 & K1 & K2). rewrite E1, E2. cbn [next].
    finish. eapply rel_keeps; eauto.
  - (* ByName *) destruct (n =? "")%string; [finish|]. destruct (find_name_rel2 st st' m n R) as [-> F]. cbn [image single]. rewrite F, HL. finish.
  - (* Describe *) destruct (look m st st' q R Hm) as (s1 & s1' & a & x & y & E1 & E2 & D1 & D2 & Hxy & Hp & R1 & K1 & K2). rewrite E1, E2. cbn [next].
    rewrite D1, D2. cbn [next]. rewrite (oentry_described _ _ _ Hxy). finish. eapply rel_keeps; eauto.
  - (* NameOf *) destruct (look m st st' q R Hm) as (s1 & s1' & a & x & y & E1 & E2 & D1 & D2 & Hxy & Hp & R1 & K1 & K2). rewrite E1, E2. cbn [next].
    rewrite D1, D2. cbn [next]. destruct x as [x|], y as [y|]; cbn in Hxy; try tauto; [|finish; eapply rel_keeps; eauto].
    destruct Hxy as (A1 & A2 & A3 & A4 & A5 & A6 & A7 & A8). rewrite A1, A7.
    replace (is_loaded s1 (en_text x)) with true by (symmetry; apply is_loaded_iff; rewrite (k_loaded _ _ K1); exact A5).
    replace (is_loaded s1' 0) with true by (symmetry; apply is_loaded_iff; rewrite (t_loaded _ _ R1); apply (t_closed _ _ R1)).
    finish. eapply rel_keeps; eauto.
  - (* Construct *) destruct (look m st st' q R Hm) as (s1 & s1' & a & x & y & E1 & E2 & D1 & D2 & Hxy & Hp & R1 & K1 & K2). rewrite E1, E2. cbn [next].
    rewrite D1, D2. cbn [next]. destruct x as [x|], y as [y|]; cbn in Hxy; try tauto; [|finish; eapply rel_keeps; eauto].
    destruct Hxy as (A1 & A2 & A3 & A4 & A5 & A6 & A7 & A8). rewrite A8.
    replace (is_loaded s1 (en_table x)) with true by (symmetry; apply is_loaded_iff; rewrite (k_loaded _ _ K1); exact A6).
    replace (is_loaded s1' 0) with true by (symmetry; apply is_loaded_iff; rewrite (t_loaded _ _ R1); apply (t_closed _ _ R1)).
    finish. eapply rel_keeps; eauto.
  - (* Make *) finish. apply rel_vars; [exact RR|]. apply Forall2_app1; [exact (o_vars _ _ _ O)|]. unfold var_rel. cbn. repeat split; try discriminate.
    apply (t_closed _ _ R). exact Hm.
  - (* Default *) finish. apply rel_vars; [exact RR|]. apply Forall2_app1; [exact (o_vars _ _ _ O)|]. apply empty_rel. apply (t_closed _ _ R).
  - (* Copy *) destruct (var_sim _ _ _ _ RR (Hi i eq_refl)) as (v & w & Ev & Ew & HV). unfold with_var. rewrite Ev, Ew.
    match goal with |- context[run_table st v ?f] => match goal with |- context[run_table st' w ?g] => destruct (run_table_sim used st st' v w f g RR HV) as [-> ->] end end.
    finish. apply rel_vars; [exact RR|]. apply Forall2_app1; [exact (o_vars _ _ _ O)|exact HV].
  - (* Move *) destruct (var_sim _ _ _ _ RR (Hi i eq_refl)) as (v & w & Ev & Ew & HV). unfold with_var. rewrite Ev, Ew.
    destruct (is_empty_rel m _ v w HV) as [-> ->]. pose proof (empty_rel m st (t_closed _ _ R)) as HE. destruct (v_content v) as [c|].
    + match goal with |- context[run_table st v ?f] => match goal with |- context[run_table st' w ?g] => destruct (run_table_sim used st st' v w f g RR HV) as [-> ->] end end.
      finish. apply rel_vars; [exact RR|]. apply Forall2_app1; [|exact HV]. apply Forall2_set_nth; [exact (o_vars _ _ _ O)|exact HE].
    + finish. apply rel_vars; [exact RR|]. apply Forall2_app1; [exact (o_vars _ _ _ O)|exact HE].
  - (* Clear *) destruct (var_sim _ _ _ _ RR (Hi i eq_refl)) as (v & w & Ev & Ew & HV). unfold with_var. rewrite Ev, Ew.
    match goal with |- context[run_table st v ?f] => match goal with |- context[run_table st' w ?g] => destruct (run_table_sim used st st' v w f g RR HV) as [-> ->] end end.
    finish. apply rel_vars; [exact RR|]. apply Forall2_set_nth; [exact (o_vars _ _ _ O)|apply empty_rel; apply (t_closed _ _ R)].
  - (* Empty *) destruct (var_sim _ _ _ _ RR (Hi i eq_refl)) as (v & w & Ev & Ew & HV). unfold with_var. rewrite Ev, Ew.
    destruct (is_empty_rel m _ v w HV) as [-> ->]. finish.
  - (* Is *) destruct (var_sim _ _ _ _ RR (Hi i eq_refl)) as (v & w & Ev & Ew & HV). unfold with_var. rewrite Ev, Ew.
    destruct (m_is_sim m st st' v w a T R Hm HV) as (s1 & s1' & b & E1 & E2 & R1 & K1 & K2). injection Ho as ->. rewrite E1, E2. cbn [next].
    finish. eapply rel_keeps; eauto.
  - (* Access *) destruct (var_sim _ _ _ _ RR (Hi i eq_refl)) as (v & w & Ev & Ew & HV). unfold with_var. rewrite Ev, Ew.
    destruct (m_access_sim m st st' v w a T R Hm HV) as (s1 & s1' & b & E1 & E2 & R1 & K1 & K2). injection Ho as ->. rewrite E1, E2. cbn [next].
    finish. eapply rel_keeps; eauto.
  - (* DefineClass *) destruct (look m st st' q R Hm) as (s1 & s1' & t & x & y & E1 & E2 & D1 & D2 & Hxy & Hp & R1 & K1 & K2). rewrite E1, E2. cbn [next].
    rewrite D1, D2. cbn [next]. assert (RK : rel used s1 s1') by (eapply rel_keeps; eauto).
    destruct x as [x|], y as [y|]; cbn in Hxy; try tauto; [|finish].
    destruct t as [[i p]|]; [|finish]. destruct Hxy as (A1 & A2 & A3 & A4 & _). rewrite A4. destruct (en_class x); [finish|].
    cbn in Hp. subst i. finish. apply rel_class. exact RK.
  - (* FindClass *) destruct (look m st st' q R Hm) as (s1 & s1' & t & x & y & E1 & E2 & D1 & D2 & Hxy & Hp & R1 & K1 & K2). rewrite E1, E2. cbn [next].
    rewrite D1, D2. cbn [next]. replace (match y with Some y => en_class y | None => None end) with (match x with Some x => en_class x | None => None end).
    { finish. eapply rel_keeps; eauto. }
    destruct x, y; cbn in Hxy; try tauto. symmetry. apply Hxy.
  - (* DefineMethod *) rewrite HL. cbn [image single]. rewrite (o_items _ _ _ O). destruct (find_item n (items st 0)); [finish|]. finish.
    apply rel_items; [exact RR|]. intros x Hx. apply in_app_or in Hx as [Hx|[<-|[]]]; [apply (o_items_loaded _ _ _ O); exact Hx|exact Hm].
  - (* Call *) rewrite HL. cbn [image single]. rewrite (o_items _ _ _ O). destruct (find_item n (items st 0)) as [x|] eqn:E; [|finish].
    apply find_some in E as [E _]. apply (o_items_loaded _ _ _ O) in E.
    replace (is_loaded st (it_module x)) with true by (symmetry; apply is_loaded_iff; exact E).
    replace (is_loaded st' (it_module x)) with true by (symmetry; apply is_loaded_iff; rewrite (t_loaded _ _ R); exact E). finish.
  - (* AddConverter *) injection Ho as ->. set (from' := full_decay from) in *. set (to' := full_decay to) in *.
    assert (Hn : ~ In (from', to', kind) used) by (apply Hnew; left; reflexivity).
    set (k := (copy L m (SConverter from' to' kind), (from', to', kind))). set (k1 := (copy single m (SConverter from' to' kind), (from', to', kind))).
    assert (N1 : assoc object_eqb k (objects st) = None).
    { destruct (assoc object_eqb k (objects st)) as [g|] eqn:E; [|reflexivity]. exfalso. apply Hn.
      apply (assoc_in _ object_eqb_eq) in E. apply (o_objects _ _ _ O) in E. apply E. }
    assert (N2 : assoc object_eqb k1 (objects st') = None).
    { destruct (assoc object_eqb k1 (objects st')) as [g|] eqn:E; [|reflexivity]. exfalso. apply Hn.
      apply (assoc_in _ object_eqb_eq) in E. apply (o_objects1 _ _ _ O) in E. apply E. }
    rewrite N1, N2.
    assert (Hk : In (fst k) (loaded st)) by (apply (t_closed _ _ R); exact Hm).
    assert (RA : rel (used ++ [(from', to', kind)]) (add_object st k f) (add_object st' k1 f)).
    { destruct R as [A1 A2 A3 A4 A5 A6], O as [B1 B2 B3 B4 B5 B6]. split; constructor; cbn; auto.
      - eapply Forall2_imp; [|exact B4]. intros x y _ _ (C1 & C2 & C3 & C4). repeat split; auto. unfold owners. cbn. rewrite map_app. apply in_or_app. left. exact C3.
      - intros x Hx. apply in_app_or in Hx as [Hx|[<-|[]]]; [destruct (B5 x Hx); split; [assumption|apply in_or_app; left; assumption]|].
        split; [exact Hk|apply in_or_app; right; left; reflexivity].
      - intros x Hx. apply in_app_or in Hx as [Hx|[<-|[]]]; [destruct (B6 x Hx); split; [assumption|apply in_or_app; left; assumption]|].
        split; [reflexivity|apply in_or_app; right; left; reflexivity]. }
    assert (Hobj : In (fst k) (owners (add_object st k f))) by (unfold owners; cbn; rewrite map_app; apply in_or_app; right; left; reflexivity).
    pose proof RA as [RT _]. destruct (converter_key_sim m (add_object st k f) (add_object st' k1 f) from' to' RT Hm) as (s1 & s1' & key & E1 & E2 & R1 & K1 & K2).
    rewrite E1, E2. cbn [next]. assert (RK : rel (used ++ [(from', to', kind)]) s1 s1') by (eapply rel_keeps; eauto).
    destruct key as [key|]; [|eexists _, _, _; split; [reflexivity|]; split; [reflexivity|exact RK]].
    rewrite HL. cbn [image single]. pose proof (find_conv_rel _ key _ _ (o_convs _ _ _ (proj2 RK))) as HF.
    destruct (find_conv key (convs s1 0)), (find_conv key (convs s1' 0)); try tauto; eexists _, _, _; (split; [reflexivity|]); (split; [reflexivity|]); [exact RK|].
    apply rel_convs; [exact RK|]. apply Forall2_app1; [exact (o_convs _ _ _ (proj2 RK))|]. repeat split; cbn.
    unfold owners. rewrite (k_objects _ _ K1). exact Hobj.
  - (* DropConverter *) injection Ho as ->. destruct (converter_key_sim m st st' from to R Hm) as (s1 & s1' & key & E1 & E2 & R1 & K1 & K2).
    rewrite E1, E2. cbn [next]. assert (RK : rel used s1 s1') by (eapply rel_keeps; eauto).
    destruct key as [key|]; [|finish]. rewrite HL. cbn [image single]. finish. apply rel_convs; [exact RK|]. apply filter_conv_rel. apply RK.
  - (* Convert *) injection Ho as ->. destruct (converter_key_sim m st st' from to R Hm) as (s1 & s1' & key & E1 & E2 & R1 & K1 & K2).
    rewrite E1, E2. cbn [next]. assert (RK : rel used s1 s1') by (eapply rel_keeps; eauto).
    destruct key as [key|]; [|finish]. rewrite HL. cbn [image single]. pose proof (find_conv_rel _ key _ _ (o_convs _ _ _ (proj2 RK))) as HF.
    destruct (find_conv key (convs s1 0)) as [x|], (find_conv key (convs s1' 0)) as [y|]; try tauto; [|finish].
    destruct HF as (C1 & C2 & C3 & C4). rewrite C2, C4.
    assert (HC : In (cv_module x) (loaded s1)).
    { unfold owners in C3. apply in_map_iff in C3 as (ob & <- & Hob). apply (o_objects _ _ _ (proj2 RK)). exact Hob. }
    replace (is_loaded s1 (cv_module x)) with true by (symmetry; apply is_loaded_iff; exact HC).
    replace (is_loaded s1' 0) with true by (symmetry; apply is_loaded_iff; rewrite (t_loaded _ _ R1); apply (t_closed _ _ R1)). finish.
Qed.

Lemma exec_sim used st st' o : rel used st st' -> sensible L st o ->
  (forall k, In k (functor_types [o]) -> ~ In k used) -> step_sim used st st' o.
Proof.
  intros RR Hs Hnew. destruct (actor o) as [m|] eqn:Ho; [eapply act_sim; eauto|].
  destruct RR as [[A1 A2 A3 A4 A5 A6] [B1 B2 B3 B4 B5 B6]]. unfold step_sim, exec. rewrite Ho. destruct o; try discriminate Ho; cbn [sensible] in Hs; cbn [functor_types flat_map app].
  - finish. split; constructor; cbn; auto.
    + rewrite A1. reflexivity.
    + eapply Forall2_imp; [|exact A3]. intros x y _ _ (C1 & C2 & C3 & C4 & C5 & C6 & C7 & C8). unfold entry_rel. cbn. auto 10.
    + eapply Forall2_imp; [|exact B1]. intros x y _ _ (C1 & C2 & C3 & C4). unfold var_rel. cbn. auto.
    + intros x Hx. destruct (B5 x Hx). auto.
  - destruct Hs as (Hm0 & Hml & Hcl & Hrem).
    assert (Hm1 : is_loaded st m = true) by (apply is_loaded_iff; exact Hml).
    assert (Hm2 : is_loaded st' m = true) by (apply is_loaded_iff; rewrite A1; exact Hml).
    rewrite Hm1, Hm2. unfold unload.
    assert (O1 : own_objects st m = []).
    { unfold own_objects. replace (filter _ (objects st)) with (@nil ((nat * (qty * qty * nat)) * nat)); [reflexivity|]. symmetry.
      destruct (filter _ (objects st)) as [|x l] eqn:E; [reflexivity|]. exfalso. apply Hrem. right. right. right. exists x.
      assert (Hx : In x (filter (fun x => fst (fst x) =? m) (objects st))) by (rewrite E; left; reflexivity).
      apply filter_In in Hx as [Hx Ex]. apply Nat.eqb_eq in Ex. auto. }
    assert (O2 : own_objects st' m = []).
    { unfold own_objects. replace (filter _ (objects st')) with (@nil ((nat * (qty * qty * nat)) * nat)); [reflexivity|]. symmetry.
      destruct (filter _ (objects st')) as [|x l] eqn:E; [reflexivity|]. exfalso.
      assert (Hx : In x (filter (fun x => fst (fst x) =? m) (objects st'))) by (rewrite E; left; reflexivity).
      apply filter_In in Hx as [Hx Ex]. apply Nat.eqb_eq in Ex. apply B6 in Hx. destruct Hx as [Hx _]. congruence. }
    rewrite O1, O2. cbn [drop_all next].
    assert (Hstay : forall n, In n (loaded st) -> n <> m -> In n (filter (fun x => negb (x =? m)) (loaded st))).
    { intros n Hn Hne. apply filter_In. split; [exact Hn|]. apply negb_true_iff, Nat.eqb_neq. exact Hne. }
    assert (H0m : (0 =? m) = false) by (apply Nat.eqb_neq; congruence).
    finish. split; constructor; cbn; unfold at_image; rewrite ?H0m; auto.
    + rewrite A1. reflexivity.
    + eapply Forall2_imp; [|exact A3]. intros x y Hx _ (C1 & C2 & C3 & C4 & C5 & C6 & C7 & C8). unfold entry_rel.
      repeat (split; [assumption|]). split; [|split; [|auto]]; apply Hstay; auto; intro X; apply Hrem; left; exists x; auto.
    + intros n q t H. destruct (Nat.eq_dec n m) as [->|Hne].
      { rewrite (assoc_filter_none _ key_eqb_eq) in H; [discriminate|]. intros [k u] Hk. cbn in *. subst k. cbn. rewrite Nat.eqb_refl. reflexivity. }
      rewrite (assoc_filter _ key_eqb_eq) in H.
      2:{ intros [k u] Hk. cbn in *. subst k. cbn. apply negb_true_iff, Nat.eqb_neq. exact Hne. }
      rewrite (assoc_filter _ key_eqb_eq); [eapply A4; eauto|]. intros [k u] Hk. cbn in *. subst k. cbn. rewrite H0m. reflexivity.
    + intros q t H. rewrite (assoc_filter _ key_eqb_eq) in H.
      2:{ intros [k u] Hk. cbn in *. subst k. cbn. rewrite H0m. reflexivity. }
      destruct (A5 q t H) as [K D]. split.
      * destruct K as [K|(Hn & p & Hp & Ht)]; [left; exact K|right]. split; [exact Hn|]. exists p. split; [|exact Ht]. cbn. unfold at_image. rewrite H0m. exact Hp.
      * destruct D as [D|[D|[d D]]]; [left; exact D|right; left; exact D|]. right. right. exists d. cbn. rewrite (assoc_filter _ key_eqb_eq); [exact D|].
        intros [k u] Hk. cbn in *. subst k. cbn. rewrite H0m. reflexivity.
    + intros p x Hx. destruct (A6 p x Hx) as (H1 & H2 & H3). unfold entry_ok. cbn. unfold at_image. rewrite H0m. auto.
    + eapply Forall2_imp; [|exact B1]. intros x y Hx _ (C1 & C2 & C3 & C4). unfold var_rel. split; [exact C1|]. split; [|auto].
      apply Hstay; [exact C2|]. intro X. apply Hrem. right. left. exists x. auto.
    + intros x Hx. apply Hstay; [apply B3; exact Hx|]. intro X. apply Hrem. right. right. left. exists x. auto.
    + eapply Forall2_imp; [|exact B4]. intros x y _ _ (C1 & C2 & C3 & C4). repeat split; auto. unfold owners in *. cbn.
      apply in_map_iff in C3 as (ob & E & Hob). apply in_map_iff. exists ob. split; [exact E|]. apply filter_In. split; [exact Hob|].
      apply negb_true_iff, Nat.eqb_neq. intro X. apply Hrem. right. right. right. exists ob. auto.
    + intros x Hx. apply filter_In in Hx as [Hx Ex]. destruct (B5 x Hx) as [D1 D2]. split; [|exact D2]. apply Hstay; [exact D1|].
      apply negb_true_iff, Nat.eqb_neq in Ex. exact Ex.
    + intros x Hx. apply filter_In in Hx as [Hx _]. apply B6. exact Hx.
Qed.

Lemma run_sim h : forall used st st', rel used st st' -> orderly L nm hash e st h -> NoDup (functor_types h) ->
  (forall k, In k (functor_types h) -> ~ In k used) ->
  exists st1 st1' l, run L nm hash e st h = Some (st1, l) /\ run single nm hash e st' h = Some (st1', l) /\ rel (used ++ functor_types h) st1 st1'.
Proof.
  induction h as [|o h IH]; intros used st st' R Ho Hd Hu.
  - exists st, st', []. cbn. rewrite app_nil_r. auto.
  - inversion Ho as [|st0 o0 h0 Hs Hnext]; subst. change (functor_types (o :: h)) with (functor_types ([o] ++ h)) in *.
    unfold functor_types in Hd, Hu |- *. rewrite flat_map_app in Hd, Hu |- *. fold (functor_types [o]) (functor_types h) in *.
    assert (H1 : forall k, In k (functor_types [o]) -> ~ In k used) by (intros k Hk; apply Hu; apply in_or_app; left; exact Hk).
    destruct (exec_sim used st st' o R Hs H1) as (s1 & s1' & a & E1 & E2 & R1).
    destruct (IH (used ++ functor_types [o]) s1 s1' R1 (Hnext s1 a E1)) as (s2 & s2' & l & F1 & F2 & R2).
    + clear -Hd. induction (functor_types [o]) as [|x l IH]; [exact Hd|]. inversion Hd; auto.
    + intros k Hk Hin. apply in_app_or in Hin as [Hin|Hin]; [apply (Hu k); [apply in_or_app; right; exact Hk|exact Hin]|].
      clear -Hd Hk Hin. induction (functor_types [o]) as [|x l IH]; [destruct Hin|]. inversion Hd as [|y z Hx Hr]; subst. destruct Hin as [->|Hin]; [|auto].
      apply Hx. apply in_or_app. right. exact Hk.
    + exists s2, s2', (a :: l). cbn [run]. rewrite E1, E2. cbn [next]. rewrite F1, F2. cbn [next]. rewrite app_assoc. auto.
Qed.

Lemma rel_start ms : closed L ms -> rel [] (start ms) (start ms).
Proof.
  intro C. split; constructor; cbn; auto.
  all: try discriminate; try (intros [|p]; discriminate); try (intros x []); try (intros ? ? ?; discriminate).
Qed.

(** ** What identifiers and answers mean *)

Section Means.
Variable U : qty -> Prop.
Hypothesis HU : told_apart nm U.
Definition all_in (st : state) : Prop := forall x, In x (types st 0) -> U (en_owner x).

Lemma U_not_void q : U q -> is_void q = false.
Proof.
  intro Hq. destruct (proj2 HU q Hq) as (_ & _ & H). unfold is_void. destruct q as [r t]. destruct r; try reflexivity. destruct t as [[] [] b| | ]; try reflexivity.
  unfold kind_is. specialize (H b eq_refl). destruct (base_kind_eq_dec (b_kind b) KVoid); [contradiction|reflexivity].
Qed.

Lemma all_in_rel st st' : trel st st' -> all_in st -> all_in st'.
Proof.
  intros R H y Hy. apply In_nth_error in Hy as [i Hi]. pose proof (t_types _ _ R) as HT.
  destruct (nth_error (types st 0) i) as [x|] eqn:E.
  - destruct (Forall2_nth1 _ _ _ _ _ HT E) as (y' & Hy' & (_ & Ho & _)). rewrite Hi in Hy'. injection Hy' as <-. rewrite Ho. apply H. eapply nth_error_In; eauto.
  - apply nth_error_None in E. rewrite (Forall2_len _ _ _ HT) in E. apply nth_error_None in E. congruence.
Qed.

Lemma look_means m st st' q : trel st st' -> In m (loaded st) -> all_in st' -> U q ->
  exists st1 st1' p y, ident m st q = Some (st1, Some (0, p)) /\ ident1 m st' q = Some (st1', Some (0, p)) /\
    nth_error (types st1' 0) p = Some y /\ en_owner y = q /\ trel st1 st1' /\ keeps st st1 /\ keeps st' st1' /\ all_in st1'.
Proof.
  intros R Hm Hin Hq. destruct (ident_sim m st st' q R Hm) as (st1 & st1' & t & E1 & E2 & R1 & K1 & K2 & Hv & Hk & Ad).
  destruct (Hk (U_not_void q Hq)) as [[[N _]|(N & p & Hp & ->)] _]; [exfalso; apply (proj2 HU q Hq); exact N|].
  assert (HA : all_in st1').
  { intros x Hx. destruct (Ad x Hx) as [H|[H|H]]; [apply Hin; exact H|rewrite H; exact Hq|rewrite H; apply (proj2 HU q Hq)]. }
  destruct (position_nth _ _ _ Hp) as (y & Hy & En). exists st1, st1', p, y. do 3 (split; [assumption|]).
  split; [|auto]. destruct (t_entries _ _ R1 _ _ Hy) as (H1 & _). apply (proj1 HU); [apply HA; eapply nth_error_In; eauto|exact Hq|congruence].
Qed.

Lemma decay_position st st' p y : trel st st' -> all_in st' -> nth_error (types st' 0) p = Some y ->
  exists r, en_decay y = (0, r) /\ position (nm (full_decay (en_owner y))) (types st' 0) = Some r.
Proof.
  intros R HA Hy. destruct (t_entries _ _ R _ _ Hy) as (H1 & H2 & H3). assert (Hu : U (en_owner y)) by (apply HA; eapply nth_error_In; eauto).
  destruct (proj2 HU _ Hu) as (_ & Hd & _). destruct H3 as [[[H|[H|H]] E]|(_ & _ & r & Hr & E)].
  - exists p. split; [exact E|]. rewrite <- H. exact H2.
  - rewrite (U_not_void _ Hd) in H. discriminate.
  - exfalso. apply (proj2 HU _ Hd). exact H.
  - exists r. auto.
Qed.

Lemma decay_means st st' p1 p2 x y : trel st st' -> all_in st' -> nth_error (types st' 0) p1 = Some x -> nth_error (types st' 0) p2 = Some y ->
  same_decay_id (Some x) (Some y) = same_decay (en_owner x) (en_owner y).
Proof.
  intros R HA Hx Hy. destruct (decay_position _ _ _ _ R HA Hx) as (r & E & P). destruct (decay_position _ _ _ _ R HA Hy) as (r' & E' & P').
  cbn [same_decay_id]. rewrite E, E'. unfold id_eqb, same_decay. cbn [fst snd Nat.eqb andb].
  assert (Ux : U (full_decay (en_owner x))) by (apply (proj2 HU (en_owner x)), HA; eapply nth_error_In; eauto).
  assert (Uy : U (full_decay (en_owner y))) by (apply (proj2 HU (en_owner y)), HA; eapply nth_error_In; eauto).
  destruct (qty_eq_dec (full_decay (en_owner x)) (full_decay (en_owner y))) as [Eq|Ne].
  - rewrite Eq in P. rewrite P in P'. injection P' as ->. apply Nat.eqb_refl.
  - apply Nat.eqb_neq. intros ->. apply Ne. apply (proj1 HU); [exact Ux|exact Uy|].
    apply position_nth in P as (z & Hz & <-). apply position_nth in P' as (z' & Hz' & <-). congruence.
Qed.

(** The two identifiers an answer is computed from. *)
Lemma two_looks n m st st' p q : trel st st' -> In n (loaded st) -> In m (loaded st) -> all_in st' -> U p -> U q ->
  exists st1 st2 t u x y, ident n st p = Some (st1, t) /\ ident m st1 q = Some (st2, u) /\ deref st2 t = Some (st2, Some x) /\ deref st2 u = Some (st2, Some y) /\
    en_owner x = p /\ en_owner y = q /\ same_decay_id (Some x) (Some y) = same_decay p q.
Proof.
  intros R Hn Hm HA Hp Hq. destruct (look_means n st st' p R Hn HA Hp) as (s1 & s1' & a & x & E1 & E1' & Hx & Ox & R1 & K1 & K1' & HA1).
  assert (Hm1 : In m (loaded s1)) by (rewrite (k_loaded _ _ K1); exact Hm).
  destruct (look_means m s1 s1' q R1 Hm1 HA1 Hq) as (s2 & s2' & b & y & E2 & E2' & Hy & Oy & R2 & K2 & K2' & HA2).
  assert (Hx2 : nth_error (types s2' 0) a = Some x).
  { destruct (k_types _ _ K2') as [l ->]. rewrite nth_error_app1; [exact Hx|]. apply nth_error_Some. congruence. }
  assert (H0 : is_loaded s2 0 = true) by (apply is_loaded_iff; apply (t_closed _ _ R2)).
  assert (back : forall i z, nth_error (types s2' 0) i = Some z -> exists w, nth_error (types s2 0) i = Some w /\ entry_rel (loaded s2) w z).
  { intros i z Hz. pose proof (t_types _ _ R2) as HT. destruct (nth_error (types s2 0) i) as [w|] eqn:E.
    - destruct (Forall2_nth1 _ _ _ _ _ HT E) as (z' & Hz' & HR). rewrite Hz in Hz'. injection Hz' as <-. eauto.
    - apply nth_error_None in E. rewrite (Forall2_len _ _ _ HT) in E. apply nth_error_None in E. congruence. }
  destruct (back _ _ Hx2) as (wx & Hwx & Rx). destruct (back _ _ Hy) as (wy & Hwy & Ry).
  exists s1, s2, (Some (0, a)), (Some (0, b)), wx, wy. split; [exact E1|]. split; [exact E2|]. cbn [deref]. rewrite H0, Hwx, Hwy.
  split; [reflexivity|]. split; [reflexivity|]. pose proof Rx as (_ & Owx & _). pose proof Ry as (_ & Owy & _). split; [congruence|]. split; [congruence|].
  rewrite <- (oentry_decay (loaded s2) (Some wx) (Some x) (Some wy) (Some y) Rx Ry). rewrite (decay_means _ _ _ _ _ _ R2 HA2 Hx2 Hy). congruence.
Qed.

Lemma m_is_means m st st' v w c a T : trel st st' -> all_in st -> In m (loaded st) -> var_rel (loaded st) v w -> v_content v = Some c ->
  U (type_id c a) -> U T -> exists st1, m_is L nm hash e m st v a T = Some (st1, metafunc_is e c (type_id c a) T).
Proof.
  intros R HA Hm HV Hc Hp Hq. destruct (is_empty_rel m _ v w HV) as [Em _]. destruct HV as (_ & Hv & _).
  destruct (two_looks (v_module v) m st st' (type_id c a) T R Hv Hm (all_in_rel _ _ R HA) Hp Hq) as (s1 & s2 & t & u & x & y & E1 & E2 & D1 & D2 & Ox & Oy & Ed).
  exists s2. unfold m_is, type_in, run_table. rewrite (proj2 (is_loaded_iff st (v_module v)) Hv), Hc, E1. cbn [next]. rewrite Em, Hc, E2. cbn [next].
  rewrite D1. cbn [next]. rewrite D2. cbn [next described option_map]. rewrite Ed, Ox, Oy. unfold metafunc_is, when_compatible, compat.
  destruct (compatible _ _); try reflexivity; destruct (same_decay _ _); try reflexivity; destruct (tag_of T); reflexivity.
Qed.

Lemma m_access_means m st st' v w c a T : trel st st' -> all_in st -> In m (loaded st) -> var_rel (loaded st) v w -> v_content v = Some c ->
  U (type_id c (from_attr a)) -> U (seen a T) ->
  exists st1, m_access L nm hash e m st v a T = Some (st1, metafunc_cast e c (type_id c (from_attr a)) (seen a T)).
Proof.
  intros R HA Hm HV Hc Hp Hq. destruct (is_empty_rel m _ v w HV) as [Em _]. destruct HV as (_ & Hv & _).
  destruct (two_looks (v_module v) m st st' (type_id c (from_attr a)) (seen a T) R Hv Hm (all_in_rel _ _ R HA) Hp Hq) as (s1 & s2 & t & u & x & y & E1 & E2 & D1 & D2 & Ox & Oy & Ed).
  exists s2. unfold m_access, type_in, run_table. rewrite (proj2 (is_loaded_iff st (v_module v)) Hv), Hc, E1. cbn [next]. rewrite E2. cbn [next]. rewrite Em, Hc.
  rewrite D1. cbn [next]. rewrite D2. cbn [next described option_map]. rewrite Ed, Ox, Oy. unfold metafunc_cast, when_compatible, compat.
  destruct (compatible _ _); try reflexivity; destruct (same_decay _ _); try reflexivity; destruct (tag_of _); reflexivity.
Qed.

End Means.

Lemma run_state ms h st l : closed L ms -> orderly L nm hash e (start ms) h -> NoDup (functor_types h) -> run L nm hash e (start ms) h = Some (st, l) ->
  exists st', rel (functor_types h) st st'.
Proof.
  intros C O D E. destruct (run_sim h [] _ _ (rel_start ms C) O D) as (s1 & s1' & l1 & E1 & _ & R); [intros k _ []|]. rewrite E in E1. injection E1 as <- <-. eauto.
Qed.

(** Identifiers are equal if the names are. *)
Lemma ids_iff m1 m2 st st' q1 q2 : trel st st' -> In m1 (loaded st) -> In m2 (loaded st) -> is_void q1 = false -> is_void q2 = false ->
  exists st1 st2 t1 t2, ident m1 st q1 = Some (st1, t1) /\ ident m2 st1 q2 = Some (st2, t2) /\ (t1 = t2 <-> nm q1 = nm q2) /\ (t1 = None <-> nm q1 = ""%string).
Proof.
  intros R H1 H2 V1 V2. destruct (ident_sim m1 st st' q1 R H1) as (s1 & s1' & t1 & E1 & E1' & R1 & K1 & K1' & _ & Hk & _).
  assert (H2' : In m2 (loaded s1)) by (rewrite (k_loaded _ _ K1); exact H2).
  destruct (ident_sim m2 s1 s1' q2 R1 H2') as (s2 & s2' & t2 & E2 & E2' & R2 & K2 & K2' & _ & Hk2 & _).
  exists s1, s2, t1, t2. split; [exact E1|]. split; [exact E2|]. destruct (Hk V1) as [P1 _]. destruct (Hk2 V2) as [P2 _].
  apply (known_ext _ s2') in P1; [|apply (k_types _ _ K2')].
  destruct P1 as [[N1 ->]|(N1 & p1 & Hp1 & ->)], P2 as [[N2 ->]|(N2 & p2 & Hp2 & ->)].
  - split; split; intros; congruence.
  - split; split; intros; congruence.
  - split; split; intros; congruence.
  - split; [|split; intro X; [discriminate|congruence]]. split.
    + intros [= ->]. apply position_nth in Hp1 as (x & Hx & <-). apply position_nth in Hp2 as (y & Hy & <-). congruence.
    + intro X. rewrite X in Hp1. congruence.
Qed.

End Sim.
