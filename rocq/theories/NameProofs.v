(** Proofs for NameProps.v. *)
From Coq Require Import NArith List Bool Arith String Lia.
From Verif Require Import Util TypesModel TypesSpec TypesProofs InheritModel RegistryModel RegistryProofs AccModel NameModel NameSpec.
Import ListNotations.
Local Open Scope list_scope.

Lemma position_some n l i : position n l = Some i -> exists x, nth_error l i = Some x /\ en_name x = n.
Proof.
  revert i. induction l as [|x l IH]; intro i; cbn [position]; [discriminate|].
  destruct (String.eqb_spec (en_name x) n) as [e|N].
  - intro H. injection H as <-. exists x. auto.
  - destruct (position n l) as [j|]; cbn; [|discriminate]. intro H. injection H as <-. exact (IH j eq_refl).
Qed.

Lemma position_none n l : position n l = None -> forall i x, nth_error l i = Some x -> en_name x <> n.
Proof.
  induction l as [|x l IH]; cbn [position]; intros H i y E.
  - destruct i; discriminate.
  - destruct (String.eqb_spec (en_name x) n) as [e|N]; [discriminate|].
    destruct (position n l) eqn:Ep; [discriminate|].
    destruct i as [|i]; cbn in E; [injection E as <-; exact N|eapply IH; eauto].
Qed.

Lemma position_in n l i x : nth_error l i = Some x -> en_name x = n -> exists j, position n l = Some j.
Proof.
  intros E En. destruct (position n l) as [j|] eqn:Ep; [eauto|]. exfalso. exact (position_none _ _ Ep _ _ E En).
Qed.

Section P.
Variable nm : qty -> string.

Record inv (U : qty -> Prop) (w : world) : Prop := {
  i_item : forall i x, nth_error (w_items w) i = Some x ->
    en_name x = nm (en_owner x) /\ nm (en_owner x) <> ""%string /\ U (en_owner x) /\
    (full_decay (en_owner x) = en_owner x -> en_decay x = i) /\
    (full_decay (en_owner x) <> en_owner x -> is_void (full_decay (en_owner x)) = false ->
     nm (full_decay (en_owner x)) <> ""%string ->
     exists y, nth_error (w_items w) (en_decay x) = Some y /\ en_name y = nm (full_decay (en_owner x)));
  i_once : forall i j x y, nth_error (w_items w) i = Some x -> nth_error (w_items w) j = Some y ->
    en_name x = en_name y -> i = j;
  i_static : forall q id, assoc qeqb q (w_static w) = Some id ->
    match id with Some i => exists x, nth_error (w_items w) i = Some x /\ en_name x = nm q | None => nm q = ""%string end }.

Definition grows (w w' : world) : Prop := exists l, w_items w' = w_items w ++ l.

Lemma grows_refl w : grows w w.
Proof. exists []. symmetry. apply app_nil_r. Qed.
Lemma grows_trans a b c : grows a b -> grows b c -> grows a c.
Proof. intros [l E] [l' E']. exists (l ++ l'). rewrite E', E. symmetry. apply app_assoc. Qed.
Lemma grows_nth w w' i x : grows w w' -> nth_error (w_items w) i = Some x -> nth_error (w_items w') i = Some x.
Proof.
  intros [l E] H. rewrite E, nth_error_app1; [exact H|]. apply nth_error_Some. congruence.
Qed.

Lemma inv0 U : inv U world0.
Proof.
  split; cbn.
  - intros [|i] x E; discriminate.
  - intros [|i] j x y E; discriminate.
  - discriminate.
Qed.

(** Named by [nm q]. *)
Definition at_name (w : world) (q : qty) (t : tid) : Prop :=
  match t with Some i => exists x, nth_error (w_items w) i = Some x /\ en_name x = nm q | None => nm q = ""%string end.

Lemma at_name_grows w w' q t : grows w w' -> at_name w q t -> at_name w' q t.
Proof.
  destruct t as [i|]; cbn; [|auto]. intros G (x & E & En). exists x. split; [exact (grows_nth _ _ _ _ G E)|exact En].
Qed.

Lemma enter_ok U w q dec : inv U w -> U q ->
  (full_decay q = q -> dec = None) ->
  (full_decay q <> q -> is_void (full_decay q) = false -> at_name w (full_decay q) dec) ->
  let '(w', t) := enter nm w q dec in inv U w' /\ grows w w' /\ at_name w' q t.
Proof.
  intros I Uq Hs Hd. unfold enter.
  destruct (String.eqb_spec (nm q) ""%string) as [e|N]; [split; [exact I|split; [apply grows_refl|exact e]]|].
  destruct (position (nm q) (w_items w)) as [i|] eqn:Ep.
  { split; [exact I|]. split; [apply grows_refl|]. exact (position_some _ _ _ Ep). }
  set (n := List.length (w_items w)). set (new := Entry _ _ _). set (w' := World _ _).
  assert (G : grows w w') by (exists [new]; reflexivity).
  assert (Hnew : nth_error (w_items w') n = Some new).
  { cbn. rewrite nth_error_app2 by lia. rewrite Nat.sub_diag. reflexivity. }
  assert (Hold : forall i x, nth_error (w_items w') i = Some x ->
    (nth_error (w_items w) i = Some x /\ i < n) \/ (i = n /\ x = new)).
  { intros i x E. destruct (Nat.lt_ge_cases i n) as [L|L].
    - left. cbn in E. rewrite nth_error_app1 in E by exact L. auto.
    - right. assert (i < S n).
      { assert (L2 : i < List.length (w_items w')) by (apply nth_error_Some; congruence).
        cbn in L2. rewrite app_length in L2. cbn in L2. unfold n in *. lia. }
      assert (i = n) by lia. subst i. split; [reflexivity|congruence]. }
  split; [|split; [exact G|cbn; exists new; split; [exact Hnew|reflexivity]]].
  split.
  - intros i x E. destruct (Hold _ _ E) as [[E0 _]|[-> ->]].
    + destruct (i_item _ _ I _ _ E0) as (H1 & H2 & H3 & H4 & H5). repeat (split; [assumption|]).
      intros F1 F2 F3. destruct (H5 F1 F2 F3) as (y & Ey & En). exists y. split; [exact (grows_nth _ _ _ _ G Ey)|exact En].
    + cbn [new en_name en_owner en_decay]. split; [reflexivity|]. split; [exact N|]. split; [exact Uq|]. split.
      * intro F. rewrite (Hs F). reflexivity.
      * intros F1 F2 F3. specialize (Hd F1 F2). destruct dec as [d|]; cbn in Hd; [|contradiction].
        destruct Hd as (y & Ey & En). exists y. split; [exact (grows_nth _ _ _ _ G Ey)|exact En].
  - intros i j x y E F Exy. destruct (Hold _ _ E) as [[E0 _]|[-> ->]], (Hold _ _ F) as [[F0 _]|[-> ->]].
    + exact (i_once _ _ I _ _ _ _ E0 F0 Exy).
    + exfalso. exact (position_none _ _ Ep _ _ E0 Exy).
    + exfalso. exact (position_none _ _ Ep _ _ F0 (eq_sym Exy)).
    + reflexivity.
  - intros p id E. cbn in E. pose proof (i_static _ _ I _ _ E) as H.
    exact (at_name_grows _ _ p id G H).
Qed.

Lemma once_ok U w q f : inv U w ->
  (is_void q = false -> let '(w', t) := f w in inv U w' /\ grows w w' /\ at_name w' q t) ->
  let '(w', t) := once w q f in inv U w' /\ grows w w' /\ (is_void q = false -> at_name w' q t) /\
    (is_void q = true -> t = None).
Proof.
  intros I Hf. unfold once. destruct (is_void q) eqn:Ev.
  { split; [exact I|]. split; [apply grows_refl|]. split; [discriminate|reflexivity]. }
  destruct (assoc qeqb q (w_static w)) as [id|] eqn:Ea.
  { split; [exact I|]. split; [apply grows_refl|]. split; [|discriminate]. intros _. exact (i_static _ _ I _ _ Ea). }
  specialize (Hf eq_refl). destruct (f w) as [w' t]. destruct Hf as (I' & G & A).
  split; [|split; [exact G|split; [intros _; exact A|discriminate]]].
  split; cbn.
  - exact (i_item _ _ I').
  - exact (i_once _ _ I').
  - intros p id E. rewrite assoc_app in E. destruct (assoc qeqb p (w_static w')) as [v|] eqn:E1.
    + injection E as <-. exact (i_static _ _ I' _ _ E1).
    + cbn in E. destruct (qeqb p q) eqn:Eq; [|discriminate]. apply qeqb_spec in Eq. subst p. injection E as <-. exact A.
Qed.

Lemma ident_ok U w q : inv U w -> U q -> U (full_decay q) ->
  let '(w', t) := ident nm w q in inv U w' /\ grows w w' /\ (is_void q = false -> at_name w' q t).
Proof.
  intros I Uq Ud.
  assert (H := once_ok U w q (fun w =>
    if qeqb q (full_decay q) then enter nm w q None
    else let '(w1, d) := once w (full_decay q) (fun w => enter nm w (full_decay q) None) in enter nm w1 q d) I).
  unfold ident.
  match type of H with ?P -> _ => assert (X : P); [|specialize (H X)] end.
  { intro Ev. destruct (qeqb q (full_decay q)) eqn:Eq.
    - apply qeqb_spec in Eq. apply enter_ok; [exact I|exact Uq|reflexivity|]. intro F. congruence.
    - assert (Nq : full_decay q <> q).
      { intro F. assert (qeqb q (full_decay q) = true) by (apply qeqb_spec; auto). congruence. }
      assert (K := once_ok U w (full_decay q) (fun w => enter nm w (full_decay q) None) I).
      match type of K with ?P -> _ => assert (X : P); [|specialize (K X)] end.
      { intros _. apply enter_ok; [exact I|exact Ud|reflexivity|]. intro F. rewrite full_decay_idem in F. congruence. }
      destruct (once w (full_decay q) _) as [w1 d]. destruct K as (I1 & G1 & A1 & _).
      assert (E := enter_ok U w1 q d I1 Uq).
      match type of E with ?P -> ?Q -> _ =>
        assert (X1 : P) by (intro F; contradiction); assert (X2 : Q) by (intros _ F; exact (A1 F)); specialize (E X1 X2) end.
      destruct (enter nm w1 q d) as [w2 t]. destruct E as (I2 & G2 & A2).
      split; [exact I2|]. split; [exact (grows_trans _ _ _ G1 G2)|exact A2]. }
  destruct (once w q _) as [w' t]. destruct H as (I' & G' & A' & _). auto.
Qed.

(** With nothing else that prints alike, the entry found is the type's own. *)
Definition lone (U : qty -> Prop) (q : qty) : Prop :=
  nm q <> ""%string /\ forall p, U p -> nm p = nm q -> p = q.

Lemma at_own U w q t : inv U w -> lone U q -> at_name w q t -> owner w t = Some q.
Proof.
  intros I [N L] A. destruct t as [i|]; cbn in *; [|contradiction]. destruct A as (x & E & En). rewrite E. cbn. f_equal.
  destruct (i_item _ _ I _ _ E) as (H1 & _ & H3 & _). apply L; [exact H3|congruence].
Qed.

Lemma owner_grows w w' t q : grows w w' -> owner w t = Some q -> owner w' t = Some q.
Proof.
  intros G. destruct t as [i|]; cbn; [|discriminate]. destruct (nth_error (w_items w) i) as [x|] eqn:E; [|discriminate].
  rewrite (grows_nth _ _ _ _ G E). auto.
Qed.

Lemma decay_own U w q t : inv U w -> lone U q -> lone U (full_decay q) -> is_void (full_decay q) = false ->
  at_name w q t -> exists d y, decay_id w t = Some d /\ nth_error (w_items w) d = Some y /\ en_name y = nm (full_decay q).
Proof.
  intros I Lq [Nd Ld] Ev A. pose proof (at_own _ _ _ _ I Lq A) as O. destruct t as [i|]; cbn in *; [|discriminate].
  destruct (nth_error (w_items w) i) as [x|] eqn:E; [|discriminate]. injection O as O.
  destruct (i_item _ _ I _ _ E) as (H1 & H2 & H3 & H4 & H5). rewrite O in *. cbn.
  destruct (qty_eq_dec (full_decay q) q) as [e|N].
  - exists (en_decay x), x. rewrite (H4 e). split; [reflexivity|]. split; [exact E|]. rewrite e. exact H1.
  - destruct (H5 N Ev Nd) as (y & Ey & En). eauto.
Qed.

Lemma decay_same U w a b t u : inv U w -> lone U a -> lone U (full_decay a) -> lone U b -> lone U (full_decay b) ->
  U (full_decay a) ->
  is_void (full_decay a) = false -> is_void (full_decay b) = false -> at_name w a t -> at_name w b u ->
  same_id (decay_id w t) (decay_id w u) = same_decay a b.
Proof.
  intros I La Lda Lb Ldb Ua Va Vb At Bu.
  destruct (decay_own _ _ _ _ I La Lda Va At) as (d & x & -> & Ex & Nx).
  destruct (decay_own _ _ _ _ I Lb Ldb Vb Bu) as (d' & y & -> & Ey & Ny).
  cbn. unfold same_decay. destruct (qty_eq_dec (full_decay a) (full_decay b)) as [e|N].
  - apply Nat.eqb_eq. apply (i_once _ _ I _ _ _ _ Ex Ey). congruence.
  - apply Nat.eqb_neq. intros ->. rewrite Ey in Ex. injection Ex as <-. apply N. apply Ldb; [exact Ua|congruence].
Qed.

(** ** Programs *)

Definition closed (U : qty -> Prop) (l : list qty) : Prop := Forall (fun q => U q /\ U (full_decay q)) l.

Lemma fst_n_is e w c a T : fst (n_is nm e w c a T) = fst (ident nm (fst (ident nm w (type_id c a))) T).
Proof. unfold n_is. destruct (ident nm w _) as [w1 t]. cbn. destruct (ident nm w1 T) as [w2 u]. reflexivity. Qed.
Lemma fst_n_access e w c a T :
  fst (n_access nm e w c a T) = fst (ident nm (fst (ident nm w (type_id c (from_attr a)))) (seen a T)).
Proof. unfold n_access. destruct (ident nm w _) as [w1 t]. cbn. destruct (ident nm w1 _) as [w2 u]. reflexivity. Qed.
Lemma fst_n_to e w c a T :
  fst (n_to nm e w c a T) = fst (ident nm (fst (ident nm w (type_id c a))) (mkQ RNone T)).
Proof. unfold n_to. destruct (ident nm w _) as [w1 t]. cbn. destruct (ident nm w1 _) as [w2 u]. reflexivity. Qed.

Lemma ident_fst U w q : inv U w -> U q -> U (full_decay q) -> inv U (fst (ident nm w q)) /\ grows w (fst (ident nm w q)).
Proof. intros I A B. pose proof (ident_ok U w q I A B) as H. destruct (ident nm w q) as [w' t]. cbn. tauto. Qed.

Lemma nstep_ok U w o : inv U w -> closed U (about o) -> inv U (nstep nm w o) /\ grows w (nstep nm w o).
Proof.
  intros I C. unfold closed in C. rewrite Forall_forall in C.
  destruct o as [q|e c a T|e c a T|e c a T]; cbn [nstep about] in *.
  - destruct (C q (or_introl eq_refl)). apply ident_fst; auto.
  - rewrite fst_n_is. destruct (C _ (or_introl eq_refl)), (C _ (or_intror (or_introl eq_refl))).
    destruct (ident_fst U w (type_id c a) I) as [I1 G1]; auto. destruct (ident_fst U _ T I1) as [I2 G2]; auto.
    split; [exact I2|exact (grows_trans _ _ _ G1 G2)].
  - rewrite fst_n_access. destruct (C _ (or_introl eq_refl)), (C _ (or_intror (or_introl eq_refl))).
    destruct (ident_fst U w (type_id c (from_attr a)) I) as [I1 G1]; auto. destruct (ident_fst U _ (seen a T) I1) as [I2 G2]; auto.
    split; [exact I2|exact (grows_trans _ _ _ G1 G2)].
  - rewrite fst_n_to. destruct (C _ (or_introl eq_refl)), (C _ (or_intror (or_introl eq_refl))).
    destruct (ident_fst U w (type_id c a) I) as [I1 G1]; auto. destruct (ident_fst U _ (mkQ RNone T) I1) as [I2 G2]; auto.
    split; [exact I2|exact (grows_trans _ _ _ G1 G2)].
Qed.

Lemma nrun_ok U h : forall w, inv U w -> (forall o, In o h -> closed U (about o)) ->
  inv U (nrun nm w h) /\ grows w (nrun nm w h).
Proof.
  induction h as [|o h IH]; intros w I C; cbn.
  - split; [exact I|apply grows_refl].
  - destruct (nstep_ok U w o I (C o (or_introl eq_refl))) as [I1 G1].
    destruct (IH _ I1 (fun o H => C o (or_intror H))) as [I2 G2].
    split; [exact I2|exact (grows_trans _ _ _ G1 G2)].
Qed.

(** Everything a program enters stays. *)
Lemma nrun_grows h w : grows w (nrun nm w h).
Proof.
  assert (Gi : forall w q, grows w (fst (ident nm w q))).
  { assert (Ge : forall w q d, grows w (fst (enter nm w q d))).
    { intros v q d. unfold enter. destruct (nm q =? "")%string; [apply grows_refl|].
      destruct (position _ _); [apply grows_refl|]. eexists; reflexivity. }
    assert (Go : forall w q f, (forall w, grows w (fst (f w))) -> grows w (fst (once w q f))).
    { intros v q f Hf. unfold once. destruct (is_void q); [apply grows_refl|]. destruct (assoc _ _ _); [apply grows_refl|].
      specialize (Hf v). destruct (f v) as [v' t]. exact Hf. }
    intros v q. unfold ident. apply Go. intro v1. destruct (qeqb _ _); [apply Ge|].
    pose proof (Go v1 (full_decay q) (fun w => enter nm w (full_decay q) None) (fun w => Ge w _ _)) as H.
    destruct (once v1 _ _) as [v2 t]. exact (grows_trans _ _ _ H (Ge _ _ _)). }
  revert w. induction h as [|o h IH]; intro w; cbn; [apply grows_refl|].
  eapply grows_trans; [|apply IH]. destruct o as [q|e c a T|e c a T|e c a T]; cbn [nstep].
  - apply Gi.
  - rewrite fst_n_is. eapply grows_trans; apply Gi.
  - rewrite fst_n_access. eapply grows_trans; apply Gi.
  - rewrite fst_n_to. eapply grows_trans; apply Gi.
Qed.

Lemma in_program_closed h o : In o h -> closed (in_program h) (about o).
Proof.
  intro Ho. apply Forall_forall. intros q Hq. split; exists o, q; auto.
Qed.

Lemma run_inv h h' : (forall o, In o h -> In o h') -> inv (in_program h') (nrun nm world0 h).
Proof.
  intro S. apply nrun_ok; [apply inv0|]. intros o Ho. apply in_program_closed. auto.
Qed.

Lemma not_void q : ~ void_type q -> is_void q = false.
Proof.
  intro N. destruct q as [[| |] [[|] [|] b| |]]; cbn; try reflexivity.
  destruct (kind_is KVoid b) eqn:E; [|reflexivity]. exfalso. apply N. exists b. split; [reflexivity|].
  destruct b as [k i z tr]. destruct k; cbn in *; try discriminate; reflexivity.
Qed.

Lemma two_types h q1 q2 o : about o = [q1; q2] ->
  distinct nm (h ++ [o]) q1 -> distinct nm (h ++ [o]) q2 ->
  let w := nrun nm world0 h in
  let '(w1, t) := ident nm w q1 in
  let '(w2, u) := ident nm w1 q2 in
  owner w2 t = Some q1 /\ owner w2 u = Some q2 /\ same_id (decay_id w2 t) (decay_id w2 u) = same_decay q1 q2.
Proof.
  intros Ho (V1 & W1 & A1 & D1) (V2 & W2 & A2 & D2).
  apply not_void in V1, W1, V2, W2. set (U := in_program (h ++ [o])).
  pose proof (run_inv h (h ++ [o]) (fun x H => in_or_app _ _ _ (or_introl H))) as I. fold U in I. cbn zeta.
  assert (Hin : In o (h ++ [o])) by (apply in_or_app; right; left; reflexivity).
  pose proof (in_program_closed (h ++ [o]) o Hin) as C. fold U in C.
  rewrite Ho in C. inversion C as [|x l [Uq1 Ud1] C2]; subst. inversion C2 as [|y l' [Uq2 Ud2] _]; subst.
  pose proof (ident_ok U (nrun nm world0 h) q1 I Uq1 Ud1) as H1.
  destruct (ident nm (nrun nm world0 h) q1) as [w1 t]. destruct H1 as (I1 & G1 & N1).
  pose proof (ident_ok U w1 q2 I1 Uq2 Ud2) as H2.
  destruct (ident nm w1 q2) as [w2 u]. destruct H2 as (I2 & G2 & N2).
  specialize (N1 V1). specialize (N2 V2). apply (at_name_grows _ _ _ _ G2) in N1.
  split; [exact (at_own _ _ _ _ I2 A1 N1)|]. split; [exact (at_own _ _ _ _ I2 A2 N2)|].
  apply (decay_same U); auto.
Qed.

End P.

(** ** The identifiers are those of RegistryModel.v *)

Definition as_rec (x : entry) : type_rec :=
  {| tr_name := en_name x; tr_info := info_of (en_owner x); tr_decay := en_decay x |}.
Definition names_from (s : nat) (l : list entry) : list (string * nat) :=
  combine (map en_name l) (seq s (List.length l)).
Definition registry_of (w : world) : registry :=
  {| r_items := map as_rec (w_items w); r_names := names_from 0 (w_items w); r_destroyed := false |}.
Definition state_of (w : world) : mstate := {| m_reg := registry_of w; m_ids := w_static w |}.

Lemma assoc_names n l s : assoc String.eqb n (names_from s l) = option_map (Nat.add s) (position n l).
Proof.
  revert s. induction l as [|x l IH]; intro s; cbn; [reflexivity|].
  rewrite String.eqb_sym. destruct (en_name x =? n)%string; cbn; [f_equal; lia|].
  unfold names_from in IH. rewrite IH. destruct (position n l) as [i|]; cbn; [f_equal; lia|reflexivity].
Qed.

Lemma names_app s l x : names_from s (l ++ [x]) = names_from s l ++ [(en_name x, s + List.length l)].
Proof.
  revert s. induction l as [|y l IH]; intro s; cbn; [do 2 f_equal; lia|].
  f_equal. unfold names_from in IH. rewrite IH. do 3 f_equal. lia.
Qed.

Lemma register_enter nm w q dec :
  register (registry_of w) (nm q) (info_of q) dec = (registry_of (fst (enter nm w q dec)), snd (enter nm w q dec)).
Proof.
  unfold register, enter. cbn [registry_of r_destroyed r_names r_items]. destruct (nm q =? "")%string; [reflexivity|].
  rewrite assoc_names. destruct (position (nm q) (w_items w)) as [i|]; cbn [option_map]; [reflexivity|].
  cbn [fst snd]. rewrite map_length. f_equal. unfold registry_of. cbn [w_items]. f_equal.
  - rewrite map_app. reflexivity.
  - rewrite names_app. reflexivity.
Qed.

Lemma enter_static nm w q dec : w_static (fst (enter nm w q dec)) = w_static w.
Proof. unfold enter. destruct (nm q =? "")%string; [reflexivity|]. destruct (position _ _); reflexivity. Qed.

Lemma ident_meta nm w q :
  meta_id nm (state_of w) q = Some (state_of (fst (ident nm w q)), snd (ident nm w q)).
Proof.
  assert (S : forall w q dec w' t, enter nm w q dec = (w', t) -> w_static w' = w_static w).
  { intros v p dec v' t E. pose proof (enter_static nm v p dec) as H. rewrite E in H. exact H. }
  unfold meta_id, ident, once. cbn [metaTypeId]. destruct (is_void q) eqn:Ev; [reflexivity|].
  cbn [state_of m_ids m_reg]. destruct (assoc qeqb q (w_static w)) as [id|] eqn:Ea; [reflexivity|].
  destruct (qeqb q (full_decay q)) eqn:Eq.
  - rewrite register_enter. destruct (enter nm w q None) as [w' t] eqn:Ee. cbn [fst snd]. unfold state_of. cbn [w_static].
    rewrite (S _ _ _ _ _ Ee). reflexivity.
  - destruct (is_void (full_decay q)) eqn:Evd.
    + cbn [m_reg m_ids state_of]. rewrite register_enter. destruct (enter nm w q None) as [w' t] eqn:Ee.
      cbn [fst snd]. unfold state_of. cbn [w_static]. rewrite (S _ _ _ _ _ Ee). reflexivity.
    + destruct (assoc qeqb (full_decay q) (w_static w)) as [id|] eqn:Ead.
      * cbn [m_reg m_ids state_of]. rewrite register_enter. destruct (enter nm w q id) as [w' t] eqn:Ee.
        cbn [fst snd]. unfold state_of. cbn [w_static]. rewrite (S _ _ _ _ _ Ee). reflexivity.
      * rewrite full_decay_idem.
        assert (R : qeqb (full_decay q) (full_decay q) = true) by (apply qeqb_spec; reflexivity). rewrite R.
        rewrite register_enter. destruct (enter nm w (full_decay q) None) as [w1 d] eqn:Ee. cbn [fst snd m_reg m_ids].
        change (registry_of w1) with (registry_of (World (w_items w1) (w_static w1 ++ [(full_decay q, d)]))).
        rewrite register_enter. destruct (enter nm _ q d) as [w2 t] eqn:Ee2. cbn [fst snd]. unfold state_of. cbn [w_static].
        rewrite (S _ _ _ _ _ Ee2). cbn [w_static]. rewrite (S _ _ _ _ _ Ee). reflexivity.
Qed.

Lemma mrun_nrun nm l : forall w, mrun nm (state_of w) l = Some (state_of (nrun nm w (map NType l))).
Proof.
  induction l as [|q l IH]; intro w; cbn [mrun map]; [reflexivity|].
  rewrite ident_meta. rewrite IH. reflexivity.
Qed.
