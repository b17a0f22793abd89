(** Proofs about converters in a process made of modules (C66): what is found is the table of ModuleSpec.v. *)
From Coq Require Import NArith List Bool Arith String Lia.
From Verif Require Import TypesModel TypesSpec TypesProofs InheritModel RegistryModel AccModel ModuleModel ModuleSpec ModuleProofs ModuleProofs2.
Import ListNotations.
Local Open Scope list_scope.

Section Table.
Variable L : linkage.
Variable nm : qty -> string.
Variable hash : string -> nat.
Variable e : env.
Hypothesis HL : shared L.

Notation inv := (inv L nm).
Definition entries (st : state) : Prop := forall p x, nth_error (types st 0) p = Some x -> entry_ok nm st p x.

(** The registry of types keeps what it has. *)
Record grown (st st1 : state) : Prop := {
  g_inv : inv st1;
  g_entries : entries st -> entries st1;
  g_position : forall n p, position n (types st 0) = Some p -> position n (types st1 0) = Some p;
  g_owner : forall x, In x (types st 0) -> exists y, In y (types st1 0) /\ en_owner y = en_owner x;
  g_convs : convs st1 0 = convs st 0;
  g_objects : objects st1 = objects st }.
Lemma grown_refl st : inv st -> grown st st.
Proof. intro I. constructor; auto. intros x Hx. eauto. Qed.
Lemma grown_trans a b c : grown a b -> grown b c -> grown a c.
Proof.
  intros [A1 A2 A3 A4 A5 A6] [B1 B2 B3 B4 B5 B6]. constructor; auto; try congruence. intros x Hx. destruct (A4 x Hx) as (y & Hy & E). destruct (B4 y Hy) as (z & Hz & E2). exists z. split; congruence.
Qed.
Lemma keeps_grown st st1 : inv st1 -> (entries st -> entries st1) -> keeps st st1 -> grown st st1.
Proof.
  intros I E [K1 K2 K3 K4 K5 [l K6]]. constructor; auto; try congruence.
  - intros n p H. rewrite K6. apply position_app. exact H.
  - intros x Hx. exists x. split; [|reflexivity]. rewrite K6. apply in_or_app. auto.
Qed.

Lemma entries_ext st st1 : types st1 0 = types st 0 -> entries st -> entries st1.
Proof. intros E H p x Hx. rewrite E in Hx. apply (H p x) in Hx. unfold entry_ok in *. rewrite E. exact Hx. Qed.

Lemma enter_entries m q st dec st1 t : enter L nm hash m q st dec = Some (st1, t) -> decay_given nm st q dec -> entries st -> entries st1.
Proof.
  unfold enter. rewrite HL. intros H HD HE. destruct (nm q =? "")%string; [injection H as <- _; exact HE|]. destruct (find_name hash st 0 (nm q)) as [[p|]|] eqn:Ef; [| |discriminate];
    apply find_name_some in Ef; [injection H as <- _; exact HE|]. injection H as <- _.
  set (x0 := Entry _ _ _ _ _ _). assert (X : exists l, types (set_types st 0 (types st 0 ++ [x0])) 0 = types st 0 ++ l) by (exists [x0]; reflexivity).
  intros p x Hx. cbn in Hx. destruct (lt_dec p (List.length (types st 0))) as [Hl|Hl].
  - rewrite nth_error_app1 in Hx by exact Hl. eapply entry_ok_ext; [exact X|]. apply HE. exact Hx.
  - rewrite nth_error_app2 in Hx by lia. destruct (p - List.length (types st 0)) as [|n] eqn:En; [|destruct n; discriminate Hx]. cbn in Hx. injection Hx as <-.
    assert (p = List.length (types st 0)) as -> by lia. unfold entry_ok. cbn [en_owner x0 en_name en_decay]. split; [reflexivity|].
    assert (P : position (nm q) (types (set_types st 0 (types st 0 ++ [x0])) 0) = Some (List.length (types st 0))) by (apply position_new; [symmetry; exact Ef|reflexivity]).
    split; [exact P|]. destruct HD as [[E ->]|[(N & V & ->)|(N & V & K)]].
    + left. split; [left; exact E|reflexivity].
    + left. split; [right; left; exact V|reflexivity].
    + destruct K as [[E ->]|(E & r & Hr & ->)]; [left; split; [right; right; exact E|reflexivity]|]. right. split; [exact N|]. split; [exact V|]. exists r. split; [|reflexivity].
      destruct X as [l ->]. apply position_app. exact Hr.
Qed.

Lemma once_entries m q st f st1 t : once L m q st f = Some (st1, t) -> (forall st2 u, f st = Some (st2, u) -> entries st2) -> entries st -> entries st1.
Proof.
  unfold once. destruct (is_void q); [intros [= <- <-]; auto|]. destruct (assoc _ _ _); [intros [= <- <-]; auto|]. destruct (f st) as [[st2 u]|]; [|discriminate].
  cbn. intros [= <- <-] H _. eapply entries_ext; [|apply (H st2 u eq_refl)]. reflexivity.
Qed.
Lemma full_decay_fixed q : full_decay q = full_decay (full_decay q).
Proof. symmetry. apply full_decay_idem. Qed.
Lemma ident_entries m st q st1 t : inv st -> ident L nm hash m st q = Some (st1, t) -> entries st -> entries st1.
Proof.
  intros I H HE. unfold ident in H. eapply once_entries; [exact H| |exact HE]. intros st2 u Hu. destruct (qeqb q (full_decay q)) eqn:Eq.
  - apply qeqb_eq in Eq. eapply enter_entries; [exact Hu|left; auto|exact HE].
  - assert (N : q <> full_decay q) by (intro X; apply qeqb_eq in X; congruence). destruct (once L m (full_decay q) st _) as [[st3 d]|] eqn:Eo; [|discriminate]. cbn in Hu.
    assert (E3 : entries st3). { eapply once_entries; [exact Eo| |exact HE]. intros st4 v Hv. eapply enter_entries; [exact Hv|left; split; [apply full_decay_fixed|reflexivity]|exact HE]. }
    destruct (once_fine L nm m (full_decay q) st _ st3 d I Eo) as (_ & V & K).
    { intros st4 v Hv. destruct (enter_fine _ _ _ HL _ _ _ _ _ _ Hv) as (F & K & _). auto. }
    eapply enter_entries; [exact Hu| |exact E3]. destruct (is_void (full_decay q)) eqn:Ev; [right; left; auto|right; right; auto].
Qed.
Lemma ident_grown m st q st1 t : inv st -> ident L nm hash m st q = Some (st1, t) ->
  grown st st1 /\ (is_void q = true -> t = None) /\ (is_void q = false -> known nm st1 q t).
Proof.
  intros I H. destruct (ident_fine _ _ _ HL _ _ _ _ _ I H) as (F & V & K). split; [|auto]. destruct (F I) as [J KK]. apply keeps_grown; auto. eapply ident_entries; eauto.
Qed.
Lemma type_in_grown st v a st1 t : inv st -> type_in L nm hash st v a = Some (st1, t) -> grown st st1.
Proof.
  intros I H. unfold type_in, run_table in H. destruct (is_loaded st (v_module v)); [|discriminate]. destruct (v_content v); [|injection H as <- <-; apply grown_refl; exact I].
  apply (ident_grown _ _ _ _ _ I H).
Qed.
Lemma m_is_grown m st v a T st1 b : inv st -> m_is L nm hash e m st v a T = Some (st1, b) -> grown st st1.
Proof.
  intros I H. unfold m_is, next in H. destruct (type_in L nm hash st v a) as [[s1 t]|] eqn:E1; [|discriminate]. pose proof (type_in_grown _ _ _ _ _ I E1) as F1.
  pose proof (g_inv _ _ F1) as I1. destruct (is_empty L m v); [injection H as <- <-; exact F1|].
  destruct (ident L nm hash m s1 T) as [[s2 u]|] eqn:E2; [|discriminate]. destruct (ident_grown _ _ _ _ _ I1 E2) as (F2 & _).
  destruct (deref s2 t) as [[s3 x]|] eqn:D1; [|discriminate]. pose proof (deref_state _ _ _ _ D1) as ->.
  destruct (deref s2 u) as [[s4 y]|] eqn:D2; [|discriminate]. pose proof (deref_state _ _ _ _ D2) as ->. injection H as <- _. eapply grown_trans; eauto.
Qed.
Lemma m_access_grown m st v a T st1 b : inv st -> m_access L nm hash e m st v a T = Some (st1, b) -> grown st st1.
Proof.
  intros I H. unfold m_access, next in H. destruct (type_in L nm hash st v (from_attr a)) as [[s1 t]|] eqn:E1; [|discriminate].
  pose proof (type_in_grown _ _ _ _ _ I E1) as F1. pose proof (g_inv _ _ F1) as I1.
  destruct (ident L nm hash m s1 (seen a T)) as [[s2 u]|] eqn:E2; [|discriminate]. destruct (ident_grown _ _ _ _ _ I1 E2) as (F2 & _).
  assert (F : grown st s2) by (eapply grown_trans; eauto). destruct (is_empty L m v); [injection H as <- <-; exact F|].
  destruct (deref s2 t) as [[s3 x]|] eqn:D1; [|discriminate]. pose proof (deref_state _ _ _ _ D1) as ->.
  destruct (deref s2 u) as [[s4 y]|] eqn:D2; [|discriminate]. pose proof (deref_state _ _ _ _ D2) as ->. injection H as <- _. exact F.
Qed.

(** Same types, converters and objects. *)
Lemma same_grown st st1 : inv st1 -> types st1 0 = types st 0 -> convs st1 0 = convs st 0 -> objects st1 = objects st -> grown st st1.
Proof.
  intros I E1 E2 E3. constructor; auto.
  - apply entries_ext. exact E1.
  - intros n p. rewrite E1. auto.
  - intros x Hx. exists x. rewrite E1. auto.
Qed.
Lemma class_grown st p c : inv st -> grown st (set_types st 0 (set_class (types st 0) p c)).
Proof.
  intro I. constructor; auto; cbn.
  - apply inv_class. exact I.
  - intros HE r x Hx. cbn in Hx.
    assert (X : exists y, nth_error (types st 0) r = Some y /\ en_name y = en_name x /\ en_owner y = en_owner x /\ en_decay y = en_decay x).
    { unfold set_class in Hx. destruct (nth_error (types st 0) p) as [z|] eqn:E; [|exists x; auto]. destruct (Nat.eq_dec r p) as [->|Hne].
      - rewrite nth_set_nth in Hx by (apply nth_error_Some; congruence). injection Hx as <-. exists z. auto.
      - rewrite nth_set_nth_other in Hx by exact Hne. exists x. auto. }
    destruct X as (y & Hy & E1 & E2 & E3). apply HE in Hy. unfold entry_ok in *. cbn. rewrite !position_set_class. rewrite <- E1, <- E2, <- E3. exact Hy.
  - intros n r H. rewrite position_set_class. exact H.
  - intros x Hx. apply In_nth_error in Hx as (r & Hr). unfold set_class. destruct (nth_error (types st 0) p) as [z|] eqn:E; [|exists x; split; [eapply nth_error_In; eauto|reflexivity]].
    destruct (Nat.eq_dec r p) as [->|Hne].
    + rewrite E in Hr. injection Hr as ->. eexists. split; [eapply nth_error_In; apply (nth_set_nth p); apply nth_error_Some; congruence|reflexivity].
    + exists x. split; [|reflexivity]. eapply nth_error_In. rewrite (nth_set_nth_other _ _ _ _ Hne). exact Hr.
Qed.

Definition about_converters (o : op) : bool := match o with AddConverter _ _ _ _ _ | DropConverter _ _ _ | Convert _ _ _ | UnloadModule _ => true | _ => false end.

Lemma act_grown m st o st1 a : inv st -> In m (loaded st) -> about_converters o = false -> act L nm hash e m st o = Some (st1, a) -> grown st st1.
Proof.
  intros I Hm Ho H. destruct o; try discriminate Ho; unfold act, next in H; cbn zeta in H.
  - injection H as <- <-. apply grown_refl. exact I.
  - destruct (ident L nm hash m st q) as [[s1 t]|] eqn:E; [|discriminate]. injection H as <- <-. apply (ident_grown _ _ _ _ _ I E).
  - destruct (n =? "")%string; [injection H as <- <-; apply grown_refl; exact I|]. destruct (find_name _ _ _ _); [|discriminate]. injection H as <- <-. apply grown_refl. exact I.
  - destruct (ident L nm hash m st q) as [[s1 t]|] eqn:E; [|discriminate]. destruct (deref s1 t) as [[s2 x]|] eqn:D; [|discriminate].
    pose proof (deref_state _ _ _ _ D) as ->. injection H as <- <-. apply (ident_grown _ _ _ _ _ I E).
  - destruct (ident L nm hash m st q) as [[s1 t]|] eqn:E; [|discriminate]. destruct (deref s1 t) as [[s2 x]|] eqn:D; [|discriminate].
    pose proof (deref_state _ _ _ _ D) as ->. assert (st1 = s1) as -> by (destruct x; [destruct (is_loaded _ _)|]; congruence). apply (ident_grown _ _ _ _ _ I E).
  - destruct (ident L nm hash m st q) as [[s1 t]|] eqn:E; [|discriminate]. destruct (deref s1 t) as [[s2 x]|] eqn:D; [|discriminate].
    pose proof (deref_state _ _ _ _ D) as ->. assert (st1 = s1) as -> by (destruct x; [destruct (is_loaded _ _)|]; congruence). apply (ident_grown _ _ _ _ _ I E).
  - injection H as <- <-. apply same_grown; try reflexivity. apply inv_vars. exact I.
  - injection H as <- <-. apply same_grown; try reflexivity. apply inv_vars. exact I.
  - unfold with_var, run_table in H. destruct (nth_error _ _); [|discriminate]. destruct (is_loaded _ _); [|discriminate]. injection H as <- <-. apply same_grown; try reflexivity. apply inv_vars. exact I.
  - unfold with_var, run_table in H. destruct (nth_error _ _); [|discriminate]. destruct (is_empty _ _ _); [|destruct (is_loaded _ _); [|discriminate]];
      injection H as <- <-; (apply same_grown; try reflexivity; apply inv_vars; exact I).
  - unfold with_var, run_table in H. destruct (nth_error _ _); [|discriminate]. destruct (is_loaded _ _); [|discriminate]. injection H as <- <-. apply same_grown; try reflexivity. apply inv_vars. exact I.
  - unfold with_var in H. destruct (nth_error _ _); [|discriminate]. injection H as <- <-. apply grown_refl. exact I.
  - unfold with_var in H. destruct (nth_error _ _) as [v|]; [|discriminate]. destruct (m_is L nm hash e m st v a0 T) as [[s1 b]|] eqn:E; [|discriminate].
    injection H as <- <-. eapply m_is_grown; eauto.
  - unfold with_var in H. destruct (nth_error _ _) as [v|]; [|discriminate]. destruct (m_access L nm hash e m st v a0 T) as [[s1 b]|] eqn:E; [|discriminate].
    injection H as <- <-. eapply m_access_grown; eauto.
  - destruct (ident L nm hash m st q) as [[s1 t]|] eqn:E; [|discriminate]. destruct (ident_grown _ _ _ _ _ I E) as (F & V & K).
    destruct (deref s1 t) as [[s2 x]|] eqn:D; [|discriminate]. pose proof (deref_state _ _ _ _ D) as ->.
    destruct x as [x|]; [|injection H as <- <-; auto]. destruct t as [[i p]|]; [|injection H as <- <-; auto]. destruct (en_class x); [injection H as <- <-; auto|].
    injection H as <- <-. destruct (is_void q); [specialize (V eq_refl); discriminate|]. destruct (K eq_refl) as [[_ X]|(_ & r & _ & [= -> ->])]; [discriminate|].
    eapply grown_trans; [exact F|]. apply class_grown. apply (g_inv _ _ F).
  - destruct (ident L nm hash m st q) as [[s1 t]|] eqn:E; [|discriminate]. destruct (deref s1 t) as [[s2 x]|] eqn:D; [|discriminate].
    pose proof (deref_state _ _ _ _ D) as ->. injection H as <- <-. apply (ident_grown _ _ _ _ _ I E).
  - destruct (find_item _ _); injection H as <- <-; [apply grown_refl; exact I|]. apply same_grown; try reflexivity. apply inv_items. exact I.
  - destruct (find_item _ _) as [x|]; [destruct (is_loaded _ _); [|discriminate]|]; injection H as <- <-; apply grown_refl; exact I.
Qed.

(** ** Types told apart by their names *)

Variable U : qty -> Prop.
Hypothesis HU : told_apart nm U.
Definition allU (st : state) : Prop := forall x, In x (types st 0) -> U (en_owner x).
Lemma allU_back st st1 : grown st st1 -> allU st1 -> allU st.
Proof. intros G H x Hx. destruct (g_owner _ _ G x Hx) as (y & Hy & <-). auto. Qed.
Lemma decayU q : U q -> U (full_decay q).
Proof. intro H. apply (proj2 HU q H). Qed.

(** The entry of a type. *)
Lemma entry_means st q p : entries st -> allU st -> U q -> position (nm q) (types st 0) = Some p ->
  exists x r, nth_error (types st 0) p = Some x /\ en_decay x = (0, r) /\ position (nm (full_decay q)) (types st 0) = Some r.
Proof.
  intros HE HA Hq P. destruct (position_nth _ _ _ P) as (x & Hx & En). destruct (HE p x Hx) as (H1 & H2 & H3).
  assert (Eo : en_owner x = q) by (apply (proj1 HU); [apply HA; eapply nth_error_In; eauto|exact Hq|congruence]). rewrite Eo in *. exists x. pose proof (decayU q Hq) as Hd.
  destruct H3 as [[[H|[H|H]] E]|(_ & _ & r & Hr & E)].
  - exists p. rewrite <- H. auto.
  - rewrite (U_not_void nm U HU _ Hd) in H. discriminate.
  - exfalso. apply (proj2 HU _ Hd). exact H.
  - exists r. auto.
Qed.
Lemma known_position st q t : U q -> known nm st q t -> exists p, position (nm q) (types st 0) = Some p /\ t = Some (0, p).
Proof. intros Hq [[E _]|(_ & p & Hp & ->)]; [exfalso; apply (proj2 HU q Hq); exact E|eauto]. Qed.

Lemma key_means m st f t st1 k : inv st -> entries st -> U f -> U t -> converter_key L nm hash m st f t = Some (st1, k) -> grown st st1 /\ (allU st1 ->
  exists p r, k = Some ((0, p), (0, r)) /\ position (nm (full_decay f)) (types st1 0) = Some p /\ position (nm (full_decay t)) (types st1 0) = Some r).
Proof.
  intros I HE Hf Ht H. unfold converter_key, next in H.
  destruct (ident L nm hash m st f) as [[s1 a]|] eqn:E1; [|discriminate]. destruct (ident_grown _ _ _ _ _ I E1) as (G1 & _ & K1).
  destruct (ident L nm hash m s1 t) as [[s2 b]|] eqn:E2; [|discriminate]. destruct (ident_grown _ _ _ _ _ (g_inv _ _ G1) E2) as (G2 & _ & K2).
  destruct (deref s2 a) as [[s3 x]|] eqn:D1; [|discriminate]. pose proof (deref_state _ _ _ _ D1) as ->.
  destruct (deref s2 b) as [[s4 y]|] eqn:D2; [|discriminate]. pose proof (deref_state _ _ _ _ D2) as ->. injection H as <- <-.
  split; [eapply grown_trans; eauto|]. intro HA. pose proof (g_entries _ _ G2 (g_entries _ _ G1 HE)) as HE2.
  destruct (known_position _ _ _ Hf (K1 (U_not_void nm U HU _ Hf))) as (p & Hp & ->). apply (g_position _ _ G2) in Hp.
  destruct (known_position _ _ _ Ht (K2 (U_not_void nm U HU _ Ht))) as (r & Hr & ->).
  destruct (entry_means _ _ _ HE2 HA Hf Hp) as (x' & p' & Hx & Ex & Px). destruct (entry_means _ _ _ HE2 HA Ht Hr) as (y' & r' & Hy & Ey & Py).
  cbn in D1, D2. destruct (is_loaded s2 0); [|discriminate]. rewrite Hx in D1. rewrite Hy in D2. injection D1 as <-. injection D2 as <-. exists p', r'. rewrite Ex, Ey. auto.
Qed.

Definition conv_ok (st : state) (x : converter) (y : (qty * qty) * nat) : Prop :=
  cv_fun x = snd y /\ U (fst (fst y)) /\ U (snd (fst y)) /\
  exists p r, cv_key x = ((0, p), (0, r)) /\ position (nm (fst (fst y))) (types st 0) = Some p /\ position (nm (snd (fst y))) (types st 0) = Some r.
Lemma conv_ok_grown st st1 x y : (forall n p, position n (types st 0) = Some p -> position n (types st1 0) = Some p) -> conv_ok st x y -> conv_ok st1 x y.
Proof. intros G (A & B & C & p & r & D & E & F). repeat (split; [assumption|]). exists p, r. auto. Qed.
Lemma same_types_eq a b : same_types a b = true <-> a = b.
Proof.
  unfold same_types. destruct a as [a1 a2], b as [b1 b2]; cbn. destruct (qty_eq_dec a1 b1) as [->|N]; [destruct (qty_eq_dec a2 b2) as [->|N]|]; split; intro H; try reflexivity; try discriminate H; injection H; intros; contradiction.
Qed.
Lemma pair_eqb_eq a b : pair_eqb a b = true <-> a = b.
Proof. unfold pair_eqb. destruct a as [a1 a2], b as [b1 b2]; cbn. rewrite andb_true_iff, !id_eqb_eq. split; [intros [-> ->]; reflexivity|intros [= -> ->]; auto]. Qed.
Lemma position_same l n n' p : position n l = Some p -> position n' l = Some p -> n = n'.
Proof. intros H H'. apply position_nth in H as (x & Hx & <-). apply position_nth in H' as (y & Hy & <-). congruence. Qed.
Lemma match_ok st x y k p r : conv_ok st x y -> U (fst k) -> U (snd k) -> position (nm (fst k)) (types st 0) = Some p -> position (nm (snd k)) (types st 0) = Some r ->
  pair_eqb (cv_key x) ((0, p), (0, r)) = same_types (fst y) k.
Proof.
  intros (_ & U1 & U2 & p' & r' & E & P1 & P2) V1 V2 Q1 Q2. apply eq_true_iff_eq. rewrite pair_eqb_eq, same_types_eq, E. destruct y as [[y1 y2] g], k as [k1 k2]; cbn in *. split.
  - intros [= -> ->]. f_equal; apply (proj1 HU); auto; eapply position_same; eauto.
  - intros [= -> ->]. congruence.
Qed.
Lemma find_ok st k p r : U (fst k) -> U (snd k) -> position (nm (fst k)) (types st 0) = Some p -> position (nm (snd k)) (types st 0) = Some r ->
  forall l T, Forall2 (conv_ok st) l T -> option_map cv_fun (find_conv ((0, p), (0, r)) l) = lookup k T.
Proof.
  intros V1 V2 Q1 Q2 l T H. unfold find_conv, lookup. induction H as [|x y l T Hxy _ IH]; [reflexivity|]. cbn [find]. rewrite (match_ok st x y k p r Hxy V1 V2 Q1 Q2).
  destruct (same_types (fst y) k); [cbn; f_equal; apply Hxy|exact IH].
Qed.
Lemma without_ok st k p r : U (fst k) -> U (snd k) -> position (nm (fst k)) (types st 0) = Some p -> position (nm (snd k)) (types st 0) = Some r ->
  forall l T, Forall2 (conv_ok st) l T -> Forall2 (conv_ok st) (filter (fun x => negb (pair_eqb (cv_key x) ((0, p), (0, r)))) l) (without [k] T).
Proof.
  intros V1 V2 Q1 Q2 l T H. unfold without. induction H as [|x y l T Hxy _ IH]; [constructor|]. cbn [filter existsb]. rewrite (match_ok st x y k p r Hxy V1 V2 Q1 Q2), orb_false_r.
  destruct (same_types (fst y) k); cbn [negb]; [exact IH|constructor; assumption].
Qed.

Record tied (st : state) (b : books) : Prop := {
  d_inv : inv st; d_entries : entries st; d_objects : objects st = objs b; d_convs : Forall2 (conv_ok st) (convs st 0) (reg b);
  d_types : forall x, In x (objs b) -> U (fst (fst (snd (fst x)))) /\ U (snd (fst (snd (fst x)))) /\ full_decay (fst (fst (snd (fst x)))) = fst (fst (snd (fst x))) /\ full_decay (snd (fst (snd (fst x)))) = snd (fst (snd (fst x))) }.
Lemma Forall2_impl {A B} (R S : A -> B -> Prop) l l' : (forall x y, R x y -> S x y) -> Forall2 R l l' -> Forall2 S l l'.
Proof. intros H. induction 1; constructor; auto. Qed.
Lemma tied_grown st st1 b : grown st st1 -> tied st b -> tied st1 b.
Proof.
  intros [A1 A2 A3 A4 A5 A6] [B1 B2 B3 B4 B5]. constructor; auto; [congruence|]. rewrite A5. eapply Forall2_impl; [|exact B4]. intros x y. apply conv_ok_grown. exact A3.
Qed.
Lemma same_find o (l : list ((nat * (qty * qty * nat)) * nat)) : option_map snd (find (fun x => object_eqb (fst x) o) l) = assoc object_eqb o l.
Proof.
  induction l as [|[k v] l IH]; [reflexivity|]. cbn. replace (object_eqb o k) with (object_eqb k o); [destruct (object_eqb k o); [reflexivity|exact IH]|].
  apply eq_true_iff_eq. rewrite !object_eqb_eq. split; congruence.
Qed.
Lemma is_object_eq n k kind x : is_object n k kind x = object_eqb (fst x) (n, (fst k, snd k, kind)).
Proof.
  apply eq_true_iff_eq. rewrite object_eqb_eq. destruct x as [[m [[f t] i]] g]. cbn. rewrite !andb_true_iff, !Nat.eqb_eq, same_types_eq. destruct k as [k1 k2]. cbn.
  split; [intros (-> & [= -> ->] & ->); reflexivity|intros [= -> -> -> ->]; auto].
Qed.
Lemma find_ext2 {A} (f g : A -> bool) l : (forall x, f x = g x) -> find f l = find g l.
Proof. intro H. induction l as [|x l IH]; cbn; [reflexivity|]. rewrite H, IH. reflexivity. Qed.
Lemma find_object n k kind (l : list ((nat * (qty * qty * nat)) * nat)) : option_map snd (find (is_object n k kind) l) = assoc object_eqb (n, (fst k, snd k, kind)) l.
Proof. rewrite <- same_find. f_equal. apply find_ext2. intro x. apply is_object_eq. Qed.

Definition owners_stay (st st1 : state) : Prop := forall x, In x (types st 0) -> exists y, In y (types st1 0) /\ en_owner y = en_owner x.
Lemma owners_trans a b c : owners_stay a b -> owners_stay b c -> owners_stay a c.
Proof. intros H1 H2 x Hx. destruct (H1 x Hx) as (y & Hy & E). destruct (H2 y Hy) as (z & Hz & E'). exists z. split; congruence. Qed.
Lemma owners_same st st1 : types st1 0 = types st 0 -> owners_stay st st1.
Proof. intros E x Hx. exists x. rewrite E. auto. Qed.
Lemma owners_all st st1 : owners_stay st st1 -> allU st1 -> allU st.
Proof. intros H HA x Hx. destruct (H x Hx) as (y & Hy & <-). auto. Qed.
Lemma key_grown m st f t st1 k : inv st -> converter_key L nm hash m st f t = Some (st1, k) -> grown st st1.
Proof.
  intros I H. unfold converter_key, next in H.
  destruct (ident L nm hash m st f) as [[s1 a]|] eqn:E1; [|discriminate]. destruct (ident_grown _ _ _ _ _ I E1) as (G1 & _).
  destruct (ident L nm hash m s1 t) as [[s2 b]|] eqn:E2; [|discriminate]. destruct (ident_grown _ _ _ _ _ (g_inv _ _ G1) E2) as (G2 & _).
  destruct (deref s2 a) as [[s3 x]|] eqn:D1; [|discriminate]. pose proof (deref_state _ _ _ _ D1) as ->.
  destruct (deref s2 b) as [[s4 y]|] eqn:D2; [|discriminate]. pose proof (deref_state _ _ _ _ D2) as ->. injection H as <- <-. eapply grown_trans; eauto.
Qed.
Lemma grown_owners st st1 : grown st st1 -> owners_stay st st1.
Proof. intros G x. apply (g_owner _ _ G). Qed.

Lemma drop_owners m l : forall st st1 u, inv st -> drop_all L nm hash m st l = Some (st1, u) -> owners_stay st st1.
Proof.
  induction l as [|[[f t] k] l IH]; intros st st1 u I H; cbn [drop_all] in H; [injection H as <- _; apply owners_same; reflexivity|].
  destruct (converter_key L nm hash m st f t) as [[s1 key]|] eqn:Ek; [|discriminate]. cbn [next] in H. pose proof (key_grown _ _ _ _ _ _ I Ek) as G.
  eapply owners_trans; [apply grown_owners; exact G|]. destruct key as [key|]; [|eapply IH; [apply (g_inv _ _ G)|exact H]].
  eapply (owners_trans _ (set_convs s1 (image L m) _)); [apply owners_same; reflexivity|]. eapply IH; [|exact H]. rewrite HL. apply inv_fewer; [apply (g_inv _ _ G)|]. intros x Hx. apply filter_In in Hx. tauto.
Qed.
Lemma exec_owners st o st1 a : inv st -> (forall m, o = UnloadModule m -> m <> 0) -> exec L nm hash e st o = Some (st1, a) -> owners_stay st st1.
Proof.
  intros I H0 H. unfold exec in H. destruct (actor o) as [m|] eqn:Ha.
  - destruct (is_loaded st m) eqn:Em; [|discriminate]. apply is_loaded_iff in Em. destruct (about_converters o) eqn:Ho; [|apply grown_owners; eapply act_grown; eauto].
    destruct o; try discriminate Ho; try discriminate Ha; unfold act in H; cbn zeta in H.
    + set (k := (copy L m _, _)) in H. destruct (match assoc object_eqb k (objects st) with Some g => (st, g) | None => (add_object st k f, f) end) as [s0 g] eqn:E0.
      assert (S0 : inv s0 /\ types s0 0 = types st 0).
      { destruct (assoc object_eqb k (objects st)) as [u|]; injection E0 as <- <-; [auto|]. split; [|reflexivity]. apply inv_object; [exact I|]. apply (i_closed _ _ _ I). exact Em. }
      destruct S0 as [I0 T0]. destruct (converter_key L nm hash m s0 _ _) as [[s1 key]|] eqn:Ek; [|discriminate]. cbn [next] in H.
      assert (G : owners_stay st s1) by (eapply owners_trans; [apply owners_same; exact T0|apply grown_owners; eapply key_grown; eauto]).
      destruct key as [key|]; [|injection H as <- _; exact G]. destruct (find_conv _ _); injection H as <- _; [exact G|]. eapply owners_trans; [exact G|]. apply owners_same. reflexivity.
    + destruct (converter_key L nm hash m st _ _) as [[s1 key]|] eqn:Ek; [|discriminate]. cbn [next] in H. pose proof (grown_owners _ _ (key_grown _ _ _ _ _ _ I Ek)) as G.
      destruct key; injection H as <- _; [|exact G]. eapply owners_trans; [exact G|]. apply owners_same. reflexivity.
    + destruct (converter_key L nm hash m st _ _) as [[s1 key]|] eqn:Ek; [|discriminate]. cbn [next] in H. pose proof (grown_owners _ _ (key_grown _ _ _ _ _ _ I Ek)) as G.
      destruct key; [destruct (find_conv _ _); [destruct (is_loaded _ _); [|discriminate]|]|]; injection H as <- _; exact G.
  - destruct o; try discriminate Ha.
    + injection H as <- _. apply owners_same. reflexivity.
    + destruct (is_loaded st m); [|discriminate]. unfold unload in H. destruct (drop_all L nm hash m st _) as [[s1 u]|] eqn:Ed; [|discriminate]. cbn [next] in H. injection H as <- _.
      eapply owners_trans; [eapply drop_owners; eauto|]. apply owners_same. cbn. unfold at_image. destruct (Nat.eqb_spec 0 m) as [<-|]; [exfalso; apply (H0 0); reflexivity|reflexivity].
Qed.
Lemma exec_inv st o h st1 a : inv st -> linked L (loaded st) (o :: h) -> exec L nm hash e st o = Some (st1, a) -> inv st1 /\ linked L (loaded st1) h /\ (forall m, o = UnloadModule m -> m <> 0).
Proof.
  intros I HK E. unfold exec in E. destruct (actor o) as [m|] eqn:Ho.
  - destruct (is_loaded st m) eqn:Em; [|discriminate]. apply is_loaded_iff in Em. destruct (act_inv _ _ _ _ HL _ _ _ _ _ I Em E) as [J1 J2]. split; [exact J1|]. rewrite J2.
    destruct HK as [_ HK]. split; [destruct o; try discriminate Ho; exact HK|]. intros n ->. discriminate Ho.
  - destruct HK as [HC HK]. destruct o; try discriminate Ho.
    + injection E as <- <-. split; [|split; [exact HK|discriminate]]. destruct I as [A B C D]. constructor; cbn; [destruct h; apply HK|exact B| |exact D]. intros o Ho'. right. apply C. exact Ho'.
    + destruct (is_loaded st m); [|discriminate]. destruct (unload L nm hash st m) as [[s3 u]|] eqn:Eu; [|discriminate]. cbn [next] in E. injection E as <- <-.
      assert (HC' : closed L (filter (fun x => negb (x =? m)) (loaded st))) by (destruct h; apply HK).
      assert (Hm0 : m <> 0). { intros ->. destruct HC' as [H0 _]. apply filter_In in H0 as [_ H0]. discriminate. }
      destruct (unload_inv _ _ _ HL m st s3 u Hm0 I HC' Eu) as [J1 J2]. split; [exact J1|]. rewrite J2. split; [exact HK|]. intros n [= <-]. exact Hm0.
Qed.
Lemma run_owners h : forall st st1 l, inv st -> linked L (loaded st) h -> run L nm hash e st h = Some (st1, l) -> owners_stay st st1.
Proof.
  induction h as [|o h IH]; intros st st1 l I HK H; cbn [run] in H; [injection H as <- <-; apply owners_same; reflexivity|].
  destruct (exec L nm hash e st o) as [[s1 a]|] eqn:E; [|discriminate]. cbn [next] in H. destruct (run L nm hash e s1 h) as [[s2 l2]|] eqn:E2; [|discriminate].
  cbn [next] in H. injection H as <- <-. destruct (exec_inv _ _ _ _ _ I HK E) as (J & HK' & H0). eapply owners_trans; [eapply exec_owners; eauto|eapply IH; eauto].
Qed.

(** ** Steps *)

Lemma without_ext ks ks' T : (forall k, In k ks <-> In k ks') -> without ks T = without ks' T.
Proof.
  intro H. unfold without. apply filter_ext. intros x. f_equal. apply eq_true_iff_eq. rewrite !existsb_exists. split; intros (k & Hk & E); exists k; (split; [apply H; exact Hk|exact E]).
Qed.
Lemma without_cons k ks T : without ks (without [k] T) = without (k :: ks) T.
Proof.
  unfold without. induction T as [|x T IH]; [reflexivity|]. cbn [filter existsb]. rewrite orb_false_r. destruct (same_types (fst x) k); cbn [negb orb]; [exact IH|]. cbn [filter].
  destruct (existsb (same_types (fst x)) ks); cbn [negb]; [exact IH|]. f_equal. exact IH.
Qed.
Lemma without_nil T : without [] T = T.
Proof. unfold without. induction T as [|x T IH]; [reflexivity|]. cbn. f_equal. exact IH. Qed.

Definition fixed (k : qty * qty) : Prop := U (fst k) /\ U (snd k) /\ full_decay (fst k) = fst k /\ full_decay (snd k) = snd k.
Lemma drop_tied m l : forall st st1 u T, inv st -> entries st -> Forall2 (conv_ok st) (convs st 0) T -> (forall x, In x l -> fixed (fst x)) ->
  drop_all L nm hash m st l = Some (st1, u) -> allU st1 -> inv st1 /\ entries st1 /\ objects st1 = objects st /\ Forall2 (conv_ok st1) (convs st1 0) (without (map fst l) T).
Proof.
  induction l as [|[[f t] k] l IH]; intros st st1 u T I HE HT HF H HA; cbn [drop_all] in H.
  - injection H as <- _. cbn [map]. rewrite without_nil. auto.
  - destruct (converter_key L nm hash m st f t) as [[s1 key]|] eqn:Ek; [|discriminate]. cbn [next] in H. destruct (HF _ (or_introl eq_refl)) as (Uf & Ut & Df & Dt). cbn [fst snd] in *.
    destruct (key_means _ _ _ _ _ _ I HE Uf Ut Ek) as [G K].
    set (s2 := match key with None => s1 | Some key => _ end) in H.
    assert (I2 : inv s2). { unfold s2. destruct key as [key|]; [|apply (g_inv _ _ G)]. rewrite HL. apply inv_fewer; [apply (g_inv _ _ G)|]. intros x Hx. apply filter_In in Hx. tauto. }
    assert (HA1 : allU s1). { apply (owners_all s1 st1); [|exact HA]. eapply (owners_trans _ s2); [apply owners_same; unfold s2; destruct key; reflexivity|eapply drop_owners; eauto]. }
    destruct (K HA1) as (p & r & -> & Hp & Hr). rewrite Df in Hp. rewrite Dt in Hr. unfold s2 in *. clear s2. rewrite HL in *.
    assert (T1 : Forall2 (conv_ok s1) (convs s1 0) T). { rewrite (g_convs _ _ G). eapply Forall2_impl; [|exact HT]. intros x y. apply conv_ok_grown. apply (g_position _ _ G). }
    pose proof (without_ok s1 (f, t) p r Uf Ut Hp Hr _ _ T1) as T2.
    destruct (IH _ st1 u (without [(f, t)] T) I2) as (J & E & O & C); [| |intros x Hx; apply HF; right; exact Hx|exact H|exact HA|].
    + eapply entries_ext; [|apply (g_entries _ _ G HE)]. reflexivity.
    + cbn. eapply Forall2_impl; [|exact T2]. intros x y. apply conv_ok_grown. cbn. auto.
    + split; [exact J|]. split; [exact E|]. split; [rewrite O; cbn; apply (g_objects _ _ G)|]. cbn [map fst]. rewrite <- without_cons. exact C.
Qed.

Definition op_types (o : op) : list qty := match o with AddConverter _ f t _ _ | DropConverter _ f t | Convert _ f t => [f; t] | _ => [] end.
Lemma step_tied st b o h st1 a : tied st b -> linked L (loaded st) (o :: h) -> exec L nm hash e st o = Some (st1, a) -> (forall q, In q (op_types o) -> U q) -> allU st1 ->
  tied st1 (fst (expect L b o)) /\ match snd (expect L b o) with Some x => a = x | None => True end.
Proof.
  intros TD HK H HQ HA. destruct (exec_inv _ _ _ _ _ (d_inv _ _ TD) HK H) as (I1 & _ & H0). unfold exec in H. destruct (actor o) as [m|] eqn:Ha.
  - destruct (is_loaded st m) eqn:Em; [|discriminate]. apply is_loaded_iff in Em. destruct (about_converters o) eqn:Ho.
    2:{ assert (X : expect L b o = (b, None)) by (destruct o; try discriminate Ho; reflexivity). rewrite X. split; [|exact I]. eapply tied_grown; [|exact TD]. eapply act_grown; eauto. apply TD. }
    destruct TD as [B1 B2 B3 B4 B5]. destruct o; try discriminate Ho; try discriminate Ha; injection Ha as ->; unfold act in H; cbn zeta in H; cbn [expect op_types] in *.
    + assert (Uf : U (full_decay from)) by (apply decayU; apply HQ; cbn; auto). assert (Ut : U (full_decay to)) by (apply decayU; apply HQ; cbn; auto).
      unfold decayed. cbn [fst snd]. set (n := copy L m (SConverter (full_decay from) (full_decay to) kind)) in *. set (k := (n, (full_decay from, full_decay to, kind))) in *.
      pose proof (find_object n (full_decay from, full_decay to) kind (objs b)) as FO. cbn [fst snd] in FO. fold k in FO. rewrite <- B3 in FO at 2.
      assert (Hk : In (fst k) (loaded st)) by (apply (i_closed _ _ _ B1); exact Em).
      assert (S0 : exists s0 g os, match assoc object_eqb k (objects st) with Some g => (st, g) | None => (add_object st k f, f) end = (s0, g) /\
        match find (is_object n (full_decay from, full_decay to) kind) (objs b) with Some x => (objs b, snd x) | None => (objs b ++ [(k, f)], f) end = (os, g) /\
        inv s0 /\ types s0 0 = types st 0 /\ convs s0 0 = convs st 0 /\ objects s0 = os /\
        (forall x, In x os -> fixed (fst (snd (fst x))))).
      { destruct (find _ (objs b)) as [x|] eqn:Ef; cbn in FO; rewrite <- FO.
        - exists st, (snd x), (objs b). do 6 (split; [auto|]). intros y Hy. destruct (B5 y Hy) as (C1 & C2 & C3 & C4). repeat split; assumption.
        - exists (add_object st k f), f, (objs b ++ [(k, f)]). do 2 (split; [auto|]). split; [apply inv_object; assumption|]. do 2 (split; [auto|]). split; [cbn; rewrite B3; reflexivity|].
          intros y Hy. apply in_app_or in Hy as [Hy|[<-|[]]]; [destruct (B5 y Hy) as (C1 & C2 & C3 & C4); repeat split; assumption|]. cbn. repeat split; cbn; auto; apply full_decay_idem. }
      destruct S0 as (s0 & g & os & X1 & X2 & I0 & T0 & C0 & O0 & F0). rewrite X1 in H. fold k in X2 |- *. rewrite X2. cbn [fst snd].
      destruct (converter_key L nm hash m s0 _ _) as [[s1 key]|] eqn:Ek; [|discriminate]. cbn [next] in H.
      assert (E0 : entries s0) by (eapply entries_ext; [exact T0|exact B2]). destruct (key_means _ _ _ _ _ _ I0 E0 Uf Ut Ek) as [G K].
      assert (HA1 : allU s1). { apply (owners_all s1 st1); [|exact HA]. apply owners_same. destruct key as [key|]; [destruct (find_conv _ _)|]; injection H as <- _; reflexivity. }
      destruct (K HA1) as (p & r & -> & Hp & Hr). rewrite full_decay_idem in Hp, Hr. rewrite HL in H.
      assert (T1 : Forall2 (conv_ok s1) (convs s1 0) (reg b)).
      { rewrite (g_convs _ _ G), C0. eapply Forall2_impl; [|exact B4]. intros x y. apply conv_ok_grown. intros n' p' Hn'. apply (g_position _ _ G). rewrite T0. exact Hn'. }
      pose proof (find_ok s1 (full_decay from, full_decay to) p r Uf Ut Hp Hr _ _ T1) as FK.
      assert (E1 : entries s1) by (apply (g_entries _ _ G); exact E0). assert (O1 : objects s1 = os) by (rewrite (g_objects _ _ G); exact O0).
      destruct (find_conv _ (convs s1 0)) as [x|]; cbn in FK; rewrite <- FK; injection H as <- <-; cbn [fst snd]; (split; [|reflexivity]); constructor; cbn [objs reg]; auto.
      cbn. apply Forall2_app; [eapply Forall2_impl; [|exact T1]; intros x y; apply conv_ok_grown; cbn; auto|]. constructor; [|constructor]. unfold conv_ok. cbn. repeat (split; [auto|]). exists p, r. auto.
    + assert (Uf : U from) by (apply HQ; cbn; auto). assert (Ut : U to) by (apply HQ; cbn; auto).
      destruct (converter_key L nm hash m st _ _) as [[s1 key]|] eqn:Ek; [|discriminate]. cbn [next] in H. destruct (key_means _ _ _ _ _ _ B1 B2 Uf Ut Ek) as [G K].
      assert (HA1 : allU s1) by (apply (owners_all s1 st1); [|exact HA]; apply owners_same; destruct key; injection H as <- _; reflexivity).
      destruct (K HA1) as (p & r & -> & Hp & Hr). rewrite HL in H. injection H as <- <-. cbn [fst snd]. split; [|reflexivity].
      assert (T1 : Forall2 (conv_ok s1) (convs s1 0) (reg b)) by (rewrite (g_convs _ _ G); eapply Forall2_impl; [|exact B4]; intros x y; apply conv_ok_grown; apply (g_position _ _ G)).
      pose proof (without_ok s1 (decayed from to) p r (decayU _ Uf) (decayU _ Ut) Hp Hr _ _ T1) as T2.
      constructor; cbn [objs reg]; [exact I1|eapply entries_ext; [|apply (g_entries _ _ G B2)]; reflexivity|cbn; rewrite (g_objects _ _ G); exact B3| |exact B5].
      cbn. eapply Forall2_impl; [|exact T2]. intros x y. apply conv_ok_grown. cbn. auto.
    + assert (Uf : U from) by (apply HQ; cbn; auto). assert (Ut : U to) by (apply HQ; cbn; auto).
      destruct (converter_key L nm hash m st _ _) as [[s1 key]|] eqn:Ek; [|discriminate]. cbn [next] in H. destruct (key_means _ _ _ _ _ _ B1 B2 Uf Ut Ek) as [G K].
      assert (E : s1 = st1) by (destruct key; [destruct (find_conv _ _); [destruct (is_loaded _ _); [|discriminate]|]|]; injection H as <- _; reflexivity). subst s1.
      destruct (K HA) as (p & r & -> & Hp & Hr). rewrite HL in H.
      assert (T1 : Forall2 (conv_ok st1) (convs st1 0) (reg b)) by (rewrite (g_convs _ _ G); eapply Forall2_impl; [|exact B4]; intros x y; apply conv_ok_grown; apply (g_position _ _ G)).
      pose proof (find_ok st1 (decayed from to) p r (decayU _ Uf) (decayU _ Ut) Hp Hr _ _ T1) as FK. cbn [fst snd].
      split; [eapply tied_grown; [exact G|constructor; assumption]|]. destruct (find_conv _ _) as [x|]; cbn in FK; rewrite <- FK; [destruct (is_loaded _ _); [|discriminate]|]; injection H as <-; reflexivity.
  - destruct o; try discriminate Ha.
    + injection H as <- <-. cbn [expect fst snd]. split; [|exact I]. eapply tied_grown; [|exact TD]. apply same_grown; try reflexivity. exact I1.
    + destruct (is_loaded st m); [|discriminate]. unfold unload in H. destruct (drop_all L nm hash m st _) as [[s1 u]|] eqn:Ed; [|discriminate]. cbn [next] in H. injection H as <- <-.
      specialize (H0 m eq_refl). assert (Z : (0 =? m) = false) by (apply Nat.eqb_neq; congruence). destruct TD as [B1 B2 B3 B4 B5].
      assert (TS : types (forget s1 m) 0 = types s1 0) by (cbn; unfold at_image; rewrite Z; reflexivity).
      assert (HA1 : allU s1) by (intros x Hx; apply HA; rewrite TS; exact Hx).
      destruct (drop_tied m (own_objects st m) st s1 u (reg b) B1 B2 B4) as (J & E & O & C); [|exact Ed|exact HA1|].
      { intros x Hx. unfold own_objects in Hx. apply in_rev in Hx. apply in_map_iff in Hx as (y & <- & Hy). apply filter_In in Hy as [Hy _]. rewrite B3 in Hy.
        destruct (B5 y Hy) as (C1 & C2 & C3 & C4). repeat split; assumption. }
      cbn [expect fst snd]. split; [|reflexivity]. constructor; cbn [objs reg]; auto.
      * eapply entries_ext; [exact TS|exact E].
      * cbn. rewrite O, B3. reflexivity.
      * cbn [forget convs]. unfold at_image. rewrite Z. rewrite (without_ext _ (map fst (own_objects st m))).
        -- eapply Forall2_impl; [|exact C]. intros x y. apply conv_ok_grown. intros n p. rewrite TS. auto.
        -- intro k. unfold own_objects. rewrite B3, map_rev, <- in_rev, map_map. reflexivity.
      * intros x Hx. apply filter_In in Hx as [Hx _]. auto.
Qed.
Lemma run_tied h : forall st b st1 l, tied st b -> linked L (loaded st) h -> run L nm hash e st h = Some (st1, l) -> (forall q, In q (converter_types h) -> U q) -> allU st1 ->
  Forall2 (fun a x => match x with Some y => a = y | None => True end) l (expected L b h).
Proof.
  induction h as [|o h IH]; intros st b st1 l TD HK H HQ HA; cbn [run] in H; [injection H as <- <-; constructor|].
  destruct (exec L nm hash e st o) as [[s1 a]|] eqn:E; [|discriminate]. cbn [next] in H. destruct (run L nm hash e s1 h) as [[s2 l2]|] eqn:E2; [|discriminate].
  cbn [next] in H. injection H as <- <-. destruct (exec_inv _ _ _ _ _ (d_inv _ _ TD) HK E) as (J & HK' & _).
  assert (HA1 : allU s1) by (eapply owners_all; [eapply run_owners; eauto|exact HA]).
  destruct (step_tied st b o h s1 a TD HK E) as [T1 A1]; [intros q Hq; apply HQ; cbn; apply in_or_app; left; exact Hq|exact HA1|].
  cbn [expected]. destruct (expect L b o) as [b' x]. cbn [fst snd] in *. constructor; [exact A1|]. eapply IH; eauto. intros q Hq. apply HQ. cbn. apply in_or_app. right. exact Hq.
Qed.
Lemma tied_start ms : closed L ms -> tied (start ms) (Books [] []).
Proof.
  intro C. constructor; cbn; auto.
  - apply inv_start. exact C.
  - intros p x Hx. destruct p; discriminate Hx.
  - intros x [].
Qed.
End Table.
