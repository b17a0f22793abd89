(** Proofs about converters in a process made of modules (C66): what is registered lies in a module that is loaded. *)
From Coq Require Import NArith List Bool Arith String Lia.
From Verif Require Import TypesModel TypesSpec TypesProofs InheritModel RegistryModel AccModel ModuleModel ModuleSpec ModuleProofs.
Import ListNotations.
Local Open Scope list_scope.

Section Alive.
Variable L : linkage.
Variable nm : qty -> string.
Variable hash : string -> nat.
Variable e : env.
Hypothesis HL : shared L.

(** The entry of a type, by its name. *)
Definition entry_of (st : state) (q : qty) : option entry :=
  if is_void q then None else if (nm q =? "")%string then None else
  match position (nm q) (types st 0) with Some p => nth_error (types st 0) p | None => None end.
Definition key_of (st : state) (f t : qty) : option ((nat * nat) * (nat * nat)) :=
  match entry_of st f, entry_of st t with Some x, Some y => Some (en_decay x, en_decay y) | _, _ => None end.

Record inv (st : state) : Prop := {
  i_closed : closed L (loaded st);
  i_ids : forall m q t, assoc key_eqb (m, q) (ids st) = Some t -> known nm st q t;
  i_objects : forall o, In o (objects st) -> In (fst (fst o)) (loaded st);
  i_convs : forall x, In x (convs st 0) -> exists f t k g, In ((cv_module x, (f, t, k)), g) (objects st) /\ key_of st f t = Some (cv_key x) }.

Lemma entry_of_ext st st1 q x : (exists l, types st1 0 = types st 0 ++ l) -> entry_of st q = Some x -> entry_of st1 q = Some x.
Proof.
  intros [l E]. unfold entry_of. destruct (is_void q); [auto|]. destruct (nm q =? "")%string; [auto|].
  destruct (position (nm q) (types st 0)) as [p|] eqn:Ep; [|discriminate]. rewrite E, (position_app _ _ _ _ Ep). intro H.
  rewrite nth_error_app1; [exact H|]. apply nth_error_Some. congruence.
Qed.
Lemma key_of_ext st st1 f t k : (exists l, types st1 0 = types st 0 ++ l) -> key_of st f t = Some k -> key_of st1 f t = Some k.
Proof.
  intros E. unfold key_of. destruct (entry_of st f) as [x|] eqn:Ex; [|discriminate]. destruct (entry_of st t) as [y|] eqn:Ey; [|discriminate].
  rewrite (entry_of_ext _ _ _ _ E Ex), (entry_of_ext _ _ _ _ E Ey). auto.
Qed.

Lemma find_name_some st n r : find_name hash st 0 n = Some r -> r = position n (types st 0).
Proof. unfold find_name. destruct (existsb _ _); congruence. Qed.

(** The registry of types and the statics grow. *)
Definition fine (st st1 : state) : Prop := inv st -> inv st1 /\ keeps st st1.
Lemma fine_refl st : fine st st.
Proof. intro I. split; [exact I|apply keeps_refl]. Qed.
Lemma fine_trans a b c : fine a b -> fine b c -> fine a c.
Proof. intros H1 H2 I. destruct (H1 I) as [I1 K1]. destruct (H2 I1) as [I2 K2]. split; [exact I2|eapply keeps_trans; eauto]. Qed.

Lemma enter_fine m q st dec st1 t : enter L nm hash m q st dec = Some (st1, t) ->
  fine st st1 /\ known nm st1 q t /\ ids st1 = ids st.
Proof.
  unfold enter. rewrite HL. destruct (nm q =? "")%string eqn:En.
  { intros [= <- <-]. apply String.eqb_eq in En. split; [apply fine_refl|]. split; [left; auto|reflexivity]. }
  apply String.eqb_neq in En. destruct (find_name hash st 0 (nm q)) as [[p|]|] eqn:Ef; [| |discriminate]; apply find_name_some in Ef.
  - intros [= <- <-]. split; [apply fine_refl|]. split; [right; eauto|reflexivity].
  - intros [= <- <-]. set (x := Entry _ _ _ _ _ _). split; [|split; [|reflexivity]].
    + intro I. assert (X : exists l, types (set_types st 0 (types st 0 ++ [x])) 0 = types st 0 ++ l) by (exists [x]; reflexivity).
      split; [|constructor; auto]. constructor.
      * exact (i_closed _ I).
      * intros n r t H. eapply known_ext; [exact X|]. apply (i_ids _ I n r t). exact H.
      * exact (i_objects _ I).
      * intros c Hc. destruct (i_convs _ I c Hc) as (f & t & k & g & H1 & H2). exists f, t, k, g. split; [exact H1|]. eapply key_of_ext; [exact X|exact H2].
    + right. split; [exact En|]. exists (List.length (types st 0)). split; [|reflexivity]. cbn. apply position_new; [symmetry; exact Ef|reflexivity].
Qed.

Lemma add_id_fine st k q t : known nm st q t -> fine st (add_id st (k, q) t).
Proof.
  intros K I. split; [|apply keeps_add_id]. destruct I as [A B C D]. constructor; cbn; [exact A| |exact C|exact D].
  intros n r u. rewrite assoc_app. destruct (assoc key_eqb (n, r) (ids st)) as [v|] eqn:E; [intros [= <-]; exact (B _ _ _ E)|].
  destruct (key_eqb (n, r) (k, q)) eqn:Ek; [|discriminate]. apply key_eqb_eq in Ek. injection Ek as -> ->. intros [= <-]. exact K.
Qed.

Lemma once_fine m q st f st1 t : inv st -> once L m q st f = Some (st1, t) -> (forall st2 u, f st = Some (st2, u) -> fine st st2 /\ known nm st2 q u) ->
  fine st st1 /\ (is_void q = true -> t = None) /\ (is_void q = false -> known nm st1 q t).
Proof.
  intros I H Hf. unfold once in H. destruct (is_void q) eqn:Ev; [injection H as <- <-; split; [apply fine_refl|split; [auto|discriminate]]|].
  destruct (assoc _ _ _) as [u|] eqn:Ea.
  - injection H as <- <-. split; [apply fine_refl|]. split; [discriminate|]. intros _. eapply i_ids; eauto.
  - destruct (f st) as [[st2 u]|] eqn:Ef; [|discriminate]. cbn in H. injection H as <- <-. destruct (Hf _ _ eq_refl) as [F K].
    split; [eapply fine_trans; [exact F|apply add_id_fine; exact K]|]. split; [discriminate|]. intros _. exact K.
Qed.

Lemma ident_fine m st q st1 t : inv st -> ident L nm hash m st q = Some (st1, t) ->
  fine st st1 /\ (is_void q = true -> t = None) /\ (is_void q = false -> known nm st1 q t).
Proof.
  intros I H. unfold ident in H. eapply once_fine; [exact I|exact H|]. intros st2 u Hu. destruct (qeqb q (full_decay q)).
  - destruct (enter_fine _ _ _ _ _ _ Hu) as (F & K & _). auto.
  - destruct (once L m (full_decay q) st _) as [[st3 d]|] eqn:Eo; [|discriminate]. cbn in Hu.
    assert (F3 : fine st st3).
    { eapply once_fine; [exact I|exact Eo|]. intros st4 v Hv. destruct (enter_fine _ _ _ _ _ _ Hv) as (F & K & _). auto. }
    destruct (enter_fine _ _ _ _ _ _ Hu) as (F & K & _). split; [eapply fine_trans; eauto|exact K].
Qed.

Lemma deref_state st t st1 x : deref st t = Some (st1, x) -> st1 = st.
Proof.
  destruct t as [[i p]|]; cbn; [|congruence]. destruct (is_loaded st i); [|discriminate]. destruct (nth_error _ _); congruence.
Qed.
Lemma deref_entry st q t x : (is_void q = true -> t = None) -> (is_void q = false -> known nm st q t) -> deref st t = Some (st, x) -> x = entry_of st q.
Proof.
  intros H1 H2 H. unfold entry_of. destruct (is_void q).
  - rewrite (H1 eq_refl) in H. cbn in H. congruence.
  - destruct (H2 eq_refl) as [[E ->]|(E & p & Hp & ->)].
    + rewrite E. cbn in *. congruence.
    + apply String.eqb_neq in E. rewrite E, Hp. cbn in H. destruct (is_loaded st 0); [|discriminate]. destruct (nth_error (types st 0) p); congruence.
Qed.

Lemma converter_key_fine m st f t st1 k : inv st -> converter_key L nm hash m st f t = Some (st1, k) -> fine st st1 /\ k = key_of st1 f t.
Proof.
  intros I H. unfold converter_key, next in H.
  destruct (ident L nm hash m st f) as [[s1 a]|] eqn:E1; [|discriminate]. destruct (ident_fine _ _ _ _ _ I E1) as (F1 & V1 & K1). destruct (F1 I) as [I1 KA].
  destruct (ident L nm hash m s1 t) as [[s2 b]|] eqn:E2; [|discriminate]. destruct (ident_fine _ _ _ _ _ I1 E2) as (F2 & V2 & K2). destruct (F2 I1) as [I2 KB].
  destruct (deref s2 a) as [[s3 x]|] eqn:D1; [|discriminate]. pose proof (deref_state _ _ _ _ D1) as ->.
  destruct (deref s2 b) as [[s4 y]|] eqn:D2; [|discriminate]. pose proof (deref_state _ _ _ _ D2) as ->. injection H as <- <-.
  split; [eapply fine_trans; eauto|].
  assert (K1' : is_void f = false -> known nm s2 f a) by (intro X; eapply known_ext; [apply (k_types _ _ KB)|auto]).
  rewrite (deref_entry s2 f a x V1 K1' D1), (deref_entry s2 t b y V2 K2 D2). reflexivity.
Qed.

Lemma type_in_fine st v a st1 t : inv st -> type_in L nm hash st v a = Some (st1, t) -> fine st st1.
Proof.
  intros I H. unfold type_in, run_table in H. destruct (is_loaded st (v_module v)); [|discriminate]. destruct (v_content v); [|injection H as <- <-; apply fine_refl].
  apply (ident_fine _ _ _ _ _ I H).
Qed.

Lemma m_is_fine m st v a T st1 b : inv st -> m_is L nm hash e m st v a T = Some (st1, b) -> fine st st1.
Proof.
  intros I H. unfold m_is, next in H. destruct (type_in L nm hash st v a) as [[s1 t]|] eqn:E1; [|discriminate]. pose proof (type_in_fine _ _ _ _ _ I E1) as F1.
  destruct (F1 I) as [I1 _]. destruct (is_empty L m v); [injection H as <- <-; exact F1|].
  destruct (ident L nm hash m s1 T) as [[s2 u]|] eqn:E2; [|discriminate]. destruct (ident_fine _ _ _ _ _ I1 E2) as (F2 & _).
  destruct (deref s2 t) as [[s3 x]|] eqn:D1; [|discriminate]. pose proof (deref_state _ _ _ _ D1) as ->.
  destruct (deref s2 u) as [[s4 y]|] eqn:D2; [|discriminate]. pose proof (deref_state _ _ _ _ D2) as ->. injection H as <- _. eapply fine_trans; eauto.
Qed.
Lemma m_access_fine m st v a T st1 b : inv st -> m_access L nm hash e m st v a T = Some (st1, b) -> fine st st1.
Proof.
  intros I H. unfold m_access, next in H. destruct (type_in L nm hash st v (from_attr a)) as [[s1 t]|] eqn:E1; [|discriminate].
  pose proof (type_in_fine _ _ _ _ _ I E1) as F1. destruct (F1 I) as [I1 _].
  destruct (ident L nm hash m s1 (seen a T)) as [[s2 u]|] eqn:E2; [|discriminate]. destruct (ident_fine _ _ _ _ _ I1 E2) as (F2 & _).
  assert (F : fine st s2) by (eapply fine_trans; eauto). destruct (is_empty L m v); [injection H as <- <-; exact F|].
  destruct (deref s2 t) as [[s3 x]|] eqn:D1; [|discriminate]. pose proof (deref_state _ _ _ _ D1) as ->.
  destruct (deref s2 u) as [[s4 y]|] eqn:D2; [|discriminate]. pose proof (deref_state _ _ _ _ D2) as ->. injection H as <- _. exact F.
Qed.

(** The other steps. *)
Lemma inv_vars st l : inv st -> inv (set_vars st l).
Proof. intros [A B C D]. constructor; assumption. Qed.
Lemma inv_items st i l : inv st -> inv (set_items st i l).
Proof. intros [A B C D]. constructor; assumption. Qed.
Lemma inv_fewer st l : inv st -> (forall x, In x l -> In x (convs st 0)) -> inv (set_convs st 0 l).
Proof. intros [A B C D] H. constructor; try assumption. cbn. intros x Hx. apply D. apply H. exact Hx. Qed.
Lemma inv_object st k g : inv st -> In (fst k) (loaded st) -> inv (add_object st k g).
Proof.
  intros [A B C D] H. constructor; try assumption; cbn.
  - intros o Ho. apply in_app_or in Ho as [Ho|[<-|[]]]; [apply C; exact Ho|exact H].
  - intros x Hx. destruct (D x Hx) as (f & t & n & u & H1 & H2). exists f, t, n, u. split; [apply in_or_app; left; exact H1|exact H2].
Qed.
Lemma nth_set_class_decay l p c r x : nth_error l r = Some x -> exists y, nth_error (set_class l p c) r = Some y /\ en_decay y = en_decay x.
Proof.
  intro H. unfold set_class. destruct (nth_error l p) as [z|] eqn:E; [|eauto]. destruct (Nat.eq_dec r p) as [->|Hne].
  - rewrite E in H. injection H as <-. rewrite nth_set_nth by (apply nth_error_Some; congruence). eexists. split; [reflexivity|reflexivity].
  - rewrite nth_set_nth_other by exact Hne. eauto.
Qed.
Lemma inv_class st p c : inv st -> inv (set_types st 0 (set_class (types st 0) p c)).
Proof.
  intros [A B C D]. constructor; cbn; auto.
  - intros m q t H. destruct (B m q t H) as [K|(N & r & Hr & Ht)]; [left; exact K|right]. split; [exact N|]. exists r. split; [cbn; rewrite position_set_class; exact Hr|exact Ht].
  - intros x Hx. destruct (D x Hx) as (f & t & k & g & H1 & H2). exists f, t, k, g. split; [exact H1|].
    assert (X : forall q z, entry_of st q = Some z -> exists y, entry_of (set_types st 0 (set_class (types st 0) p c)) q = Some y /\ en_decay y = en_decay z).
    { intros q z. unfold entry_of. cbn. destruct (is_void q); [discriminate|]. destruct (nm q =? "")%string; [discriminate|]. rewrite position_set_class.
      destruct (position (nm q) (types st 0)) as [r|]; [|discriminate]. apply nth_set_class_decay. }
    unfold key_of in *. destruct (entry_of st f) as [u|] eqn:Eu; [|discriminate]. destruct (entry_of st t) as [v|] eqn:Ev; [|discriminate].
    destruct (X _ _ Eu) as (u' & -> & ->). destruct (X _ _ Ev) as (v' & -> & ->). exact H2.
Qed.

Lemma pair_eqb_refl k : pair_eqb k k = true.
Proof. destruct k as [[a b] [c d]]. unfold pair_eqb, id_eqb. cbn. rewrite !Nat.eqb_refl. reflexivity. Qed.

Lemma drop_all_ok m l : forall st st1 u, inv st -> drop_all L nm hash m st l = Some (st1, u) ->
  inv st1 /\ loaded st1 = loaded st /\ objects st1 = objects st /\ (exists n, types st1 0 = types st 0 ++ n) /\
  (forall x, In x (convs st1 0) -> In x (convs st 0)) /\
  forall f t k x, In (f, t, k) l -> key_of st f t = Some (cv_key x) -> ~ In x (convs st1 0).
Proof.
  induction l as [|[[f t] k] l IH]; intros st st1 u I H; cbn [drop_all] in H.
  - injection H as <- <-. repeat split; auto; try apply I. exists []. rewrite app_nil_r. reflexivity.
  - destruct (converter_key L nm hash m st f t) as [[s1 key]|] eqn:Ek; [|discriminate]. cbn [next] in H.
    destruct (converter_key_fine _ _ _ _ _ _ I Ek) as [F Hk]. destruct (F I) as [I1 K1].
    set (s2 := match key with None => s1 | Some key => _ end) in H.
    assert (S2 : inv s2 /\ loaded s2 = loaded s1 /\ objects s2 = objects s1 /\ types s2 = types s1 /\ (forall x, In x (convs s2 0) -> In x (convs s1 0)) /\
      (forall x, key = Some (cv_key x) -> ~ In x (convs s2 0))).
    { unfold s2. destruct key as [key|].
      - rewrite HL. split; [apply inv_fewer; [exact I1|]; intros x Hx; apply filter_In in Hx; tauto|]. do 3 (split; [reflexivity|]). split.
        + cbn. intros x Hx. apply filter_In in Hx. tauto.
        + cbn. intros x [= ->] Hx. apply filter_In in Hx as [_ Hx]. rewrite pair_eqb_refl in Hx. discriminate.
      - repeat (split; [first [exact I1|reflexivity|auto]|]). discriminate. }
    destruct S2 as (I2 & A1 & A2 & A3 & A4 & A5). destruct (IH s2 st1 u I2 H) as (J & B1 & B2 & [n B3] & B4 & B5). clearbody s2.
    destruct (k_types _ _ K1) as [n1 Hn1].
    assert (X : exists n, types s2 0 = types st 0 ++ n) by (exists n1; rewrite A3; exact Hn1).
    split; [exact J|]. split; [rewrite B1, A1; apply (k_loaded _ _ K1)|]. split; [rewrite B2, A2; apply (k_objects _ _ K1)|].
    split; [exists (n1 ++ n); rewrite B3, A3, Hn1, app_assoc; reflexivity|].
    split; [intros x Hx; rewrite <- (k_convs _ _ K1); auto|].
    intros f' t' k' x [[= -> -> ->]|Hin] Hkey Hx.
    + apply (A5 x); [|auto]. rewrite Hk. eapply key_of_ext; [apply (k_types _ _ K1)|exact Hkey].
    + eapply B5; [exact Hin| |exact Hx]. eapply key_of_ext; [exact X|exact Hkey].
Qed.

Lemma unload_inv m st st1 u : m <> 0 -> inv st -> closed L (filter (fun x => negb (x =? m)) (loaded st)) -> unload L nm hash st m = Some (st1, u) -> inv st1 /\
  loaded st1 = filter (fun x => negb (x =? m)) (loaded st).
Proof.
  intros H0 I HC H. unfold unload in H. destruct (drop_all L nm hash m st (own_objects st m)) as [[s1 v]|] eqn:Ed; [|discriminate]. cbn [next] in H. injection H as <- _.
  destruct (drop_all_ok _ _ _ _ _ I Ed) as (I1 & A1 & A2 & A3 & A4 & A5). split; [|cbn; rewrite A1; reflexivity].
  assert (H0m : (0 =? m) = false) by (apply Nat.eqb_neq; congruence).
  constructor; cbn; unfold at_image; rewrite ?H0m.
  - rewrite A1. exact HC.
  - intros n q t H. destruct (Nat.eq_dec n m) as [->|Hne].
    { rewrite (assoc_filter_none _ key_eqb_eq) in H; [discriminate|]. intros [k g] Hk. cbn in *. subst k. cbn. rewrite Nat.eqb_refl. reflexivity. }
    rewrite (assoc_filter _ key_eqb_eq) in H.
    2:{ intros [k g] Hk. cbn in *. subst k. cbn. apply negb_true_iff, Nat.eqb_neq. exact Hne. }
    destruct (i_ids _ I1 _ _ _ H) as [K|(N & p & Hp & Ht)]; [left; exact K|right]. split; [exact N|]. exists p. split; [cbn; unfold at_image; rewrite H0m; exact Hp|exact Ht].
  - intros o Ho. apply filter_In in Ho as [Ho Hm]. apply filter_In. split; [apply (i_objects _ I1); exact Ho|exact Hm].
  - intros x Hx. destruct (i_convs _ I x (A4 x Hx)) as (f & t & k & g & H1 & H2). exists f, t, k, g. split.
    + apply filter_In. rewrite A2. split; [exact H1|]. cbn. apply negb_true_iff, Nat.eqb_neq. intro Xm.
      apply (A5 f t k x); [|exact H2|exact Hx]. unfold own_objects. apply -> in_rev. apply in_map_iff. eexists. split; [|apply filter_In; split; [exact H1|cbn; apply Nat.eqb_eq; exact Xm]]. reflexivity.
    + assert (K : key_of s1 f t = Some (cv_key x)) by (eapply key_of_ext; eauto). unfold key_of, entry_of in *. cbn. unfold at_image. rewrite H0m. exact K.
Qed.

Lemma act_inv m st o st1 a : inv st -> In m (loaded st) -> act L nm hash e m st o = Some (st1, a) -> inv st1 /\ loaded st1 = loaded st.
Proof.
  intros I Hm H. assert (FI : forall s, fine st s -> inv s /\ loaded s = loaded st) by (intros s F; destruct (F I) as [J K]; split; [exact J|apply (k_loaded _ _ K)]).
  destruct o; unfold act, next in H; cbn zeta in H.
  1,2: injection H as <- <-; auto.
  - destruct (ident L nm hash m st q) as [[s1 t]|] eqn:E; [|discriminate]. injection H as <- <-. apply FI. apply (ident_fine _ _ _ _ _ I E).
  - destruct (n =? "")%string; [injection H as <- <-; auto|]. destruct (find_name _ _ _ _); [|discriminate]. injection H as <- <-. auto.
  - destruct (ident L nm hash m st q) as [[s1 t]|] eqn:E; [|discriminate]. destruct (deref s1 t) as [[s2 x]|] eqn:D; [|discriminate].
    pose proof (deref_state _ _ _ _ D) as ->. injection H as <- <-. apply FI. apply (ident_fine _ _ _ _ _ I E).
  - destruct (ident L nm hash m st q) as [[s1 t]|] eqn:E; [|discriminate]. destruct (deref s1 t) as [[s2 x]|] eqn:D; [|discriminate].
    pose proof (deref_state _ _ _ _ D) as ->. assert (st1 = s1) as -> by (destruct x; [destruct (is_loaded _ _)|]; congruence).
    apply FI. apply (ident_fine _ _ _ _ _ I E).
  - destruct (ident L nm hash m st q) as [[s1 t]|] eqn:E; [|discriminate]. destruct (deref s1 t) as [[s2 x]|] eqn:D; [|discriminate].
    pose proof (deref_state _ _ _ _ D) as ->. assert (st1 = s1) as -> by (destruct x; [destruct (is_loaded _ _)|]; congruence).
    apply FI. apply (ident_fine _ _ _ _ _ I E).
  - injection H as <- <-. split; [apply inv_vars; exact I|reflexivity].
  - injection H as <- <-. split; [apply inv_vars; exact I|reflexivity].
  - unfold with_var, run_table in H. destruct (nth_error _ _); [|discriminate]. destruct (is_loaded _ _); [|discriminate]. injection H as <- <-. split; [apply inv_vars; exact I|reflexivity].
  - unfold with_var, run_table in H. destruct (nth_error _ _); [|discriminate]. destruct (is_empty _ _ _); [|destruct (is_loaded _ _); [|discriminate]];
      injection H as <- <-; (split; [apply inv_vars; exact I|reflexivity]).
  - unfold with_var, run_table in H. destruct (nth_error _ _); [|discriminate]. destruct (is_loaded _ _); [|discriminate]. injection H as <- <-. split; [apply inv_vars; exact I|reflexivity].
  - unfold with_var in H. destruct (nth_error _ _); [|discriminate]. injection H as <- <-. auto.
  - unfold with_var in H. destruct (nth_error _ _) as [v|]; [|discriminate]. destruct (m_is L nm hash e m st v a0 T) as [[s1 b]|] eqn:E; [|discriminate].
    injection H as <- <-. apply FI. eapply m_is_fine; eauto.
  - unfold with_var in H. destruct (nth_error _ _) as [v|]; [|discriminate]. destruct (m_access L nm hash e m st v a0 T) as [[s1 b]|] eqn:E; [|discriminate].
    injection H as <- <-. apply FI. eapply m_access_fine; eauto.
  - destruct (ident L nm hash m st q) as [[s1 t]|] eqn:E; [|discriminate]. destruct (ident_fine _ _ _ _ _ I E) as (F & V & K).
    destruct (deref s1 t) as [[s2 x]|] eqn:D; [|discriminate]. pose proof (deref_state _ _ _ _ D) as ->. destruct (FI _ F) as [J1 J2].
    destruct x as [x|]; [|injection H as <- <-; auto]. destruct t as [[i p]|]; [|injection H as <- <-; auto]. destruct (en_class x); [injection H as <- <-; auto|].
    injection H as <- <-. split; [|exact J2].
    destruct (is_void q); [specialize (V eq_refl); discriminate|]. destruct (K eq_refl) as [[_ X]|(_ & r & _ & [= -> ->])]; [discriminate|]. apply inv_class. exact J1.
  - destruct (ident L nm hash m st q) as [[s1 t]|] eqn:E; [|discriminate]. destruct (deref s1 t) as [[s2 x]|] eqn:D; [|discriminate].
    pose proof (deref_state _ _ _ _ D) as ->. injection H as <- <-. apply FI. apply (ident_fine _ _ _ _ _ I E).
  - destruct (find_item _ _); injection H as <- <-; [auto|]. split; [apply inv_items; exact I|reflexivity].
  - destruct (find_item _ _) as [x|]; [destruct (is_loaded _ _); [|discriminate]|]; injection H as <- <-; auto.
  - set (k := (copy L m _, _)) in H. set (f' := full_decay from) in *. set (t' := full_decay to) in *.
    assert (Hk : In (fst k) (loaded st)) by (apply (i_closed _ I); exact Hm).
    destruct (match assoc object_eqb k (objects st) with Some g => (st, g) | None => (add_object st k f, f) end) as [s0 g] eqn:E0.
    assert (S0 : inv s0 /\ loaded s0 = loaded st /\ exists g, In (k, g) (objects s0)).
    { destruct (assoc object_eqb k (objects st)) as [u|] eqn:Ea; injection E0 as <- <-.
      - split; [exact I|]. split; [reflexivity|]. exists u. apply (assoc_in _ object_eqb_eq). exact Ea.
      - split; [apply inv_object; [exact I|exact Hk]|]. split; [reflexivity|]. exists f. cbn. apply in_or_app. right. left. reflexivity. }
    destruct S0 as (I0 & L0 & g0 & Hg0).
    destruct (converter_key L nm hash m s0 f' t') as [[s1 key]|] eqn:Ek; [|discriminate]. destruct (converter_key_fine _ _ _ _ _ _ I0 Ek) as [F Hkey]. destruct (F I0) as [I1 K1].
    assert (L1 : loaded s1 = loaded st) by (rewrite (k_loaded _ _ K1); exact L0).
    destruct key as [key|]; [|injection H as <- <-; auto]. rewrite HL in H. destruct (find_conv key (convs s1 0)); injection H as <- <-; [auto|].
    split; [|exact L1]. destruct I1 as [B1 B2 B3 B4]. constructor; try assumption. cbn. intros x Hx. apply in_app_or in Hx as [Hx|[<-|[]]]; [apply B4; exact Hx|].
    exists f', t', kind, g0. cbn. split; [rewrite (k_objects _ _ K1); exact Hg0|]. symmetry. exact Hkey.
  - destruct (converter_key L nm hash m st from to) as [[s1 key]|] eqn:Ek; [|discriminate]. destruct (converter_key_fine _ _ _ _ _ _ I Ek) as [F _]. destruct (FI _ F) as [J1 J2].
    destruct key as [key|]; injection H as <- <-; [|auto]. rewrite HL. split; [|exact J2]. apply inv_fewer; [exact J1|]. intros x Hx. apply filter_In in Hx. tauto.
  - destruct (converter_key L nm hash m st from to) as [[s1 key]|] eqn:Ek; [|discriminate]. destruct (converter_key_fine _ _ _ _ _ _ I Ek) as [F _]. destruct (FI _ F) as [J1 J2].
    destruct key as [key|]; [destruct (find_conv _ _); [destruct (is_loaded _ _); [|discriminate]|]|]; injection H as <- <-; auto.
Qed.

Lemma run_inv h : forall st st1 l, inv st -> linked L (loaded st) h -> run L nm hash e st h = Some (st1, l) -> inv st1.
Proof.
  induction h as [|o h IH]; intros st st1 l I HK H; cbn [run] in H; [injection H as <- <-; exact I|].
  destruct (exec L nm hash e st o) as [[s1 a]|] eqn:E; [|discriminate]. cbn [next] in H. destruct (run L nm hash e s1 h) as [[s2 l2]|] eqn:E2; [|discriminate].
  cbn [next] in H. injection H as <- <-. unfold exec in E.
  assert (S : inv s1 /\ linked L (loaded s1) h).
  { destruct (actor o) as [m|] eqn:Ho.
    - destruct (is_loaded st m) eqn:Em; [|discriminate]. apply is_loaded_iff in Em. destruct (act_inv _ _ _ _ _ I Em E) as [J1 J2]. split; [exact J1|]. rewrite J2.
      destruct HK as [_ HK]. destruct o; try discriminate Ho; exact HK.
    - destruct HK as [HC HK]. destruct o; try discriminate Ho.
      + injection E as <- <-. split; [|exact HK]. destruct I as [A B C D]. constructor; cbn; [destruct h; apply HK|exact B| |exact D].
        intros o Ho'. right. apply C. exact Ho'.
      + destruct (is_loaded st m); [|discriminate]. destruct (unload L nm hash st m) as [[s3 u]|] eqn:Eu; [|discriminate]. cbn [next] in E. injection E as <- <-.
        assert (HC' : closed L (filter (fun x => negb (x =? m)) (loaded st))) by (destruct h; apply HK).
        assert (Hm0 : m <> 0). { intros ->. destruct HC' as [H0 _]. apply filter_In in H0 as [_ H0]. discriminate. }
        destruct (unload_inv m st s3 u Hm0 I HC' Eu) as [J1 J2]. split; [exact J1|]. rewrite J2. exact HK. }
  destruct S as [J HK']. eapply IH; eauto.
Qed.

Lemma inv_start ms : closed L ms -> inv (start ms).
Proof. intro C. constructor; cbn; [exact C|discriminate|intros o []|intros x []]. Qed.

Lemma converters_loaded ms h st l : linked L ms h -> run L nm hash e (start ms) h = Some (st, l) -> forall x, In x (convs st 0) -> In (cv_module x) (loaded st).
Proof.
  intros HK H x Hx. assert (I : inv st). { apply (run_inv h (start ms) st l); [apply inv_start; destruct h; apply HK|exact HK|exact H]. }
  destruct (i_convs _ I x Hx) as (f & t & k & g & Ho & _). apply (i_objects _ I) in Ho. exact Ho.
Qed.
End Alive.
