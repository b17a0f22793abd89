(** Proofs about StringsModel.v. *)
From Coq Require Import List Bool Arith NArith String Ascii Lia Permutation.
From Verif Require Import Util ListsModel ListsSpec ListsProofs StringsModel StringsSpec.
Import ListNotations.
Local Open Scope list_scope.

Lemma text_eqb_eq a b : text_eqb a b = true <-> a = b.
Proof.
  revert b. induction a as [|x a IH]; intros [|y b]; cbn; split; intro H; try discriminate; auto.
  - apply andb_true_iff in H as [H1 H2]. apply Ascii.eqb_eq in H1. apply IH in H2. congruence.
  - injection H as -> ->. rewrite Ascii.eqb_refl. cbn. apply IH. reflexivity.
Qed.

Lemma find_char_some c s n : find_char c s = Some n ->
  exists a r, s = a ++ c :: r /\ List.length a = n /\ ~ In c a.
Proof.
  revert n. induction s as [|x s IH]; intros n H; cbn in H; [discriminate|].
  destruct (Ascii.eqb x c) eqn:E.
  - injection H as <-. apply Ascii.eqb_eq in E. subst. exists [], s. auto.
  - destruct (find_char c s) as [m|] eqn:Em; cbn in H; [|discriminate]. injection H as <-.
    destruct (IH m eq_refl) as (a & r & -> & Hl & Hn). exists (x :: a), r. cbn.
    repeat split; [congruence|]. intros [->|Hi]; [|contradiction]. rewrite Ascii.eqb_refl in E. discriminate.
Qed.

Lemma find_char_none c s : find_char c s = None -> ~ In c s.
Proof.
  induction s as [|x s IH]; cbn; [tauto|]. destruct (Ascii.eqb x c) eqn:E; [discriminate|].
  destruct (find_char c s); cbn; [discriminate|]. intros _ [->|H].
  - rewrite Ascii.eqb_refl in E. discriminate.
  - apply IH; auto.
Qed.

Lemma firstn_app_l {A} (a b : list A) : firstn (List.length a) (a ++ b) = a.
Proof. rewrite firstn_app, Nat.sub_diag, firstn_all. cbn. apply app_nil_r. Qed.
Lemma skipn_app_l {A} (a b : list A) : skipn (List.length a) (a ++ b) = b.
Proof. rewrite skipn_app, skipn_all, Nat.sub_diag. reflexivity. Qed.

Lemma split_unique {A} (c : A) a a' r r' : a ++ c :: r = a' ++ c :: r' -> ~ In c a -> ~ In c a' -> a = a' /\ r = r'.
Proof.
  revert a'. induction a as [|x a IH]; intros [|y a'] E Ha Ha'; cbn in *.
  - injection E as E. auto.
  - injection E as E1 E2. subst. exfalso. apply Ha'. auto.
  - injection E as E1 E2. subst. exfalso. apply Ha. auto.
  - injection E as E1 E2. subst. destruct (IH a' E2) as [-> ->]; auto.
Qed.

Lemma method_matches_spec m q : exists b, method_matches m q = Some b /\ (b = true <-> answers m q).
Proof.
  unfold method_matches. destruct (find_char "("%char m) as [pos|] eqn:E.
  - apply find_char_some in E as (a & r & -> & <- & Hn).
    unfold compare_eq, substr. cbn [skipn].
    change (List.length (a ++ "("%char :: r) <? 0) with false. change (List.length q <? 0) with false. cbn iota.
    rewrite firstn_app_l.
    destruct (text_eqb a (firstn (Nat.min (List.length a) (List.length q)) q)) eqn:Ec.
    + apply text_eqb_eq in Ec.
      assert (Hlen : List.length a <= List.length q).
      { pose proof (f_equal (@List.length _) Ec) as HL. rewrite firstn_length in HL. lia. }
      rewrite Nat.min_l in Ec by exact Hlen.
      assert (Hq : q = a ++ skipn (List.length a) q) by (rewrite <- (firstn_skipn (List.length a) q) at 1; congruence).
      destruct (List.length a =? List.length q) eqn:El.
      * apply Nat.eqb_eq in El. exists true. split; [reflexivity|]. split; [intros _|reflexivity].
        assert (q = a). { rewrite Hq. rewrite El, skipn_all, app_nil_r. reflexivity. } subst q.
        right. split; [exact Hn|]. exists r. reflexivity.
      * apply Nat.eqb_neq in El.
        destruct (List.length (a ++ "("%char :: r) <? List.length a) eqn:El2.
        { apply Nat.ltb_lt in El2. rewrite app_length in El2. lia. }
        destruct (List.length q <? List.length a) eqn:El3; [apply Nat.ltb_lt in El3; lia|].
        eexists. split; [reflexivity|]. rewrite text_eqb_eq, skipn_app_l.
        rewrite app_length, Nat.add_comm, Nat.add_sub, firstn_all.
        rewrite <- (skipn_length (List.length a) q), firstn_all. split.
        -- intro H. left. rewrite Hq, <- H. reflexivity.
        -- intros [H|[Hni (rest & H)]].
           ++ rewrite H. apply eq_sym, skipn_app_l.
           ++ exfalso. apply split_unique in H as [H _]; [subst; lia|exact Hn|exact Hni].
    + exists false. split; [reflexivity|]. split; [discriminate|]. intros [H|[Hni (rest & H)]]; exfalso.
      * subst q. rewrite app_length, Nat.min_l, firstn_app_l in Ec by lia.
        assert (text_eqb a a = true) by (apply text_eqb_eq; reflexivity). congruence.
      * apply split_unique in H as [H _]; [|exact Hn|exact Hni]. subst.
        rewrite Nat.min_id, firstn_all in Ec. assert (text_eqb q q = true) by (apply text_eqb_eq; reflexivity). congruence.
  - apply find_char_none in E. exists (text_eqb m q). split; [reflexivity|]. rewrite text_eqb_eq. split.
    + intros ->. left. reflexivity.
    + intros [H|[_ (rest & ->)]]; [congruence|]. exfalso. apply E. apply in_or_app. right. left. reflexivity.
Qed.

Lemma findMethod_spec {A} (nm : A -> text) l q :
  (exists l1 a l2, l = l1 ++ a :: l2 /\ findMethod nm l q = FSome a /\ answers (nm a) q /\
     Forall (fun b => ~ answers (nm b) q) l1)
  \/ (findMethod nm l q = FNone /\ Forall (fun b => ~ answers (nm b) q) l).
Proof.
  unfold findMethod. induction l as [|a l IH]; cbn [for_each].
  - right. split; [reflexivity|constructor].
  - destruct (method_matches_spec (nm a) q) as (b & Eb & Hb). rewrite Eb. destruct b.
    + left. exists [], a, l. repeat split; [apply Hb; reflexivity|constructor].
    + assert (Hna : ~ answers (nm a) q) by (intro H; apply Hb in H; discriminate).
      destruct IH as [(l1 & x & l2 & -> & E & Hx & HF)|[E HF]].
      * left. exists (a :: l1), x, l2. repeat split; auto.
      * right. split; auto.
Qed.

Lemma answers_nonempty_sig m q : In "("%char q -> (answers m q <-> q = m).
Proof. unfold answers. intuition. Qed.

(** ** Signatures *)

Lemma fold_pit_tail sep l os : l <> [] ->
  fst (fold_left (pit_assign sep) l (os, false)) = os ++ sep ++ joined sep l.
Proof.
  revert os. induction l as [|a l IH]; intros os H; [congruence|]. cbn [fold_left pit_assign].
  destruct l as [|b l]; [cbn; reflexivity|]. rewrite IH by discriminate. cbn [joined].
  rewrite <- !app_assoc. reflexivity.
Qed.

Lemma fold_pit sep l os : fst (fold_left (pit_assign sep) l (os, true)) = os ++ joined sep l.
Proof.
  destruct l as [|a l]; cbn; [symmetry; apply app_nil_r|]. destruct l as [|b l]; [reflexivity|].
  rewrite fold_pit_tail by discriminate. rewrite <- app_assoc. reflexivity.
Qed.

Lemma signature_text name args :
  signature name args = name ++ lit "(" ++ joined (lit ", ") args ++ lit ")".
Proof.
  unfold signature. pose proof (fold_pit (txt ", ") args (name ++ txt "(")) as H.
  destruct (fold_left _ _ _) as [os f]. cbn [fst] in H. rewrite H. rewrite <- !app_assoc. reflexivity.
Qed.

Section Atoms.
  Variables op cl sp : ascii -> bool.
  Hypothesis sep_plain : forall c, sp c = true -> op c = false /\ cl c = false.

  (** An atom ends at the first separator outside brackets. *)
  Lemma atom_split a : forall b d x y, atom op cl sp d a = true -> atom op cl sp d b = true ->
    (x = [] \/ exists c x', x = c :: x' /\ sp c = true) ->
    (y = [] \/ exists c y', y = c :: y' /\ sp c = true) ->
    a ++ x = b ++ y -> a = b /\ x = y.
  Proof.
    induction a as [|e a IH]; intros [|f b] d x y Ha Hb Hx Hy E; cbn [app] in E.
    - auto.
    - exfalso. cbn in Ha. apply Nat.eqb_eq in Ha. subst d.
      destruct Hx as [->|(c & x' & -> & Hc)]; [discriminate|]. injection E as -> _.
      destruct (sep_plain _ Hc) as [H1 H2]. cbn in Hb. rewrite H1, H2, Hc in Hb. discriminate.
    - exfalso. cbn in Hb. apply Nat.eqb_eq in Hb. subst d.
      destruct Hy as [->|(c & y' & -> & Hc)]; [discriminate|]. injection E as -> _.
      destruct (sep_plain _ Hc) as [H1 H2]. cbn in Ha. rewrite H1, H2, Hc in Ha. discriminate.
    - injection E as -> E. cbn in Ha, Hb. destruct (op f).
      + destruct (IH b (S d) x y Ha Hb Hx Hy E) as [-> ->]. auto.
      + destruct (cl f).
        * destruct d as [|d]; [discriminate|]. destruct (IH b d x y Ha Hb Hx Hy E) as [-> ->]. auto.
        * destruct (sp f && (d =? 0)); [discriminate|]. destruct (IH b d x y Ha Hb Hx Hy E) as [-> ->]. auto.
  Qed.

  (** Joining non-empty atoms with a separator text that starts with a separator is injective. *)
  Lemma joined_inj c sep l : sp c = true -> forall l',
    Forall (fun a => atom op cl sp 0 a = true /\ a <> []) l ->
    Forall (fun a => atom op cl sp 0 a = true /\ a <> []) l' ->
    joined (c :: sep) l = joined (c :: sep) l' -> l = l'.
  Proof.
    intro Hc. induction l as [|a l IH]; intros [|b l'] H H' E.
    - reflexivity.
    - exfalso. inversion H' as [|? ? [_ Hb] _]; subst. cbn in E. destruct l'; destruct b; cbn in E; congruence.
    - exfalso. inversion H as [|? ? [_ Hb] _]; subst. cbn in E. destruct l; destruct a; cbn in E; congruence.
    - inversion H as [|? ? [Ha Hane] HF]; inversion H' as [|? ? [Hb Hbne] HF']; subst.
      assert (HX : forall a l, exists x, joined (c :: sep) (a :: l) = a ++ x /\
                (x = [] \/ exists c0 x', x = c0 :: x' /\ sp c0 = true) /\
                match l with [] => x = [] | _ => x = (c :: sep) ++ joined (c :: sep) l end).
      { clear - Hc. intros a [|b l].
        - exists []. cbn. rewrite app_nil_r. auto.
        - exists ((c :: sep) ++ joined (c :: sep) (b :: l)). split; [reflexivity|]. split; [|reflexivity].
          right. cbn. eauto. }
      destruct (HX a l) as (x & Ex & Hx & Hxl). destruct (HX b l') as (y & Ey & Hy & Hyl).
      rewrite Ex, Ey in E. destruct (atom_split a b 0 x y Ha Hb Hx Hy E) as [-> ->]. f_equal.
      destruct l as [|a' l], l' as [|b' l']; try reflexivity.
      + subst y. discriminate.
      + subst y. cbn in Hyl. discriminate.
      + rewrite Hxl in Hyl. apply app_inv_head in Hyl. apply IH; assumption.
  Qed.
End Atoms.

Lemma signature_inj n n' l l' :
  ~ In "("%char n -> ~ In "("%char n' ->
  Forall (fun a => type_text a = true /\ a <> []) l -> Forall (fun a => type_text a = true /\ a <> []) l' ->
  signature n l = signature n' l' -> n = n' /\ l = l'.
Proof.
  intros Hn Hn' Hl Hl' E. rewrite !signature_text in E. cbn [lit list_ascii_of_string app] in E.
  apply split_unique in E as [-> E]; [|assumption|assumption]. split; [reflexivity|].
  apply app_inj_tail in E as [E _].
  eapply joined_inj with (op := is_one_of "([<{") (cl := is_one_of ")]>}") (sp := is_one_of ",") in E;
    try eassumption; [|reflexivity].
  intros c Hc. unfold is_one_of in Hc. cbn in Hc. rewrite orb_false_r in Hc. apply Ascii.eqb_eq in Hc. subst c.
  split; reflexivity.
Qed.

Lemma signature_has_paren n l : In "("%char (signature n l).
Proof. rewrite signature_text. apply in_or_app. right. left. reflexivity. Qed.

Lemma signature_lookup {A} (nm : A -> text) (l : list A) n args a :
  In a l -> nm a = signature n args -> exists b, getMethodSig nm l n args = FSome b /\ nm b = nm a.
Proof.
  intros Hin Hnm. unfold getMethodSig, getMethod.
  pose proof (signature_has_paren n args) as Hp. destruct (signature n args) as [|c s] eqn:Es; [destruct Hp|].
  rewrite <- Es in *. clear c s Es.
  destruct (findMethod_spec nm l (signature n args)) as [(l1 & x & l2 & -> & E & Hx & HF)|[E HF]].
  - exists x. split; [exact E|]. apply answers_nonempty_sig in Hx; [|exact Hp]. congruence.
  - exfalso. rewrite Forall_forall in HF. apply (HF a Hin). left. auto.
Qed.

Lemma signature_lookup_only {A} (nm : A -> text) (l : list A) n args b :
  getMethodSig nm l n args = FSome b -> In b l /\ nm b = signature n args.
Proof.
  unfold getMethodSig, getMethod. pose proof (signature_has_paren n args) as Hp.
  destruct (signature n args) as [|c s] eqn:Es; [destruct Hp|]. rewrite <- Es in *. clear c s Es.
  intro H. destruct (findMethod_spec nm l (signature n args)) as [(l1 & x & l2 & -> & E & Hx & HF)|[E HF]].
  - rewrite E in H. injection H as ->. apply answers_nonempty_sig in Hx; [|exact Hp].
    split; [apply in_or_app; right; left; reflexivity|auto].
  - congruence.
Qed.

(** ** Type names *)

Lemma is_prefix_spec p s : is_prefix p s = true <-> exists r, s = p ++ r.
Proof.
  revert s. induction p as [|x p IH]; intros [|y s]; cbn; split; intro H; eauto; try discriminate.
  - destruct H as [r H]. discriminate.
  - apply andb_true_iff in H as [H1 H2]. apply Ascii.eqb_eq in H1. apply IH in H2 as [r ->]. subst. eauto.
  - destruct H as [r H]. injection H as -> ->. rewrite Ascii.eqb_refl. cbn. apply IH. eauto.
Qed.

Lemma strstr_first p a b : (forall a1 a2, a = a1 ++ a2 -> a2 <> [] -> is_prefix p (a2 ++ p ++ b) = false) ->
  strstr p (a ++ p ++ b) = Some (p ++ b).
Proof.
  intro H. induction a as [|x a IH]; cbn [app].
  - assert (E : is_prefix p (p ++ b) = true) by (apply is_prefix_spec; eauto).
    destruct p as [|y p]; [destruct b; reflexivity|]. cbn [strstr app] in *. rewrite E. reflexivity.
  - cbn [strstr]. pose proof (H [] (x :: a) eq_refl) as HH. cbn [app] in HH. rewrite HH by discriminate.
    apply IH. intros a1 a2 -> Hne. apply (H (x :: a1) a2); [reflexivity|exact Hne].
Qed.

Lemma strrchr_last c t : forall r, ~ In c r -> strrchr c (t ++ c :: r) = Some (List.length t).
Proof.
  induction t as [|x t IH]; intros r Hr; cbn.
  - assert (E : strrchr c r = None).
    { induction r as [|y r IHr]; [reflexivity|]. cbn. rewrite IHr by (intro; apply Hr; right; assumption).
      destruct (Ascii.eqb y c) eqn:E; [|reflexivity]. apply Ascii.eqb_eq in E. subst. exfalso. apply Hr. left. reflexivity. }
    rewrite E, Ascii.eqb_refl. reflexivity.
  - rewrite (IH r Hr). reflexivity.
Qed.

(** The text up to the last bracket, whatever precedes the marker. *)
Lemma type_name_spec pre t : (forall a1 a2, pre = a1 ++ a2 -> a2 <> [] ->
    is_prefix (lit "T =") (a2 ++ lit "T =" ++ " "%char :: t ++ lit "]") = false) ->
  type_name (pre ++ lit "T = " ++ t ++ lit "]") = TName t.
Proof.
  intro H. unfold type_name.
  change (pre ++ lit "T = " ++ t ++ lit "]") with (pre ++ txt "T =" ++ (" "%char :: t ++ lit "]")).
  rewrite (strstr_first (txt "T =") pre _ H).
  change (txt "T =" ++ " "%char :: t ++ lit "]") with ("T"%char :: " "%char :: "="%char :: " "%char :: t ++ lit "]").
  cbn [List.length]. cbn [Nat.ltb Nat.leb skipn].
  change (lit "]") with ["]"%char]. rewrite strrchr_last by (intros []). rewrite firstn_app_l. reflexivity.
Qed.

Lemma is_prefix_long p s r : List.length p <= List.length s -> is_prefix p (s ++ r) = is_prefix p s.
Proof.
  revert s. induction p as [|x p IH]; intros [|y s] H; cbn in *; auto; try lia. rewrite IH by lia. reflexivity.
Qed.

(** ** Flags *)

Definition bitsum (v : N) : N :=
  fold_right N.lor 0%N (map (fun i => if N.testbit v i then 2 ^ i else 0)%N
   [0;1;2;3;4;5;6;7;8;9;10;11;12;13;14;15;16;17;18;19;20;21;22;23]%N).

Lemma lt24 n : (n < 24)%N -> In n [0;1;2;3;4;5;6;7;8;9;10;11;12;13;14;15;16;17;18;19;20;21;22;23]%N.
Proof.
  intro H. assert (Hn : n = N.of_nat (N.to_nat n)) by (symmetry; apply N2Nat.id).
  assert (Hk : (N.to_nat n < 24)%nat) by lia. rewrite Hn. clear Hn H. revert Hk. generalize (N.to_nat n). intros k Hk.
  do 24 (destruct k as [|k]; [cbn; tauto|]). lia.
Qed.

Lemma testbit_flag (b : bool) i n : N.testbit (if b then 2 ^ i else 0)%N n = b && N.eqb i n.
Proof. destruct b; [apply N.pow2_bits_eqb|rewrite N.bits_0; reflexivity]. Qed.

Lemma bitsum_eq v : (v < 2 ^ 24)%N -> v = bitsum v.
Proof.
  intro H. apply N.bits_inj. intro n. unfold bitsum. cbn [map fold_right].
  rewrite !N.lor_spec, !testbit_flag, N.bits_0.
  destruct (N.lt_ge_cases n 24) as [Hn|Hn].
  - apply lt24 in Hn. cbn in Hn.
    repeat (destruct Hn as [<-|Hn]; [cbn [N.eqb Pos.eqb]; rewrite ?andb_false_r, ?andb_true_r, ?orb_false_r; cbn [orb]; rewrite ?orb_false_r; reflexivity|]).
    destruct Hn.
  - assert (Hb : N.testbit v n = false).
    { destruct v as [|p]; [apply N.bits_0|]. apply N.bits_above_log2. apply N.log2_lt_pow2 in H; lia. }
    rewrite Hb. symmetry.
    repeat (apply orb_false_iff; split); try reflexivity; apply andb_false_iff; right; apply N.eqb_neq; lia.
Qed.

Lemma check_flag_testbit v i : check_flag v (2 ^ i) = N.testbit v i.
Proof.
  unfold check_flag. destruct (N.testbit v i) eqn:E.
  - apply N.eqb_eq. apply N.bits_inj. intro n. rewrite N.land_spec, N.pow2_bits_eqb.
    destruct (N.eqb i n) eqn:En; [|apply andb_false_r]. apply N.eqb_eq in En. subst. rewrite E. reflexivity.
  - apply N.eqb_neq. intro H. assert (HT : N.testbit (N.land v (2 ^ i)) i = N.testbit (2 ^ i) i) by (rewrite H; reflexivity).
    rewrite N.land_spec, E, N.pow2_bits_true in HT. discriminate.
Qed.

Definition pstep (v : N) (it : option pit) (bit : N) : option pit :=
  match it with
  | None => None
  | Some p => if check_flag v bit then option_map (pit_assign (txt "|") p) (flag_name bit) else Some p
  end.

Lemma pstep_none v l : fold_left (pstep v) l None = None.
Proof. induction l as [|b l IH]; [reflexivity|exact IH]. Qed.

Lemma pstep_ub v l b : forall p, In b l -> check_flag v b = true -> flag_name b = None ->
  fold_left (pstep v) l p = None.
Proof.
  induction l as [|c l IH]; intros p Hin Hc Hf; [destruct Hin|]. cbn [fold_left].
  destruct Hin as [->|Hin].
  - destruct p as [p|]; [|apply pstep_none]. unfold pstep at 2. rewrite Hc, Hf. apply pstep_none.
  - destruct (pstep v p c) as [p'|] eqn:E; [apply IH; auto|apply pstep_none].
Qed.

(** Any flag from Array on, except CopyAssignable, makes the printer read outside its table. *)
Lemma print_flags_ub v i : (5 <= i < 24)%N -> i <> 19%N -> N.testbit v i = true -> print_flags v = None.
Proof.
  intros [H5 H24] H19 Hb. unfold print_flags. destruct (N.eqb v 0) eqn:E0.
  { apply N.eqb_eq in E0. subst. rewrite N.bits_0 in Hb. discriminate. }
  change (option_map fst (fold_left (pstep v) print_order (Some ([], true))) = None).
  rewrite (pstep_ub v print_order (2 ^ i)%N); [reflexivity| | |].
  - unfold print_order. apply in_map. apply lt24 in H24. cbn in H24. cbn.
    repeat (destruct H24 as [<-|H24]; [first [tauto|lia]|]). destruct H24.
  - rewrite check_flag_testbit. exact Hb.
  - unfold flag_name. destruct (2 ^ i <? 24)%N eqn:E; [|reflexivity]. apply N.ltb_lt in E.
    assert (2 ^ 5 <= 2 ^ i)%N by (apply N.pow_le_mono_r; lia). change (2 ^ 5)%N with 32%N in H. lia.
Qed.

Fixpoint total_length (l : list ctext) : nat :=
  match l with [] => 0 | a :: l' => List.length a + total_length l' end.

Lemma joined_length c l : List.length (joined [c] l) = total_length l + (List.length l - 1).
Proof.
  induction l as [|a l IH]; [reflexivity|]. destruct l as [|b l]; cbn; [lia|].
  cbn in IH. rewrite app_length. cbn. rewrite IH. lia.
Qed.

Lemma total_length_perm l l' : Permutation l l' -> total_length l = total_length l'.
Proof. induction 1; cbn; lia. Qed.

Lemma renders_length v out : renders v out ->
  List.length out = total_length (if (v =? 0)%N then [lit "None"] else set_flags v) +
    (List.length (if (v =? 0)%N then [lit "None"] else set_flags v) - 1).
Proof.
  intros (l & HP & ->). change (lit "|") with ["|"%char]. rewrite joined_length.
  rewrite (total_length_perm _ _ HP), (Permutation_length HP). reflexivity.
Qed.

(** Lengths already tell the wrong renderings apart. *)
Definition len_ok (v : N) : bool :=
  match print_flags v with
  | None => false
  | Some out => List.length out =?
      total_length (if (v =? 0)%N then [lit "None"] else set_flags v) +
      (List.length (if (v =? 0)%N then [lit "None"] else set_flags v) - 1)
  end.

Lemma print_flags_small v : (v <= 3)%N -> exists out, print_flags v = Some out /\ renders v out.
Proof.
  intro H. assert (Hv : v = 0%N \/ v = 1%N \/ v = 2%N \/ v = 3%N) by lia.
  destruct Hv as [-> | [-> | [-> | ->]]]; eexists; (split; [vm_compute; reflexivity|]).
  - exists [lit "None"]. split; [apply Permutation_refl|reflexivity].
  - exists [lit "Const"]. split; [apply Permutation_refl|reflexivity].
  - exists [lit "Pointer"]. split; [apply Permutation_refl|reflexivity].
  - exists [lit "Pointer"; lit "Const"]. split; [apply perm_swap|reflexivity].
Qed.

Lemma print_flags_only v : (v < 2 ^ 24)%N ->
  (exists out, print_flags v = Some out /\ renders v out) -> (v <= 3)%N.
Proof.
  intros Hlt (out & Hp & Hr).
  assert (HB : forall i, (5 <= i < 24)%N -> i <> 19%N -> N.testbit v i = false).
  { intros i Hi H19. destruct (N.testbit v i) eqn:E; [|reflexivity].
    rewrite (print_flags_ub v i Hi H19 E) in Hp. discriminate. }
  assert (HL : len_ok v = true).
  { unfold len_ok. rewrite Hp. apply Nat.eqb_eq. apply renders_length. exact Hr. }
  clear Hp Hr. revert HL. rewrite (bitsum_eq v Hlt). unfold bitsum. cbn [map fold_right].
  rewrite ?(HB 5%N), ?(HB 6%N), ?(HB 7%N), ?(HB 8%N), ?(HB 9%N), ?(HB 10%N), ?(HB 11%N), ?(HB 12%N), ?(HB 13%N),
    ?(HB 14%N), ?(HB 15%N), ?(HB 16%N), ?(HB 17%N), ?(HB 18%N), ?(HB 20%N), ?(HB 21%N), ?(HB 22%N), ?(HB 23%N)
    by lia.
  destruct (N.testbit v 0), (N.testbit v 1), (N.testbit v 2), (N.testbit v 3), (N.testbit v 4), (N.testbit v 19);
    vm_compute; intro H; try discriminate H; try (intro H'; discriminate H').
Qed.

(** ** Qualified names of methods: colons inside parentheses are allowed. *)

Lemma lit_app a b : lit (a ++ b) = lit a ++ lit b.
Proof. induction a as [|c a IH]; cbn; [reflexivity|]. f_equal. exact IH. Qed.

Lemma lit_inj a b : lit a = lit b -> a = b.
Proof.
  intro H. rewrite <- (string_of_list_ascii_of_string a), <- (string_of_list_ascii_of_string b).
  unfold lit in H. rewrite H. reflexivity.
Qed.

Lemma path_text_inj_items p : forall q,
  Forall (fun n => item_text (lit n) = true) p -> Forall (fun n => item_text (lit n) = true) q ->
  path_text p = path_text q -> p = q.
Proof.
  induction p as [|n p IH]; intros [|m q] Hp Hq E.
  - reflexivity.
  - rewrite path_text_cons in E. discriminate.
  - rewrite path_text_cons in E. discriminate.
  - rewrite !path_text_cons in E. injection E as E. inversion Hp; inversion Hq; subst.
    apply (f_equal lit) in E. rewrite !lit_app in E.
    assert (HS : forall c, is_one_of ":" c = true -> is_one_of "(" c = false /\ is_one_of ")" c = false).
    { intros c Hc. unfold is_one_of in Hc. cbn in Hc. rewrite orb_false_r in Hc. apply Ascii.eqb_eq in Hc.
      subst c. split; reflexivity. }
    assert (HT : forall r, lit (path_text r) = [] \/
               exists c x', lit (path_text r) = c :: x' /\ is_one_of ":" c = true).
    { intros [|a r]; [left; reflexivity|]. right. rewrite path_text_cons. cbn. eauto. }
    destruct (atom_split _ _ _ HS _ _ 0 _ _ H1 H5 (HT p) (HT q) E) as [En Ep].
    apply lit_inj in En. apply lit_inj in Ep. subst. f_equal. apply IH; assumption.
Qed.

(** A value with no flag from the sixth on, bar CopyAssignable, from its bits. *)
Definition b2 (b : bool) (k : N) : N := if b then 2 ^ k else 0.
Lemma b2_bit b k i : N.testbit (b2 b k) i = b && (i =? k)%N.
Proof. destruct b; cbn [b2 andb]; [|apply N.bits_0]. rewrite N.pow2_bits_eqb. apply N.eqb_sym. Qed.

Lemma low_bits v : (v < 2 ^ 24)%N -> (forall i, (5 <= i < 24)%N -> i <> 19%N -> N.testbit v i = false) ->
  v = N.lor (b2 (N.testbit v 0) 0) (N.lor (b2 (N.testbit v 1) 1) (N.lor (b2 (N.testbit v 2) 2) (N.lor (b2 (N.testbit v 3) 3)
        (N.lor (b2 (N.testbit v 4) 4) (b2 (N.testbit v 19) 19))))).
Proof.
  intros H L. apply N.bits_inj. intro i. rewrite !N.lor_spec, !b2_bit.
  destruct (N.eq_dec i 0) as [->|N0]; [cbn; rewrite ?andb_false_r, ?andb_true_r, ?orb_false_r; reflexivity|].
  destruct (N.eq_dec i 1) as [->|N1]; [cbn; rewrite ?andb_false_r, ?andb_true_r, ?orb_false_r; reflexivity|].
  destruct (N.eq_dec i 2) as [->|N2]; [cbn; rewrite ?andb_false_r, ?andb_true_r, ?orb_false_r; reflexivity|].
  destruct (N.eq_dec i 3) as [->|N3]; [cbn; rewrite ?andb_false_r, ?andb_true_r, ?orb_false_r; reflexivity|].
  destruct (N.eq_dec i 4) as [->|N4]; [cbn; rewrite ?andb_false_r, ?andb_true_r, ?orb_false_r; reflexivity|].
  destruct (N.eq_dec i 19) as [->|N5]; [cbn; rewrite ?andb_false_r, ?andb_true_r, ?orb_false_r; reflexivity|].
  rewrite (proj2 (N.eqb_neq i 0) N0), (proj2 (N.eqb_neq i 1) N1), (proj2 (N.eqb_neq i 2) N2), (proj2 (N.eqb_neq i 3) N3),
    (proj2 (N.eqb_neq i 4) N4), (proj2 (N.eqb_neq i 19) N5), !andb_false_r. cbn.
  destruct (N.lt_ge_cases i 24) as [Hi|Hi]; [apply L; lia|].
  rewrite <- (N.mod_small v (2 ^ 24)) by exact H. apply N.mod_pow2_bits_high. exact Hi.
Qed.
