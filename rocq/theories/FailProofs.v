(** Proofs of C69. *)
From Coq Require Import List Bool Arith String Ascii Lia Permutation.
From Verif Require Import Util RegistryModel ListsModel ListsSpec ListsProofs StringsModel StringsSpec StringsProofs
  ReflModel ReflSpec ReflProofs OrderSpec OrderProofs FailSpec.
Import ListNotations.
Local Open Scope list_scope.

(** ** Statements *)

Lemma class_with_in t D : existsb (class_with t) D = true <-> exists n q i, In (Thing ((Class, n) :: q) t i) D.
Proof.
  rewrite existsb_exists. split.
  - intros (d & Hd & H). destruct d as [[|[[] n] q] u i| | |]; cbn in H; try discriminate H. apply Nat.eqb_eq in H. subst u. eauto.
  - intros (n & q & i & H). exists (Thing ((Class, n) :: q) t i). split; [exact H|]. cbn. apply Nat.eqb_refl.
Qed.
Lemma placed_in p D : existsb (placed p) D = true <-> exists t i, In (Thing p t i) D.
Proof.
  rewrite existsb_exists. split.
  - intros (d & Hd & H). destruct d as [q u i| | |]; cbn in H; try discriminate H. apply same_place_eq in H. subst q. eauto.
  - intros (t & i & H). exists (Thing p t i). split; [exact H|]. cbn. apply same_place_eq. reflexivity.
Qed.
Lemma existsb_ext {A} (f : A -> bool) l l' : (forall x, In x l <-> In x l') -> existsb f l = existsb f l'.
Proof. intro H. apply eq_true_iff_eq. rewrite !existsb_exists. split; intros (x & Hx & F); exists x; split; auto; apply H; exact Hx. Qed.
Lemma problem_ext D D' d : (forall x, In x D <-> In x D') -> problem D d = problem D' d.
Proof. intro H. unfold problem. destruct d as [[|[[] n] q] u i| | |]; try reflexivity; rewrite !(existsb_ext _ D D' H); reflexivity. Qed.
Lemma cut_ext d : forall D D', (forall x, In x D <-> In x D') -> cut D d = cut D' d.
Proof.
  induction d as [|x d IH]; intros D D' H; [reflexivity|]. cbn [cut]. rewrite (problem_ext D D' x H), (IH (x :: D) (x :: D')); [reflexivity|].
  intro y. cbn. rewrite H. reflexivity.
Qed.
Lemma keep_ext ds : forall D D', (forall x, In x D <-> In x D') -> keep D ds = keep D' ds.
Proof.
  induction ds as [|d ds IH]; intros D D' H; [reflexivity|]. cbn [keep]. rewrite (cut_ext d D D' H). destruct (cut D' d) as [r e].
  f_equal. apply IH. intro y. rewrite !in_app_iff, H. reflexivity.
Qed.
Lemma cut_ready d : forall D r e, cut D d = (r, e) -> ready D r.
Proof.
  induction d as [|x d IH]; cbn [cut]; intros D r e H; [injection H as <- _; exact I|]. destruct (problem D x) eqn:P; [injection H as <- _; exact I|].
  destruct (cut (x :: D) d) as [r' e'] eqn:C. injection H as <- <-. cbn [ready]. split; [|eapply IH; eauto].
  destruct x; auto. cbn in P. destruct (existsb (class_with t) D) eqn:X; [|discriminate P]. apply class_with_in in X. exact X.
Qed.
Lemma cut_none d : forall D r, cut D d = (r, None) -> r = d.
Proof.
  induction d as [|x d IH]; cbn [cut]; intros D r H; [injection H as <-; reflexivity|]. destruct (problem D x); [discriminate H|].
  destruct (cut (x :: D) d) as [r' e'] eqn:C. injection H as <- ->. f_equal. eapply IH; eauto.
Qed.
Lemma cut_some d : forall D r e, cut D d = (r, Some e) -> exists y d2, d = r ++ y :: d2 /\ problem (r ++ D) y = Some e.
Proof.
  induction d as [|x d IH]; cbn [cut]; intros D r e H; [discriminate H|]. destruct (problem D x) as [e0|] eqn:P.
  - injection H as <- <-. exists x, d. split; [reflexivity|exact P].
  - destruct (cut (x :: D) d) as [r' e'] eqn:C. injection H as <- ->. destruct (IH _ _ _ C) as (y & d2 & -> & Q). exists y, d2. split; [reflexivity|].
    rewrite <- Q. apply problem_ext. intro z. cbn. rewrite !in_app_iff. cbn. tauto.
Qed.
Lemma cut_incl d D r e : cut D d = (r, e) -> incl r d.
Proof.
  destruct e as [e|]; intro H; [|rewrite (cut_none _ _ _ H); apply incl_refl]. destruct (cut_some _ _ _ _ H) as (y & d2 & -> & _). apply incl_appl. apply incl_refl.
Qed.
(** What can be made completely is not cut. *)
Lemma cut_all d : forall D, ready D d -> (forall n p t i m q j, In (Thing ((Class, n) :: p) t i) (d ++ D) -> In (Thing ((Class, m) :: q) t j) (d ++ D) -> (m, q) = (n, p)) ->
  cut D d = (d, None).
Proof.
  induction d as [|x d IH]; intros D R S; [reflexivity|]. destruct R as [A B]. cbn [cut]. assert (P : problem D x = None).
  { destruct x as [[|[[] n] p] t i| | |]; try reflexivity.
    - cbn. destruct (existsb (placed ((Class, n) :: p)) D) eqn:X; [reflexivity|]. destruct (existsb (class_with t) D) eqn:Y; [|reflexivity]. exfalso.
      apply class_with_in in Y as (m & q & j & Y). assert (E : (m, q) = (n, p)) by (eapply S; [left; reflexivity|apply in_app_iff; right; exact Y]). injection E as -> ->.
      assert (existsb (placed ((Class, n) :: p)) D = true) by (apply placed_in; eauto). congruence.
    - cbn. assert (X : existsb (class_with t) D = true) by (apply class_with_in; exact A). rewrite X. reflexivity. }
  rewrite P, IH; [reflexivity|exact B|]. intros n p t i m q j H1 H2. eapply S; [|]; cbn in *; rewrite in_app_iff in *; cbn in *; intuition eauto.
Qed.

(** ** Chains *)

Lemma tell_cons c l item cont stack ds : tell item cont stack (c :: l) = Some ds ->
  exists d e, tell item cont stack [c] = Some d /\ ds = d ++ e /\
    let t := ends item cont stack [c] in tell (fst (fst t)) (snd (fst t)) (snd t) l = Some e.
Proof.
  intro H. destruct c; cbn [tell ends] in H |- *; try discriminate H;
    repeat match goal with
    | H : match ?x with [] => _ | _ => _ end = Some _ |- _ => destruct x; [discriminate H|]
    | H : (if ?x then _ else _) = Some _ |- _ => destruct x; try discriminate H
    end;
    try (apply and_then_some in H as (e & He & ->); eexists _, e; split; [cbn; rewrite ?app_nil_r; reflexivity|]; split; [reflexivity|exact He]).
  exists [], ds. split; [reflexivity|]. split; [reflexivity|exact H].
Qed.
Lemma ends_cons c l item cont stack : ends item cont stack (c :: l) = let t := ends item cont stack [c] in
  match c, stack with KEnd, [] => t | _, _ => ends (fst (fst t)) (snd (fst t)) (snd t) l end.
Proof. destruct c; try (destruct stack; reflexivity). Qed.

(** The call that makes a given statement. *)
Lemma split_at : forall l item cont stack r y d2, tell item cont stack l = Some (r ++ y :: d2) ->
  exists l1 c l2 d1 r1 e2, l = l1 ++ c :: l2 /\ tell item cont stack l1 = Some d1 /\ r = d1 ++ r1 /\
    let t := ends item cont stack l1 in tell (fst (fst t)) (snd (fst t)) (snd t) [c] = Some (r1 ++ y :: e2).
Proof.
  induction l as [|c l IH]; intros item cont stack r y d2 H; [destruct r; discriminate H|].
  destruct (tell_cons _ _ _ _ _ _ H) as (d & e & Hc & E & Ht).
  destruct (le_lt_dec (List.length d) (List.length r)) as [L|L].
  - assert (exists r', r = d ++ r' /\ e = r' ++ y :: d2) as (r' & -> & ->).
    { clear -E L. revert r E L. induction d as [|x d IHd]; intros r E L; [exists r; auto|]. destruct r as [|z r]; [cbn in L; lia|]. injection E as -> E. cbn in L.
      destruct (IHd r E) as (r' & -> & ->); [lia|]. exists r'. auto. }
    destruct (IH _ _ _ _ _ _ Ht) as (l1 & c1 & l2 & d1 & r1 & e2 & -> & Hl & -> & Hc1).
    exists (c :: l1), c1, l2, (d ++ d1), r1, e2. split; [reflexivity|].
    assert (Z : tell item cont stack (c :: l1) = Some (d ++ d1) /\ ends item cont stack (c :: l1) =
      ends (fst (fst (ends item cont stack [c]))) (snd (fst (ends item cont stack [c]))) (snd (ends item cont stack [c])) l1).
    { clear -H Hc Hl. destruct c; cbn [tell ends fst snd] in *; try discriminate H;
        repeat match goal with
        | H : match ?x with [] => _ | _ => _ end = Some _ |- _ => destruct x; [discriminate H|]
        | H : (if ?x then _ else _) = Some _ |- _ => destruct x; try discriminate H
        end; cbn [fst snd] in *; try (apply and_then_some in Hc as (z & Hz & ->); injection Hz as <-; rewrite Hl; cbn; rewrite ?app_nil_r; split; reflexivity);
        injection Hc as <-; rewrite Hl; split; reflexivity. }
    destruct Z as [Z1 Z2]. split; [exact Z1|]. split; [apply app_assoc|]. cbv zeta. rewrite Z2. exact Hc1.
  - assert (exists e2, d = r ++ y :: e2) as (e2 & ->).
    { clear -E L. revert d E L. induction r as [|x r IHr]; intros [|z d] E L; cbn in L; try lia; injection E as -> E; [exists d; reflexivity|].
      destruct (IHr d E) as (e2 & ->); [lia|]. exists e2. reflexivity. }
    exists [], c, l, [], r, e2. split; [reflexivity|]. split; [reflexivity|]. split; [reflexivity|exact Hc].
Qed.

Section Fail.
  Variable ok : nat -> nat -> bool.
  Notation Inv := (Inv ok none).

  Lemma class_there w D t b : Inv w D -> class_of w t = Some b -> existsb (class_with t) D = true.
  Proof.
    intros I H. destruct (wf_class1 _ _ _ _ (v_wf _ _ _ _ I) t b H) as (bt & Hg & Hk & Ht). destruct (sits_total ok w (v_wf _ _ _ _ I) b bt Hg) as (q & Hq).
    destruct (sits_get ok w b q (v_wf _ _ _ _ I) Hq) as (bt2 & Hg2 & Hk2). assert (bt2 = bt) by congruence. subst bt2.
    destruct q as [|[c m] q]; [cbn in Hk2; congruence|]. cbn in Hk2. assert (EC : c = Class) by congruence. rewrite EC in Hq.
    apply class_with_in. exists m, q, (i_inv bt). apply (v_thing _ _ _ _ I). exists b, bt. split; [exact (sits_cons_nz _ _ _ _ _ Hq)|]. split; [exact Hq|]. split; [exact Hg|]. split; [exact Ht|reflexivity].
  Qed.
  Lemma there_class w D t : Inv w D -> existsb (class_with t) D = true -> exists b, class_of w t = Some b.
  Proof.
    intros I H. apply class_with_in in H as (m & q & j & H). apply (v_thing _ _ _ _ I) in H as (b & bt & _ & Sb & Gb & Tb & _). exists b.
    destruct (sits_get ok w b _ (v_wf _ _ _ _ I) Sb) as (bt2 & G2 & K2). cbn in K2. rewrite <- Tb. apply (wf_class2 _ _ _ _ (v_wf _ _ _ _ I) b bt Gb). congruence.
  Qed.
  Lemma add_bases_app a : forall l1 l2 w, add_bases ok w a (l1 ++ l2) = bind (add_bases ok w a l1) (fun w _ => add_bases ok w a l2).
  Proof.
    induction l1 as [|[t f] l1 IH]; intros l2 w; [reflexivity|]. cbn [app add_bases]. destruct (get w a) as [it|]; [|reflexivity].
    destruct (ok (i_type it) t); [|reflexivity]. destruct (add_base w a t f); try reflexivity. cbn [bind]. apply IH.
  Qed.
  Lemma exec_app run k use : forall l1 l2 w b, exec_with run k ok use w b (l1 ++ l2) = bind (exec_with run k ok use w b l1) (fun w b => exec_with run k ok use w b l2).
  Proof.
    induction l1 as [|c l1 IH]; intros l2 w b; [reflexivity|]. cbn [app exec_with]. destruct (step run k ok use w b c); try reflexivity. cbn [bind]. apply IH.
  Qed.

  (** The call that cannot be made. *)
  Lemma stuck_step E run k use w D b c item cont stack r1 y e2 e : sound E -> tree ok k E -> Inv w D -> stands w b (item, cont, stack) -> incl D E -> incl r1 E -> ready D r1 ->
    tell item cont stack [c] = Some (r1 ++ y :: e2) -> problem (r1 ++ D) y = Some e ->
    (forall p t f u i, y = Derives p t f -> In (Thing p u i) E -> ok u t = true) ->
    exists w', step run (S k) ok use w b c = Throw e w' /\ Inv w' (r1 ++ D).
  Proof.
    intros SE TE I (a & o & s & -> & Ha & Ho & Hc & HS) HD HR RD HT HP HO. cbn [fst snd] in *.
    destruct c; cbn [tell] in HT; try discriminate HT; cbn [step b_item b_cont b_stack].
    - (* KAttr *) exfalso. destruct (String.eqb n ""); destruct r1 as [|? [|? ?]]; try discriminate HT; injection HT as <- <-; discriminate HP.
    - exfalso. destruct (String.eqb n ""); [discriminate HT|]. destruct (cat_eqb (kind_at cont) Namespace); [|discriminate HT].
      destruct r1 as [|? [|? ?]]; try discriminate HT; injection HT as <- <-; discriminate HP.
    - (* KClass *) destruct (String.eqb_spec n "") as [->|Hn]; [discriminate HT|]. cbn [and_then option_map] in HT. injection HT as HT. rewrite app_nil_r in HT.
      destruct r1 as [|z r1].
      + cbn in HT. injection HT as <- _. cbn [app problem] in HP. destruct (existsb (placed ((Class, n) :: cont)) D) eqn:X; [discriminate HP|].
        destruct (existsb (class_with t) D) eqn:Y; [|discriminate HP]. injection HP as <-. destruct (there_class w D t I Y) as (x & Hx).
        pose proof (check_calm ok none QN run w D o cont I Ho) as CH. unfold create_class.
        destruct (get_item_calm ok none run w D o cont Class n I Ho CH Hn) as (lk & r & -> & Hr). cbn [bind]. destruct r as [z|].
        * exfalso. assert (Sz : sits w z ((Class, n) :: cont)) by (apply Hr; reflexivity).
          destruct (thing_in ok none w D z _ I (sits_cons_nz _ _ _ _ _ Sz) Sz) as (t' & i' & Hin). assert (existsb (placed ((Class, n) :: cont)) D = true) by (apply placed_in; eauto). congruence.
        * change (class_of (marked w lk) t) with (class_of w t). rewrite Hx. cbn [bind]. exists (marked w lk). split; [reflexivity|]. apply inv_marked. exact I.
      + exfalso. cbn in HT. injection HT as _ HT. assert (Hin : In y (ctor_decl d ((Class, n) :: cont) A0 ++ ctor_decl c ((Class, n) :: cont) (ASelf false) ++ ctor_decl m ((Class, n) :: cont) (ASelf true))).
        { rewrite HT. apply in_app_iff. right. left. reflexivity. }
        unfold ctor_decl, ctor_place in Hin. rewrite !in_app_iff in Hin. destruct d, c, m; cbn in Hin; intuition; subst y; discriminate HP.
    - (* KBase *) destruct (cat_eqb (kind_at cont) Class) eqn:EC; [|discriminate HT]. apply cat_eqb_eq in EC. cbn [and_then option_map] in HT. injection HT as HT. rewrite app_nil_r in HT.
      rewrite (category_at ok none w D o cont I Ho), EC. apply map_eq_app in HT as (b1 & b2 & -> & E1 & E2).
      destruct b2 as [|[t f] b2]; [discriminate E2|]. cbn in E2. injection E2 as <- _. cbn [problem] in HP.
      destruct (existsb (class_with t) (r1 ++ D)) eqn:X; [discriminate HP|]. injection HP as <-.
      destruct (bases_ok ok none run k E SE cont o EC) with (bs := b1) (w := w) (D := D) as (w1 & H1 & K1 & J1); auto.
      { intros u v b g. apply (h_ok _ _ _ TE). }
      { unfold links. rewrite E1. exact HR. }
      { unfold links. rewrite E1. exact RD. }
      unfold links in J1. rewrite E1 in J1. exists w1. split; [|exact J1]. unfold skip. rewrite add_bases_app, H1. cbn [bind add_bases].
      assert (Ho1 : sits w1 o cont) by (eapply kept_sits; eauto). destruct (sits_get ok w1 o cont (v_wf _ _ _ _ J1) Ho1) as (it & Hg & _). rewrite Hg.
      assert (OK : ok (i_type it) t = true).
      { apply (HO cont t f (i_type it) (i_inv it) eq_refl). assert (o <> 0) by (destruct cont as [|[cc m] q]; [discriminate EC|eapply sits_cons_nz; eauto]).
        assert (Z : In (Thing cont (i_type it) (i_inv it)) (r1 ++ D)) by (apply (v_thing _ _ _ _ J1); exists o, it; auto).
        apply in_app_iff in Z as [Z|Z]; auto. }
      rewrite OK. unfold add_base. destruct (class_of w1 t) as [z|] eqn:Ez; [pose proof (class_there w1 _ t z J1 Ez); congruence|]. reflexivity.
    - exfalso. destruct (String.eqb n ""); [discriminate HT|]. destruct r1 as [|? [|? ?]]; try discriminate HT; injection HT as <- <-; discriminate HP.
    - exfalso. destruct (String.eqb n ""), (cat_eqb (kind_at item) Enum); destruct r1 as [|? [|? ?]]; try discriminate HT; injection HT as <- <-; discriminate HP.
    - exfalso. destruct (cat_eqb (kind_at cont) Class); [|discriminate HT]. destruct r1 as [|? [|? ?]]; try discriminate HT; injection HT as <- <-; discriminate HP.
    - exfalso. destruct r1 as [|? [|? ?]]; try discriminate HT; injection HT as <- <-; discriminate HP.
    - exfalso. destruct (String.eqb n ""); destruct r1 as [|? [|? ?]]; try discriminate HT; injection HT as <- <-; discriminate HP.
    - exfalso. destruct stack; [discriminate HT|]. destruct r1; discriminate HT.
  Qed.

  Lemma run_cut E k n w D l d r e : sound E -> tree ok k E -> told_by l = Some d -> cut D d = (r, e) -> Inv w D -> incl D E -> incl r E ->
    (forall p t f u i, In (Derives p t f) d -> In (Thing p u i) E -> ok u t = true) ->
    exists w', run (S k) ok (S n) w 0 l = match e with None => Ret w' tt | Some x => Throw x w' end /\ Inv w' (r ++ D).
  Proof.
    intros SE TE HT HC I HD HR HO. pose proof (cut_ready _ _ _ _ HC) as RD. destruct e as [e|].
    - destruct (cut_some _ _ _ _ HC) as (y & d2 & -> & HP). destruct (split_at _ _ _ _ _ _ _ HT) as (l1 & c & l2 & d1 & r1 & e2 & -> & H1 & -> & H2).
      apply ready_app in RD as [RD1 RD2]. cbn [run]. rewrite exec_app. unfold on.
      destruct (exec_ok ok none Q0 QN (run (S k) ok n) k E SE TE (fun w p => run (S k) ok n w 0 p) l1 [] [] [] d1 w D 0 0 [] H1) as (w1 & b1 & -> & J1 & ST);
        try constructor; auto; try apply I. { intros x Hx. apply HR. apply in_app_iff. auto. }
      cbn [bind exec_with]. destruct (ends [] [] [] l1) as [[item cont] stack]. cbn [fst snd] in H2.
      destruct (stuck_step E (run (S k) ok n) k (fun w p => run (S k) ok n w 0 p) w1 (d1 ++ D) b1 c item cont stack r1 y e2 e SE TE J1 ST) as (w' & -> & J'); auto.
      { intros x Hx. apply in_app_iff in Hx as [Hx|Hx]; [apply HR; apply in_app_iff; auto|auto]. }
      { intros x Hx. apply HR. apply in_app_iff. auto. }
      { rewrite <- HP. apply problem_ext. intro x. rewrite !in_app_iff. tauto. }
      { intros p t f u i -> Hin. apply (HO p t f u i); [|exact Hin]. apply in_app_iff. right. left. reflexivity. }
      exists w'. split; [reflexivity|]. eapply inv_more; [|exact J']. intro x. rewrite !in_app_iff. tauto.
    - rewrite (cut_none _ _ _ HC) in *. destruct (run_ok ok none Q0 QN E k n w D l d SE TE HT I HD HR RD) as (w' & R & J). exists w'. auto.
  Qed.

  Lemma keep_ok E k n : sound E -> tree ok k E -> forall h ds w D, states h ds -> Inv w D -> incl D E -> incl (List.concat (map fst (keep D ds))) E ->
    (forall p t f u i, In (Derives p t f) (List.concat ds) -> In (Thing p u i) E -> ok u t = true) ->
    exists w', attempted (S k) ok (S n) w h (map snd (keep D ds)) w' /\ Inv w' (List.concat (map fst (keep D ds)) ++ D).
  Proof.
    intros SE TE. induction h as [|l h IH]; intros ds w D HS I HD HE HO; inversion HS as [|l0 d h0 ds0 Hl Hh]; subst.
    - exists w. split; [reflexivity|exact I].
    - cbn [keep] in *. destruct (cut D d) as [r e] eqn:HC. cbn [map fst snd List.concat] in *.
      destruct (run_cut E k n w D l d r e SE TE Hl HC I HD) as (w1 & R & J).
      { intros x Hx. apply HE. apply in_app_iff. auto. }
      { intros p t f u i H. apply (HO p t f u i). apply in_app_iff. auto. }
      destruct (IH ds0 w1 (r ++ D) Hh J) as (w' & R' & J').
      { intros x Hx. apply in_app_iff in Hx as [Hx|Hx]; [apply HE; apply in_app_iff; auto|auto]. }
      { intros x Hx. apply HE. apply in_app_iff. auto. }
      { intros p t f u i H. apply (HO p t f u i). apply in_app_iff. auto. }
      exists w'. split; [cbn [attempted]; eauto|]. eapply inv_more; [|exact J']. intro x. rewrite !in_app_iff. tauto.
  Qed.
  Lemma attempts_ok k n h ds : states h ds -> sound (kept_of ds) -> tree ok k (kept_of ds) -> compiles ok ds ->
    exists w, attempted (S k) ok (S n) world0 h (ends_of ds) w /\ Inv w (kept_of ds).
  Proof.
    intros HS SE TE HO. destruct (keep_ok (kept_of ds) k n SE TE h ds world0 [] HS (inv0 ok none Q0)) as (w & R & J).
    - intros x [].
    - apply incl_refl.
    - exact HO.
    - rewrite app_nil_r in J. exists w. auto.
  Qed.
End Fail.

(** ** Trying again *)

Definition acc (D : list decl) (ds : list (list decl)) : list decl := List.concat (map fst (keep D ds)) ++ D.
Lemma acc_cons D d ds x : In x (acc D (d :: ds)) <-> In x (acc (fst (cut D d) ++ D) ds).
Proof. unfold acc. cbn [keep]. destruct (cut D d) as [r e]. cbn [map fst List.concat]. rewrite !in_app_iff. tauto. Qed.
Lemma acc_ext D D' ds : (forall x, In x D <-> In x D') -> forall x, In x (acc D ds) <-> In x (acc D' ds).
Proof. intros H x. unfold acc. rewrite (keep_ext ds D D' H), !in_app_iff, H. tauto. Qed.
Lemma acc_mono ds : forall D, incl D (acc D ds).
Proof. intros D x Hx. unfold acc. apply in_app_iff. auto. Qed.
Lemma acc_incl ds : forall D F, incl D F -> incl (List.concat ds) F -> incl (acc D ds) F.
Proof.
  induction ds as [|d ds IH]; intros D F HD HF x Hx; [apply HD; exact Hx|]. apply acc_cons in Hx. destruct (cut D d) as [r e] eqn:C. cbn [fst] in Hx. revert x Hx. cbn in HF.
  apply IH; [|intros y Hy; apply HF; apply in_app_iff; auto]. intros y Hy. apply in_app_iff in Hy as [Hy|Hy]; [|auto]. apply HF. apply in_app_iff. left. eapply cut_incl; eauto.
Qed.
Lemma keep_app ds1 : forall D ds2, keep D (ds1 ++ ds2) = keep D ds1 ++ keep (acc D ds1) ds2.
Proof.
  induction ds1 as [|d ds1 IH]; intros D ds2; [reflexivity|]. cbn [app keep]. destruct (cut D d) as [r e] eqn:C. cbn [app]. f_equal. rewrite IH. f_equal.
  apply keep_ext. intro x. symmetry. rewrite (acc_cons D d ds1 x), C. reflexivity.
Qed.
Lemma acc_app D ds1 ds2 x : In x (acc D (ds1 ++ ds2)) <-> In x (acc (acc D ds1) ds2).
Proof. unfold acc at 1 2. rewrite keep_app, map_app, concat_app, !in_app_iff. unfold acc. rewrite in_app_iff. tauto. Qed.
Lemma keep_length ds : forall D, List.length (keep D ds) = List.length ds.
Proof. induction ds as [|d ds IH]; intro D; [reflexivity|]. cbn. destruct (cut D d). cbn. rewrite IH. reflexivity. Qed.

(** Statements that do not contradict one another are made completely as soon as the base classes are there. *)
Lemma cut_sound E D d : sound E -> incl D E -> incl d E -> ready D d -> cut D d = (d, None).
Proof.
  intros SE HD Hd R. apply cut_all; [exact R|]. assert (X : incl (d ++ D) E) by (apply incl_app; assumption).
  intros n p t i m q j H1 H2. pose proof (s_class _ SE n p m q t i j (X _ H1) (X _ H2)) as Y. injection Y as -> ->. reflexivity.
Qed.
Lemma acc_in E ds d : sound E -> In d ds -> forall D, incl D E -> incl (List.concat ds) E -> ready D d -> incl d (acc D ds).
Proof.
  intros SE. induction ds as [|d0 ds IH]; intros Hin D HD HE R x Hx; [destruct Hin|]. apply acc_cons. destruct (cut D d0) as [r e] eqn:C. cbn [fst].
  cbn in HE. assert (HE0 : incl d0 E) by (intros y Hy; apply HE; apply in_app_iff; auto). assert (HE1 : incl (List.concat ds) E) by (intros y Hy; apply HE; apply in_app_iff; auto).
  destruct Hin as [->|Hin].
  - rewrite (cut_sound E D d SE HD HE0 R) in C. injection C as <- <-. apply acc_mono. apply in_app_iff. auto.
  - apply (IH Hin); auto.
    + apply incl_app; [|exact HD]. intros y Hy. apply HE0. eapply cut_incl; eauto.
    + eapply ready_incl; [|exact R]. intros y Hy. apply in_app_iff. auto.
Qed.
Lemma keep_all E ds : sound E -> forall D, incl D E -> incl (List.concat ds) E -> (forall d, In d ds -> ready D d) -> keep D ds = map (fun d => (d, None)) ds.
Proof.
  intros SE. induction ds as [|d ds IH]; intros D HD HE R; [reflexivity|]. cbn in HE. assert (HE0 : incl d E) by (intros y Hy; apply HE; apply in_app_iff; auto).
  cbn [keep]. rewrite (cut_sound E D d SE HD HE0 (R d (or_introl eq_refl))). cbn [map]. f_equal. apply IH.
  - apply incl_app; assumption.
  - intros y Hy. apply HE. apply in_app_iff. auto.
  - intros d' Hd'. eapply ready_incl; [|apply R; right; exact Hd']. intros y Hy. apply in_app_iff. auto.
Qed.

(** [m] rounds of the chains. *)
Definition rounds {A} (m : nat) (h : list A) : list A := List.concat (repeat h m).
Lemma rounds_S {A} m (h : list A) : rounds (S m) h = rounds m h ++ h.
Proof.
  unfold rounds. induction m as [|m IH]; [cbn; rewrite app_nil_r; reflexivity|]. change (repeat h (S (S m))) with (h :: repeat h (S m)). cbn [List.concat].
  rewrite IH. cbn [repeat List.concat] in IH |- *. rewrite app_assoc, IH. reflexivity.
Qed.
Lemma rounds_in {A} m (h : list A) x : In x (rounds m h) -> In x h.
Proof. unfold rounds. rewrite in_concat. intros (l & Hl & Hx). apply repeat_spec in Hl. subst l. exact Hx. Qed.
Lemma rounds_concat {A} m (ds : list (list A)) : incl (List.concat (rounds m ds)) (List.concat ds).
Proof. intros x Hx. apply in_concat in Hx as (d & Hd & Hx). apply in_concat. exists d. split; [eapply rounds_in; eauto|exact Hx]. Qed.
Lemma states_rounds m h ds : states h ds -> states (rounds m h) (rounds m ds).
Proof. intro H. unfold rounds. induction m as [|m IH]; [constructor|]. cbn. apply Forall2_app; [exact H|exact IH]. Qed.

Lemma ready_nth ds : forall D i d, ready D (List.concat ds) -> nth_error ds i = Some d -> ready (List.concat (firstn i ds) ++ D) d.
Proof.
  induction ds as [|d0 ds IH]; intros D i d R H; [destruct i; discriminate H|]. cbn in R. apply ready_app in R as [R1 R2]. destruct i as [|i].
  - injection H as ->. exact R1.
  - cbn. eapply ready_incl; [|apply (IH _ i d R2 H)]. intros x. rewrite !in_app_iff. tauto.
Qed.
Lemma firstn_S_nth {A} (l : list A) : forall i d, nth_error l i = Some d -> firstn (S i) l = firstn i l ++ [d].
Proof. induction l as [|x l IH]; intros [|i] d H; try discriminate H; [injection H as ->; reflexivity|]. cbn [firstn app]. f_equal. apply IH. exact H. Qed.
Lemma rounds_first E ds ds' : sound E -> incl (List.concat ds) E -> ready [] (List.concat ds') -> incl ds' ds -> forall m, incl (List.concat (firstn m ds')) (acc [] (rounds m ds)).
Proof.
  intros SE HE R HI. induction m as [|m IH]; [intros x []|]. intros x Hx. rewrite rounds_S. apply acc_app.
  destruct (nth_error ds' m) as [d|] eqn:N.
  - rewrite (firstn_S_nth _ _ _ N), concat_app in Hx. cbn in Hx. rewrite app_nil_r in Hx. apply in_app_iff in Hx as [Hx|Hx]; [apply acc_mono; apply IH; exact Hx|].
    assert (Hd : In d ds) by (apply HI; eapply nth_error_In; eauto). revert x Hx. apply (acc_in E ds d SE Hd).
    + apply acc_incl; [intros y []|]. intros y Hy. apply HE. eapply rounds_concat; eauto.
    + exact HE.
    + eapply ready_incl; [|apply (ready_nth ds' [] m d R N)]. rewrite app_nil_r. exact IH.
  - apply acc_mono. apply IH. apply nth_error_None in N. rewrite firstn_all2 in Hx by lia. rewrite firstn_all2 by lia. exact Hx.
Qed.
Lemma rounds_kept E ds ds' : sound E -> incl (List.concat ds) E -> ready [] (List.concat ds') -> incl ds' ds -> incl ds ds' ->
  forall x, In x (kept_of (rounds (List.length ds') ds)) <-> In x (List.concat ds).
Proof.
  intros SE HE R HI HI' x. assert (A : In x (kept_of (rounds (List.length ds') ds)) <-> In x (acc [] (rounds (List.length ds') ds))) by (unfold acc, kept_of; rewrite app_nil_r; tauto).
  rewrite A. split; intro H.
  - revert x A H. intros x _. revert x. change (incl (acc [] (rounds (List.length ds') ds)) (List.concat ds)). apply acc_incl; [intros y []|apply rounds_concat].
  - apply (rounds_first E ds ds' SE HE R HI). rewrite firstn_all. apply in_concat in H as (d & Hd & Hx). apply in_concat. exists d. auto.
Qed.
Lemma rounds_ends E ds ds' m : sound E -> incl (List.concat ds) E -> ready [] (List.concat ds') -> incl ds' ds -> incl ds ds' -> List.length ds' = S m ->
  exists es, ends_of (rounds (S m) ds) = es ++ map (fun _ => None) ds.
Proof.
  intros SE HE R HI HI' HL. exists (map snd (keep [] (rounds m ds))). unfold ends_of. rewrite rounds_S, keep_app, map_app. f_equal. rewrite (keep_all E); [rewrite map_map; reflexivity|auto..].
  - apply acc_incl; [intros y []|]. intros y Hy. apply HE. eapply rounds_concat; eauto.
  - intros d Hd. apply HI' in Hd. apply In_nth_error in Hd as (i & N). assert (i < S m) by (rewrite <- HL; apply nth_error_Some; congruence).
    eapply ready_incl; [|apply (ready_nth ds' [] i d R N)]. rewrite app_nil_r. intros y Hy. apply (rounds_first E ds ds' SE HE R HI m).
    assert (X : firstn m ds' = firstn i ds' ++ skipn i (firstn m ds')).
    { rewrite <- (firstn_skipn i (firstn m ds')) at 1. f_equal. rewrite firstn_firstn. f_equal. lia. }
    rewrite X, concat_app. apply in_app_iff. auto.
Qed.

Lemma Forall2_len {A B} (R : A -> B -> Prop) l l' : Forall2 R l l' -> List.length l = List.length l'.
Proof. induction 1; cbn; congruence. Qed.
Lemma Forall2_in_l {A B} (R : A -> B -> Prop) l l' : Forall2 R l l' -> forall x, In x l -> exists y, In y l' /\ R x y.
Proof. induction 1 as [|x y l l' H _ IH]; intros z [].
  - subst. exists y. cbn. auto.
  - destruct (IH z H0) as (v & Hv & T). exists v. cbn. auto.
Qed.
Lemma Forall2_in_r {A B} (R : A -> B -> Prop) l l' : Forall2 R l l' -> forall y, In y l' -> exists x, In x l /\ R x y.
Proof. induction 1 as [|x y l l' H _ IH]; intros z [].
  - subst. exists x. cbn. auto.
  - destruct (IH z H0) as (v & Hv & T). exists v. cbn. auto.
Qed.

(** ** Two rounds *)

Lemma cut_app a : forall D b, cut D a = (a, None) -> cut D (a ++ b) = (a ++ fst (cut (rev a ++ D) b), snd (cut (rev a ++ D) b)).
Proof.
  induction a as [|x a IH]; intros D b H; [cbn; destruct (cut D b); reflexivity|]. cbn [cut app] in *. destruct (problem D x); [discriminate H|].
  destruct (cut (x :: D) a) as [r e] eqn:C. injection H as -> ->. rewrite (IH _ b C). cbn [rev]. rewrite <- app_assoc. cbn. destruct (cut (rev a ++ x :: D) b). reflexivity.
Qed.
Lemma ready_none a : (forall p t f, ~ In (Derives p t f) a) -> forall D, ready D a.
Proof.
  induction a as [|x a IH]; intros H D; [exact I|]. cbn [ready]. split; [|apply IH; intros p t f Hin; apply (H p t f); right; exact Hin].
  destruct x; auto. exfalso. eapply H. left. reflexivity.
Qed.
Lemma ready_all l : forall D, (forall p t f, In (Derives p t f) l -> exists n q i, In (Thing ((Class, n) :: q) t i) D) -> ready D l.
Proof.
  induction l as [|x l IH]; intros D H; [exact I|]. cbn [ready]. split.
  - destruct x; auto. eapply H. left. reflexivity.
  - apply IH. intros p t f Hin. destruct (H p t f (or_intror Hin)) as (n & q & i & Hi). exists n, q, i. right. exact Hi.
Qed.
Lemma acc_classes E ds : sound E -> (forall d, In d ds -> classes_first d) -> forall D, incl D E -> incl (List.concat ds) E ->
  forall n p t i, In (Thing ((Class, n) :: p) t i) (List.concat ds) -> In (Thing ((Class, n) :: p) t i) (acc D ds).
Proof.
  intros SE. induction ds as [|d ds IH]; intros HC D HD HE n p t i Hin; [destruct Hin|]. cbn in HE, Hin.
  assert (HE0 : incl d E) by (intros y Hy; apply HE; apply in_app_iff; auto). assert (HE1 : incl (List.concat ds) E) by (intros y Hy; apply HE; apply in_app_iff; auto).
  apply acc_cons. apply in_app_iff in Hin as [Hin|Hin].
  - destruct (HC d (or_introl eq_refl)) as (a & b & -> & Ha & Hb). apply in_app_iff in Hin as [Hin|Hin]; [|exfalso; eapply Hb; eauto].
    rewrite (cut_app a D b). 2:{ apply (cut_sound E); auto; [intros y Hy; apply HE0; apply in_app_iff; auto|apply ready_none; exact Ha]. }
    cbn [fst]. apply acc_mono. apply in_app_iff. left. apply in_app_iff. auto.
  - apply IH; auto; [intros d' Hd'; apply HC; right; exact Hd'|]. destruct (cut D d) as [r e] eqn:C. cbn [fst]. apply incl_app; [|exact HD]. intros y Hy. apply HE0. eapply cut_incl; eauto.
Qed.
Lemma twice_keep ds : sound (List.concat ds) -> (forall d, In d ds -> classes_first d) ->
  (forall p t f, In (Derives p t f) (List.concat ds) -> exists n q i, In (Thing ((Class, n) :: q) t i) (List.concat ds)) ->
  keep [] (ds ++ ds) = keep [] ds ++ map (fun d => (d, None)) ds.
Proof.
  intros SE HC HB. rewrite keep_app. f_equal. apply (keep_all (List.concat ds)); auto.
  - apply acc_incl; [intros x []|apply incl_refl].
  - apply incl_refl.
  - intros d Hd. apply ready_all. intros p t f Hin. destruct (HB p t f) as (n & q & i & Hi); [apply in_concat; exists d; auto|]. exists n, q, i.
    apply (acc_classes (List.concat ds)); auto; [intros x []|apply incl_refl].
Qed.
Lemma kept_incl ds : incl (kept_of ds) (List.concat ds).
Proof. intros x Hx. apply (acc_incl ds [] (List.concat ds)); [intros y []|apply incl_refl|]. unfold acc. rewrite app_nil_r. exact Hx. Qed.
Lemma twice_kept ds : sound (List.concat ds) -> (forall d, In d ds -> classes_first d) ->
  (forall p t f, In (Derives p t f) (List.concat ds) -> exists n q i, In (Thing ((Class, n) :: q) t i) (List.concat ds)) ->
  forall x, In x (kept_of (ds ++ ds)) <-> In x (List.concat ds).
Proof.
  intros SE HC HB x. split; intro H.
  - apply kept_incl in H. rewrite concat_app in H. apply in_app_iff in H as [H|H]; exact H.
  - unfold kept_of. rewrite (twice_keep ds SE HC HB), map_app, concat_app, map_map, map_id. apply in_app_iff. auto.
Qed.

(** ** Statements in another order show the same *)

Lemma shows_ext run w D D' : (forall d, In d D <-> In d D') -> shows run w D -> shows run w D'.
Proof.
  intros M [A B C F G H]. split.
  - intros p t i. rewrite <- M. apply A.
  - intros p m v Hin. apply M in Hin. eauto.
  - intros p m v Hin. apply M in Hin. eauto.
  - intros p x m R N. eapply F; eauto. intros v Hin. apply M in Hin. eapply N; eauto.
  - intros p x m R N. eapply G; eauto. intros v Hin. apply M in Hin. eapply N; eauto.
  - intros t x. rewrite H. split; intros (m & p & i & Hin & R); exists m, p, i; (split; [apply M; exact Hin|exact R]).
Qed.
Lemma kin_ext run k w D D' : (forall d, In d D <-> In d D') -> kin run k w D -> kin run k w D'.
Proof.
  intros M [A B C F G]. assert (I1 : incl D D') by (intro d; apply M). assert (I2 : incl D' D) by (intro d; apply M).
  assert (AN : forall p q, q = p \/ ancestor D p q <-> q = p \/ ancestor D' p q) by (intros p q; split; (intros [E|H]; [left; exact E|right; eapply ancestor_incl; eauto])). split.
  - intros p x K R. destruct (A p x K R) as (l & E & N & H). exists l. split; [exact E|]. split; [exact N|]. intros t f. rewrite <- M. apply H.
  - intros p x K R. destruct (B p x K R) as (l & E & N & H). exists l. split; [exact E|]. split; [exact N|]. intro t. rewrite H.
    split; intros (q & i & P & Hin); exists q, i; (split; [eapply parent_incl; eauto|auto]).
  - intros p q x y R R'. destruct (C p q x y R R') as (b & E & H). exists b. split; [exact E|]. rewrite H. apply AN.
  - intros p x m args R. destruct (F p x m args R) as (r & E & H). exists r. split; [exact E|]. destruct r as [y|].
    + destruct H as (q & Hq & R'). exists q. split; [apply AN; exact Hq|exact R'].
    + intros q t i Hq Hin. apply (H q t i); [apply AN; exact Hq|apply M; exact Hin].
  - intros p x m Hm R. destruct (G p x m Hm R) as (r & E & H). exists r. split; [exact E|]. destruct r as [y|].
    + destruct H as (q & Hq & R'). exists q. split; [apply AN; exact Hq|exact R'].
    + intros q t i Hq Hin. apply (H q t i); [apply AN; exact Hq|apply M; exact Hin].
Qed.
