(** Proofs of C67: what a registry contains is what the chains of definitions state, in whatever order they ran. *)
From Coq Require Import List Bool Arith String Ascii Lia Permutation.
From Verif Require Import Util RegistryModel RegistryProofs ListsModel ListsSpec ListsProofs StringsModel StringsSpec StringsProofs
  ReflModel ReflSpec ReflProofs OrderSpec.
Import ListNotations.
Local Open Scope list_scope.

(** ** Places *)

Inductive sits (w : world) : nat -> place -> Prop :=
| sits_global : sits w 0 []
| sits_item x it o p : x <> 0 -> get w x = Some it -> i_owner it = Some o -> sits w o p -> sits w x ((i_cat it, i_name it) :: p).

Lemma sits_fun w x p : sits w x p -> forall q, sits w x q -> q = p.
Proof.
  induction 1 as [|x it o p Hx Hg Ho Hs IH]; intros q Hq; inversion Hq as [E1 E2|y it' o' p' Hx' Hg' Ho' Hs' E1 E2]; subst; try congruence.
  rewrite Hg in Hg'. injection Hg' as <-. rewrite Ho in Ho'. injection Ho' as <-. f_equal. apply IH. assumption.
Qed.

(** Items keep category, name and owner. *)
Definition stay (w w' : world) : Prop := forall a it, get w a = Some it ->
  exists it', get w' a = Some it' /\ i_cat it' = i_cat it /\ i_name it' = i_name it /\ i_owner it' = i_owner it.
Lemma stay_sits w w' x p : stay w w' -> sits w x p -> sits w' x p.
Proof.
  intros K. induction 1 as [|x it o p Hx Hg Ho Hs IH]; [constructor|].
  destruct (K x it Hg) as (it' & Hg' & Ec & En & Eo). rewrite <- Ec, <- En. econstructor; eauto. congruence.
Qed.
Lemma stay_refl w : stay w w.
Proof. intros a it H. exists it. auto. Qed.
Lemma stay_trans a b c : stay a b -> stay b c -> stay a c.
Proof.
  intros H1 H2 x it Hg. destruct (H1 x it Hg) as (i1 & G1 & A1 & A2 & A3). destruct (H2 x i1 G1) as (i2 & G2 & B1 & B2 & B3).
  exists i2. repeat split; congruence.
Qed.
(** And what is deferred. *)
Definition kept (w w' : world) : Prop :=
  stay w w' /\
  (forall a it it', get w a = Some it -> get w' a = Some it' -> i_def it' = i_def it /\ i_lock it' = i_lock it) /\
  (forall a it', get w' a = Some it' -> get w a = None -> i_def it' = None).
Lemma kept_sits w w' x p : kept w w' -> sits w x p -> sits w' x p.
Proof. intros [K _]. apply stay_sits. exact K. Qed.
Lemma kept_items w c h r : kept w (World (w_items w) c h r).
Proof.
  split; [intros a it H; exists it; auto|]. set (w' := World _ _ _ _). assert (X : forall a, get w' a = get w a) by reflexivity. split.
  - intros a it it' H H'. rewrite X in H'. replace it' with it by congruence. auto.
  - intros a it' H H'. rewrite X in H. congruence.
Qed.
Lemma kept_refl w : kept w w.
Proof. destruct w as [i c h r]. exact (kept_items (World i c h r) c h r). Qed.
Lemma kept_trans a b c : kept a b -> kept b c -> kept a c.
Proof.
  intros (S1 & D1 & N1) (S2 & D2 & N2). split; [eapply stay_trans; eauto|]. split.
  - intros x it it' H H'. destruct (S1 x it H) as (i1 & G1 & _). destruct (D1 x it i1 H G1). destruct (D2 x i1 it' G1 H'). split; congruence.
  - intros x it' H H'. destruct (get b x) as [i1|] eqn:G1; [|eapply N2; eauto]. destruct (D2 x i1 it' G1 H) as [-> _]. eapply N1; eauto.
Qed.

Lemma same_place_eq p q : same_place p q = true <-> p = q.
Proof. unfold same_place. destruct (place_dec p q); split; congruence. Qed.
Lemma same_place_refl p : same_place p p = true.
Proof. apply same_place_eq. reflexivity. Qed.
Lemma consistent_sound E : consistent E = true -> sound E.
Proof.
  intro H. unfold consistent in H. rewrite forallb_forall in H.
  assert (A : forall a b, In a E -> In b E -> agree a b = true).
  { intros a b Ha Hb. specialize (H a Ha). rewrite forallb_forall in H. auto. }
  clear H. constructor.
  - intros p t i t' i' H H'. specialize (A _ _ H H'). cbn [agree] in A. rewrite same_place_refl in A. cbn [negb orb] in A.
    apply andb_true_iff in A as [A _]. apply andb_true_iff in A as [A1 A2]. apply Nat.eqb_eq in A1, A2. auto.
  - intros n p n' p' t i i' H H'. specialize (A _ _ H H'). cbn [agree] in A. rewrite Nat.eqb_refl in A. cbn [negb orb] in A.
    apply andb_true_iff in A as [_ A]. apply same_place_eq in A. congruence.
  - intros p n v v' H H'. specialize (A _ _ H H'). cbn [agree] in A. rewrite same_place_refl, String.eqb_refl in A. apply Nat.eqb_eq in A. exact A.
  - intros p n v v' H H'. specialize (A _ _ H H'). cbn [agree] in A. rewrite same_place_refl, String.eqb_refl in A. apply Nat.eqb_eq in A. exact A.
  - intros p n n' t i t' i' H H' HA. specialize (A _ _ H H'). cbn [agree] in A. apply andb_true_iff in A as [_ A]. rewrite same_place_refl in A. cbn [negb orb] in A.
    apply orb_true_iff in A as [A|A]; [apply String.eqb_eq; exact A|]. destruct (method_matches_spec (txt n') (txt n)) as (b & Eb & Hb). rewrite Eb in A.
    apply Hb in HA. subst b. discriminate.
  - intros p t f f' H H'. specialize (A _ _ H H'). cbn [agree] in A. rewrite same_place_refl, Nat.eqb_refl in A. apply Nat.eqb_eq in A. exact A.
Qed.

Lemma sound_consistent E : sound E -> consistent E = true.
Proof.
  intros S. unfold consistent. apply forallb_forall. intros a Ha. apply forallb_forall. intros b Hb.
  destruct a as [p t i|p n v|p n v|p t f], b as [p' t' i'|p' n' v'|p' n' v'|p' t' f']; try reflexivity; cbn [agree].
  - apply andb_true_iff. split.
    + destruct (same_place p p') eqn:E0; [|reflexivity]. apply same_place_eq in E0. subst p'.
      destruct (s_thing _ S _ _ _ _ _ Ha Hb) as [-> ->]. rewrite !Nat.eqb_refl. reflexivity.
    + destruct p as [|[c n] p]; [reflexivity|]. destruct p' as [|[c' n'] p']; [destruct c; reflexivity|]. destruct c, c'; try reflexivity.
      * destruct (Nat.eqb_spec t' t) as [->|_]; [|reflexivity]. pose proof (s_class _ S _ _ _ _ _ _ _ Ha Hb) as X. injection X as -> ->. apply same_place_refl.
      * destruct (same_place p p') eqn:E0; [|reflexivity]. apply same_place_eq in E0. subst p'. cbn [negb orb].
        destruct (String.eqb_spec n' n) as [_|Hn]; [reflexivity|]. cbn [orb]. destruct (method_matches_spec (txt n') (txt n)) as (b & -> & Hm).
        destruct b; [|reflexivity]. exfalso. apply Hn. eapply (s_ctor _ S); eauto. apply Hm. reflexivity.
  - destruct (same_place p p') eqn:E0; [|reflexivity]. apply same_place_eq in E0. subst p'. destruct (String.eqb_spec n' n) as [->|_]; [|reflexivity].
    cbn. apply Nat.eqb_eq. exact (s_attr _ S _ _ _ _ Ha Hb).
  - destruct (same_place p p') eqn:E0; [|reflexivity]. apply same_place_eq in E0. subst p'. destruct (String.eqb_spec n' n) as [->|_]; [|reflexivity].
    cbn. apply Nat.eqb_eq. exact (s_elem _ S _ _ _ _ Ha Hb).
  - destruct (same_place p p') eqn:E0; [|reflexivity]. apply same_place_eq in E0. subst p'. destruct (Nat.eqb_spec t' t) as [->|_]; [|reflexivity].
    cbn. apply Nat.eqb_eq. exact (s_base _ S _ _ _ _ Ha Hb).
Qed.

Lemma str_app a b : str (a ++ b) = (str a ++ str b)%string.
Proof. unfold str. induction a as [|c a IH]; cbn; [reflexivity|]. rewrite IH. reflexivity. Qed.
Lemma signature_signed n args : str (signature (txt n) args) = signed n args.
Proof.
  rewrite signature_text, !str_app. unfold signed, str at 1, txt. rewrite string_of_list_ascii_of_string. reflexivity.
Qed.
Lemma ctor_signature_name n args : ctor_signature (if (n =? "")%string then "constructor"%string else n) args = ctor_name n args.
Proof. destruct args as [|[|]|l]; try reflexivity. apply signature_signed. Qed.

Section Order.
  Variable ok : nat -> nat -> bool.
  (** What may be deferred. *)
  Variable Q : option prog -> bool -> Prop.
  Hypothesis Q0 : Q None false.
  Hypothesis QN : forall d l, Q d l -> d = None \/ l = true.
  Notation wf := (WF false false ok).

  Lemma sits_total w : wf w -> forall x it, get w x = Some it -> exists p, sits w x p.
  Proof.
    intros W x. induction x as [x IH] using lt_wf_ind. intros it Hg. destruct (Nat.eq_dec x 0) as [->|Hx]; [exists []; constructor|].
    destruct (wf_owner _ _ _ _ W x it Hg Hx) as (o & ow & Ho & Hlt & Hgo & _). destruct (IH o Hlt ow Hgo) as (p & Hp).
    exists ((i_cat it, i_name it) :: p). econstructor; eauto.
  Qed.
  Lemma sits_get w x p : wf w -> sits w x p -> exists it, get w x = Some it /\ i_cat it = kind_at p.
  Proof.
    intros W H. inversion H; subst.
    - destruct (wf_global _ _ _ _ W) as (it & Hg & Hc & _). exists it. auto.
    - exists it. auto.
  Qed.
  Lemma sits_inj w : wf w -> forall p x y, sits w x p -> sits w y p -> x = y.
  Proof.
    intros W p. induction p as [|[c n] p IH]; intros x y Hx Hy; inversion Hx; inversion Hy; subst; [reflexivity|].
    assert (o0 = o) by (eapply IH; eassumption). subst o0.
    destruct (wf_owner _ _ _ _ W x it) as (o1 & ow & Ho1 & _ & Hgo & _ & Hin); [assumption..|].
    destruct (wf_owner _ _ _ _ W y it0) as (o2 & ow2 & Ho2 & _ & Hgo2 & _ & Hin2); [assumption..|].
    assert (o1 = o) by congruence. assert (o2 = o) by congruence. subst o1 o2. assert (ow2 = ow) by congruence. subst ow2.
    match goal with H : i_cat it0 = i_cat it |- _ => rewrite H in Hin2 | H : i_cat it = i_cat it0 |- _ => rewrite <- H in Hin2 end.
    destruct (wf_names _ _ _ _ W o ow (i_cat it) Hgo) as [_ ND].
    assert (EN : names w x = names w y) by (unfold names; repeat match goal with H : get _ _ = _ |- _ => rewrite H end; congruence).
    revert ND Hin Hin2. generalize (ml_items (i_list ow (i_cat it))). intros l ND. induction l as [|z l IHl]; [intros []|].
    cbn in ND. inversion ND as [|? ? Hni ND']; subst. intros [->|A] [->|B]; [reflexivity| | |apply IHl; assumption].
    - exfalso. apply Hni. rewrite EN. apply in_map. exact B.
    - exfalso. apply Hni. rewrite <- EN. apply in_map. exact A.
  Qed.
  Lemma sits_under w x c n p : sits w x ((c, n) :: p) -> exists o it, x <> 0 /\ get w x = Some it /\ i_cat it = c /\ i_name it = n /\
    i_owner it = Some o /\ sits w o p.
  Proof. intro H. inversion H; subst. exists o, it. auto 7. Qed.

  (** The list of [c] in [o] has what sits under [o]. *)
  Lemma listed w o ow p c x : wf w -> get w o = Some ow -> sits w o p ->
    (In x (ml_items (i_list ow c)) <-> exists n, sits w x ((c, n) :: p)).
  Proof.
    intros W Hg Hs. split.
    - intro Hin. destruct (wf_list _ _ _ _ W o ow c x Hg Hin) as (xt & Hx & Hc & Ho). exists (i_name xt). rewrite <- Hc.
      econstructor; eauto. intros ->. destruct (wf_global _ _ _ _ W) as (g & Hg0 & _ & Hn). congruence.
    - intros (n & H). destruct (sits_under _ _ _ _ _ H) as (o' & it & Hx & Hgx & Hc & Hn & Ho & Hs').
      assert (o' = o) by (eapply sits_inj; eauto). subst o'.
      destruct (wf_owner _ _ _ _ W x it Hgx Hx) as (o1 & ow1 & Ho1 & _ & Hgo & _ & Hin). assert (o1 = o) by congruence. subst o1.
      assert (ow1 = ow) by congruence. subst ow1. rewrite Hc in Hin. exact Hin.
  Qed.
  Lemma names_at w x it : get w x = Some it -> names w x = i_name it.
  Proof. unfold names. intros ->. reflexivity. Qed.
  Lemma found w o ow p c n x : wf w -> get w o = Some ow -> sits w o p -> n <> ""%string ->
    (ml_find (i_list ow c) n = Some x <-> sits w x ((c, n) :: p)).
  Proof.
    intros W Hg Hs Hn. rewrite (ml_find_iff (names w) _ n x (wf_names _ _ _ _ W o ow c Hg) Hn).
    rewrite (listed w o ow p c x W Hg Hs). split.
    - intros [(m & H) E]. destruct (sits_under _ _ _ _ _ H) as (o' & it & _ & Hgx & _ & Hm & _). rewrite (names_at w x it Hgx) in E. congruence.
    - intro H. split; [exists n; exact H|]. destruct (sits_under _ _ _ _ _ H) as (o' & it & _ & Hgx & _ & Hm & _).
      rewrite (names_at w x it Hgx). exact Hm.
  Qed.

  (** ** The registry is what was stated *)
  Record Inv (w : world) (D : list decl) : Prop := {
    v_wf : wf w;
    v_calm : forall a it, get w a = Some it -> Q (i_def it) (i_lock it) /\ i_name it <> ""%string;
    v_held : w_held w = [];
    v_thing : forall p t i, In (Thing p t i) D <-> exists x it, x <> 0 /\ sits w x p /\ get w x = Some it /\ i_type it = t /\ i_inv it = i;
    v_attr : forall p n v, In (Attribute p n v) D <-> exists x it, sits w x p /\ get w x = Some it /\ val (i_attrs it) n = Some v;
    v_elem : forall p n v, In (Element p n v) D <-> exists x it, sits w x p /\ get w x = Some it /\ val (i_elems it) n = Some v;
    v_base : forall p t f, In (Derives p t f) D <-> exists x it, sits w x p /\ get w x = Some it /\ In (t, f) (i_bases it);
    v_global : exists g, get w 0 = Some g /\ i_cat g = Namespace /\ i_name g = "global"%string /\ i_type g = 0 /\ i_inv g = 0 }.

  Lemma inv_more w D D' : (forall d, In d D' <-> In d D) -> Inv w D -> Inv w D'.
  Proof. intros H [A B C E F G G1 G0]. constructor; auto; intros; rewrite H; auto. Qed.

  Lemma sits_same w w' x p : (forall a, get w' a = get w a) -> sits w x p -> sits w' x p.
  Proof. intros H. apply stay_sits. intros a it Hg. exists it. rewrite H. auto. Qed.
  Lemma inv_same w D r : Inv w D -> Inv (World (w_items w) (w_class w) (w_held w) r) D.
  Proof.
    intros [A B C E F G G1 G0]. set (w' := World (w_items w) (w_class w) (w_held w) r).
    assert (HG : forall a, get w' a = get w a) by reflexivity.
    assert (HS : forall x p, sits w' x p <-> sits w x p) by (intros; split; apply sits_same; intros; symmetry; auto).
    constructor; auto.
    - apply wf_locks. exact A.
    - intros p t i. rewrite E. split; intros (x & it & H1 & H2 & H3); exists x, it; split; [exact H1| |exact H1|]; split; auto; apply HS; auto.
    - intros p t i. rewrite F. split; intros (x & it & H2 & H3); exists x, it; split; auto; apply HS; auto.
    - intros p t i. rewrite G. split; intros (x & it & H2 & H3); exists x, it; split; auto; apply HS; auto.
    - intros p t i. rewrite G1. split; intros (x & it & H2 & H3); exists x, it; split; auto; apply HS; auto.
  Qed.
  (** The same registry, with another [w_relock]. *)
  Definition marked (w : world) (b : bool) : world := World (w_items w) (w_class w) (w_held w) b.
  Lemma inv_marked w D b : Inv w D -> Inv (marked w b) D.
  Proof. intro I. exact (inv_same w D _ I). Qed.
  Lemma kept_marked w b : kept w (marked w b).
  Proof. apply kept_items. Qed.

  (** A new item. *)
  Lemma new_ok w D o ow p c n t inv : Inv w D -> get w o = Some ow -> is_container (i_cat ow) = true -> sits w o p -> n <> ""%string ->
    ~ (exists x, sits w x ((c, n) :: p)) ->
    exists l, ml_add (names (World (w_items w ++ [fresh c n (Some o) t inv]) (w_class w) (w_held w) (w_relock w)))
                (i_list ow c) (Some (List.length (w_items w))) = (l, true).
  Proof.
    intros I Hg Hc Hs Hn Hno. set (nm := names _).
    assert (HO : ml_ok nm (i_list ow c)).
    { eapply ml_ok_ext; [|eapply (wf_names _ _ _ _ (v_wf _ _ I)); eauto]. intros x Hx. unfold nm. symmetry. apply names_app.
      destruct (wf_list _ _ _ _ (v_wf _ _ I) o ow c x Hg Hx) as (xt & Hgx & _). apply get_lt in Hgx. lia. }
    rewrite (ml_add_char nm _ _ (proj1 HO)). destruct (in_dec _ _ _) as [Hi|Hi]; [|eexists; reflexivity].
    exfalso. apply Hno. apply in_map_iff in Hi as (x & Ex & Hx). pose proof Hx as Hx2. rewrite (listed w o ow p c x (v_wf _ _ I) Hg Hs) in Hx.
    destruct Hx as (m & H). exists x. replace n with m; [exact H|]. destruct (sits_under _ _ _ _ _ H) as (_ & it & _ & Hgx & _ & Hm & _).
    unfold nm in Ex. rewrite names_app in Ex by (apply get_lt in Hgx; lia). rewrite (names_at w x it Hgx) in Ex.
    unfold names in Ex. rewrite get_app, Nat.eqb_refl in Ex. cbn in Ex. congruence.
  Qed.

  (** What a new item changes, whether or not it is a class. *)
  Lemma new_inv w w' D o ow p c n t inv : Inv w D -> wf w' -> get w o = Some ow -> sits w o p -> n <> ""%string ->
    w_held w' = w_held w -> get w' (List.length (w_items w)) = Some (fresh c n (Some o) t inv) ->
    (forall a it, get w a = Some it -> exists it', get w' a = Some it' /\ i_cat it' = i_cat it /\ i_name it' = i_name it /\ i_owner it' = i_owner it /\
       (i_def it' = i_def it /\ i_lock it' = i_lock it) /\ i_bases it' = i_bases it /\ i_attrs it' = i_attrs it /\ i_elems it' = i_elems it /\ i_type it' = i_type it /\ i_inv it' = i_inv it) ->
    (forall a it', get w' a = Some it' -> a <> List.length (w_items w) -> exists it, get w a = Some it) ->
    kept w w' /\ sits w' (List.length (w_items w)) ((c, n) :: p) /\ Inv w' (Thing ((c, n) :: p) t inv :: D).
  Proof.
    intros I W' Hg Hs Hn Hh Hnew HF HB. set (id := List.length (w_items w)) in *.
    assert (K : kept w w').
    { split; [|split].
      - intros a it H. destruct (HF a it H) as (it' & G & A & B & C & _). exists it'. auto.
      - intros a it it' H H'. destruct (HF a it H) as (it2 & G & _ & _ & _ & A & _). assert (it2 = it') by congruence. subst it2. exact A.
      - intros a it' H H'. destruct (Nat.eq_dec a id) as [->|Hne]; [rewrite Hnew in H; injection H as <-; reflexivity|].
        destruct (HB a it' H Hne). congruence. }
    assert (Hid0 : id <> 0). { apply get_lt in Hg. unfold id. lia. }
    assert (Sid : sits w' id ((c, n) :: p)).
    { change (c, n) with (i_cat (fresh c n (Some o) t inv), i_name (fresh c n (Some o) t inv)). econstructor; eauto; [reflexivity|].
      eapply kept_sits; eauto. }
    assert (HOLD : forall x q, sits w' x q -> x <> id -> sits w x q).
    { intros x q H Hx. destruct (sits_get w' x q W' H) as (it' & Hg' & _). destruct (HB x it' Hg' Hx) as (it & Hgx).
      destruct (sits_total w (v_wf _ _ I) x it Hgx) as (q' & Hq). replace q with q'; [exact Hq|].
      eapply sits_fun; [exact H|]. eapply kept_sits; eauto. }
    split; [exact K|]. split; [exact Sid|]. constructor.
    - exact W'.
    - intros a it' Ha. destruct (Nat.eq_dec a id) as [->|Hne].
      + rewrite Hnew in Ha. injection Ha as <-. split; [exact Q0|exact Hn].
      + destruct (HB a it' Ha Hne) as (it & Hga). destruct (HF a it Hga) as (it2 & G & A & B & C & [E1 E3] & E2 & _).
        assert (it2 = it') by congruence. subst it2. rewrite B, E1, E3. exact (v_calm _ _ I a it Hga).
    - rewrite Hh. exact (v_held _ _ I).
    - intros q t' i'. cbn [In]. split.
      + intros [E|H].
        * injection E as <- <- <-. exists id, (fresh c n (Some o) t inv). auto.
        * apply (v_thing _ _ I) in H as (x & it & Hx & Hsx & Hgx & Ht & Hi). destruct (HF x it Hgx) as (it' & G & A).
          exists x, it'. split; [exact Hx|]. split; [eapply kept_sits; eauto|]. split; [exact G|]. split; [rewrite <- Ht|rewrite <- Hi]; tauto.
      + intros (x & it' & Hx & Hsx & Hgx & Ht & Hi). destruct (Nat.eq_dec x id) as [->|Hne].
        * left. rewrite Hnew in Hgx. injection Hgx as <-. cbn in Ht, Hi. rewrite (sits_fun _ _ _ Sid q Hsx). congruence.
        * right. apply (v_thing _ _ I). pose proof (HOLD x q Hsx Hne) as Ho. destruct (sits_get w x q (v_wf _ _ I) Ho) as (it & G & _).
          exists x, it. destruct (HF x it G) as (it2 & G2 & A). assert (it2 = it') by congruence. subst it2.
          split; [exact Hx|]. split; [exact Ho|]. split; [exact G|]. split; [rewrite <- Ht|rewrite <- Hi]; symmetry; tauto.
    - intros q m v. cbn [In]. split.
      + intros [E|H]; [discriminate|]. apply (v_attr _ _ I) in H as (x & it & Hsx & Hgx & Hv). destruct (HF x it Hgx) as (it' & G & A).
        exists x, it'. split; [eapply kept_sits; eauto|]. split; [exact G|]. destruct A as (_ & _ & _ & _ & _ & A & _). rewrite A. exact Hv.
      + intros (x & it' & Hsx & Hgx & Hv). right. destruct (Nat.eq_dec x id) as [->|Hne].
        * rewrite Hnew in Hgx. injection Hgx as <-. discriminate Hv.
        * apply (v_attr _ _ I). pose proof (HOLD x q Hsx Hne) as Ho. destruct (sits_get w x q (v_wf _ _ I) Ho) as (it & G & _).
          exists x, it. destruct (HF x it G) as (it2 & G2 & A). assert (it2 = it') by congruence. subst it2.
          split; [exact Ho|]. split; [exact G|]. destruct A as (_ & _ & _ & _ & _ & A & _). rewrite <- A. exact Hv.
    - intros q m v. cbn [In]. split.
      + intros [E|H]; [discriminate|]. apply (v_elem _ _ I) in H as (x & it & Hsx & Hgx & Hv). destruct (HF x it Hgx) as (it' & G & A).
        exists x, it'. split; [eapply kept_sits; eauto|]. split; [exact G|]. destruct A as (_ & _ & _ & _ & _ & _ & A & _). rewrite A. exact Hv.
      + intros (x & it' & Hsx & Hgx & Hv). right. destruct (Nat.eq_dec x id) as [->|Hne].
        * rewrite Hnew in Hgx. injection Hgx as <-. discriminate Hv.
        * apply (v_elem _ _ I). pose proof (HOLD x q Hsx Hne) as Ho. destruct (sits_get w x q (v_wf _ _ I) Ho) as (it & G & _).
          exists x, it. destruct (HF x it G) as (it2 & G2 & A). assert (it2 = it') by congruence. subst it2.
          split; [exact Ho|]. split; [exact G|]. destruct A as (_ & _ & _ & _ & _ & _ & A & _). rewrite <- A. exact Hv.
    - intros q m v. cbn [In]. split.
      + intros [E|H]; [discriminate|]. apply (v_base _ _ I) in H as (x & it & Hsx & Hgx & Hv). destruct (HF x it Hgx) as (it' & G & A).
        exists x, it'. split; [eapply kept_sits; eauto|]. split; [exact G|]. destruct A as (_ & _ & _ & _ & A & _). rewrite A. exact Hv.
      + intros (x & it' & Hsx & Hgx & Hv). right. destruct (Nat.eq_dec x id) as [->|Hne].
        * rewrite Hnew in Hgx. injection Hgx as <-. destruct Hv.
        * apply (v_base _ _ I). pose proof (HOLD x q Hsx Hne) as Ho. destruct (sits_get w x q (v_wf _ _ I) Ho) as (it & G & _).
          exists x, it. destruct (HF x it G) as (it2 & G2 & A). assert (it2 = it') by congruence. subst it2.
          split; [exact Ho|]. split; [exact G|]. destruct A as (_ & _ & _ & _ & A & _). rewrite <- A. exact Hv.
    - destruct (v_global _ _ I) as (g & Hg0 & A1 & A2 & A3 & A4). destruct (HF 0 g Hg0) as (g' & Hg' & B1 & B2 & _ & _ & _ & _ & _ & B3 & B4).
      exists g'. split; [exact Hg'|]. repeat split; congruence.
  Qed.

  Lemma added_ok w D o ow p c n t inv : Inv w D -> get w o = Some ow -> is_container (i_cat ow) = true -> sits w o p -> n <> ""%string ->
    ~ (exists x, sits w x ((c, n) :: p)) ->
    exists l, add_new w o (fresh c n (Some o) t inv) = Added (with_new w o (fresh c n (Some o) t inv) l) (List.length (w_items w)) /\
      (c <> Class -> wf (with_new w o (fresh c n (Some o) t inv) l)) /\
      (c = Class -> class_of w t = None -> wf (add_class (with_new w o (fresh c n (Some o) t inv) l) t (List.length (w_items w)))) /\
      (forall w', w_items w' = w_items (with_new w o (fresh c n (Some o) t inv) l) -> w_held w' = w_held w -> wf w' ->
        kept w w' /\ sits w' (List.length (w_items w)) ((c, n) :: p) /\ Inv w' (Thing ((c, n) :: p) t inv :: D)).
  Proof.
    intros I Hg Hc Hs Hn Hno. destruct (new_ok w D o ow p c n t inv I Hg Hc Hs Hn Hno) as (l & Hl). exists l.
    assert (HW : forall x, get (with_new w o (fresh c n (Some o) t inv) l) x =
      if x =? List.length (w_items w) then Some (fresh c n (Some o) t inv) else if x =? o then Some (set_list c l ow) else get w x).
    { intro x. exact (get_with_new w o (fresh c n (Some o) t inv) l ow x Hg). }
    split; [|split; [|split]].
    - unfold add_new, holds, list_of. rewrite (v_held _ _ I), Hg. cbn [existsb i_cat fresh]. rewrite (v_held _ _ I) in Hl. rewrite Hl.
      unfold with_new. cbn [i_cat fresh]. rewrite (v_held _ _ I). reflexivity.
    - intro Hcc. eapply wf_new; eauto. exact (v_wf _ _ I).
    - intros -> Ht. eapply wf_newclass; eauto. exact (v_wf _ _ I).
    - intros w' Ei Eh W'. assert (HG : forall x, get w' x = get (with_new w o (fresh c n (Some o) t inv) l) x) by (intro x; unfold get; rewrite Ei; reflexivity).
      pose proof (get_lt _ _ _ Hg) as Hlt. eapply new_inv; eauto.
      + rewrite HG, HW, Nat.eqb_refl. reflexivity.
      + intros a it Ha. rewrite HG, HW. pose proof (get_lt _ _ _ Ha) as Hla.
        destruct (a =? List.length (w_items w)) eqn:E1; [apply Nat.eqb_eq in E1; lia|]. destruct (a =? o) eqn:E2.
        * apply Nat.eqb_eq in E2. subst a. rewrite Hg in Ha. injection Ha as <-. eexists. split; [reflexivity|]. repeat split.
        * exists it. split; [exact Ha|]. repeat split.
      + intros a it' Ha Hne. rewrite HG, HW in Ha. apply Nat.eqb_neq in Hne. rewrite Hne in Ha. destruct (a =? o) eqn:E2; [|eauto].
        apply Nat.eqb_eq in E2. subst a. eauto.
  Qed.

  Lemma thing_in w D x p : Inv w D -> x <> 0 -> sits w x p -> exists t i, In (Thing p t i) D.
  Proof.
    intros I Hx Hs. destruct (sits_get w x p (v_wf _ _ I) Hs) as (it & Hg & _). exists (i_type it), (i_inv it).
    apply (v_thing _ _ I). exists x, it. auto.
  Qed.
  Lemma sits_cons_nz w x c n p : sits w x ((c, n) :: p) -> x <> 0.
  Proof. intro H. destruct (sits_under _ _ _ _ _ H) as (o & it & Hx & _). exact Hx. Qed.

  Lemma have w D x p t i : Inv w D -> sits w x p -> x <> 0 -> (forall t' i', In (Thing p t' i') D -> t' = t /\ i' = i) -> Inv w (Thing p t i :: D).
  Proof.
    intros I Hs Hx HE. destruct (thing_in w D x p I Hx Hs) as (t' & i' & Hin). destruct (HE _ _ Hin) as [-> ->].
    eapply inv_more; [|exact I]. intro d. cbn. split; [intros [<-|H]; assumption|auto].
  Qed.

  (** All create functions but that of classes. *)
  Lemma create_ok w D o p c n t inv lookup : Inv w D -> sits w o p -> is_container (kind_at p) = true -> n <> ""%string -> c <> Class ->
    (exists l r, lookup w = Ret (marked w l) r /\ forall x, r = Some x <-> sits w x ((c, n) :: p)) ->
    (forall t' i', In (Thing ((c, n) :: p) t' i') D -> t' = t /\ i' = inv) ->
    exists w' x, create lookup o (fresh c n (Some o) t inv) w = Ret w' (Some x) /\ kept w w' /\ sits w' x ((c, n) :: p) /\
      Inv w' (Thing ((c, n) :: p) t inv :: D).
  Proof.
    intros I Hs Hc Hn Hcc (l & r & Hl & Hr) HE. unfold create. rewrite Hl. cbn [bind]. destruct r as [x|].
    - assert (Hx : sits w x ((c, n) :: p)) by (apply Hr; reflexivity).
      exists (marked w l), x. split; [reflexivity|]. split; [apply kept_marked|]. split; [eapply kept_sits; [apply kept_marked|exact Hx]|].
      apply inv_marked. eapply have; eauto. eapply sits_cons_nz; eauto.
    - destruct (sits_get w o p (v_wf _ _ I) Hs) as (ow & Hg & Hk). rewrite <- Hk in Hc.
      destruct (added_ok (marked w l) D o ow p c n t inv) as (m & -> & HW & _ & HI).
      + apply inv_marked. exact I.
      + exact Hg.
      + exact Hc.
      + eapply kept_sits; [apply kept_marked|exact Hs].
      + exact Hn.
      + intros (x & Hx). assert (None = Some x); [|discriminate]. apply Hr. eapply sits_same; [|exact Hx]. reflexivity.
      + destruct (HI _ eq_refl) as (K & S & J); [unfold with_new; rewrite upd_held; reflexivity|exact (HW Hcc)|].
        eexists _, _. split; [reflexivity|]. split; [eapply kept_trans; [apply kept_marked|exact K]|]. split; [exact S|exact J].
  Qed.

  Section Run.
    Variable run : world -> nat -> prog -> out unit.
    Lemma check_calm w D a p : Inv w D -> sits w a p -> check run w a = Ret w tt.
    Proof.
      intros I Hs. destruct (sits_get w a p (v_wf _ _ I) Hs) as (it & Hg & _). unfold check. rewrite Hg.
      destruct (v_calm _ _ I a it Hg) as [H _]. destruct (QN _ _ H) as [->| ->]; [reflexivity|]. destruct (i_def it); reflexivity.
    Qed.
    (** The same registry, whatever is locked. *)
    Definition twin (v w : world) : Prop := w_items v = w_items w /\ w_class v = w_class w.
    Lemma twin_refl w : twin w w.
    Proof. split; reflexivity. Qed.
    Lemma twin_get v w a : twin v w -> get v a = get w a.
    Proof. intros [H _]. unfold get. rewrite H. reflexivity. Qed.
    Lemma twin_class v w t : twin v w -> class_of v t = class_of w t.
    Proof. intros [_ H]. unfold class_of. rewrite H. reflexivity. Qed.
    Lemma twin_names v w x : twin v w -> names v x = names w x.
    Proof. intro H. unfold names. rewrite (twin_get v w x H). reflexivity. Qed.
    Lemma check_twin v w D a p : twin v w -> Inv w D -> sits w a p -> check run v a = Ret v tt.
    Proof.
      intros TW I Hs. destruct (sits_get w a p (v_wf _ _ I) Hs) as (it & Hg & _). unfold check. rewrite (twin_get v w a TW), Hg.
      destruct (v_calm _ _ I a it Hg) as [H _]. destruct (QN _ _ H) as [->| ->]; [reflexivity|]. destruct (i_def it); reflexivity.
    Qed.
    Lemma get_item_twin v w D o p c n : twin v w -> Inv w D -> sits w o p -> check run v o = Ret v tt -> n <> ""%string ->
      exists l r, get_item run v o c n = Ret (marked v l) r /\ forall x, r = Some x <-> sits w x ((c, n) :: p).
    Proof.
      intros TW I Hs CH Hn. unfold get_item. rewrite CH. cbn [bind]. eexists _, _. split; [reflexivity|].
      destruct (sits_get w o p (v_wf _ _ I) Hs) as (it & Hg & _). unfold list_of. rewrite (twin_get v w o TW), Hg. intro x.
      apply (found w o it p c n x (v_wf _ _ I) Hg Hs Hn).
    Qed.
    Lemma get_item_calm w D o p c n : Inv w D -> sits w o p -> check run w o = Ret w tt -> n <> ""%string ->
      exists l r, get_item run w o c n = Ret (marked w l) r /\ forall x, r = Some x <-> sits w x ((c, n) :: p).
    Proof. apply get_item_twin. apply twin_refl. Qed.
    (** Look-up by signature, when no registered name answers in place of another. *)
    Lemma find_method_twin v w D o p c q : twin v w -> Inv w D -> sits w o p -> check run v o = Ret v tt ->
      (forall x n, sits w x ((c, n) :: p) -> (answers (txt n) (txt q) <-> n = q)) ->
      exists l r, find_method run v o c q = Ret (marked v l) r /\ forall x, r = Some x <-> sits w x ((c, q) :: p).
    Proof.
      intros TW I Hs CH HA. unfold find_method. rewrite CH. cbn [bind].
      destruct (sits_get w o p (v_wf _ _ I) Hs) as (it & Hg & _). unfold list_of. rewrite (twin_get v w o TW), Hg.
      assert (HL : forall x, In x (ml_items (i_list it c)) -> sits w x ((c, names v x) :: p)).
      { intros x Hx. apply (listed w o it p c x (v_wf _ _ I) Hg Hs) in Hx as (n & H).
        destruct (sits_under _ _ _ _ _ H) as (o' & xt & _ & Hgx & _ & Hn & _). rewrite (twin_names v w x TW), (names_at w x xt Hgx), Hn. exact H. }
      destruct (findMethod_spec (fun x => txt (names v x)) (ml_items (i_list it c)) (txt q)) as [(l1 & a & l2 & El & -> & Ha & _)|[-> HF]].
      - eexists _, _. split; [reflexivity|]. assert (Hin : In a (ml_items (i_list it c))) by (rewrite El, in_app_iff; right; left; reflexivity).
        pose proof (HL a Hin) as Hsa. apply (HA _ _ Hsa) in Ha. rewrite Ha in Hsa. intro x. split; [intros [= <-]; exact Hsa|].
        intro Hx. f_equal. eapply sits_inj; [exact (v_wf _ _ I)|exact Hsa|exact Hx].
      - eexists _, _. split; [reflexivity|]. intro x. split; [discriminate|]. intro Hx. exfalso. rewrite Forall_forall in HF.
        assert (Hin : In x (ml_items (i_list it c))) by (apply (listed w o it p c x (v_wf _ _ I) Hg Hs); eauto).
        apply (HF x Hin). pose proof (HL x Hin) as Hy. pose proof (sits_fun _ _ _ Hx _ Hy) as E. injection E as E. rewrite E.
        apply (HA _ _ Hx). reflexivity.
    Qed.
    Lemma find_method_calm w D o p c q : Inv w D -> sits w o p -> check run w o = Ret w tt ->
      (forall x n, sits w x ((c, n) :: p) -> (answers (txt n) (txt q) <-> n = q)) ->
      exists l r, find_method run w o c q = Ret (marked w l) r /\ forall x, r = Some x <-> sits w x ((c, q) :: p).
    Proof. apply find_method_twin. apply twin_refl. Qed.

    (** ** Base classes *)
    Lemma base_at w D a p it t f : Inv w D -> sits w a p -> get w a = Some it -> In (t, f) (i_bases it) ->
      exists b q, class_of w t = Some b /\ sits w b q /\ parent D p q.
    Proof.
      intros I Hs Hg Hin. destruct (class_of w t) as [b|] eqn:Eb.
      2: { exfalso. apply (wf_base _ _ _ _ (v_wf _ _ I) a it t Hg); [|exact Eb]. change t with (fst (t, f)). apply in_map. exact Hin. }
      destruct (wf_class1 _ _ _ _ (v_wf _ _ I) t b Eb) as (bt & Hgb & Hcb & Ht). destruct (sits_total w (v_wf _ _ I) b bt Hgb) as (q & Hq).
      destruct (sits_get w b q (v_wf _ _ I) Hq) as (bt2 & Hgb2 & Hk). assert (bt2 = bt) by congruence. subst bt2. exists b, q. split; [reflexivity|]. split; [exact Hq|].
      destruct q as [|[c n] r]; [cbn in Hk; congruence|]. cbn in Hk. assert (X : c = Class) by congruence. clear Hk. subst c.
      exists t, f, n, r, (i_inv bt). split; [reflexivity|]. split; [apply (v_base _ _ I); exists a, it; auto|].
      apply (v_thing _ _ I). exists b, bt. split; [eapply sits_cons_nz; eauto|]. auto.
    Qed.
    Lemma base_of w D a p it q : Inv w D -> sits w a p -> get w a = Some it -> parent D p q ->
      exists t f b, In (t, f) (i_bases it) /\ class_of w t = Some b /\ sits w b q.
    Proof.
      intros I Hs Hg (t & f & n & r & i & -> & H1 & H2). apply (v_base _ _ I) in H1 as (a2 & it2 & Sa & Ga & Hin).
      assert (a2 = a) by (eapply sits_inj; [exact (v_wf _ _ I)|eauto|eauto]). subst a2. assert (it2 = it) by congruence. subst it2.
      apply (v_thing _ _ I) in H2 as (b & bt & _ & Sb & Gb & Tb & _). exists t, f, b. split; [exact Hin|]. split; [|exact Sb].
      rewrite <- Tb. apply (wf_class2 _ _ _ _ (v_wf _ _ I) b bt Gb). destruct (sits_get w b _ (v_wf _ _ I) Sb) as (bt2 & G2 & K2). cbn in K2. congruence.
    Qed.
    Definition ranked (rank : place -> nat) (D : list decl) : Prop := forall p q, parent D p q -> rank q < rank p.
    Section Rank.
      Variables (rank : place -> nat) (w : world) (D : list decl).
      Hypothesis RANK : ranked rank D.
      Hypothesis I : Inv w D.
      Context {R : Type} (own : world -> nat -> out (option R)).
      Definition loop_with (j : nat) : world -> list (nat * nat) -> out (option R) :=
        fix loop (w : world) (l : list (nat * nat)) : out (option R) :=
          match l with
          | [] => Ret w None
          | (t, _) :: l' =>
              match class_of w t with
              | None => UB
              | Some b => bind (dfs own j w b) (fun w' r => match r with Some x => Ret w' (Some x) | None => loop w' l' end)
              end
          end.
      Lemma dfs_eq j v a : dfs own (S j) v a = bind (own v a) (fun w1 r =>
        match r with
        | Some x => Ret w1 (Some x)
        | None => match get w1 a with None => UB | Some it => holding w1 (a, LBases) (fun w2 => loop_with j w2 (i_bases it)) end
        end).
      Proof. reflexivity. Qed.
      Lemma loop_cons j v t f l b : class_of v t = Some b ->
        loop_with j v ((t, f) :: l) = bind (dfs own j v b) (fun w' r => match r with Some x => Ret w' (Some x) | None => loop_with j w' l end).
      Proof. intro H. cbn [loop_with]. rewrite H. reflexivity. Qed.
      (** A search in the class and its bases. *)
      Lemma dfs_find (f : nat -> option R) : forall j v a p, twin v w -> sits w a p -> rank p <= j ->
        (forall v b q, twin v w -> sits w b q -> q = p \/ ancestor D p q -> exists m, own v b = Ret (marked v m) (f b)) ->
        exists m r, dfs own (S j) v a = Ret (marked v m) r /\
          match r with
          | Some y => exists b q, sits w b q /\ (q = p \/ ancestor D p q) /\ f b = Some y
          | None => forall b q, sits w b q -> q = p \/ ancestor D p q -> f b = None
          end.
      Proof.
        induction j as [j IH] using lt_wf_ind. intros v a p TW Hs Hr HO.
        assert (X : exists m, own v a = Ret (marked v m) (f a)) by (eapply HO; eauto).
        destruct X as (m & Ho). rewrite dfs_eq, Ho. cbn [bind]. destruct (f a) as [x|] eqn:Ef; [exists m, (Some x); split; [reflexivity|exists a, p; auto]|].
        destruct (sits_get w a p (v_wf _ _ I) Hs) as (it & Hg & _).
        change (get (marked v m) a) with (get v a). rewrite (twin_get v w a TW), Hg. unfold holding.
        set (v0 := acquire (marked v m) (a, LBases)). assert (T0 : twin v0 w) by exact TW.
        assert (L : forall l v1, (forall x, In x l -> In x (i_bases it)) -> twin v1 w ->
          exists m1 r, loop_with j v1 l = Ret (marked v1 m1) r /\
            match r with
            | Some y => exists b q, sits w b q /\ (q = p \/ ancestor D p q) /\ f b = Some y
            | None => forall t g b c q b', In (t, g) l -> class_of w t = Some b -> sits w b c -> q = c \/ ancestor D c q -> sits w b' q -> f b' = None
            end).
        { induction l as [|[t g] l IHl]; intros v1 HL T1.
          - exists (w_relock v1), None. split; [destruct v1; reflexivity|]. intros ? ? ? ? ? ? [].
          - assert (Hin : In (t, g) (i_bases it)) by (apply HL; left; reflexivity).
            destruct (base_at w D a p it t g I Hs Hg Hin) as (b & q & Hb & Hq & HP). rewrite (loop_cons j v1 t g l b) by (rewrite (twin_class v1 w t T1); exact Hb).
            destruct j as [|j']; [pose proof (RANK p q HP); lia|].
            destruct (IH j' ltac:(lia) v1 b q T1 Hq) as (m1 & r1 & -> & F1).
            + pose proof (RANK p q HP). lia.
            + intros v2 b2 q2 T2 S2 [->|A2]; (eapply HO; [exact T2|exact S2|right]); [constructor; exact HP|eapply ancestor_more; eauto].
            + cbn [bind]. destruct r1 as [y|].
              * exists m1, (Some y). split; [reflexivity|]. destruct F1 as (b2 & q2 & S2 & HA & Hy). exists b2, q2. split; [exact S2|]. split; [right|exact Hy].
                destruct HA as [->|HA]; [constructor; exact HP|eapply ancestor_more; eauto].
              * destruct (IHl (marked v1 m1)) as (m2 & r2 & -> & F2); [intros x Hx; apply HL; right; exact Hx|exact T1|].
                exists m2, r2. split; [reflexivity|]. destruct r2 as [y|]; [exact F2|].
                intros t' g' b' c' q' b2 [E1|Hin'] Hb' Hc' HA S2; [|eapply F2; eauto].
                injection E1 as <- <-. assert (b' = b) by congruence. subst b'. assert (c' = q) by (eapply sits_fun; eauto). subst c'. exact (F1 b2 q' S2 HA). }
        destruct (L (i_bases it) v0 (fun x H => H) T0) as (m1 & r & -> & F). exists m1, r.
        split; [reflexivity|]. destruct r as [y|]; [exact F|].
        intros b q Sb [->|HA]; [assert (b = a) by (eapply sits_inj; [exact (v_wf _ _ I)|eauto|eauto]); subst; exact Ef|].
        assert (Z : exists c, parent D p c /\ (q = c \/ ancestor D c q)) by (inversion HA; subst; eauto).
        destruct Z as (c & HP & HC). destruct (base_of w D a p it c I Hs Hg HP) as (t & g & b0 & H1 & H2 & H3). eapply F; eauto.
      Qed.
      (** Nothing in the bases: the answer is the class's own. *)
      Lemma dfs_calm j a p l r : sits w a p -> own w a = Ret (marked w l) r -> rank p <= j ->
        (forall v b q, twin v w -> sits w b q -> ancestor D p q -> exists m, own v b = Ret (marked v m) None) ->
        exists l', dfs own (S j) w a = Ret (marked w l') r.
      Proof.
        intros Hs Ho Hr HO. destruct r as [x|]; [rewrite dfs_eq, Ho; eexists; reflexivity|].
        rewrite dfs_eq, Ho. cbn [bind]. destruct (sits_get w a p (v_wf _ _ I) Hs) as (it & Hg & _). change (get (marked w l) a) with (get w a). rewrite Hg. unfold holding.
        set (v0 := acquire (marked w l) (a, LBases)). assert (T0 : twin v0 w) by (split; reflexivity).
        assert (L : forall l v1, (forall x, In x l -> In x (i_bases it)) -> twin v1 w -> exists m1, loop_with j v1 l = Ret (marked v1 m1) None).
        { induction l0 as [|[t g] l0 IHl]; intros v1 HL T1; [exists (w_relock v1); destruct v1; reflexivity|].
          assert (Hin : In (t, g) (i_bases it)) by (apply HL; left; reflexivity).
          destruct (base_at w D a p it t g I Hs Hg Hin) as (b & q & Hb & Hq & HP). rewrite (loop_cons j v1 t g l0 b) by (rewrite (twin_class v1 w t T1); exact Hb).
          destruct j as [|j']; [pose proof (RANK p q HP); lia|].
          destruct (dfs_find (fun _ => None) j' v1 b q T1 Hq) as (m1 & r1 & -> & F1).
          - pose proof (RANK p q HP). lia.
          - intros v2 b2 q2 T2 S2 [->|A2]; (eapply HO; [exact T2|exact S2|]); [constructor; exact HP|eapply ancestor_more; eauto].
          - cbn [bind]. destruct r1 as [y|]; [destruct F1 as (? & ? & _ & _ & X); discriminate|].
            destruct (IHl (marked v1 m1)) as (m2 & ->); [intros x Hx; apply HL; right; exact Hx|exact T1|]. exists m2. reflexivity. }
        destruct (L (i_bases it) v0 (fun x H => H) T0) as (m1 & ->). exists m1. reflexivity.
      Qed.
    End Rank.
    (** No base of the class at [p] has a member [c], [n], and none waits. *)
    Definition lone (k : nat) (w : world) (D : list decl) (c : cat) (n : string) (p : place) : Prop :=
      (exists rank, ranked rank D /\ rank p <= k) /\
      forall q, ancestor D p q -> (forall t i, ~ In (Thing ((c, n) :: q) t i) D) /\ forall v b, twin v w -> sits w b q -> check run v b = Ret v tt.
    Lemma lone_free k w D c n p : free D -> lone k w D c n p.
    Proof.
      intro F. assert (N : forall p q, ~ parent D p q) by (intros p0 q (t & f & m & r & i & _ & H & _); exact (F _ _ _ H)). split.
      - exists (fun _ => 0). split; [|lia]. intros a b H. destruct (N _ _ H).
      - intros q H. exfalso. inversion H; eapply N; eauto.
    Qed.

    Variable k : nat.
    Lemma txt_inj a b : txt a = txt b -> a = b.
    Proof. intro H. rewrite <- (string_of_list_ascii_of_string a), <- (string_of_list_ascii_of_string b). unfold txt in H. rewrite H. reflexivity. Qed.
    Lemma txt_str t : txt (str t) = t.
    Proof. unfold txt, str. apply list_ascii_of_string_of_list_ascii. Qed.
    Lemma sig_nonempty n args : str (signature (txt n) args) <> ""%string.
    Proof. intro H. pose proof (signature_has_paren (txt n) args) as P. rewrite <- (txt_str (signature (txt n) args)), H in P. destruct P. Qed.

    Lemma signed_nonempty n args : signed n args <> ""%string.
    Proof. rewrite <- signature_signed. apply sig_nonempty. Qed.
    Lemma property_calm w D o p n : Inv w D -> sits w o p -> check run w o = Ret w tt -> n <> ""%string -> lone k w D Property n p ->
      exists l r, get_property run (S k) w o n = Ret (marked w l) r /\ forall x, r = Some x <-> sits w x ((Property, n) :: p).
    Proof.
      intros I Hs CH Hn ((rank & RK & Hrk) & LN). destruct (get_item_calm w D o p Property n I Hs CH Hn) as (l & r & Hl & Hr).
      unfold get_property. destruct (sits_get w o p (v_wf _ _ I) Hs) as (it & Hg & _). rewrite Hg.
      destruct (cat_eqb (i_cat it) Class); [|exists l, r; auto]. pose proof Hn as Hn'. apply String.eqb_neq in Hn'. rewrite Hn'.
      destruct (dfs_calm rank w D RK I (fun w a => get_item run w a Property n) k o p l r Hs Hl Hrk) as (l' & H); [|exists l', r; auto].
      intros v b q TW Sb HA. destruct (LN q HA) as [L1 L2]. destruct (get_item_twin v w D b q Property n TW I Sb (L2 v b TW Sb) Hn) as (m & [x|] & E1 & E2); [|eauto].
      exfalso. pose proof (proj1 (E2 x) eq_refl) as Sx. destruct (thing_in w D x _ I (sits_cons_nz _ _ _ _ _ Sx) Sx) as (t & i & Hin). exact (L1 t i Hin).
    Qed.
    Lemma method_calm w D o p n args : Inv w D -> sits w o p -> check run w o = Ret w tt -> lone k w D Method (signed n args) p ->
      exists l r, get_method run (S k) w o (signed n args) = Ret (marked w l) r /\
        forall x, r = Some x <-> sits w x ((Method, signed n args) :: p).
    Proof.
      intros I Hs CH ((rank & RK & Hrk) & LN). set (q := signed n args) in *.
      assert (HP : In "("%char (txt q)) by (unfold q; rewrite <- signature_signed, txt_str; apply signature_has_paren).
      assert (AN : forall m, answers (txt m) (txt q) <-> m = q).
      { intro m. rewrite (answers_nonempty_sig _ _ HP). split; [intro H; apply txt_inj; symmetry; exact H|intros ->; reflexivity]. }
      destruct (find_method_calm w D o p Method q I Hs CH) as (l & r & Hl & Hr).
      { intros x m _. apply AN. }
      unfold get_method. assert (Hq : (q =? "")%string = false) by (apply String.eqb_neq; apply signed_nonempty). rewrite Hq.
      destruct (sits_get w o p (v_wf _ _ I) Hs) as (it & Hg & _). rewrite Hg.
      destruct (cat_eqb (i_cat it) Class); [|exists l, r; auto].
      destruct (dfs_calm rank w D RK I (fun w a => find_method run w a Method q) k o p l r Hs Hl Hrk) as (l' & H); [|exists l', r; auto].
      intros v b c TW Sb HA. destruct (LN c HA) as [L1 L2]. destruct (find_method_twin v w D b c Method q TW I Sb (L2 v b TW Sb)) as (m & [x|] & E1 & E2); [intros; apply AN| |eauto].
      exfalso. pose proof (proj1 (E2 x) eq_refl) as Sx. destruct (thing_in w D x _ I (sits_cons_nz _ _ _ _ _ Sx) Sx) as (t & i & Hin). exact (L1 t i Hin).
    Qed.

    Variable E : list decl.
    Hypothesis SE : sound E.

    Lemma agreed D p t i : incl D E -> In (Thing p t i) E -> forall t' i', In (Thing p t' i') D -> t' = t /\ i' = i.
    Proof. intros HD HE t' i' H. apply (s_thing _ SE p t i t' i' HE). apply HD. exact H. Qed.

    Lemma ctor_sig_nonempty n args : ctor_signature n args <> ""%string.
    Proof. destruct args as [|[|]|l]; cbn; try discriminate. apply sig_nonempty. Qed.

    Lemma ctor_ok w D o p n args inv : Inv w D -> sits w o p -> check run w o = Ret w tt -> is_container (kind_at p) = true -> incl D E ->
      In (Thing (ctor_place p n args) 0 inv) E ->
      exists w' x, create_ctor run w o n args inv = Ret w' (Some x) /\ kept w w' /\ Inv w' (Thing (ctor_place p n args) 0 inv :: D).
    Proof.
      intros I Hs CH Hc HD HE. unfold create_ctor. rewrite ctor_signature_name. unfold ctor_place in *. set (q := ctor_name _ _) in *.
      destruct (create_ok w D o p Constructor q 0 inv (fun w => find_method run w o Constructor q) I Hs Hc) as (w' & x & H & K & _ & J).
      - unfold q. rewrite <- ctor_signature_name. apply ctor_sig_nonempty.
      - discriminate.
      - apply (find_method_calm w D o p Constructor q I Hs CH). intros x m Hx. split; [|intros ->; left; reflexivity].
        intro A. destruct (thing_in w D x _ I (sits_cons_nz _ _ _ _ _ Hx) Hx) as (t & i & Hin).
        eapply (s_ctor _ SE p q m); [exact HE|apply HD; exact Hin|exact A].
      - intros t' i'. apply (agreed D _ _ _ HD HE).
      - exists w', x. auto.
    Qed.
    Lemma ctor_if_ok w D o p on args : Inv w D -> sits w o p -> check run w o = Ret w tt -> is_container (kind_at p) = true -> incl D E -> incl (ctor_decl on p args) E ->
      exists w', ctor_if run on args o w = Ret w' tt /\ kept w w' /\ Inv w' (ctor_decl on p args ++ D).
    Proof.
      intros I Hs CH Hc HD HE. unfold ctor_if, ctor_decl in *. destruct on; [|exists w; split; [reflexivity|]; split; [apply kept_refl|exact I]].
      destruct (ctor_ok w D o p "" args 0 I Hs CH Hc HD) as (w' & x & -> & K & J); [apply HE; left; reflexivity|]. exists w'. split; [reflexivity|]. auto.
    Qed.

    Lemma class_ok w D o p n t : Inv w D -> sits w o p -> check run w o = Ret w tt -> is_container (kind_at p) = true -> n <> ""%string -> incl D E ->
      In (Thing ((Class, n) :: p) t 0) E ->
      exists w' x, create_class run w o n t = Ret w' (Some x) /\ kept w w' /\ sits w' x ((Class, n) :: p) /\ Inv w' (Thing ((Class, n) :: p) t 0 :: D).
    Proof.
      intros I Hs CH Hc Hn HD HE. unfold create_class. destruct (get_item_calm w D o p Class n I Hs CH Hn) as (l & r & -> & Hr). cbn [bind].
      destruct r as [x|].
      { assert (Hx : sits w x ((Class, n) :: p)) by (apply Hr; reflexivity).
        exists (marked w l), x. split; [reflexivity|]. split; [apply kept_marked|]. split; [eapply kept_sits; [apply kept_marked|exact Hx]|].
        apply inv_marked. eapply have; eauto; [eapply sits_cons_nz; eauto|]. apply (agreed D _ _ _ HD HE). }
      change (class_of (marked w l) t) with (class_of w t). destruct (class_of w t) as [y|] eqn:Ey.
      { exfalso. destruct (wf_class1 _ _ _ _ (v_wf _ _ I) t y Ey) as (it & Hg & Hk & Ht).
        destruct (sits_total w (v_wf _ _ I) y it Hg) as (q & Hq). destruct q as [|[c m] q].
        - destruct (sits_get w y [] (v_wf _ _ I) Hq) as (it' & Hg' & Hk'). cbn in Hk'. congruence.
        - pose proof (sits_cons_nz _ _ _ _ _ Hq) as Hy0. destruct (sits_get w y _ (v_wf _ _ I) Hq) as (it' & Hg' & Hk'). cbn in Hk'.
          assert (X : c = Class) by congruence. rewrite X in Hq.
          assert (Hin : In (Thing ((Class, m) :: q) t (i_inv it)) D) by (apply (v_thing _ _ I); exists y, it; split; [exact Hy0|]; split; [exact Hq|]; split; [exact Hg|]; split; [exact Ht|reflexivity]).
          pose proof (s_class _ SE n p m q t 0 (i_inv it) HE (HD _ Hin)) as Y. injection Y as -> ->.
          assert (None = Some y); [|discriminate]. apply Hr. exact Hq. }
      destruct (sits_get w o p (v_wf _ _ I) Hs) as (ow & Hg & Hk). rewrite <- Hk in Hc.
      destruct (added_ok (marked w l) D o ow p Class n t 0) as (m & -> & _ & HW & HI).
      - apply inv_marked. exact I.
      - exact Hg.
      - exact Hc.
      - eapply kept_sits; [apply kept_marked|exact Hs].
      - exact Hn.
      - intros (x & Hx). assert (None = Some x); [|discriminate]. apply Hr. eapply sits_same; [|exact Hx]. reflexivity.
      - destruct (HI (add_class (with_new (marked w l) o (fresh Class n (Some o) t 0) m) t (List.length (w_items (marked w l)))) eq_refl) as (K & S & J).
        + unfold add_class, with_new. cbn [w_held]. rewrite upd_held. reflexivity.
        + exact (HW eq_refl Ey).
        + eexists _, _. split; [reflexivity|]. split; [eapply kept_trans; [apply kept_marked|exact K]|]. split; [exact S|exact J].
    Qed.

    (** Attributes and elements. *)
    Lemma sits_upd w a f x q : keeps f -> (sits (upd w a f) x q <-> sits w x q).
    Proof.
      intro KF. split.
      - intro H. induction H as [|x it' o p Hx Hg Ho Hs IH]; [constructor|].
        destruct (upd_cases w a f x it' Hg) as (it & Hgx & [[_ ->]|[_ ->]]); [econstructor; eauto|].
        destruct (KF it) as (-> & -> & EO & _). econstructor; eauto. congruence.
      - apply stay_sits. intros y it Hg. rewrite get_upd. destruct (y =? a) eqn:Ey; [|eauto].
        apply Nat.eqb_eq in Ey. subst y. rewrite Hg. cbn. exists (f it). destruct (KF it) as (A & B & C & _). auto.
    Qed.
    Lemma upd_at w a f it : get w a = Some it -> get (upd w a f) a = Some (f it).
    Proof. intro H. rewrite get_upd, Nat.eqb_refl, H. reflexivity. Qed.
    Lemma upd_off w a f x : x <> a -> get (upd w a f) x = get w x.
    Proof. intro H. rewrite get_upd. apply Nat.eqb_neq in H. rewrite H. reflexivity. Qed.

    Lemma kept_upd w a f : (forall it, i_cat (f it) = i_cat it /\ i_name (f it) = i_name it /\ i_owner (f it) = i_owner it /\ i_def (f it) = i_def it /\ i_lock (f it) = i_lock it) ->
      kept w (upd w a f).
    Proof.
      intro H. split; [|split].
      - intros y it Hg. rewrite get_upd. destruct (y =? a) eqn:Ey; [|eauto]. apply Nat.eqb_eq in Ey. subst y. rewrite Hg. cbn. exists (f it). destruct (H it) as (A & B & C & _). auto.
      - intros y it it' Hg Hg'. rewrite get_upd in Hg'. destruct (Nat.eqb_spec y a) as [->|_]; rewrite Hg in Hg'; cbn in Hg'; injection Hg' as <-; [|auto].
        destruct (H it) as (_ & _ & _ & A & B). auto.
      - intros y it' Hg Hn. rewrite get_upd in Hg. destruct (Nat.eqb_spec y a) as [->|_]; rewrite Hn in Hg; discriminate.
    Qed.
    Lemma attr_ok w D a p it n v : Inv w D -> sits w a p -> get w a = Some it -> n <> ""%string -> incl D E -> In (Attribute p n v) E ->
      exists l, nv_set (i_attrs it) n v = Some l /\ kept w (upd w a (set_attrs l)) /\ Inv (upd w a (set_attrs l)) (Attribute p n v :: D).
    Proof.
      intros I Hs Hg Hn HD HE. pose proof (l_attrs _ _ _ _ (wf_local _ _ _ _ (v_wf _ _ I) a it Hg)) as OK.
      destruct (nv_set_spec (i_attrs it) n v OK) as (l & El & _). exists l. split; [exact El|].
      assert (KF : keeps (set_attrs l)) by (intro; repeat split).
      pose proof (val_after (i_attrs it) n v l) as VA.
      assert (HV : forall m, val l m = if (m =? "")%string then None else if (m =? n)%string then Some v else val (i_attrs it) m) by (intro m; apply VA; assumption).
      assert (V0 : val (i_attrs it) ""%string = None) by (apply assoc_fst_none; apply OK).
      assert (HS : forall x q, sits (upd w a (set_attrs l)) x q <-> sits w x q) by (intros; apply sits_upd; exact KF).
      split; [apply kept_upd; intro; repeat split|].
      constructor.
      - eapply prim_wf; [exact (v_wf _ _ I)|]. eapply PAttr; eauto.
      - intros y yt' Hy. destruct (upd_cases w a _ y yt' Hy) as (yt & Hgy & [[_ ->]|[_ ->]]); exact (v_calm _ _ I y yt Hgy).
      - rewrite upd_held. exact (v_held _ _ I).
      - intros q t i. cbn [In]. split.
        + intros [X|H]; [discriminate|]. apply (v_thing _ _ I) in H as (x & xt & Hx & Hsx & Hgx & Ht & Hi). destruct (Nat.eq_dec x a) as [->|Hne].
          * exists a, (set_attrs l xt). rewrite HS, (upd_at w a _ xt Hgx). auto 8.
          * exists x, xt. rewrite HS, upd_off by exact Hne. auto 8.
        + intros (x & xt' & Hx & Hsx & Hgx & Ht & Hi). right. apply (v_thing _ _ I). rewrite HS in Hsx.
          destruct (upd_cases w a _ x xt' Hgx) as (xt & Hgy & [[_ ->]|[_ ->]]); exists x, xt; auto 8.
      - intros q m u. cbn [In]. split.
        + intros [X|H].
          * injection X as <- <- <-. exists a, (set_attrs l it). rewrite HS, (upd_at w a _ it Hg). split; [exact Hs|]. split; [reflexivity|].
            cbn. rewrite HV. apply String.eqb_neq in Hn. rewrite Hn, String.eqb_refl. reflexivity.
          * pose proof H as H0. apply (v_attr _ _ I) in H as (x & xt & Hsx & Hgx & Hv). destruct (Nat.eq_dec x a) as [->|Hne].
            -- assert (xt = it) by congruence. subst xt. exists a, (set_attrs l it). rewrite HS, (upd_at w a _ it Hg). split; [exact Hsx|]. split; [reflexivity|].
               cbn. rewrite HV. destruct (String.eqb_spec m ""); [congruence|]. destruct (String.eqb_spec m n) as [->|_]; [|exact Hv].
               rewrite (sits_fun _ _ _ Hs _ Hsx) in H0. f_equal. symmetry. exact (s_attr _ SE p n v u HE (HD _ H0)).
            -- exists x, xt. rewrite HS, upd_off by exact Hne. auto.
        + intros (x & xt' & Hsx & Hgx & Hv). rewrite HS in Hsx. destruct (upd_cases w a _ x xt' Hgx) as (xt & Hgy & [[_ ->]|[-> ->]]).
          * right. apply (v_attr _ _ I). eauto.
          * assert (xt = it) by congruence. subst xt. cbn in Hv. rewrite HV in Hv. destruct (String.eqb_spec m ""); [discriminate|].
            destruct (String.eqb_spec m n) as [->|_].
            -- left. injection Hv as <-. rewrite (sits_fun _ _ _ Hs _ Hsx). reflexivity.
            -- right. apply (v_attr _ _ I). eauto.
      - intros q m u. cbn [In]. split.
        + intros [X|H]; [discriminate|]. apply (v_elem _ _ I) in H as (x & xt & Hsx & Hgx & Hv). destruct (Nat.eq_dec x a) as [->|Hne].
          * exists a, (set_attrs l xt). rewrite HS, (upd_at w a _ xt Hgx). auto.
          * exists x, xt. rewrite HS, upd_off by exact Hne. auto.
        + intros (x & xt' & Hsx & Hgx & Hv). right. apply (v_elem _ _ I). rewrite HS in Hsx.
          destruct (upd_cases w a _ x xt' Hgx) as (xt & Hgy & [[_ ->]|[_ ->]]); exists x, xt; auto.
      - intros q m u. cbn [In]. split.
        + intros [X|H]; [discriminate|]. apply (v_base _ _ I) in H as (x & xt & Hsx & Hgx & Hv). destruct (Nat.eq_dec x a) as [->|Hne].
          * exists a, (set_attrs l xt). rewrite HS, (upd_at w a _ xt Hgx). auto.
          * exists x, xt. rewrite HS, upd_off by exact Hne. auto.
        + intros (x & xt' & Hsx & Hgx & Hv). right. apply (v_base _ _ I). rewrite HS in Hsx.
          destruct (upd_cases w a _ x xt' Hgx) as (xt & Hgy & [[_ ->]|[_ ->]]); exists x, xt; auto.
      - destruct (v_global _ _ I) as (g & Hg0 & A1 & A2 & A3 & A4). rewrite get_upd. destruct (0 =? a) eqn:E0; [|exists g; auto 8].
        apply Nat.eqb_eq in E0. subst a. rewrite Hg0. exists (set_attrs l g). cbn. auto 8.
    Qed.

    Lemma elem_ok w D a p it n v : Inv w D -> sits w a p -> get w a = Some it -> i_cat it = Enum -> n <> ""%string -> incl D E -> In (Element p n v) E ->
      exists l, nv_set (i_elems it) n v = Some l /\ kept w (upd w a (set_elems l)) /\ Inv (upd w a (set_elems l)) (Element p n v :: D).
    Proof.
      intros I Hs Hg Hcat Hn HD HE. pose proof (l_elems _ _ _ _ (wf_local _ _ _ _ (v_wf _ _ I) a it Hg)) as OK.
      destruct (nv_set_spec (i_elems it) n v OK) as (l & El & _). exists l. split; [exact El|].
      assert (KF : keeps (set_elems l)) by (intro; repeat split).
      pose proof (val_after (i_elems it) n v l) as VA.
      assert (HV : forall m, val l m = if (m =? "")%string then None else if (m =? n)%string then Some v else val (i_elems it) m) by (intro m; apply VA; assumption).
      assert (V0 : val (i_elems it) ""%string = None) by (apply assoc_fst_none; apply OK).
      assert (HS : forall x q, sits (upd w a (set_elems l)) x q <-> sits w x q) by (intros; apply sits_upd; exact KF).
      split; [apply kept_upd; intro; repeat split|].
      constructor.
      - eapply prim_wf; [exact (v_wf _ _ I)|]. eapply PElem; eauto.
      - intros y yt' Hy. destruct (upd_cases w a _ y yt' Hy) as (yt & Hgy & [[_ ->]|[_ ->]]); exact (v_calm _ _ I y yt Hgy).
      - rewrite upd_held. exact (v_held _ _ I).
      - intros q t i. cbn [In]. split.
        + intros [X|H]; [discriminate|]. apply (v_thing _ _ I) in H as (x & xt & Hx & Hsx & Hgx & Ht & Hi). destruct (Nat.eq_dec x a) as [->|Hne].
          * exists a, (set_elems l xt). rewrite HS, (upd_at w a _ xt Hgx). auto 8.
          * exists x, xt. rewrite HS, upd_off by exact Hne. auto 8.
        + intros (x & xt' & Hx & Hsx & Hgx & Ht & Hi). right. apply (v_thing _ _ I). rewrite HS in Hsx.
          destruct (upd_cases w a _ x xt' Hgx) as (xt & Hgy & [[_ ->]|[_ ->]]); exists x, xt; auto 8.
      - intros q m u. cbn [In]. split.
        + intros [X|H]; [discriminate|]. apply (v_attr _ _ I) in H as (x & xt & Hsx & Hgx & Hv). destruct (Nat.eq_dec x a) as [->|Hne].
          * exists a, (set_elems l xt). rewrite HS, (upd_at w a _ xt Hgx). auto.
          * exists x, xt. rewrite HS, upd_off by exact Hne. auto.
        + intros (x & xt' & Hsx & Hgx & Hv). right. apply (v_attr _ _ I). rewrite HS in Hsx.
          destruct (upd_cases w a _ x xt' Hgx) as (xt & Hgy & [[_ ->]|[_ ->]]); exists x, xt; auto.
      - intros q m u. cbn [In]. split.
        + intros [X|H].
          * injection X as <- <- <-. exists a, (set_elems l it). rewrite HS, (upd_at w a _ it Hg). split; [exact Hs|]. split; [reflexivity|].
            cbn. rewrite HV. apply String.eqb_neq in Hn. rewrite Hn, String.eqb_refl. reflexivity.
          * pose proof H as H0. apply (v_elem _ _ I) in H as (x & xt & Hsx & Hgx & Hv). destruct (Nat.eq_dec x a) as [->|Hne].
            -- assert (xt = it) by congruence. subst xt. exists a, (set_elems l it). rewrite HS, (upd_at w a _ it Hg). split; [exact Hsx|]. split; [reflexivity|].
               cbn. rewrite HV. destruct (String.eqb_spec m ""); [congruence|]. destruct (String.eqb_spec m n) as [->|_]; [|exact Hv].
               rewrite (sits_fun _ _ _ Hs _ Hsx) in H0. f_equal. symmetry. exact (s_elem _ SE p n v u HE (HD _ H0)).
            -- exists x, xt. rewrite HS, upd_off by exact Hne. auto.
        + intros (x & xt' & Hsx & Hgx & Hv). rewrite HS in Hsx. destruct (upd_cases w a _ x xt' Hgx) as (xt & Hgy & [[_ ->]|[-> ->]]).
          * right. apply (v_elem _ _ I). eauto.
          * assert (xt = it) by congruence. subst xt. cbn in Hv. rewrite HV in Hv. destruct (String.eqb_spec m ""); [discriminate|].
            destruct (String.eqb_spec m n) as [->|_].
            -- left. injection Hv as <-. rewrite (sits_fun _ _ _ Hs _ Hsx). reflexivity.
            -- right. apply (v_elem _ _ I). eauto.
      - intros q m u. cbn [In]. split.
        + intros [X|H]; [discriminate|]. apply (v_base _ _ I) in H as (x & xt & Hsx & Hgx & Hv). destruct (Nat.eq_dec x a) as [->|Hne].
          * exists a, (set_elems l xt). rewrite HS, (upd_at w a _ xt Hgx). auto.
          * exists x, xt. rewrite HS, upd_off by exact Hne. auto.
        + intros (x & xt' & Hsx & Hgx & Hv). right. apply (v_base _ _ I). rewrite HS in Hsx.
          destruct (upd_cases w a _ x xt' Hgx) as (xt & Hgy & [[_ ->]|[_ ->]]); exists x, xt; auto.
      - destruct (v_global _ _ I) as (g & Hg0 & A1 & A2 & A3 & A4). rewrite get_upd. destruct (0 =? a) eqn:E0; [|exists g; auto 8].
        apply Nat.eqb_eq in E0. subst a. rewrite Hg0. exists (set_elems l g). cbn. auto 8.
    Qed.

    (** Base classes. *)
    Lemma sits_identity w w' x q : (forall y it', get w' y = Some it' -> exists it, get w y = Some it /\ i_cat it' = i_cat it /\ i_name it' = i_name it /\ i_owner it' = i_owner it) ->
      (forall y it, get w y = Some it -> exists it', get w' y = Some it') -> (sits w' x q <-> sits w x q).
    Proof.
      intros H H'. split.
      - intro S. induction S as [|x it' o p Hx Hg Ho Hs IH]; [constructor|]. destruct (H x it' Hg) as (it & G & E1 & E2 & E3). rewrite E1, E2. econstructor; eauto. congruence.
      - apply stay_sits. intros y it Hg. destruct (H' y it Hg) as (it' & G). exists it'. destruct (H y it' G) as (it2 & G2 & E1 & E2 & E3). assert (it2 = it) by congruence. subst it2. auto.
    Qed.
    (** What [add_base] leaves of an item. *)
    Definition but_links (it it' : item) : Prop := i_cat it' = i_cat it /\ i_name it' = i_name it /\ i_owner it' = i_owner it /\ i_def it' = i_def it /\ i_lock it' = i_lock it /\
      i_attrs it' = i_attrs it /\ i_elems it' = i_elems it /\ i_type it' = i_type it /\ i_inv it' = i_inv it.
    Lemma base_ok w D a p t f n q i : Inv w D -> sits w a p -> kind_at p = Class -> incl D E -> In (Derives p t f) E -> In (Thing ((Class, n) :: q) t i) D ->
      (forall u v b g, In (Thing p u v) E -> In (Derives p b g) E -> ok u b = true) ->
      exists it, get w a = Some it /\ ok (i_type it) t = true /\ exists w', add_base w a t f = Ret w' tt /\ kept w w' /\ Inv w' (Derives p t f :: D).
    Proof.
      intros I Hs Hc HD HE HB HO. destruct (sits_get w a p (v_wf _ _ I) Hs) as (it & Hg & Hk). exists it. split; [exact Hg|].
      assert (Ha0 : a <> 0) by (destruct p as [|[c m] p]; [discriminate|eapply sits_cons_nz; eauto]).
      assert (HOK : ok (i_type it) t = true).
      { apply (HO (i_type it) (i_inv it) t f); [|exact HE]. apply HD. apply (v_thing _ _ I). exists a, it. auto. }
      split; [exact HOK|].
      apply (v_thing _ _ I) in HB as (b & bt & _ & Sb & Gb & Tb & _).
      assert (Cb : i_cat bt = Class) by (destruct (sits_get w b _ (v_wf _ _ I) Sb) as (bt2 & G2 & K2); cbn in K2; congruence).
      assert (CO : class_of w t = Some b) by (rewrite <- Tb; apply (wf_class2 _ _ _ _ (v_wf _ _ I) b bt Gb Cb)).
      assert (CA : class_of w (i_type it) = Some a) by (apply (wf_class2 _ _ _ _ (v_wf _ _ I) a it Hg); congruence).
      unfold add_base. rewrite CO, Hg. unfold holds. rewrite (v_held _ _ I). cbn [existsb].
      assert (MI : In t (map fst (i_bases it)) <-> In (i_type it) (i_derived bt)) by (rewrite <- Tb; apply (wf_mirror _ _ _ _ (v_wf _ _ I) a it b bt); congruence).
      destruct (existsb (fun x => Nat.eqb t (fst x)) (i_bases it)) eqn:EX.
      - (* already there *)
        apply existsb_exists in EX as ((t' & g) & Hin & Et). cbn in Et. apply Nat.eqb_eq in Et. subst t'.
        assert (HG : In (Derives p t g) D) by (apply (v_base _ _ I); exists a, it; auto).
        assert (g = f) by (apply (s_base _ SE p t f g HE); apply HD; exact HG). subst g.
        rewrite CA, Gb. assert (X : existsb (Nat.eqb (i_type it)) (i_derived bt) = true).
        { apply existsb_exists. exists (i_type it). split; [apply MI; change t with (fst (t, f)); apply in_map; exact Hin|apply Nat.eqb_refl]. }
        rewrite X. exists w. split; [reflexivity|]. split; [apply kept_refl|]. eapply inv_more; [|exact I]. intro d. cbn. split; [intros [<-|H]; assumption|auto].
      - assert (NI : ~ In t (map fst (i_bases it))).
        { intro H. apply in_map_iff in H as (x & E1 & H). assert (existsb (fun x => Nat.eqb t (fst x)) (i_bases it) = true); [|congruence].
          apply existsb_exists. exists x. split; [exact H|]. apply Nat.eqb_eq. congruence. }
        set (w1 := upd w a (set_bases (i_bases it ++ [(t, f)]))).
        assert (CW : class_of w1 (i_type it) = Some a) by (unfold w1, upd; rewrite Hg; exact CA). rewrite CW.
        set (w2 := upd w1 b (fun bt => set_derived (i_derived bt ++ [i_type it]) bt)).
        assert (Hp : prim false false ok w w2) by (eapply PLink; eauto; congruence).
        pose proof (prim_wf _ _ _ _ _ (v_wf _ _ I) Hp) as W2.
        assert (G1 : exists bt1, get w1 b = Some bt1 /\ i_derived bt1 = i_derived bt).
        { destruct (Nat.eq_dec b a) as [->|Hne]; [rewrite Hg in Gb; injection Gb as <-; eexists; split; [apply upd_at; exact Hg|reflexivity]|].
          exists bt. unfold w1. rewrite upd_off by exact Hne. auto. }
        destruct G1 as (bt1 & G1 & ED). rewrite G1.
        assert (X : existsb (Nat.eqb (i_type it)) (i_derived bt1) = false).
        { destruct (existsb (Nat.eqb (i_type it)) (i_derived bt1)) eqn:EY; [|reflexivity]. exfalso. apply NI. apply MI. rewrite ED in EY.
          apply existsb_exists in EY as (y & Hy & Ey). apply Nat.eqb_eq in Ey. congruence. }
        rewrite X.
        assert (W2E : upd w1 b (set_derived (i_derived bt1 ++ [i_type it])) = w2) by (unfold w2, upd; rewrite G1; reflexivity).
        rewrite W2E. exists w2. split; [reflexivity|].
        assert (FW : forall x xt, get w x = Some xt -> exists xt', get w2 x = Some xt' /\ but_links xt xt' /\ i_bases xt' = (if x =? a then i_bases it ++ [(t, f)] else i_bases xt)).
        { intros x xt Hx. assert (F1 : exists x1, get w1 x = Some x1 /\ but_links xt x1 /\ i_bases x1 = (if x =? a then i_bases it ++ [(t, f)] else i_bases xt)).
          { destruct (Nat.eqb_spec x a) as [->|Hne]; [eexists; split; [apply upd_at; exact Hx|]; split; [repeat split|reflexivity]|].
            exists xt. unfold w1. rewrite upd_off by exact Hne. split; [exact Hx|]. split; [repeat split|reflexivity]. }
          destruct F1 as (x1 & Gx1 & F1). destruct (Nat.eq_dec x b) as [->|Hne]; [|exists x1; unfold w2; rewrite upd_off by exact Hne; auto].
          eexists. split; [apply upd_at; exact Gx1|exact F1]. }
        assert (BW : forall x xt', get w2 x = Some xt' -> exists xt, get w x = Some xt /\ but_links xt xt' /\ i_bases xt' = (if x =? a then i_bases it ++ [(t, f)] else i_bases xt)).
        { intros x xt' Hx2. pose proof Hx2 as Hx. unfold w2 in Hx. apply upd_cases in Hx as (x1 & Hx & _). unfold w1 in Hx. apply upd_cases in Hx as (xt & Hx & _). exists xt. split; [exact Hx|].
          destruct (FW x xt Hx) as (xt2 & G2 & R). assert (xt2 = xt') by congruence. subst xt2. exact R. }
        assert (HS : forall x r, sits w2 x r <-> sits w x r).
        { intros. apply sits_identity.
          - intros y yt Hy. destruct (BW y yt Hy) as (y0 & G0 & (A1 & A2 & A3 & _) & _). eauto.
          - intros y yt Hy. destruct (FW y yt Hy) as (y0 & G0 & _). eauto. }
        split; [|constructor].
        + split; [|split].
          * intros y yt Hy. destruct (FW y yt Hy) as (y0 & G0 & (A1 & A2 & A3 & _) & _). eauto.
          * intros y yt yt' Hy Hy'. destruct (FW y yt Hy) as (y0 & G0 & (_ & _ & _ & A4 & A5 & _) & _). assert (y0 = yt') by congruence. subst y0. auto.
          * intros y yt' Hy Hn. destruct (BW y yt' Hy) as (y0 & G0 & _). congruence.
        + exact W2.
        + intros x xt' Hx. destruct (BW x xt' Hx) as (xt & G0 & (_ & A2 & _ & A4 & A5 & _) & _). rewrite A2, A4, A5. exact (v_calm _ _ I x xt G0).
        + unfold w2, w1. rewrite !upd_held. exact (v_held _ _ I).
        + intros r u v. cbn [In]. split.
          * intros [Z|H]; [discriminate|]. apply (v_thing _ _ I) in H as (x & xt & Hx & Sx & Gx & Tx & Ix). destruct (FW x xt Gx) as (xt' & G' & (_ & _ & _ & _ & _ & _ & _ & A8 & A9) & _).
            exists x, xt'. rewrite HS, A8, A9. auto 8.
          * intros (x & xt' & Hx & Sx & Gx & Tx & Ix). right. apply (v_thing _ _ I). destruct (BW x xt' Gx) as (xt & G' & (_ & _ & _ & _ & _ & _ & _ & A8 & A9) & _).
            exists x, xt. rewrite HS in Sx. rewrite <- A8, <- A9. auto 8.
        + intros r u v. cbn [In]. split.
          * intros [Z|H]; [discriminate|]. apply (v_attr _ _ I) in H as (x & xt & Sx & Gx & Vx). destruct (FW x xt Gx) as (xt' & G' & (_ & _ & _ & _ & _ & A6 & _) & _).
            exists x, xt'. rewrite HS, A6. auto.
          * intros (x & xt' & Sx & Gx & Vx). right. apply (v_attr _ _ I). destruct (BW x xt' Gx) as (xt & G' & (_ & _ & _ & _ & _ & A6 & _) & _).
            exists x, xt. rewrite HS in Sx. rewrite <- A6. auto.
        + intros r u v. cbn [In]. split.
          * intros [Z|H]; [discriminate|]. apply (v_elem _ _ I) in H as (x & xt & Sx & Gx & Vx). destruct (FW x xt Gx) as (xt' & G' & (_ & _ & _ & _ & _ & _ & A7 & _) & _).
            exists x, xt'. rewrite HS, A7. auto.
          * intros (x & xt' & Sx & Gx & Vx). right. apply (v_elem _ _ I). destruct (BW x xt' Gx) as (xt & G' & (_ & _ & _ & _ & _ & _ & A7 & _) & _).
            exists x, xt. rewrite HS in Sx. rewrite <- A7. auto.
        + intros r u v. cbn [In]. split.
          * intros [Z|H].
            -- injection Z as <- <- <-. destruct (FW a it Hg) as (xt' & G' & _ & EB). rewrite Nat.eqb_refl in EB. exists a, xt'. rewrite HS, EB, in_app_iff. cbn. auto.
            -- apply (v_base _ _ I) in H as (x & xt & Sx & Gx & Vx). destruct (FW x xt Gx) as (xt' & G' & _ & EB). exists x, xt'. rewrite HS, EB. split; [exact Sx|]. split; [exact G'|].
               destruct (Nat.eqb_spec x a) as [->|_]; [|exact Vx]. rewrite in_app_iff. left. congruence.
          * intros (x & xt' & Sx & Gx & Vx). rewrite HS in Sx. destruct (BW x xt' Gx) as (xt & G' & _ & EB). rewrite EB in Vx.
            destruct (Nat.eqb_spec x a) as [->|_]; [|right; apply (v_base _ _ I); eauto].
            apply in_app_iff in Vx as [Vx|[Vx|[]]]; [right; apply (v_base _ _ I); eauto|]. left. injection Vx as -> ->. f_equal. eapply sits_fun; eauto.
        + destruct (v_global _ _ I) as (g & Hg0 & A1 & A2 & A3 & A4). destruct (FW 0 g Hg0) as (g' & G' & (B1 & B2 & _ & _ & _ & _ & _ & B8 & B9) & _). exists g'.
          split; [exact G'|]. repeat split; congruence.
    Qed.
    Definition links (p : place) (bs : list (nat * nat)) : list decl := map (fun b => Derives p (fst b) (snd b)) bs.
    Lemma ready_incl l : forall D D', incl D D' -> ready D l -> ready D' l.
    Proof.
      induction l as [|d l IH]; intros D D' HI H; [exact H|]. destruct H as [H1 H2]. split.
      - destruct d; auto. destruct H1 as (n & q & i & Hin). exists n, q, i. auto.
      - eapply IH; [|exact H2]. intros x [<-|Hx]; [left; reflexivity|right; auto].
    Qed.
    Lemma ready_app l1 : forall D l2, ready D (l1 ++ l2) -> ready D l1 /\ ready (l1 ++ D) l2.
    Proof.
      induction l1 as [|d l1 IH]; intros D l2 H; [split; [exact Logic.I|exact H]|]. destruct H as [H1 H2]. destruct (IH (d :: D) l2 H2) as [A B]. split; [split; assumption|].
      eapply ready_incl; [|exact B]. intros x Hx. cbn. apply in_app_iff in Hx as [Hx|[<-|Hx]]; [right; apply in_app_iff; auto|left; reflexivity|right; apply in_app_iff; auto].
    Qed.
    Lemma bases_ok p a : kind_at p = Class -> (forall u v b g, In (Thing p u v) E -> In (Derives p b g) E -> ok u b = true) ->
      forall bs w D, Inv w D -> sits w a p -> incl D E -> incl (links p bs) E -> ready D (links p bs) ->
      exists w', add_bases ok w a bs = Ret w' tt /\ kept w w' /\ Inv w' (links p bs ++ D).
    Proof.
      intros Hc HO. induction bs as [|[t f] bs IH]; intros w D I Hs HD HE HR; [exists w; split; [reflexivity|]; split; [apply kept_refl|exact I]|].
      cbn [links map fst snd] in *. destruct HR as [(n & q & i & HB) HR].
      destruct (base_ok w D a p t f n q i I Hs Hc HD) as (it & Hg & HK & w1 & H1 & K1 & J1); [apply HE; left; reflexivity|exact HB|exact HO|].
      cbn [add_bases]. rewrite Hg, HK, H1. cbn [bind].
      destruct (IH w1 (Derives p t f :: D) J1) as (w2 & H2 & K2 & J2); [eapply kept_sits; eauto|intros x [<-|Hx]; [apply HE; left; reflexivity|auto]|intros x Hx; apply HE; right; exact Hx|exact HR|].
      exists w2. split; [exact H2|]. split; [eapply kept_trans; eauto|]. eapply inv_more; [|exact J2]. intro d. cbn. rewrite !in_app_iff. cbn. tauto.
    Qed.
    Lemma parent_incl D D' p q : incl D D' -> parent D p q -> parent D' p q.
    Proof. intros H (t & f & n & r & i & -> & H1 & H2). exists t, f, n, r, i. auto. Qed.
    Lemma ancestor_incl D D' p q : incl D D' -> ancestor D p q -> ancestor D' p q.
    Proof. intros H A. induction A; [apply ancestor_one|eapply ancestor_more]; eauto using parent_incl. Qed.

    (** ** Chains *)
    Hypothesis TE : tree ok k E.
    Lemma tree_lone w D c n p t i : Inv w D -> incl D E -> c = Property \/ c = Method -> In (Thing ((c, n) :: p) t i) E -> lone k w D c n p.
    Proof.
      intros I HD Hc HE. split.
      - destruct (h_rank _ _ _ TE) as (rank & H1 & H2). exists rank. split; [|apply H2]. intros x y H. apply H1. eapply parent_incl; eauto.
      - intros q HA. split; [|intros v b TW Sb; eapply check_twin; eauto]. intros t' i' H.
        exact (h_own _ _ _ TE c p q n t i t' i' Hc (ancestor_incl D E p q HD HA) HE (HD _ H)).
    Qed.
    Variable use : world -> prog -> out unit.
    Notation exec := (exec_with run (S k) ok use).
    Lemma exec_cons w b c l : exec w b (c :: l) = bind (step run (S k) ok use w b c) (fun w b => exec w b l).
    Proof. reflexivity. Qed.

    Definition saved (w : world) (o : option nat) (p : place) : Prop := exists a, o = Some a /\ sits w a p /\ is_container (kind_at p) = true.
    Lemma saved_kept w w' s ps : kept w w' -> Forall2 (saved w) s ps -> Forall2 (saved w') s ps.
    Proof. intros K. induction 1 as [|o p s ps (a & E1 & E2 & E3) H IH]; constructor; auto. exists a. split; [exact E1|]. split; [eapply kept_sits; eauto|exact E3]. Qed.
    Lemma category_at w D a p : Inv w D -> sits w a p -> category w a = Some (kind_at p).
    Proof. intros I H. destruct (sits_get w a p (v_wf _ _ I) H) as (it & Hg & Hk). unfold category. rewrite Hg. cbn. congruence. Qed.

    Lemma and_then_some d r ds : and_then d r = Some ds -> exists e, r = Some e /\ ds = d ++ e.
    Proof. destruct r as [e|]; [|discriminate]. intros [= <-]. eauto. Qed.
    Lemma inv_perm w d e D : Inv w (e ++ d ++ D) -> Inv w ((d ++ e) ++ D).
    Proof. apply inv_more. intro x. rewrite !in_app_iff. tauto. Qed.

    Definition stands (w : world) (b : builder) (e : place * place * list place) : Prop :=
      exists a o s, b = Builder (Some a) (Some o) s /\ sits w a (fst (fst e)) /\ sits w o (snd (fst e)) /\ is_container (kind_at (snd (fst e))) = true /\ Forall2 (saved w) s (snd e).

    Lemma exec_ok : forall l item cont stack ds w D a o s, tell item cont stack l = Some ds ->
      sits w a item -> sits w o cont -> is_container (kind_at cont) = true -> Forall2 (saved w) s stack ->
      Inv w D -> incl D E -> incl ds E -> ready D ds ->
      exists w' b', exec w (Builder (Some a) (Some o) s) l = Ret w' b' /\ Inv w' (ds ++ D) /\ stands w' b' (ends item cont stack l).
    Proof.
      induction l as [|c l IH]; intros item cont stack ds w D a o s HT Ha Ho Hc HS I HD HE HR.
      { injection HT as <-. exists w, (Builder (Some a) (Some o) s). split; [reflexivity|]. split; [exact I|]. exists a, o, s. cbn. auto. }
      rewrite exec_cons. cbn [tell] in HT. pose proof (check_calm w D o cont I Ho) as CH.
      (* the rest of the chain, after a step that adds [d] *)
      assert (NEXT : forall d e item' cont' stack' w1 a1 o1 s1, ds = d ++ e -> tell item' cont' stack' l = Some e ->
        sits w1 a1 item' -> sits w1 o1 cont' -> is_container (kind_at cont') = true -> Forall2 (saved w1) s1 stack' ->
        Inv w1 (d ++ D) -> exists w' b', exec w1 (Builder (Some a1) (Some o1) s1) l = Ret w' b' /\ Inv w' (ds ++ D) /\ stands w' b' (ends item' cont' stack' l)).
      { intros d e item' cont' stack' w1 a1 o1 s1 -> He H1 H2 H3 H4 H5.
        destruct (IH item' cont' stack' e w1 (d ++ D) a1 o1 s1 He H1 H2 H3 H4 H5) as (w' & b' & R & J & ST).
        - intros x Hx. apply in_app_iff in Hx as [Hx|Hx]; [|apply HD; exact Hx]. apply HE. apply in_app_iff. left. exact Hx.
        - intros x Hx. apply HE. apply in_app_iff. right. exact Hx.
        - apply ready_app in HR. apply HR.
        - exists w', b'. split; [exact R|]. split; [apply inv_perm; exact J|exact ST]. }
      destruct c; try discriminate HT; cbn [step b_item b_cont b_stack ends].
      - (* KAttr *) apply and_then_some in HT as (e & He & Ed).
        destruct (sits_get w a item (v_wf _ _ I) Ha) as (it & Hg & _). rewrite Hg. unfold holds. rewrite (v_held _ _ I). cbn [existsb]. rewrite andb_false_r.
        destruct (String.eqb_spec n "") as [->|Hn].
        + assert (X : nv_set (i_attrs it) "" v = Some (i_attrs it)) by reflexivity. rewrite X. cbn [bind].
          assert (Y : upd w a (set_attrs (i_attrs it)) = w).
          { unfold upd. rewrite Hg. unfold put. destruct w as [ws wc wh wr]. cbn. f_equal. unfold get in Hg. cbn in Hg. clear - Hg.
            assert (Z : set_attrs (i_attrs it) it = it) by (destruct it; reflexivity). rewrite Z. revert a Hg. induction ws as [|y ws IHw]; intros [|a] Hg; cbn in *; try congruence.
            f_equal. apply IHw. exact Hg. }
          rewrite Y. eapply (NEXT []); eauto.
        + destruct (attr_ok w D a item it n v I Ha Hg Hn HD) as (l' & -> & K & J); [apply HE; rewrite Ed; left; reflexivity|]. cbn [bind].
          eapply (NEXT [Attribute item n v]); eauto; try (eapply kept_sits; eauto); eapply saved_kept; eauto.
      - (* KNamespace *) destruct (String.eqb_spec n "") as [->|Hn]; [discriminate|].
        destruct (cat_eqb (kind_at cont) Namespace) eqn:EC; [|discriminate]. apply and_then_some in HT as (e & He & Ed).
        apply cat_eqb_eq in EC. rewrite (category_at w D o cont I Ho), EC.
        assert (HT : In (Thing ((Namespace, n) :: cont) 0 0) E) by (apply HE; rewrite Ed; left; reflexivity).
        destruct (create_ok w D o cont Namespace n 0 0 (fun w => get_item run w o Namespace n) I Ho Hc Hn) as (w1 & x & H & K & Sx & J);
          [discriminate|apply (get_item_calm w D o cont Namespace n I Ho CH Hn)|apply (agreed D _ _ _ HD HT)|].
        unfold create_namespace. rewrite H. cbn [bind]. eapply (NEXT [_]); eauto.
        constructor; [|eapply saved_kept; eauto]. exists o. split; [reflexivity|]. split; [eapply kept_sits; eauto|exact Hc].
      - (* KClass *) destruct (String.eqb_spec n "") as [->|Hn]; [discriminate|]. apply and_then_some in HT as (e & He & Ed).
        set (p := (Class, n) :: cont) in *.
        assert (HI : forall x, In x (Thing p t 0 :: ctor_decl d p A0 ++ ctor_decl c p (ASelf false) ++ ctor_decl m p (ASelf true)) -> In x E).
        { intros x Hx. apply HE. rewrite Ed. apply in_app_iff. left. exact Hx. }
        destruct (class_ok w D o cont n t I Ho CH Hc Hn HD) as (w1 & x & -> & K1 & S1 & J1); [apply HI; left; reflexivity|]. cbn [bind].
        unfold auto_ctors. fold p in S1, J1.
        assert (D1 : incl (Thing p t 0 :: D) E) by (intros y [<-|Hy]; [apply HI; left; reflexivity|apply HD; exact Hy]).
        assert (I1 : incl (ctor_decl d p A0) E) by (intros y Hy; apply HI; right; rewrite !in_app_iff; tauto).
        assert (I2 : incl (ctor_decl c p (ASelf false)) E) by (intros y Hy; apply HI; right; rewrite !in_app_iff; tauto).
        assert (I3 : incl (ctor_decl m p (ASelf true)) E) by (intros y Hy; apply HI; right; rewrite !in_app_iff; tauto).
        destruct (ctor_if_ok w1 _ x p d A0 J1 S1 (check_calm _ _ _ _ J1 S1) eq_refl D1 I1) as (w2 & -> & K2 & J2). cbn [bind].
        destruct (ctor_if_ok w2 _ x p c (ASelf false) J2) as (w3 & -> & K3 & J3);
          [eapply kept_sits; eauto|eapply check_calm; [exact J2|eapply kept_sits; eauto]|reflexivity|intros y Hy; apply in_app_iff in Hy as [Hy|Hy]; auto|exact I2|]. cbn [bind].
        destruct (ctor_if_ok w3 _ x p m (ASelf true) J3) as (w4 & -> & K4 & J4);
          [eapply kept_sits; [exact K3|]; eapply kept_sits; eauto|eapply check_calm; [exact J3|]; eapply kept_sits; [exact K3|]; eapply kept_sits; eauto|reflexivity|intros y Hy; rewrite !in_app_iff in Hy; destruct Hy as [Hy|[Hy|Hy]]; auto|exact I3|]. cbn [bind].
        assert (K : kept w w4) by (eapply kept_trans; [exact K1|]; eapply kept_trans; [exact K2|]; eapply kept_trans; eauto).
        assert (S4 : sits w4 x p) by (eapply kept_sits; [exact K4|]; eapply kept_sits; [exact K3|]; eapply kept_sits; eauto).
        eapply NEXT; [exact Ed|exact He|exact S4|exact S4|reflexivity| |].
        + constructor; [|eapply saved_kept; eauto]. exists o. split; [reflexivity|]. split; [eapply kept_sits; eauto|exact Hc].
        + eapply inv_more; [|exact J4]. intro y. cbn [In app]. rewrite !in_app_iff. cbn [In]. tauto.
      - (* KBase *) destruct (cat_eqb (kind_at cont) Class) eqn:EC; [|discriminate]. apply and_then_some in HT as (e & He & Ed).
        apply cat_eqb_eq in EC. rewrite (category_at w D o cont I Ho), EC. fold (links cont l0) in Ed. rewrite Ed in HR. apply ready_app in HR as [HR1 _].
        destruct (bases_ok cont o EC) with (bs := l0) (w := w) (D := D) as (w1 & H & K & J); auto.
        { intros u v b g. apply (h_ok _ _ _ TE). }
        { intros x Hx. apply HE. rewrite Ed. apply in_app_iff. auto. }
        unfold skip. rewrite H. cbn [bind]. eapply NEXT; eauto; try (eapply kept_sits; eauto); eapply saved_kept; eauto.
      - (* KEnum *) destruct (String.eqb_spec n "") as [->|Hn]; [discriminate|]. apply and_then_some in HT as (e & He & Ed).
        assert (HT : In (Thing ((Enum, n) :: cont) t 0) E) by (apply HE; rewrite Ed; left; reflexivity).
        destruct (create_ok w D o cont Enum n t 0 (fun w => get_item run w o Enum n) I Ho Hc Hn) as (w1 & x & H & K & Sx & J);
          [discriminate|apply (get_item_calm w D o cont Enum n I Ho CH Hn)|apply (agreed D _ _ _ HD HT)|].
        unfold create_enum. rewrite H. cbn [bind]. eapply (NEXT [_]); eauto; [eapply kept_sits; eauto|]. eapply saved_kept; eauto.
      - (* KElement *) apply and_then_some in HT as (e & He & Ed).
        destruct (sits_get w a item (v_wf _ _ I) Ha) as (it & Hg & Hk). rewrite Hg, Hk. unfold holds. rewrite (v_held _ _ I). cbn [existsb]. rewrite andb_false_r.
        destruct (cat_eqb (kind_at item) Enum) eqn:EC.
        + apply cat_eqb_eq in EC. destruct (String.eqb_spec n "") as [->|Hn].
          * assert (X : nv_set (i_elems it) "" v = Some (i_elems it)) by reflexivity. rewrite X. cbn [bind].
            assert (Y : upd w a (set_elems (i_elems it)) = w).
            { unfold upd. rewrite Hg. unfold put. destruct w as [ws wc wh wr]. cbn. f_equal. unfold get in Hg. cbn in Hg. clear - Hg.
              assert (Z : set_elems (i_elems it) it = it) by (destruct it; reflexivity). rewrite Z. revert a Hg. induction ws as [|y ws IHw]; intros [|a] Hg; cbn in *; try congruence.
              f_equal. apply IHw. exact Hg. }
            rewrite Y. eapply (NEXT []); eauto.
          * destruct (elem_ok w D a item it n v I Ha Hg (eq_trans Hk EC) Hn HD) as (l' & -> & K & J); [apply HE; rewrite Ed; left; reflexivity|]. cbn [bind].
            eapply (NEXT [Element item n v]); eauto; try (eapply kept_sits; eauto); eapply saved_kept; eauto.
        + cbn [bind]. assert (Ed2 : ds = [] ++ e) by (destruct (n =? "")%string; exact Ed). eapply (NEXT []); eauto.
      - (* KCtor *) destruct (cat_eqb (kind_at cont) Class) eqn:EC; [|discriminate]. apply and_then_some in HT as (e & He & Ed).
        apply cat_eqb_eq in EC. rewrite (category_at w D o cont I Ho), EC.
        destruct (ctor_ok w D o cont n args inv I Ho CH Hc HD) as (w1 & x & H & K & J); [apply HE; rewrite Ed; left; reflexivity|].
        unfold skip. rewrite H. cbn [bind]. eapply (NEXT [_]); eauto; try (eapply kept_sits; eauto); eapply saved_kept; eauto.
      - (* KMethod *) apply and_then_some in HT as (e & He & Ed).
        assert (HT : In (Thing ((Method, signed n args) :: cont) 0 inv) E) by (apply HE; rewrite Ed; left; reflexivity).
        destruct (create_ok w D o cont Method (signed n args) 0 inv (fun w => get_method run (S k) w o (signed n args)) I Ho Hc) as (w1 & x & H & K & Sx & J);
          [apply signed_nonempty|discriminate|apply (method_calm w D o cont n args I Ho CH); eapply tree_lone; eauto|apply (agreed D _ _ _ HD HT)|].
        unfold skip, create_method. rewrite signature_signed, H. cbn [bind]. eapply (NEXT [_]); eauto; try (eapply kept_sits; eauto); eapply saved_kept; eauto.
      - (* KProperty *) apply and_then_some in HT as (e & He & Ed). unfold create_property. destruct (String.eqb_spec n "") as [->|Hn].
        + cbn [skip bind]. eapply (NEXT []); eauto.
        + assert (HT : In (Thing ((Property, n) :: cont) 0 inv) E) by (apply HE; rewrite Ed; left; reflexivity).
          destruct (create_ok w D o cont Property n 0 inv (fun w => get_property run (S k) w o n) I Ho Hc Hn) as (w1 & x & H & K & Sx & J);
            [discriminate|apply (property_calm w D o cont n I Ho CH Hn); eapply tree_lone; eauto|apply (agreed D _ _ _ HD HT)|].
          unfold skip. rewrite H. cbn [bind]. eapply (NEXT [_]); eauto; try (eapply kept_sits; eauto); eapply saved_kept; eauto.
      - (* KEnd *) destruct stack as [|p ps]; [discriminate|]. inversion HS as [|o1 p1 s1 ps1 (x & -> & Sx & Cx) HS' E1 E2]; subst. cbn [bind].
        eapply (NEXT [] ds); eauto.
    Qed.
  End Run.

  Lemma inv0 : Inv world0 [].
  Proof.
    assert (S0 : forall x p, sits world0 x p -> x = 0 /\ p = []).
    { intros x p H. inversion H as [|y it o q Hx Hg Ho Hs]; subst; [auto|]. destruct x as [|[|x]]; cbn in Hg; congruence. }
    constructor.
    - apply wf0.
    - intros [|[|a]] it H; try discriminate. injection H as <-. split; [exact Q0|discriminate].
    - reflexivity.
    - intros p t i. split; [intros []|]. intros (x & it & Hx & Hs & _). apply S0 in Hs. tauto.
    - intros p n v. split; [intros []|]. intros (x & it & Hs & Hg & Hv). apply S0 in Hs as [-> ->]. injection Hg as <-. discriminate.
    - intros p n v. split; [intros []|]. intros (x & it & Hs & Hg & Hv). apply S0 in Hs as [-> ->]. injection Hg as <-. discriminate.
    - intros p n v. split; [intros []|]. intros (x & it & Hs & Hg & Hv). apply S0 in Hs as [-> ->]. injection Hg as <-. destruct Hv.
    - eexists. split; [reflexivity|]. auto.
  Qed.

  Lemma run_ok E k n w D l d : sound E -> tree ok k E -> told_by l = Some d -> Inv w D -> incl D E -> incl d E -> ready D d ->
    exists w', ReflModel.run (S k) ok (S n) w 0 l = Ret w' tt /\ Inv w' (d ++ D).
  Proof.
    intros SE TE HT I HD HE HR. cbn [ReflModel.run]. unfold on.
    destruct (exec_ok (ReflModel.run (S k) ok n) k E SE TE (fun w p => ReflModel.run (S k) ok n w 0 p) l [] [] [] d w D 0 0 [] HT) as (w' & b' & -> & J & _);
      try constructor; auto; try apply I.
    exists w'. auto.
  Qed.

  Lemma sessions_from E k n : sound E -> tree ok k E -> forall h ds w D, states h ds -> Inv w D -> incl D E -> incl (List.concat ds) E -> ready D (List.concat ds) ->
    exists w', complete (S k) ok (S n) w h w' /\ Inv w' (List.concat ds ++ D).
  Proof.
    intros SE TE h. induction h as [|l h IH]; intros ds w D HS I HD HE HR; inversion HS as [|l0 d h0 ds0 Hl Hh]; subst.
    - exists w. split; [reflexivity|exact I].
    - cbn [List.concat] in *. apply ready_app in HR as [HR1 HR2]. destruct (run_ok E k n w D l d SE TE Hl I HD) as (w1 & R & J).
      { intros x Hx. apply HE. apply in_app_iff. auto. }
      { exact HR1. }
      destruct (IH ds0 w1 (d ++ D) Hh J) as (w' & R' & J').
      { intros x Hx. apply in_app_iff in Hx as [Hx|Hx]; [apply HE; apply in_app_iff; auto|auto]. }
      { intros x Hx. apply HE. apply in_app_iff. auto. }
      { exact HR2. }
      exists w'. split; [exists w1; auto|]. eapply inv_more; [|exact J']. intro x. rewrite !in_app_iff. tauto.
  Qed.
  Lemma sessions_ok k n h ds : states h ds -> sound (List.concat ds) -> tree ok k (List.concat ds) -> ready [] (List.concat ds) ->
    exists w, complete (S k) ok (S n) world0 h w /\ Inv w (List.concat ds).
  Proof.
    intros HS SE TE HR. destruct (sessions_from (List.concat ds) k n SE TE h ds world0 [] HS inv0) as (w & R & J).
    - intros x [].
    - apply incl_refl.
    - exact HR.
    - exists w. split; [exact R|]. rewrite app_nil_r in J. exact J.
  Qed.
  Lemma complete_fun k n h : forall w w1 w2, complete k ok n w h w1 -> complete k ok n w h w2 -> w2 = w1.
  Proof.
    induction h as [|l h IH]; cbn; intros w w1 w2; [congruence|]. intros (a & Ha & H1) (b & Hb & H2).
    assert (b = a) by congruence. subst b. eapply IH; eauto.
  Qed.
  Lemma states_perm h h' ds : Permutation h h' -> states h ds -> exists ds', states h' ds' /\ forall d, In d (List.concat ds) <-> In d (List.concat ds').
  Proof.
    intros P. revert ds. induction P as [|l h h' P IH|a b h|h1 h2 h3 P1 IH1 P2 IH2]; intros ds HS.
    - exists ds. split; [exact HS|tauto].
    - inversion HS as [|l0 d h0 ds0 Hl Hh]; subst. destruct (IH ds0 Hh) as (ds' & H' & M). exists (d :: ds'). split; [constructor; assumption|].
      intro x. cbn [List.concat]. rewrite !in_app_iff, M. tauto.
    - inversion HS as [|l0 d h0 ds0 Hl Hh]; subst. inversion Hh as [|l1 d1 h1 ds1 Hl1 Hh1]; subst. exists (d1 :: d :: ds1).
      split; [repeat constructor; assumption|]. intro x. cbn [List.concat]. rewrite !in_app_iff. tauto.
    - destruct (IH1 ds HS) as (ds2 & H2 & M2). destruct (IH2 ds2 H2) as (ds3 & H3 & M3). exists ds3. split; [exact H3|]. intro x. rewrite M2. apply M3.
  Qed.
  Lemma sound_ext E E' : (forall d, In d E <-> In d E') -> sound E -> sound E'.
  Proof. intros M [A B C F G H0]. constructor; intros; rewrite <- M in *; eauto. Qed.
  Lemma tree_ext k E E' : (forall d, In d E <-> In d E') -> tree ok k E -> tree ok k E'.
  Proof.
    intros M [(rank & R1 & R2) B C]. assert (HI : incl E' E) by (intros d; apply M). constructor.
    - exists rank. split; [|exact R2]. intros p q H. apply R1. eapply parent_incl; eauto.
    - intros p t i b f H1 H2. apply M in H1, H2. eauto.
    - intros c p q n t i t' i' Hc HA H1 H2. apply M in H1, H2. exact (C c p q n t i t' i' Hc (ancestor_incl E' E p q HI HA) H1 H2).
  Qed.
  (** Without base classes. *)
  Lemma free_parent E p q : free E -> ~ parent E p q.
  Proof. intros F (t & f & m & r & i & _ & H & _). exact (F _ _ _ H). Qed.
  Lemma free_ancestor E p q : free E -> ~ ancestor E p q.
  Proof. intros F H. inversion H; eapply free_parent; eauto. Qed.
  Lemma free_tree k E : free E -> tree ok k E.
  Proof.
    intro F. constructor.
    - exists (fun _ => 0). split; [|lia]. intros p q H. destruct (free_parent E p q F H).
    - intros p t i b f _ H. destruct (F _ _ _ H).
    - intros c p q n t i t' i' _ H. destruct (free_ancestor E p q F H).
  Qed.
  Lemma free_once E : free E -> once E.
  Proof. intros F c p q q' n t i t' i' _ [->|H] [->|H']; try (exfalso; eapply free_ancestor; eauto; fail). reflexivity. Qed.
  Lemma ready_all : forall l D, (forall p t f, In (Derives p t f) l -> exists n q i, In (Thing ((Class, n) :: q) t i) D) -> ready D l.
  Proof.
    induction l as [|d l IH]; intros D H; [exact Logic.I|]. split.
    - destruct d; auto. eapply H. left. reflexivity.
    - apply IH. intros p t f Hin. destruct (H p t f (or_intror Hin)) as (n & q & i & X). exists n, q, i. right. exact X.
  Qed.
  Lemma ready_join : forall l1 l2 D, ready D l1 -> ready (l1 ++ D) l2 -> ready D (l1 ++ l2).
  Proof.
    induction l1 as [|d l1 IH]; intros l2 D H1 H2; [exact H2|]. destruct H1 as [A B]. split; [exact A|]. apply IH; [exact B|]. eapply ready_incl; [|exact H2].
    intros x [<-|Hx]; [apply in_app_iff; right; left; reflexivity|]. apply in_app_iff in Hx as [Hx|Hx]; apply in_app_iff; [auto|right; right; exact Hx].
  Qed.
  Lemma ready_named : forall l D p t f, ready D l -> In (Derives p t f) l -> exists n q i, In (Thing ((Class, n) :: q) t i) (l ++ D).
  Proof.
    induction l as [|d l IH]; intros D p t f H Hin; [destruct Hin|]. destruct H as [H1 H2]. destruct Hin as [->|Hin].
    - destruct H1 as (n & q & i & X). exists n, q, i. right. apply in_app_iff. auto.
    - destruct (IH (d :: D) p t f H2 Hin) as (n & q & i & X). exists n, q, i. cbn. apply in_app_iff in X as [X|[X|X]]; [right; apply in_app_iff; auto|left; exact X|right; apply in_app_iff; auto].
  Qed.

  (** ** What is seen *)
  Section See.
    Variable run : world -> nat -> prog -> out unit.
    Variable k : nat.

    Lemma reached_sits w D : Inv w D -> forall p x, reached run w p x <-> sits w x p.
    Proof.
      intros I p. induction p as [|[c n] p IH]; intro x; split; intro H.
      - inversion H; subst. constructor.
      - inversion H; subst. constructor.
      - inversion H as [|p' o c' n' x' Ho Hx]; subst. apply IH in Ho. destruct (String.eqb_spec n "") as [->|Hn].
        + exfalso. unfold get_item in Hx. rewrite (check_calm run w D o p I Ho) in Hx. cbn in Hx. discriminate.
        + destruct (get_item_calm run w D o p c n I Ho (check_calm _ _ _ _ _ I Ho) Hn) as (l & r & Hl & Hr). rewrite Hl in Hx. cbn in Hx. injection Hx as ->. apply Hr. reflexivity.
      - destruct (sits_under _ _ _ _ _ H) as (o & it & Hx & Hg & Hc & Hn & Ho & Hs).
        assert (Hne : n <> ""%string) by (rewrite <- Hn; apply (v_calm _ _ I x it Hg)).
        apply (reached_item run w p o); [apply IH; exact Hs|]. destruct (get_item_calm run w D o p c n I Hs (check_calm _ _ _ _ _ I Hs) Hne) as (l & r & -> & Hr).
        cbn. f_equal. apply Hr. exact H.
    Qed.

    Lemma listed_names w D o ow p c : Inv w D -> sits w o p -> get w o = Some ow ->
      NoDup (map (names w) (ml_items (i_list ow c))) /\
      forall n, In n (map (names w) (ml_items (i_list ow c))) <-> exists t i, In (Thing ((c, n) :: p) t i) D.
    Proof.
      intros I Hs Hg. split; [apply (wf_names _ _ _ _ (v_wf _ _ I) o ow c Hg)|]. intro n. rewrite in_map_iff. split.
      - intros (x & Hn & Hin). apply (listed w o ow p c x (v_wf _ _ I) Hg Hs) in Hin as (m & Hx).
        destruct (sits_under _ _ _ _ _ Hx) as (o' & it & Hx0 & Hgx & Hc & Hm & _). rewrite (names_at w x it Hgx) in Hn. assert (X : m = n) by congruence. rewrite X in Hx.
        exact (thing_in w D x _ I Hx0 Hx).
      - intros (t & i & Hin). apply (v_thing _ _ I) in Hin as (x & it & Hx & Hsx & Hgx & _). exists x.
        destruct (sits_under _ _ _ _ _ Hsx) as (o' & it' & _ & Hgx' & _ & Hm & _). split; [rewrite (names_at w x it' Hgx'); exact Hm|].
        apply (listed w o ow p c x (v_wf _ _ I) Hg Hs). eauto.
    Qed.

    Variables (w w' : world) (D D' : list decl).
    Hypothesis I : Inv w D.
    Hypothesis I' : Inv w' D'.
    Hypothesis SAME : forall d, In d D <-> In d D'.

    Lemma get_count_same x x' p c : sits w x p -> sits w' x' p ->
      exists n, answer (get_count run w x c) = Some n /\ answer (get_count run w' x' c) = Some n.
    Proof.
      intros Hs Hs'. destruct (sits_get w x p (v_wf _ _ I) Hs) as (it & Hg & _). destruct (sits_get w' x' p (v_wf _ _ I') Hs') as (it' & Hg' & _).
      unfold get_count. rewrite (check_calm run w D x p I Hs), (check_calm run w' D' x' p I' Hs'). cbn [bind answer].
      unfold list_of. rewrite Hg, Hg'. eexists. split; [reflexivity|]. f_equal. unfold ml_size.
      destruct (listed_names w D x it p c I Hs Hg) as (N1 & M1). destruct (listed_names w' D' x' it' p c I' Hs' Hg') as (N2 & M2).
      refine (eq_trans (eq_sym (map_length (names w') _)) (eq_trans _ (map_length (names w) _))).
      apply Permutation_length. apply NoDup_Permutation; [exact N2|exact N1|]. intro n. rewrite M1, M2.
      split; intros (t & i & H); exists t, i; apply SAME; exact H.
    Qed.

    Lemma nv_same (l l' : @nvlist nat) q : nv_ok l -> nv_ok l' -> (forall n, val l n = val l' n) -> q = QCount \/ (exists n, q = QOf n) -> nv_ask l' q = nv_ask l q.
    Proof.
      intros O O' V [->|(n & ->)]; cbn [nv_ask].
      - f_equal. unfold nv_size. rewrite <- (map_length fst (nv_items l)), <- (map_length fst (nv_items l')). apply Permutation_length.
        apply NoDup_Permutation; [apply O'|apply O|]. intro n. specialize (V n). unfold val in V.
        destruct (in_dec string_dec n (map fst (nv_items l))) as [H|H]; destruct (in_dec string_dec n (map fst (nv_items l'))) as [H'|H'];
          [tauto| | |tauto]; exfalso.
        + apply H'. pose proof (proj2 (assoc_fst_none (nv_items l') n) H') as X. rewrite X in V. apply assoc_fst_none in V. contradiction.
        + apply H. pose proof (proj2 (assoc_fst_none (nv_items l) n) H) as X. rewrite X in V. symmetry in V. apply assoc_fst_none in V. contradiction.
      - f_equal. rewrite (nv_find_val 0 l n O), (nv_find_val 0 l' n O'), V. reflexivity.
    Qed.
    Lemma opt_eq {A} (a b : option A) : (forall v, a = Some v <-> b = Some v) -> a = b.
    Proof. intro H. destruct a as [x|]; [symmetry; apply H; reflexivity|]. destruct b as [y|]; [apply H; reflexivity|reflexivity]. Qed.

    Lemma attrs_same x x' it it' p : sits w x p -> sits w' x' p -> get w x = Some it -> get w' x' = Some it' ->
      forall n, val (i_attrs it) n = val (i_attrs it') n.
    Proof.
      intros Hs Hs' Hg Hg' n. apply opt_eq. intro v. split; intro H.
      - assert (X : In (Attribute p n v) D') by (apply SAME; apply (v_attr _ _ I); eauto). apply (v_attr _ _ I') in X as (y & yt & Hy & Hgy & Hv).
        assert (y = x') by (eapply sits_inj; [exact (v_wf _ _ I')|eauto|eauto]). subst y. congruence.
      - assert (X : In (Attribute p n v) D) by (apply SAME; apply (v_attr _ _ I'); eauto). apply (v_attr _ _ I) in X as (y & yt & Hy & Hgy & Hv).
        assert (y = x) by (eapply sits_inj; [exact (v_wf _ _ I)|eauto|eauto]). subst y. congruence.
    Qed.
    Lemma elems_same x x' it it' p : sits w x p -> sits w' x' p -> get w x = Some it -> get w' x' = Some it' ->
      forall n, val (i_elems it) n = val (i_elems it') n.
    Proof.
      intros Hs Hs' Hg Hg' n. apply opt_eq. intro v. split; intro H.
      - assert (X : In (Element p n v) D') by (apply SAME; apply (v_elem _ _ I); eauto). apply (v_elem _ _ I') in X as (y & yt & Hy & Hgy & Hv).
        assert (y = x') by (eapply sits_inj; [exact (v_wf _ _ I')|eauto|eauto]). subst y. congruence.
      - assert (X : In (Element p n v) D) by (apply SAME; apply (v_elem _ _ I'); eauto). apply (v_elem _ _ I) in X as (y & yt & Hy & Hgy & Hv).
        assert (y = x) by (eapply sits_inj; [exact (v_wf _ _ I)|eauto|eauto]). subst y. congruence.
    Qed.
    Lemma check_item_calm w0 D0 x p : Inv w0 D0 -> sits w0 x p -> check_item run w0 x = Ret w0 tt.
    Proof.
      intros J Hs. unfold check_item. destruct (sits_get w0 x p (v_wf _ _ J) Hs) as (it & Hg & _). rewrite Hg.
      destruct (is_container (i_cat it)); [|reflexivity]. eapply check_calm; eauto.
    Qed.

    Lemma same_spot x p : sits w x p -> exists x' it it', sits w' x' p /\ get w x = Some it /\ get w' x' = Some it' /\
      i_cat it' = i_cat it /\ i_name it' = i_name it /\ i_type it' = i_type it /\ i_inv it' = i_inv it.
    Proof.
      intro Hs. destruct p as [|[c n] p].
      - inversion Hs; subst. destruct (v_global _ _ I) as (g & Hg & A). destruct (v_global _ _ I') as (g' & Hg' & A'). exists 0, g, g'.
        split; [constructor|]. split; [exact Hg|]. split; [exact Hg'|]. destruct A as (-> & -> & -> & ->). tauto.
      - destruct (sits_under _ _ _ _ _ Hs) as (o & it & Hx & Hg & Hc & Hn & _).
        assert (X : In (Thing ((c, n) :: p) (i_type it) (i_inv it)) D') by (apply SAME; apply (v_thing _ _ I); exists x, it; auto 8).
        apply (v_thing _ _ I') in X as (x' & it' & Hx' & Hs' & Hg' & Ht & Hi). exists x', it, it'.
        destruct (sits_under _ _ _ _ _ Hs') as (o' & it2 & _ & Hg2 & Hc2 & Hn2 & _). assert (it2 = it') by congruence. subst it2.
        repeat split; congruence || assumption.
    Qed.

    (** *** What is inherited *)
    Lemma no_bases w0 D0 p q : Inv w0 D0 -> ancestor D0 p q -> kind_at p = Class.
    Proof.
      intros J HA. assert (Z : exists c, parent D0 p c) by (inversion HA; subst; eauto). destruct Z as (c & t & f & n & r & i & _ & H & _).
      apply (v_base _ _ J) in H as (x & it & Sx & Gx & Hin). destruct (sits_get w0 x p (v_wf _ _ J) Sx) as (it2 & G2 & K2). rewrite <- K2. assert (it2 = it) by congruence. subst it2.
      apply (l_base_class _ _ _ _ (wf_local _ _ _ _ (v_wf _ _ J) x it Gx)). intro Z. rewrite Z in Hin. destruct Hin.
    Qed.
    Lemma get_method_find rank w0 D0 o p n args : ranked rank D0 -> rank p <= k -> Inv w0 D0 -> sits w0 o p ->
      exists l r, get_method run (S k) w0 o (signed n args) = Ret (marked w0 l) r /\
        match r with
        | Some x => exists q, (q = p \/ ancestor D0 p q) /\ sits w0 x ((Method, signed n args) :: q)
        | None => forall x q, q = p \/ ancestor D0 p q -> ~ sits w0 x ((Method, signed n args) :: q)
        end.
    Proof.
      intros RK Hrk J Hs. set (s := signed n args).
      assert (HP : In "("%char (txt s)) by (unfold s; rewrite <- signature_signed, txt_str; apply signature_has_paren).
      assert (AN : forall m, answers (txt m) (txt s) <-> m = s).
      { intro m. rewrite (answers_nonempty_sig _ _ HP). split; [intro H; apply txt_inj; symmetry; exact H|intros ->; reflexivity]. }
      unfold get_method. assert (Hq : (s =? "")%string = false) by (apply String.eqb_neq; apply signed_nonempty). rewrite Hq.
      destruct (sits_get w0 o p (v_wf _ _ J) Hs) as (it & Hg & Hk). rewrite Hg. set (own := fun w a => find_method run w a Method s).
      assert (OWN : forall v b q, twin v w0 -> sits w0 b q -> exists m r, own v b = Ret (marked v m) r /\ forall x, r = Some x <-> sits w0 x ((Method, s) :: q)).
      { intros v b q TW Sb. apply (find_method_twin run v w0 D0 b q Method s TW J Sb (check_twin run v w0 D0 b q TW J Sb)). intros; apply AN. }
      destruct (cat_eqb (i_cat it) Class) eqn:EC.
      - destruct (dfs_find rank w0 D0 RK J own (fun b => match own w0 b with Ret _ r => r | _ => None end) k w0 o p (twin_refl w0) Hs Hrk) as (m & r & -> & F).
        { intros v b q TW Sb _. destruct (OWN v b q TW Sb) as (m & r & -> & H1). destruct (OWN w0 b q (twin_refl w0) Sb) as (m2 & r2 & -> & H2). exists m. f_equal.
          apply opt_eq. intro x. rewrite H1, H2. tauto. }
        exists m, r. split; [reflexivity|]. destruct r as [x|].
        + destruct F as (b & q & Sb & HA & Hx). destruct (OWN w0 b q (twin_refl w0) Sb) as (m2 & r2 & E2 & H2). rewrite E2 in Hx. exists q. split; [exact HA|]. apply H2. exact Hx.
        + intros x q HA Sx. destruct (sits_under _ _ _ _ _ Sx) as (b & _ & _ & _ & _ & _ & _ & Sb). specialize (F b q Sb HA).
          destruct (OWN w0 b q (twin_refl w0) Sb) as (m2 & r2 & E2 & H2). rewrite E2 in F. apply H2 in Sx. congruence.
      - destruct (OWN w0 o p (twin_refl w0) Hs) as (m & r & E1 & H1). exists m, r. split; [exact E1|]. destruct r as [x|].
        + exists p. split; [left; reflexivity|]. apply H1. reflexivity.
        + intros x q [->|HA] Sx; [apply H1 in Sx; discriminate|]. pose proof (no_bases w0 D0 p q J HA) as X. rewrite <- Hk in X. rewrite X in EC. discriminate EC.
    Qed.
    Lemma get_property_find rank w0 D0 o p n : ranked rank D0 -> rank p <= k -> Inv w0 D0 -> sits w0 o p -> n <> ""%string ->
      exists l r, get_property run (S k) w0 o n = Ret (marked w0 l) r /\
        match r with
        | Some x => exists q, (q = p \/ ancestor D0 p q) /\ sits w0 x ((Property, n) :: q)
        | None => forall x q, q = p \/ ancestor D0 p q -> ~ sits w0 x ((Property, n) :: q)
        end.
    Proof.
      intros RK Hrk J Hs Hn. unfold get_property. pose proof Hn as Hq. apply String.eqb_neq in Hq. rewrite Hq.
      destruct (sits_get w0 o p (v_wf _ _ J) Hs) as (it & Hg & Hk). rewrite Hg. set (own := fun w a => get_item run w a Property n).
      assert (OWN : forall v b q, twin v w0 -> sits w0 b q -> exists m r, own v b = Ret (marked v m) r /\ forall x, r = Some x <-> sits w0 x ((Property, n) :: q)).
      { intros v b q TW Sb. apply (get_item_twin run v w0 D0 b q Property n TW J Sb (check_twin run v w0 D0 b q TW J Sb) Hn). }
      destruct (cat_eqb (i_cat it) Class) eqn:EC.
      - destruct (dfs_find rank w0 D0 RK J own (fun b => match own w0 b with Ret _ r => r | _ => None end) k w0 o p (twin_refl w0) Hs Hrk) as (m & r & -> & F).
        { intros v b q TW Sb _. destruct (OWN v b q TW Sb) as (m & r & -> & H1). destruct (OWN w0 b q (twin_refl w0) Sb) as (m2 & r2 & -> & H2). exists m. f_equal.
          apply opt_eq. intro x. rewrite H1, H2. tauto. }
        exists m, r. split; [reflexivity|]. destruct r as [x|].
        + destruct F as (b & q & Sb & HA & Hx). destruct (OWN w0 b q (twin_refl w0) Sb) as (m2 & r2 & E2 & H2). rewrite E2 in Hx. exists q. split; [exact HA|]. apply H2. exact Hx.
        + intros x q HA Sx. destruct (sits_under _ _ _ _ _ Sx) as (b & _ & _ & _ & _ & _ & _ & Sb). specialize (F b q Sb HA).
          destruct (OWN w0 b q (twin_refl w0) Sb) as (m2 & r2 & E2 & H2). rewrite E2 in F. apply H2 in Sx. congruence.
      - destruct (OWN w0 o p (twin_refl w0) Hs) as (m & r & E1 & H1). exists m, r. split; [exact E1|]. destruct r as [x|].
        + exists p. split; [left; reflexivity|]. apply H1. reflexivity.
        + intros x q [->|HA] Sx; [apply H1 in Sx; discriminate|]. pose proof (no_bases w0 D0 p q J HA) as X. rewrite <- Hk in X. rewrite X in EC. discriminate EC.
    Qed.
    Lemma inherited_find rank w0 D0 x y p q : ranked rank D0 -> rank p <= k -> Inv w0 D0 -> sits w0 x p -> sits w0 y q ->
      exists b, answer (inherited run (S k) w0 x y) = Some b /\ (b = true <-> q = p \/ ancestor D0 p q).
    Proof.
      intros RK Hrk J Hx Hy. unfold inherited. set (own := fun w z => if z =? y then Ret w (Some tt) else bind (check run w z) (fun w _ => Ret w None)).
      destruct (dfs_find rank w0 D0 RK J own (fun z => if z =? y then Some tt else None) k w0 x p (twin_refl w0) Hx Hrk) as (m & r & -> & F).
      { intros v b c TW Sb _. unfold own. exists (w_relock v). assert (Z : marked v (w_relock v) = v) by (destruct v; reflexivity). rewrite Z.
        destruct (b =? y); [reflexivity|]. rewrite (check_twin run v w0 D0 b c TW J Sb). reflexivity. }
      cbn [bind answer]. destruct r as [[]|].
      - exists true. split; [reflexivity|]. destruct F as (b & c & Sb & HA & E1). destruct (Nat.eqb_spec b y) as [->|_]; [|discriminate].
        assert (c = q) by (eapply sits_fun; eauto). subst c. tauto.
      - exists false. split; [reflexivity|]. split; [discriminate|]. intro HA. specialize (F y q Hy HA). rewrite Nat.eqb_refl in F. discriminate.
    Qed.
    Lemma bases_same x x' it it' p : sits w x p -> sits w' x' p -> get w x = Some it -> get w' x' = Some it' -> forall b, In b (i_bases it) -> In b (i_bases it').
    Proof.
      intros Hs Hs' Hg Hg' [t f] H. assert (X : In (Derives p t f) D') by (apply SAME; apply (v_base _ _ I); eauto). apply (v_base _ _ I') in X as (y & yt & Hy & Hgy & Hv).
      assert (y = x') by (eapply sits_inj; [exact (v_wf _ _ I')|eauto|eauto]). subst y. congruence.
    Qed.
    Lemma bases_back x x' it it' p : sits w x p -> sits w' x' p -> get w x = Some it -> get w' x' = Some it' -> forall b, In b (i_bases it') -> In b (i_bases it).
    Proof.
      intros Hs Hs' Hg Hg' [t f] H. assert (X : In (Derives p t f) D) by (apply SAME; apply (v_base _ _ I'); eauto). apply (v_base _ _ I) in X as (y & yt & Hy & Hgy & Hv).
      assert (y = x) by (eapply sits_inj; [exact (v_wf _ _ I)|eauto|eauto]). subst y. congruence.
    Qed.
    Lemma bases_query_calm w0 D0 x p it : Inv w0 D0 -> sits w0 x p -> get w0 x = Some it -> answer (bases_query run w0 x) = Some (i_bases it).
    Proof. intros J Hs Hg. unfold bases_query. rewrite (check_calm run w0 D0 x p J Hs). cbn [bind]. rewrite Hg. reflexivity. Qed.
    Lemma derived_find w0 D0 x p : Inv w0 D0 -> sits w0 x p -> kind_at p = Class ->
      exists l, answer (derived_query run w0 x) = Some l /\ NoDup l /\ forall t, In t l <-> exists q i, parent D0 q p /\ In (Thing q t i) D0.
    Proof.
      intros J Hs HK. destruct (sits_get w0 x p (v_wf _ _ J) Hs) as (it & Hg & Hc). rewrite HK in Hc. pose proof (v_wf _ _ J) as W. exists (i_derived it).
      split; [unfold derived_query; rewrite (check_calm run w0 D0 x p J Hs); cbn [bind]; rewrite Hg; reflexivity|].
      split; [exact (l_derived _ _ _ _ (wf_local _ _ _ _ W x it Hg))|]. intro t. destruct p as [|[c n] r]; [discriminate HK|]. cbn in HK. subst c.
      assert (Hx : x <> 0) by exact (sits_cons_nz _ _ _ _ _ Hs). split.
      - intro Hin. pose proof (wf_derived _ _ _ _ W x it t Hg Hin) as HT. destruct (class_of w0 t) as [y|] eqn:Ey; [|destruct (HT eq_refl)].
        destruct (wf_class1 _ _ _ _ W t y Ey) as (yt & Gy & Cy & Ty). destruct (sits_total w0 W y yt Gy) as (q & Sq).
        assert (Hb : In (i_type it) (map fst (i_bases yt))) by (apply (wf_mirror _ _ _ _ W y yt x it Gy Hg Cy Hc); congruence).
        apply in_map_iff in Hb as ([b f] & Eb & Hb). cbn in Eb. subst b. exists q, (i_inv yt). split.
        + exists (i_type it), f, n, r, (i_inv it). split; [reflexivity|]. split; [apply (v_base _ _ J); eauto|]. apply (v_thing _ _ J). exists x, it. auto.
        + apply (v_thing _ _ J). exists y, yt. split; [|auto]. intros ->. destruct (v_global _ _ J) as (g & Gg & Cg & _). congruence.
      - intros (q & i & (b & f & n' & r' & j & E & HD & HT) & HQ). injection E as <- <-.
        apply (v_base _ _ J) in HD as (y & yt & Sy & Gy & Hb). apply (v_thing _ _ J) in HT as (x2 & it2 & _ & S2 & G2 & T2 & _).
        apply (v_thing _ _ J) in HQ as (y2 & yt2 & _ & S3 & G3 & T3 & _).
        assert (x2 = x) by (eapply sits_inj; [exact W|eauto|eauto]). assert (y2 = y) by (eapply sits_inj; [exact W|eauto|eauto]). subst x2 y2.
        assert (it2 = it) by congruence. assert (yt2 = yt) by congruence. subst it2 yt2 b t.
        apply (wf_mirror _ _ _ _ W y yt x it Gy Hg); [|exact Hc|apply in_map_iff; exists (i_type it, f); auto].
        apply (l_base_class _ _ _ _ (wf_local _ _ _ _ W y yt Gy)). intro Z. rewrite Z in Hb. destruct Hb.
    Qed.
    Lemma ancestor_same p q : ancestor D p q <-> ancestor D' p q.
    Proof. split; apply ancestor_incl; intros d; apply SAME. Qed.

    Variable rank : place -> nat.
    Hypothesis RK : ranked rank D.
    Hypothesis RB : forall p, rank p <= k.
    Hypothesis ON : once D.
    Lemma RK' : ranked rank D'.
    Proof. intros p q H. apply RK. eapply parent_incl; [|exact H]. intros d; apply SAME. Qed.
    Lemma member_same c n p q m : c = Property \/ c = Method -> q = p \/ ancestor D p q -> sits w m ((c, n) :: q) ->
      forall r, (match r with Some x => exists q, (q = p \/ ancestor D' p q) /\ sits w' x ((c, n) :: q) | None => forall x q, q = p \/ ancestor D' p q -> ~ sits w' x ((c, n) :: q) end) ->
      exists m', r = Some m' /\ sits w' m' ((c, n) :: q).
    Proof.
      intros Hc HA Sm r F. destruct (same_spot m _ Sm) as (m' & _ & _ & Sm' & _). destruct r as [z|]; [|exfalso; apply (F m' q); [rewrite <- ancestor_same; exact HA|exact Sm']].
      destruct F as (q' & HA' & Sz). exists z. split; [reflexivity|]. rewrite <- ancestor_same in HA'.
      destruct (thing_in w D m _ I (sits_cons_nz _ _ _ _ _ Sm) Sm) as (t & i & H1). destruct (thing_in w' D' z _ I' (sits_cons_nz _ _ _ _ _ Sz) Sz) as (t' & i' & H2). apply SAME in H2.
      rewrite <- (ON c p q q' n t i t' i' Hc HA HA' H1 H2). exact Sz.
    Qed.
    Lemma inherits_from x p q m c n : sits w x p -> sits w m ((c, n) :: q) -> q = p \/ ancestor D p q ->
      exists y, sits w y q /\ (y = x \/ answer (inherited run (S k) w x y) = Some true).
    Proof.
      intros Hx Sm HA. destruct (sits_under _ _ _ _ _ Sm) as (y & _ & _ & _ & _ & _ & _ & Sy). exists y. split; [exact Sy|]. right.
      destruct (inherited_find rank w D x y p q RK (RB p) I Hx Sy) as (b & -> & Hb). f_equal. apply Hb. exact HA.
    Qed.

    Lemma covers_ok : covers run (S k) w w'.
    Proof.
      constructor.
      - intros p x H. apply (reached_sits w D I) in H. destruct (same_spot x p H) as (x' & it & it' & Hs' & R). exists x', it, it'.
        split; [apply (reached_sits w' D' I'); exact Hs'|exact R].
      - intros p x x' q H H' Hq. apply (reached_sits w D I) in H. apply (reached_sits w' D' I') in H'.
        unfold attr_query. rewrite (check_item_calm w D x p I H), (check_item_calm w' D' x' p I' H'). cbn [bind].
        destruct (sits_get w x p (v_wf _ _ I) H) as (it & Hg & _). destruct (sits_get w' x' p (v_wf _ _ I') H') as (it' & Hg' & _). rewrite Hg, Hg'.
        cbn [answer]. eexists. split; [reflexivity|]. f_equal. apply nv_same; [| |eapply attrs_same; eauto|exact Hq].
        + apply (l_attrs _ _ _ _ (wf_local _ _ _ _ (v_wf _ _ I) x it Hg)).
        + apply (l_attrs _ _ _ _ (wf_local _ _ _ _ (v_wf _ _ I') x' it' Hg')).
      - intros p x x' q H H' Hq. apply (reached_sits w D I) in H. apply (reached_sits w' D' I') in H'.
        unfold elem_query. destruct (sits_get w x p (v_wf _ _ I) H) as (it & Hg & _). destruct (sits_get w' x' p (v_wf _ _ I') H') as (it' & Hg' & _). rewrite Hg, Hg'.
        cbn [answer]. eexists. split; [reflexivity|]. f_equal. apply nv_same; [| |eapply elems_same; eauto|exact Hq].
        + apply (l_elems _ _ _ _ (wf_local _ _ _ _ (v_wf _ _ I) x it Hg)).
        + apply (l_elems _ _ _ _ (wf_local _ _ _ _ (v_wf _ _ I') x' it' Hg')).
      - intros p x x' c H H'. apply (reached_sits w D I) in H. apply (reached_sits w' D' I') in H'. eapply get_count_same; eauto.
      - intros t x H. destruct (wf_class1 _ _ _ _ (v_wf _ _ I) t x H) as (it & Hg & Hc & Ht). destruct (sits_total w (v_wf _ _ I) x it Hg) as (p & Hp).
        destruct (same_spot x p Hp) as (x' & it2 & it' & Hs' & Hg2 & Hg' & Ec & _ & Et & _). assert (it2 = it) by congruence. subst it2.
        exists p, x'. split; [apply (reached_sits w D I); exact Hp|]. split; [apply (reached_sits w' D' I'); exact Hs'|].
        rewrite <- Ht, <- Et. apply (wf_class2 _ _ _ _ (v_wf _ _ I') x' it' Hg'). congruence.
      - intros p x x' _ H H'. apply (reached_sits w D I) in H. apply (reached_sits w' D' I') in H'.
        destruct (sits_get w x p (v_wf _ _ I) H) as (it & Hg & _). destruct (sits_get w' x' p (v_wf _ _ I') H') as (it' & Hg' & _).
        exists (i_bases it), (i_bases it'). rewrite (bases_query_calm w D x p it I H Hg), (bases_query_calm w' D' x' p it' I' H' Hg').
        split; [reflexivity|]. split; [reflexivity|]. split; [eapply bases_same; eauto|eapply bases_back; eauto].
      - intros p x x' HK H H'. apply (reached_sits w D I) in H. apply (reached_sits w' D' I') in H'.
        destruct (derived_find w D x p I H HK) as (l & E & _ & M). destruct (derived_find w' D' x' p I' H' HK) as (l' & E' & _ & M').
        exists l, l'. split; [exact E|]. split; [exact E'|]. intro t. rewrite M, M'.
        split; intros (q & i & HP & HT); exists q, i; (split; [eapply parent_incl; [|exact HP]; intro d; apply SAME|apply SAME; exact HT]).
      - intros p q x x' y y' _ _ H H' G G'. apply (reached_sits w D I) in H, G. apply (reached_sits w' D' I') in H', G'.
        destruct (inherited_find rank w D x y p q RK (RB p) I H G) as (b & -> & Hb). destruct (inherited_find rank w' D' x' y' p q RK' (RB p) I' H' G') as (b' & -> & Hb').
        exists b. split; [reflexivity|]. f_equal. rewrite <- ancestor_same in Hb'. destruct b, b'; try reflexivity; [apply Hb'; apply Hb; reflexivity|symmetry; apply Hb; apply Hb'; reflexivity].
      - intros p x x' n args m H H' Hm. apply (reached_sits w D I) in H. apply (reached_sits w' D' I') in H'.
        destruct (get_method_find rank w D x p n args RK (RB p) I H) as (l & r & Hl & Hr). destruct (get_method_find rank w' D' x' p n args RK' (RB p) I' H') as (l' & r' & Hl' & Hr').
        rewrite Hl in Hm. cbn in Hm. injection Hm as ->. destruct Hr as (q & HA & Sm). destruct (inherits_from x p q m Method _ H Sm HA) as (y & Sy & Hy).
        destruct (member_same Method _ p q m (or_intror eq_refl) HA Sm r' Hr') as (m' & -> & Sm'). exists q, y, m'. rewrite Hl'.
        split; [reflexivity|]. split; [apply (reached_sits w D I); exact Sy|]. split; [exact Hy|]. split; [apply (reached_sits w D I)|apply (reached_sits w' D' I')]; assumption.
      - intros p x x' n m Hn H H' Hm. apply (reached_sits w D I) in H. apply (reached_sits w' D' I') in H'.
        destruct (get_property_find rank w D x p n RK (RB p) I H Hn) as (l & r & Hl & Hr). destruct (get_property_find rank w' D' x' p n RK' (RB p) I' H' Hn) as (l' & r' & Hl' & Hr').
        rewrite Hl in Hm. cbn in Hm. injection Hm as ->. destruct Hr as (q & HA & Sm). destruct (inherits_from x p q m Property _ H Sm HA) as (y & Sy & Hy).
        destruct (member_same Property _ p q m (or_introl eq_refl) HA Sm r' Hr') as (m' & -> & Sm'). exists q, y, m'. rewrite Hl'.
        split; [reflexivity|]. split; [apply (reached_sits w D I); exact Sy|]. split; [exact Hy|]. split; [apply (reached_sits w D I)|apply (reached_sits w' D' I')]; assumption.
    Qed.
  End See.
End Order.

(** Nothing is deferred. *)
Definition none (d : option prog) (l : bool) : Prop := d = None.
Lemma Q0 : none None false.
Proof. reflexivity. Qed.
Lemma QN d l : none d l -> d = None \/ l = true.
Proof. auto. Qed.

(** ** What is stated is what is found *)

Lemma shows_ok ok r w D : Inv ok none w D -> shows r w D.
Proof.
  intro I. assert (RS := reached_sits ok none QN r w _ I).
  assert (AQ : forall p x it m, sits w x p -> get w x = Some it ->
    answer (attr_query r w x (QOf m)) = Some (AValue match val (i_attrs it) m with Some v => v | None => 0 end)).
  { intros p x it m Hs Hg. unfold attr_query. rewrite (check_item_calm ok none QN r w _ x p I Hs). cbn [bind]. rewrite Hg. cbn [answer nv_ask].
    rewrite (nv_find_val 0); [reflexivity|]. apply (l_attrs _ _ _ _ (wf_local _ _ _ _ (v_wf _ _ _ _ I) x it Hg)). }
  assert (EQ : forall p x it m, sits w x p -> get w x = Some it ->
    answer (elem_query w x (QOf m)) = Some (AValue match val (i_elems it) m with Some v => v | None => 0 end)).
  { intros p x it m Hs Hg. unfold elem_query. rewrite Hg. cbn [answer nv_ask].
    rewrite (nv_find_val 0); [reflexivity|]. apply (l_elems _ _ _ _ (wf_local _ _ _ _ (v_wf _ _ _ _ I) x it Hg)). }
  constructor.
  - intros p t i. rewrite (v_thing _ _ _ _ I). split.
    + intros (x & it & Hx & Hs & Hg & Ht & Hi). split; [intros ->; inversion Hs; congruence|]. exists x, it. split; [apply RS; exact Hs|].
      destruct (sits_get ok w x p (v_wf _ _ _ _ I) Hs) as (it2 & Hg2 & Hk). split; [exact Hg|]. split; [congruence|]. auto.
    + intros (Hp & x & it & Hs & Hg & _ & Ht & Hi). apply RS in Hs. exists x, it. destruct p as [|[c m] p]; [congruence|].
      split; [eapply sits_cons_nz; eauto|]. auto.
  - intros p m v H. apply (v_attr _ _ _ _ I) in H as (x & it & Hs & Hg & Hv). exists x. split; [apply RS; exact Hs|]. rewrite (AQ p x it m Hs Hg), Hv. reflexivity.
  - intros p m v H. apply (v_elem _ _ _ _ I) in H as (x & it & Hs & Hg & Hv). exists x. split; [apply RS; exact Hs|]. rewrite (EQ p x it m Hs Hg), Hv. reflexivity.
  - intros p x m Hr HN. apply RS in Hr. destruct (sits_get ok w x p (v_wf _ _ _ _ I) Hr) as (it & Hg & _). rewrite (AQ p x it m Hr Hg).
    destruct (val (i_attrs it) m) as [v|] eqn:Ev; [|reflexivity]. exfalso. apply (HN v). apply (v_attr _ _ _ _ I). eauto.
  - intros p x m Hr HN. apply RS in Hr. destruct (sits_get ok w x p (v_wf _ _ _ _ I) Hr) as (it & Hg & _). rewrite (EQ p x it m Hr Hg).
    destruct (val (i_elems it) m) as [v|] eqn:Ev; [|reflexivity]. exfalso. apply (HN v). apply (v_elem _ _ _ _ I). eauto.
  - intros t x. split.
    + intro H. destruct (wf_class1 _ _ _ _ (v_wf _ _ _ _ I) t x H) as (it & Hg & Hc & Ht). destruct (sits_total ok w (v_wf _ _ _ _ I) x it Hg) as (q & Hq).
      destruct (sits_get ok w x q (v_wf _ _ _ _ I) Hq) as (it2 & Hg2 & Hk). assert (it2 = it) by congruence. subst it2.
      destruct q as [|[c m] p]; [cbn in Hk; congruence|]. cbn in Hk. assert (X : c = Class) by congruence. rewrite X in Hq. exists m, p, (i_inv it).
      split; [|apply RS; exact Hq]. apply (v_thing _ _ _ _ I). exists x, it. split; [eapply sits_cons_nz; eauto|]. auto.
    + intros (m & p & i & Hin & R). apply RS in R. apply (v_thing _ _ _ _ I) in Hin as (y & it & _ & Hs & Hg & Ht & _).
      assert (X : y = x) by (eapply sits_inj; [exact (v_wf _ _ _ _ I)|exact Hs|exact R]). rewrite X in Hg. rewrite <- Ht. apply (wf_class2 _ _ _ _ (v_wf _ _ _ _ I) x it Hg).
      destruct (sits_get ok w x _ (v_wf _ _ _ _ I) R) as (it2 & Hg2 & Hk). cbn in Hk. congruence.
Qed.

Lemma kin_ok ok k r w D : tree ok k D -> Inv ok none w D -> kin r (S k) w D.
Proof.
  intros TE I. assert (RS := reached_sits ok none QN r w _ I). destruct (h_rank _ _ _ TE) as (rank & RK & RB).
  constructor.
  - intros p x _ Hx. apply RS in Hx. destruct (sits_get ok w x p (v_wf _ _ _ _ I) Hx) as (it & Hg & _). exists (i_bases it).
    split; [exact (bases_query_calm ok none QN r w _ x p it I Hx Hg)|]. split; [apply (l_bases _ _ _ _ (wf_local _ _ _ _ (v_wf _ _ _ _ I) x it Hg))|].
    intros t f. rewrite (v_base _ _ _ _ I). split; [eauto|]. intros (y & yt & Sy & Gy & Hin).
    assert (y = x) by (eapply sits_inj; [exact (v_wf _ _ _ _ I)|eauto|eauto]). subst y. congruence.
  - intros p x HK Hx. apply RS in Hx. exact (derived_find ok none QN r w _ x p I Hx HK).
  - intros p q x y Hx Hy. apply RS in Hx, Hy. exact (inherited_find ok none QN r k w rank w _ x y p q RK (RB p) I Hx Hy).
  - intros p x m args Hx. apply RS in Hx. destruct (get_method_find ok none QN r k rank w _ x p m args RK (RB p) I Hx) as (l & y & -> & F). exists y. split; [reflexivity|].
    destruct y as [y|]; [destruct F as (q & HA & Sy); exists q; split; [exact HA|apply RS; exact Sy]|].
    intros q t i HA Hin. apply (v_thing _ _ _ _ I) in Hin as (z & zt & _ & Sz & _). exact (F z q HA Sz).
  - intros p x m Hm Hx. apply RS in Hx. destruct (get_property_find ok none QN r k rank w _ x p m RK (RB p) I Hx Hm) as (l & y & -> & F). exists y. split; [reflexivity|].
    destruct y as [y|]; [destruct F as (q & HA & Sy); exists q; split; [exact HA|apply RS; exact Sy]|].
    intros q t i HA Hin. apply (v_thing _ _ _ _ I) in Hin as (z & zt & _ & Sz & _). exact (F z q HA Sz).
Qed.

