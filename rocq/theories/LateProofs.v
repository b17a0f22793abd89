(** Proofs of C70. *)
From Coq Require Import List Bool Arith String Ascii Lia Permutation.
From Verif Require Import Util RegistryModel ListsModel ListsSpec ListsProofs StringsModel StringsSpec StringsProofs
  ReflModel ReflSpec ReflProofs OrderSpec OrderProofs FailSpec FailProofs DelaySpec DelayProofs LateSpec.
Import ListNotations.
Local Open Scope list_scope.

(** ** Chains that stay away from what waits *)
Section Calm.
  Variable ok : nat -> nat -> bool.
  Notation Inv := (OrderProofs.Inv ok DelayProofs.any).
  Notation wf := (WF false false ok).
  Variable run : world -> nat -> prog -> out unit.
  Variable k : nat.
  Variable E : list decl.
  Hypothesis SE : sound E.
  Hypothesis TE : tree ok k E.
  (** The places where something waits, and all that is stated when the chain is through. *)
  Variable P : place -> Prop.
  Variable F : list decl.

  Definition Calm (w : world) : Prop := forall a it q, get w a = Some it -> sits w a q -> P q \/ i_def it = None \/ i_lock it = true.
  Definition away (d : decl) : Prop :=
    match d with
    | Thing ((c, n) :: p) _ _ => ~ P p /\ (c = Property \/ c = Method -> forall q, ancestor F p q -> ~ P q)
    | _ => True
    end.

  Lemma calm_kept w w' D : Inv w D -> wf w' -> kept w w' -> Calm w -> Calm w'.
  Proof.
    intros I W' (S & D0 & N) C a it' q Hg Hs. destruct (get w a) as [it|] eqn:Eg; [|right; left; eapply N; eauto].
    destruct (D0 a it it' Eg Hg) as [-> ->]. apply (C a it q Eg). destruct (sits_total ok w (v_wf _ _ _ _ I) a it Eg) as (q' & Hq). replace q with q'; [exact Hq|].
    eapply sits_fun; [exact Hs|]. eapply stay_sits; eauto.
  Qed.
  Lemma check_away w a q : wf w -> Calm w -> sits w a q -> ~ P q -> forall v, twin v w -> check run v a = Ret v tt.
  Proof.
    intros W C Hs N v TW. destruct (sits_get ok w a q W Hs) as (it & Hg & _). unfold check. rewrite (twin_get v w a TW), Hg.
    destruct (C a it q Hg Hs) as [X|[-> | ->]]; [contradiction|reflexivity|]. destruct (i_def it); reflexivity.
  Qed.
  Lemma check_here w D a q : Inv w D -> Calm w -> sits w a q -> ~ P q -> check run w a = Ret w tt.
  Proof. intros I C Hs N. exact (check_away w a q (v_wf _ _ _ _ I) C Hs N w (twin_refl w)). Qed.
  Lemma lone_away w D c n p t i : Inv w D -> Calm w -> incl D E -> incl D F -> c = Property \/ c = Method -> In (Thing ((c, n) :: p) t i) E ->
    (forall q, ancestor F p q -> ~ P q) -> lone run k w D c n p.
  Proof.
    intros I C HD HF Hc HE N. split.
    - destruct (h_rank _ _ _ TE) as (rank & H1 & H2). exists rank. split; [|apply H2]. intros x y H. apply H1. eapply parent_incl; eauto.
    - intros q HA. split; [|intros v b TW Sb; eapply (check_away w b q); eauto; [apply I|apply N; eapply ancestor_incl; eauto]]. intros t' i' H.
      exact (h_own _ _ _ TE c p q n t i t' i' Hc (ancestor_incl D E p q HD HA) HE (HD _ H)).
  Qed.
  Lemma ctor_if_away w D o p on args : Inv w D -> sits w o p -> (on = true -> check run w o = Ret w tt) -> is_container (kind_at p) = true -> incl D E -> incl (ctor_decl on p args) E ->
    exists w', ctor_if run on args o w = Ret w' tt /\ kept w w' /\ Inv w' (ctor_decl on p args ++ D).
  Proof.
    intros I Hs CH Hc HD HE. destruct on; [eapply ctor_if_ok; eauto; exact Logic.I|]. exists w. split; [reflexivity|]. split; [apply kept_refl|exact I].
  Qed.

  Variable use : world -> prog -> out unit.
  Notation exec := (exec_with run (S k) ok use).
  Lemma exec_away : forall l item cont stack ds w D a o s, tell item cont stack l = Some ds ->
    sits w a item -> sits w o cont -> is_container (kind_at cont) = true -> Forall2 (saved w) s stack ->
    Inv w D -> Calm w -> incl D E -> incl ds E -> incl D F -> incl ds F -> ready D ds -> Forall away ds ->
    exists w' b', exec w (Builder (Some a) (Some o) s) l = Ret w' b' /\ kept w w' /\ Inv w' (ds ++ D) /\ stands w' b' (ends item cont stack l).
  Proof.
    induction l as [|c l IH]; intros item cont stack ds w D a o s HT Ha Ho Hc HS I CA HD HE HDF HEF HR AW.
    { injection HT as <-. exists w, (Builder (Some a) (Some o) s). split; [reflexivity|]. split; [apply kept_refl|]. split; [exact I|]. exists a, o, s. cbn. auto. }
    rewrite (exec_cons ok run k use). cbn [tell] in HT.
    (* the rest of the chain, after a step that adds [d] *)
    assert (NEXT : forall d e item' cont' stack' w1 a1 o1 s1, ds = d ++ e -> tell item' cont' stack' l = Some e ->
      sits w1 a1 item' -> sits w1 o1 cont' -> is_container (kind_at cont') = true -> Forall2 (saved w1) s1 stack' ->
      kept w w1 -> Inv w1 (d ++ D) -> exists w' b', exec w1 (Builder (Some a1) (Some o1) s1) l = Ret w' b' /\ kept w w' /\ Inv w' (ds ++ D) /\ stands w' b' (ends item' cont' stack' l)).
    { intros d e item' cont' stack' w1 a1 o1 s1 -> He H1 H2 H3 H4 K1 H5. assert (CA1 : Calm w1) by (eapply calm_kept; [exact I|exact (v_wf _ _ _ _ H5)|exact K1|exact CA]).
      destruct (IH item' cont' stack' e w1 (d ++ D) a1 o1 s1 He H1 H2 H3 H4 H5 CA1) as (w' & b' & R & K' & J & ST).
      - intros x Hx. apply in_app_iff in Hx as [Hx|Hx]; [|apply HD; exact Hx]. apply HE. apply in_app_iff. left. exact Hx.
      - intros x Hx. apply HE. apply in_app_iff. right. exact Hx.
      - apply incl_app; [intros x Hx; apply HEF; apply in_app_iff; auto|exact HDF].
      - intros x Hx. apply HEF. apply in_app_iff. auto.
      - apply ready_app in HR. apply HR.
      - apply Forall_app in AW. apply AW.
      - exists w', b'. split; [exact R|]. split; [eapply kept_trans; eauto|]. split; [eapply inv_more; [|exact J]; intro z; rewrite !in_app_iff; tauto|exact ST]. }
    assert (CHK : forall w1 D1 x q c m t i, Inv w1 D1 -> kept w w1 -> sits w1 x q -> In (Thing ((c, m) :: q) t i) ds -> check run w1 x = Ret w1 tt).
    { intros w1 D1 x q c1 m t i J K Hx Hin. rewrite Forall_forall in AW. destruct (AW _ Hin) as [N _]. eapply check_here; [exact J|eapply calm_kept; [exact I|exact (v_wf _ _ _ _ J)|exact K|exact CA]|exact Hx|exact N]. }
    assert (CH0 : forall c m t i, In (Thing ((c, m) :: cont) t i) ds -> check run w o = Ret w tt).
    { intros c1 m t i Hin. exact (CHK w D o cont c1 m t i I (kept_refl w) Ho Hin). }
    assert (LO : forall c m t i, c = Property \/ c = Method -> In (Thing ((c, m) :: cont) t i) ds -> lone run k w D c m cont).
    { intros c1 m t i Hc1 Hin. rewrite Forall_forall in AW. destruct (AW _ Hin) as [_ N]. exact (lone_away w D c1 m cont t i I CA HD HDF Hc1 (HE _ Hin) (N Hc1)). }
    destruct c; try discriminate HT; cbn [step b_item b_cont b_stack ends].
    - (* KAttr *) apply and_then_some in HT as (e & He & Ed).
      destruct (sits_get ok w a item (v_wf _ _ _ _ I) Ha) as (it & Hg & _). rewrite Hg. unfold holds. rewrite (v_held _ _ _ _ I). cbn [existsb]. rewrite andb_false_r.
      destruct (String.eqb_spec n "") as [->|Hn].
      + assert (X : nv_set (i_attrs it) "" v = Some (i_attrs it)) by reflexivity. rewrite X. cbn [bind].
        assert (Y : upd w a (set_attrs (i_attrs it)) = w).
        { unfold upd. rewrite Hg. unfold put. destruct w as [ws wc wh wr]. cbn. f_equal. unfold get in Hg. cbn in Hg. clear - Hg.
          assert (Z : set_attrs (i_attrs it) it = it) by (destruct it; reflexivity). rewrite Z. revert a Hg. induction ws as [|y ws IHw]; intros [|a] Hg; cbn in *; try congruence.
          f_equal. apply IHw. exact Hg. }
        rewrite Y. eapply (NEXT []); eauto using kept_refl.
      + destruct (attr_ok ok any E SE w D a item it n v I Ha Hg Hn HD) as (l' & -> & K & J); [apply HE; rewrite Ed; left; reflexivity|]. cbn [bind].
        eapply (NEXT [Attribute item n v]); eauto; try (eapply kept_sits; eauto); eapply saved_kept; eauto.
    - (* KNamespace *) destruct (String.eqb_spec n "") as [->|Hn]; [discriminate|].
      destruct (cat_eqb (kind_at cont) Namespace) eqn:EC; [|discriminate]. apply and_then_some in HT as (e & He & Ed).
      apply cat_eqb_eq in EC. rewrite (category_at ok any w D o cont I Ho), EC.
      assert (HT : In (Thing ((Namespace, n) :: cont) 0 0) E) by (apply HE; rewrite Ed; left; reflexivity).
      destruct (create_ok ok any Logic.I w D o cont Namespace n 0 0 (fun w => get_item run w o Namespace n) I Ho Hc Hn) as (w1 & x & H & K & Sx & J);
        [discriminate|apply (get_item_calm ok any run w D o cont Namespace n I Ho (CH0 Namespace n 0 0 ltac:(rewrite Ed; left; reflexivity)) Hn)|apply (agreed E SE D _ _ _ HD HT)|].
      unfold create_namespace. rewrite H. cbn [bind]. eapply (NEXT [_]); eauto.
      constructor; [|eapply saved_kept; eauto]. exists o. split; [reflexivity|]. split; [eapply kept_sits; eauto|exact Hc].
    - (* KClass *) destruct (String.eqb_spec n "") as [->|Hn]; [discriminate|]. apply and_then_some in HT as (e & He & Ed).
      set (p := (Class, n) :: cont) in *.
      assert (HI : forall x, In x (Thing p t 0 :: ctor_decl d p A0 ++ ctor_decl c p (ASelf false) ++ ctor_decl m p (ASelf true)) -> In x E).
      { intros x Hx. apply HE. rewrite Ed. apply in_app_iff. left. exact Hx. }
      destruct (class_ok ok any Logic.I run E SE w D o cont n t I Ho (CH0 Class n t 0 ltac:(rewrite Ed; left; reflexivity)) Hc Hn HD) as (w1 & x & -> & K1 & S1 & J1); [apply HI; left; reflexivity|]. cbn [bind].
      unfold auto_ctors. fold p in S1, J1.
      assert (D1 : incl (Thing p t 0 :: D) E) by (intros y [<-|Hy]; [apply HI; left; reflexivity|apply HD; exact Hy]).
      assert (I1 : incl (ctor_decl d p A0) E) by (intros y Hy; apply HI; right; rewrite !in_app_iff; tauto).
      assert (I2 : incl (ctor_decl c p (ASelf false)) E) by (intros y Hy; apply HI; right; rewrite !in_app_iff; tauto).
      assert (I3 : incl (ctor_decl m p (ASelf true)) E) by (intros y Hy; apply HI; right; rewrite !in_app_iff; tauto).
      assert (CT : forall on args w5 D5, (on = true -> incl (ctor_decl on p args) ds) -> Inv w5 D5 -> kept w w5 -> sits w5 x p -> on = true -> check run w5 x = Ret w5 tt).
      { intros on args w5 D5 H J K Hx ->. eapply (CHK w5 D5 x p); eauto. apply H; [reflexivity|]. left. reflexivity. }
      assert (K12 : forall w5 w6, kept w w5 -> kept w5 w6 -> kept w w6) by (intros; eapply kept_trans; eauto).
      destruct (ctor_if_away w1 _ x p d A0 J1 S1) as (w2 & -> & K2 & J2);
        [eapply (CT d A0); eauto; intros _ y Hy; rewrite Ed; apply in_app_iff; left; right; rewrite !in_app_iff; tauto|reflexivity|exact D1|exact I1|]. cbn [bind].
      assert (S2 : sits w2 x p) by (eapply kept_sits; eauto).
      destruct (ctor_if_away w2 _ x p c (ASelf false) J2 S2) as (w3 & -> & K3 & J3);
        [eapply (CT c (ASelf false)); eauto; intros _ y Hy; rewrite Ed; apply in_app_iff; left; right; rewrite !in_app_iff; tauto|reflexivity|intros y Hy; apply in_app_iff in Hy as [Hy|Hy]; auto|exact I2|]. cbn [bind].
      assert (S3 : sits w3 x p) by (eapply kept_sits; eauto).
      destruct (ctor_if_away w3 _ x p m (ASelf true) J3 S3) as (w4 & -> & K4 & J4);
        [eapply (CT m (ASelf true)); eauto; intros _ y Hy; rewrite Ed; apply in_app_iff; left; right; rewrite !in_app_iff; tauto|reflexivity|intros y Hy; rewrite !in_app_iff in Hy; destruct Hy as [Hy|[Hy|Hy]]; auto|exact I3|]. cbn [bind].
      assert (K : kept w w4) by (eapply kept_trans; [exact K1|]; eapply kept_trans; [exact K2|]; eapply kept_trans; eauto).
      assert (S4 : sits w4 x p) by (eapply kept_sits; [exact K4|]; eapply kept_sits; [exact K3|]; eapply kept_sits; eauto).
      eapply NEXT; [exact Ed|exact He|exact S4|exact S4|reflexivity| |exact K|].
      + constructor; [|eapply saved_kept; eauto]. exists o. split; [reflexivity|]. split; [eapply kept_sits; eauto|exact Hc].
      + eapply inv_more; [|exact J4]. intro y. cbn [In app]. rewrite !in_app_iff. cbn [In]. tauto.
    - (* KBase *) destruct (cat_eqb (kind_at cont) Class) eqn:EC; [|discriminate]. apply and_then_some in HT as (e & He & Ed).
      apply cat_eqb_eq in EC. rewrite (category_at ok any w D o cont I Ho), EC. fold (links cont l0) in Ed. rewrite Ed in HR. apply ready_app in HR as [HR1 _].
      destruct (bases_ok ok any run k E SE cont o EC) with (bs := l0) (w := w) (D := D) as (w1 & H & K & J); auto.
      { intros u v b g. apply (h_ok _ _ _ TE). }
      { intros x Hx. apply HE. rewrite Ed. apply in_app_iff. auto. }
      unfold skip. rewrite H. cbn [bind]. eapply NEXT; eauto; try (eapply kept_sits; eauto); eapply saved_kept; eauto.
    - (* KEnum *) destruct (String.eqb_spec n "") as [->|Hn]; [discriminate|]. apply and_then_some in HT as (e & He & Ed).
      assert (HT : In (Thing ((Enum, n) :: cont) t 0) E) by (apply HE; rewrite Ed; left; reflexivity).
      destruct (create_ok ok any Logic.I w D o cont Enum n t 0 (fun w => get_item run w o Enum n) I Ho Hc Hn) as (w1 & x & H & K & Sx & J);
        [discriminate|apply (get_item_calm ok any run w D o cont Enum n I Ho (CH0 Enum n t 0 ltac:(rewrite Ed; left; reflexivity)) Hn)|apply (agreed E SE D _ _ _ HD HT)|].
      unfold create_enum. rewrite H. cbn [bind]. eapply (NEXT [_]); eauto; [eapply kept_sits; eauto|]. eapply saved_kept; eauto.
    - (* KElement *) apply and_then_some in HT as (e & He & Ed).
      destruct (sits_get ok w a item (v_wf _ _ _ _ I) Ha) as (it & Hg & Hk). rewrite Hg, Hk. unfold holds. rewrite (v_held _ _ _ _ I). cbn [existsb]. rewrite andb_false_r.
      destruct (cat_eqb (kind_at item) Enum) eqn:EC.
      + apply cat_eqb_eq in EC. destruct (String.eqb_spec n "") as [->|Hn].
        * assert (X : nv_set (i_elems it) "" v = Some (i_elems it)) by reflexivity. rewrite X. cbn [bind].
          assert (Y : upd w a (set_elems (i_elems it)) = w).
          { unfold upd. rewrite Hg. unfold put. destruct w as [ws wc wh wr]. cbn. f_equal. unfold get in Hg. cbn in Hg. clear - Hg.
            assert (Z : set_elems (i_elems it) it = it) by (destruct it; reflexivity). rewrite Z. revert a Hg. induction ws as [|y ws IHw]; intros [|a] Hg; cbn in *; try congruence.
            f_equal. apply IHw. exact Hg. }
          rewrite Y. eapply (NEXT []); eauto using kept_refl.
        * destruct (elem_ok ok any E SE w D a item it n v I Ha Hg (eq_trans Hk EC) Hn HD) as (l' & -> & K & J); [apply HE; rewrite Ed; left; reflexivity|]. cbn [bind].
          eapply (NEXT [Element item n v]); eauto; try (eapply kept_sits; eauto); eapply saved_kept; eauto.
      + cbn [bind]. assert (Ed2 : ds = [] ++ e) by (destruct (n =? "")%string; exact Ed). eapply (NEXT []); eauto using kept_refl.
    - (* KCtor *) destruct (cat_eqb (kind_at cont) Class) eqn:EC; [|discriminate]. apply and_then_some in HT as (e & He & Ed).
      apply cat_eqb_eq in EC. rewrite (category_at ok any w D o cont I Ho), EC.
      destruct (ctor_ok ok any Logic.I run E SE w D o cont n args inv I Ho (CH0 _ _ 0 inv ltac:(rewrite Ed; left; reflexivity)) Hc HD) as (w1 & x & H & K & J); [apply HE; rewrite Ed; left; reflexivity|].
      unfold skip. rewrite H. cbn [bind]. eapply (NEXT [_]); eauto; try (eapply kept_sits; eauto); eapply saved_kept; eauto.
    - (* KMethod *) apply and_then_some in HT as (e & He & Ed).
      assert (HT : In (Thing ((Method, signed n args) :: cont) 0 inv) E) by (apply HE; rewrite Ed; left; reflexivity).
      destruct (create_ok ok any Logic.I w D o cont Method (signed n args) 0 inv (fun w => get_method run (S k) w o (signed n args)) I Ho Hc) as (w1 & x & H & K & Sx & J);
        [apply signed_nonempty|discriminate|apply (method_calm ok any run k w D o cont n args I Ho (CH0 Method (signed n args) 0 inv ltac:(rewrite Ed; left; reflexivity))); eapply (LO Method (signed n args) 0 inv); [auto|rewrite Ed; left; reflexivity]|apply (agreed E SE D _ _ _ HD HT)|].
      unfold skip, create_method. rewrite signature_signed, H. cbn [bind]. eapply (NEXT [_]); eauto; try (eapply kept_sits; eauto); eapply saved_kept; eauto.
    - (* KProperty *) apply and_then_some in HT as (e & He & Ed). unfold create_property. destruct (String.eqb_spec n "") as [->|Hn].
      + cbn [skip bind]. eapply (NEXT []); eauto using kept_refl.
      + assert (HT : In (Thing ((Property, n) :: cont) 0 inv) E) by (apply HE; rewrite Ed; left; reflexivity).
        destruct (create_ok ok any Logic.I w D o cont Property n 0 inv (fun w => get_property run (S k) w o n) I Ho Hc Hn) as (w1 & x & H & K & Sx & J);
          [discriminate|apply (property_calm ok any run k w D o cont n I Ho (CH0 Property n 0 inv ltac:(rewrite Ed; left; reflexivity)) Hn); eapply (LO Property n 0 inv); [auto|rewrite Ed; left; reflexivity]|apply (agreed E SE D _ _ _ HD HT)|].
        unfold skip. rewrite H. cbn [bind]. eapply (NEXT [_]); eauto; try (eapply kept_sits; eauto); eapply saved_kept; eauto.
    - (* KEnd *) destruct stack as [|p ps]; [discriminate|]. inversion HS as [|o1 p1 s1 ps1 (x & -> & Sx & Cx) HS' E1 E2]; subst. cbn [bind].
      eapply (NEXT [] ds); eauto using kept_refl.
  Qed.
  Lemma class_seen w D t b : Inv w D -> class_of w t = Some b -> existsb (class_with t) D = true.
  Proof.
    intros I H. destruct (wf_class1 _ _ _ _ (v_wf _ _ _ _ I) t b H) as (bt & Hg & Hk & Ht). destruct (sits_total ok w (v_wf _ _ _ _ I) b bt Hg) as (q & Hq).
    destruct (sits_get ok w b q (v_wf _ _ _ _ I) Hq) as (bt2 & Hg2 & Hk2). assert (bt2 = bt) by congruence. subst bt2.
    destruct q as [|[c m] q]; [cbn in Hk2; congruence|]. cbn in Hk2. assert (EC : c = Class) by congruence. rewrite EC in Hq.
    apply class_with_in. exists m, q, (i_inv bt). apply (v_thing _ _ _ _ I). exists b, bt. split; [exact (sits_cons_nz _ _ _ _ _ Hq)|]. split; [exact Hq|]. split; [exact Hg|]. split; [exact Ht|reflexivity].
  Qed.
  Lemma seen_class w D t : Inv w D -> existsb (class_with t) D = true -> exists b, class_of w t = Some b.
  Proof.
    intros I H. apply class_with_in in H as (m & q & j & H). apply (v_thing _ _ _ _ I) in H as (b & bt & _ & Sb & Gb & Tb & _). exists b.
    destruct (sits_get ok w b _ (v_wf _ _ _ _ I) Sb) as (bt2 & G2 & K2). cbn in K2. rewrite <- Tb. apply (wf_class2 _ _ _ _ (v_wf _ _ _ _ I) b bt Gb). congruence.
  Qed.

  (** The call that cannot be made. *)
  Lemma stuck_away w D b c item cont stack r1 y e2 e : Inv w D -> Calm w -> away y -> stands w b (item, cont, stack) -> incl D E -> incl r1 E -> ready D r1 ->
    tell item cont stack [c] = Some (r1 ++ y :: e2) -> problem (r1 ++ D) y = Some e ->
    (forall p t f u i, y = Derives p t f -> In (Thing p u i) E -> ok u t = true) ->
    exists w', step run (S k) ok use w b c = Throw e w' /\ kept w w' /\ Inv w' (r1 ++ D).
  Proof.
    intros I CA AY (a & o & s & -> & Ha & Ho & Hc & HS) HD HR RD HT HP HO. cbn [fst snd] in *.
    destruct c; cbn [tell] in HT; try discriminate HT; cbn [step b_item b_cont b_stack].
    - (* KAttr *) exfalso. destruct (String.eqb n ""); destruct r1 as [|? [|? ?]]; try discriminate HT; injection HT as <- <-; discriminate HP.
    - exfalso. destruct (String.eqb n ""); [discriminate HT|]. destruct (cat_eqb (kind_at cont) Namespace); [|discriminate HT].
      destruct r1 as [|? [|? ?]]; try discriminate HT; injection HT as <- <-; discriminate HP.
    - (* KClass *) destruct (String.eqb_spec n "") as [->|Hn]; [discriminate HT|]. cbn [and_then option_map] in HT. injection HT as HT. rewrite app_nil_r in HT.
      destruct r1 as [|z r1].
      + cbn in HT. injection HT as <- _. cbn [app problem] in HP. destruct (existsb (placed ((Class, n) :: cont)) D) eqn:X; [discriminate HP|].
        destruct (existsb (class_with t) D) eqn:Y; [|discriminate HP]. injection HP as <-. destruct (seen_class w D t I Y) as (x & Hx).
        assert (CH : check run w o = Ret w tt) by (exact (check_here w D o cont I CA Ho (proj1 AY))). unfold create_class.
        destruct (get_item_calm ok any run w D o cont Class n I Ho CH Hn) as (lk & r & -> & Hr). cbn [bind]. destruct r as [z|].
        * exfalso. assert (Sz : sits w z ((Class, n) :: cont)) by (apply Hr; reflexivity).
          destruct (thing_in ok any w D z _ I (sits_cons_nz _ _ _ _ _ Sz) Sz) as (t' & i' & Hin). assert (existsb (placed ((Class, n) :: cont)) D = true) by (apply placed_in; eauto). congruence.
        * change (class_of (marked w lk) t) with (class_of w t). rewrite Hx. cbn [bind]. exists (marked w lk). split; [reflexivity|]. split; [apply kept_marked|]. apply inv_marked. exact I.
      + exfalso. cbn in HT. injection HT as _ HT. assert (Hin : In y (ctor_decl d ((Class, n) :: cont) A0 ++ ctor_decl c ((Class, n) :: cont) (ASelf false) ++ ctor_decl m ((Class, n) :: cont) (ASelf true))).
        { rewrite HT. apply in_app_iff. right. left. reflexivity. }
        unfold ctor_decl, ctor_place in Hin. rewrite !in_app_iff in Hin. destruct d, c, m; cbn in Hin; intuition; subst y; discriminate HP.
    - (* KBase *) destruct (cat_eqb (kind_at cont) Class) eqn:EC; [|discriminate HT]. apply cat_eqb_eq in EC. cbn [and_then option_map] in HT. injection HT as HT. rewrite app_nil_r in HT.
      rewrite (category_at ok any w D o cont I Ho), EC. apply map_eq_app in HT as (b1 & b2 & -> & E1 & E2).
      destruct b2 as [|[t f] b2]; [discriminate E2|]. cbn in E2. injection E2 as <- _. cbn [problem] in HP.
      destruct (existsb (class_with t) (r1 ++ D)) eqn:X; [discriminate HP|]. injection HP as <-.
      destruct (bases_ok ok any run k E SE cont o EC) with (bs := b1) (w := w) (D := D) as (w1 & H1 & K1 & J1); auto.
      { intros u v b g. apply (h_ok _ _ _ TE). }
      { unfold links. rewrite E1. exact HR. }
      { unfold links. rewrite E1. exact RD. }
      unfold links in J1. rewrite E1 in J1. exists w1. split; [|split; [exact K1|exact J1]]. unfold skip. rewrite add_bases_app, H1. cbn [bind add_bases].
      assert (Ho1 : sits w1 o cont) by (eapply kept_sits; eauto). destruct (sits_get ok w1 o cont (v_wf _ _ _ _ J1) Ho1) as (it & Hg & _). rewrite Hg.
      assert (OK : ok (i_type it) t = true).
      { apply (HO cont t f (i_type it) (i_inv it) eq_refl). assert (o <> 0) by (destruct cont as [|[cc m] q]; [discriminate EC|eapply sits_cons_nz; eauto]).
        assert (Z : In (Thing cont (i_type it) (i_inv it)) (r1 ++ D)) by (apply (v_thing _ _ _ _ J1); exists o, it; auto).
        apply in_app_iff in Z as [Z|Z]; auto. }
      rewrite OK. unfold add_base. destruct (class_of w1 t) as [z|] eqn:Ez; [pose proof (class_seen w1 _ t z J1 Ez); congruence|]. reflexivity.
    - exfalso. destruct (String.eqb n ""); [discriminate HT|]. destruct r1 as [|? [|? ?]]; try discriminate HT; injection HT as <- <-; discriminate HP.
    - exfalso. destruct (String.eqb n ""), (cat_eqb (kind_at item) Enum); destruct r1 as [|? [|? ?]]; try discriminate HT; injection HT as <- <-; discriminate HP.
    - exfalso. destruct (cat_eqb (kind_at cont) Class); [|discriminate HT]. destruct r1 as [|? [|? ?]]; try discriminate HT; injection HT as <- <-; discriminate HP.
    - exfalso. destruct r1 as [|? [|? ?]]; try discriminate HT; injection HT as <- <-; discriminate HP.
    - exfalso. destruct (String.eqb n ""); destruct r1 as [|? [|? ?]]; try discriminate HT; injection HT as <- <-; discriminate HP.
    - exfalso. destruct stack; [discriminate HT|]. destruct r1; discriminate HT.
  Qed.


  (** A chain at the container [x] at [q], up to the first statement that cannot be made. *)
  Lemma cut_away w D x q l d r e : tell q q [] l = Some d -> cut D d = (r, e) -> sits w x q -> is_container (kind_at q) = true ->
    Inv w D -> Calm w -> incl D E -> incl r E -> incl D F -> incl d F -> Forall away d ->
    (forall p t f u i, In (Derives p t f) d -> In (Thing p u i) E -> ok u t = true) ->
    exists w', match e with
               | None => exists b', exec w (Builder (Some x) (Some x) []) l = Ret w' b' /\ stands w' b' (ends q q [] l)
               | Some y => exec w (Builder (Some x) (Some x) []) l = Throw y w'
               end /\ kept w w' /\ Inv w' (r ++ D).
  Proof.
    intros HT HC Hx Hq I CA HD HR HDF HdF AW HO. pose proof (cut_ready _ _ _ _ HC) as RD. destruct e as [e|].
    - destruct (cut_some _ _ _ _ HC) as (y & d2 & -> & HP). destruct (split_at _ _ _ _ _ _ _ HT) as (l1 & c & l2 & d1 & r1 & e2 & -> & H1 & -> & H2).
      apply ready_app in RD as [RD1 RD2]. rewrite exec_app. apply Forall_app in AW as [AW1 AW2]. apply Forall_app in AW1 as [AW1 AW1'].
      destruct (exec_away l1 q q [] d1 w D x x [] H1) as (w1 & b1 & -> & K1 & J1 & ST); auto.
      { intros z Hz. apply HR. apply in_app_iff. auto. }
      { intros z Hz. apply HdF. rewrite !in_app_iff. auto. }
      cbn [bind exec_with]. destruct (ends q q [] l1) as [[item cont] stack]. cbn [fst snd] in H2.
      destruct (stuck_away w1 (d1 ++ D) b1 c item cont stack r1 y e2 e J1) as (w' & -> & K' & J'); auto.
      { eapply calm_kept; [exact I|exact (v_wf _ _ _ _ J1)|exact K1|exact CA]. }
      { inversion AW2; assumption. }
      { intros z Hz. apply in_app_iff in Hz as [Hz|Hz]; [apply HR; apply in_app_iff; auto|auto]. }
      { intros z Hz. apply HR. apply in_app_iff. auto. }
      { rewrite <- HP. apply problem_ext. intro z. rewrite !in_app_iff. tauto. }
      { intros p t f u i -> Hin. apply (HO p t f u i); [|exact Hin]. apply in_app_iff. right. left. reflexivity. }
      exists w'. split; [reflexivity|]. split; [eapply kept_trans; eauto|]. eapply inv_more; [|exact J']. intro z. rewrite !in_app_iff. tauto.
    - rewrite (cut_none _ _ _ HC) in *. destruct (exec_away l q q [] d w D x x [] HT) as (w' & b' & R & K & J & ST); auto.
      exists w'. split; [eauto|]. auto.
  Qed.
End Calm.

(** ** What waits *)
Section Late.
  Variable ok : nat -> nat -> bool.
  Notation Inv := (OrderProofs.Inv ok DelayProofs.any).
  Definition due_at (w : world) (q : place) (d : list decl) : Prop :=
    exists a it l, sits w a q /\ get w a = Some it /\ i_def it = Some l /\ i_lock it = false /\ is_container (kind_at q) = true /\ tell q q [] l = Some d.
  Record Late (w : world) (m : mind) : Prop := {
    la_inv : Inv w (made m);
    la_pend : forall a it l, get w a = Some it -> i_def it = Some l -> i_lock it = false /\ exists q d, sits w a q /\ In (q, d) (waiting m);
    la_wait : forall q d, In (q, d) (waiting m) -> due_at w q d }.

  Lemma late_kept w w' m D' : Late w m -> kept w w' -> Inv w' D' -> Late w' (Mind D' (waiting m)).
  Proof.
    intros [I A B] (S & D0 & N) J. split; cbn [made waiting]; [exact J| |].
    - intros a it' l Hg Hd. destruct (get w a) as [it|] eqn:Eg; [|rewrite (N a it' Hg Eg) in Hd; discriminate Hd].
      destruct (D0 a it it' Eg Hg) as [E1 E2]. rewrite E1 in Hd. destruct (A a it l Eg Hd) as (H1 & q & d & H2 & H3). split; [congruence|]. exists q, d.
      split; [eapply stay_sits; eauto|exact H3].
    - intros q d Hin. destruct (B q d Hin) as (a & it & l & H1 & H2 & H3 & H4 & H5). destruct (S a it H2) as (it' & H2' & _). destruct (D0 a it it' H2 H2') as [E1 E2].
      exists a, it', l. split; [eapply stay_sits; eauto|]. split; [exact H2'|]. split; [congruence|]. split; [congruence|exact H5].
  Qed.
  Lemma late_calm w m : Late w m -> Calm (fun q => exists d, In (q, d) (waiting m)) w.
  Proof.
    intros [I A B] a it q Hg Hs. destruct (i_def it) as [l|] eqn:Ed; [|auto]. left. destruct (A a it l Hg Ed) as (_ & q' & d & Hs' & Hin). exists d.
    replace q with q'; [exact Hin|]. eapply sits_fun; eauto.
  Qed.
  Lemma apart_away W D d : apart W D d -> Forall (away (fun q => exists x, In (q, x) W) (d ++ D)) d.
  Proof.
    intros H. apply Forall_forall. intros x Hx. destruct x as [[|[c n] p] t i| | |]; cbn [away]; auto. split.
    - intros (y & Hy). destruct (H _ _ Hy) as (H1 & _). exact (H1 _ _ _ _ Hx).
    - intros Hc q HA (y & Hy). destruct (H _ _ Hy) as (_ & H2). exact (H2 c n p t i Hc Hx HA).
  Qed.

  Section Act.
    Variable k n : nat.
    Variable E : list decl.
    Hypothesis SE : sound E.
    Hypothesis TE : tree ok k E.
    Notation run := (ReflModel.run (S k) ok).

    Lemma chain_late w m l d r e : Late w m -> apart (waiting m) (made m) d -> told_by l = Some d -> cut (made m) d = (r, e) -> incl (r ++ made m) E ->
      (forall p t f u i, In (Derives p t f) d -> In (Thing p u i) E -> ok u t = true) ->
      exists w', match e with
                 | None => exists b', exec_with (run n) (S k) ok (fun w p => run n w 0 p) w (on 0) l = Ret w' b' /\ stands w' b' (ends [] [] [] l)
                 | Some y => exec_with (run n) (S k) ok (fun w p => run n w 0 p) w (on 0) l = Throw y w'
                 end /\ Late w' (Mind (r ++ made m) (waiting m)).
    Proof.
      intros L DI HT HC HE HO. pose proof (apart_away _ _ _ DI) as AW. pose proof (la_inv _ _ L) as I. pose proof (late_calm _ _ L) as CA.
      destruct (cut_away ok (run n) k E SE TE _ (d ++ made m) (fun w p => run n w 0 p) w (made m) 0 [] l d r e HT HC (sits_global w) eq_refl I CA) as (w' & R & K & J);
        try exact AW; try exact HO; try (intros x Hx; (apply HE || idtac); rewrite ?in_app_iff; auto; fail).
      exists w'. split; [exact R|]. eapply late_kept; eauto.
    Qed.

    (** A deferred definition for the container at [p]. *)
    Lemma defer_late w m o p l d : Late w m -> sits w o p -> is_container (kind_at p) = true -> tell p p [] l = Some d ->
      match waits p m with
      | Some _ => set_deferred w o l = Throw Redefinition w
      | None => exists w', set_deferred w o l = Ret w' tt /\ Late w' (Mind (made m) ((p, d) :: waiting m))
      end.
    Proof.
      intros L Ho Hc HT. pose proof (la_inv _ _ L) as I. destruct (sits_get ok w o p (v_wf _ _ _ _ I) Ho) as (it & Hg & Hk). unfold set_deferred. rewrite Hg. unfold waits.
      destruct (find (fun x => same_place (fst x) p) (waiting m)) as [[q d']|] eqn:F; cbn [option_map].
      - apply find_some in F as [Hin Hq]. cbn in Hq. apply same_place_eq in Hq. subst q. destruct (la_wait _ _ L p d' Hin) as (a & at' & l' & Sa & Ga & Da & _).
        assert (a = o) by (eapply sits_inj; [exact (v_wf _ _ _ _ I)|eauto|eauto]). subst a. assert (at' = it) by congruence. subst at'. rewrite Da. reflexivity.
      - destruct (i_def it) as [l'|] eqn:Ed.
        { exfalso. destruct (la_pend _ _ L o it l' Hg Ed) as (_ & q & d' & Sq & Hin). assert (q = p) by (eapply sits_fun; eauto). subst q.
          pose proof (find_none _ _ F _ Hin) as X. cbn in X. assert (same_place p p = true) by (apply same_place_eq; reflexivity). congruence. }
        assert (El : i_lock it = false).
        { destruct (i_lock it) eqn:X; [|reflexivity]. exfalso. apply (l_lock _ _ _ _ (wf_local _ _ _ _ (v_wf _ _ _ _ I) o it Hg) X). exact Ed. }
        set (w1 := upd w o (accept_def l)). exists w1. split; [reflexivity|].
        assert (Hp : prim false false ok w w1). { eapply PDef; eauto; [rewrite Hk; exact Hc|split; discriminate]. }
        pose proof (prim_wf _ _ _ _ _ (v_wf _ _ _ _ I) Hp) as W1.
        assert (KB : keeps (accept_def l)) by (intro; repeat split).
        assert (G1 : forall x, x <> o -> get w1 x = get w x) by (intros; apply upd_off; assumption).
        assert (GO : get w1 o = Some (accept_def l it)) by (apply upd_at; exact Hg).
        assert (HS : forall x q, sits w1 x q <-> sits w x q) by (intros; apply sits_upd; exact KB).
        split; cbn [made waiting].
        + apply inv_def; auto.
        + intros a at' la Ga Da. destruct (Nat.eq_dec a o) as [->|Hne].
          * rewrite GO in Ga. injection Ga as <-. split; [exact El|]. exists p, d. split; [apply HS; exact Ho|left; reflexivity].
          * rewrite (G1 a Hne) in Ga. destruct (la_pend _ _ L a at' la Ga Da) as (H1 & q & d' & H2 & H3). split; [exact H1|]. exists q, d'. split; [apply HS; exact H2|right; exact H3].
        + intros q d' [H|H].
          * injection H as <- <-. exists o, (accept_def l it), l. split; [apply HS; exact Ho|]. split; [exact GO|]. split; [reflexivity|]. split; [exact El|]. auto.
          * destruct (la_wait _ _ L q d' H) as (a & at' & l' & Sa & Ga & Da & La). assert (Hne : a <> o) by (intros ->; congruence).
            exists a, at', l'. rewrite (G1 a Hne). split; [apply HS; exact Sa|auto].
    Qed.

    (** The first look into a container. *)
    Lemma look_late w m x p r e : Late w m -> sits w x p -> apart (forgotten p (waiting m)) (made m) (due p m) -> cut (made m) (due p m) = (r, e) -> incl (r ++ made m) E ->
      fits ok E (due p m) ->
      exists w', match e with None => check (run (S n)) w x = Ret w' tt | Some y => check (run (S n)) w x = Throw y w' end /\
        Late w' (Mind (r ++ made m) (forgotten p (waiting m))) /\ sits w' x p.
    Proof.
      intros L Hx DI HC HE HO. pose proof (la_inv _ _ L) as I. pose proof (v_wf _ _ _ _ I) as W. destruct (sits_get ok w x p W Hx) as (it & Hg & Hk).
      pose proof (apart_away _ _ _ DI) as AW. remember (due p m) as d eqn:HS. unfold due, waits in HS. symmetry in HS.
      destruct (find (fun z => same_place (fst z) p) (waiting m)) as [[q d']|] eqn:F; cbn [option_map snd] in HS.
      - subst d'. apply find_some in F as [Hin Hq]. cbn in Hq. apply same_place_eq in Hq. subst q.
        destruct (la_wait _ _ L p d Hin) as (a & at' & l & Sa & Ga & Da & La & Ca & Ta). assert (a = x) by (eapply sits_inj; eauto). subst a. assert (at' = it) by congruence. subst at'.
        set (w0 := upd w x begin_def).
        assert (Hp : prim false false ok w w0) by (eapply PBegin; eauto). pose proof (prim_wf _ _ _ _ _ W Hp) as W0.
        assert (KB : keeps begin_def) by (intro; repeat split).
        assert (HS0 : forall y q, sits w0 y q <-> sits w y q) by (intros; apply sits_upd; exact KB).
        assert (G0 : forall y, y <> x -> get w0 y = get w y) by (intros; apply upd_off; assumption).
        assert (GA : get w0 x = Some (begin_def it)) by (apply upd_at; exact Hg).
        assert (I0 : Inv w0 (made m)) by (apply inv_def; auto).
        assert (OTHER : forall y q z, In (q, z) (waiting m) -> sits w y q -> y <> x -> In (q, z) (forgotten p (waiting m))).
        { intros y q z H Hs Hne. unfold forgotten. apply filter_In. split; [exact H|]. cbn. destruct (same_place q p) eqn:X; [|reflexivity]. exfalso. apply same_place_eq in X. subst q.
          apply Hne. exact (sits_inj ok w W p y x Hs Hx). }
        assert (C0 : Calm (fun q => exists z, In (q, z) (forgotten p (waiting m))) w0).
        { intros y yt q Hy Hs. apply HS0 in Hs. destruct (Nat.eq_dec y x) as [->|Hne]; [rewrite GA in Hy; injection Hy as <-; right; right; reflexivity|].
          rewrite (G0 y Hne) in Hy. destruct (i_def yt) as [ly|] eqn:Ey; [|auto]. left. destruct (la_pend _ _ L y yt ly Hy Ey) as (_ & q' & z & Hs' & Hz).
          assert (q' = q) by (eapply sits_fun; eauto). subst q'. exists z. eapply OTHER; eauto. }
        assert (S0 : sits w0 x p) by (apply HS0; exact Hx).
        destruct (cut_away ok (run n) k E SE TE _ (d ++ made m) (fun w p => run n w 0 p) w0 (made m) x p l d r e Ta HC S0 Ca I0 C0) as (w1 & R & K & J);
          try exact AW; try exact HO; try (intros z Hz; (apply HE || idtac); rewrite ?in_app_iff; auto; fail).
        destruct K as (ST & DK & NK). destruct (ST x _ GA) as (xt & Gx & _). destruct (DK x _ xt GA Gx) as [_ Lx]. cbn in Lx.
        set (w2 := upd w1 x end_def). assert (Hp2 : prim false false ok w1 w2) by (eapply PEnd; eauto). pose proof (prim_wf _ _ _ _ _ (v_wf _ _ _ _ J) Hp2) as W2.
        assert (KE : keeps end_def) by (intro; repeat split).
        assert (HS2 : forall y q, sits w2 y q <-> sits w1 y q) by (intros; apply sits_upd; exact KE).
        assert (G2 : forall y, y <> x -> get w2 y = get w1 y) by (intros; apply upd_off; assumption).
        assert (GX2 : get w2 x = Some (end_def xt)) by (apply upd_at; exact Gx).
        exists w2. split; [|split].
        + unfold check. rewrite Hg, Da, La. fold w0. cbn [ReflModel.run]. unfold on. destruct e as [y|]; [rewrite R; reflexivity|]. destruct R as (b' & R & _). rewrite R. reflexivity.
        + split; cbn [made waiting].
          * apply inv_def; auto.
          * intros y yt ly Hy Ey. destruct (Nat.eq_dec y x) as [->|Hne]; [rewrite GX2 in Hy; injection Hy as <-; discriminate Ey|]. rewrite (G2 y Hne) in Hy.
            destruct (get w0 y) as [y0|] eqn:E0; [|rewrite (NK y yt Hy E0) in Ey; discriminate Ey]. destruct (DK y y0 yt E0 Hy) as [E1 E2]. rewrite E1 in Ey. rewrite (G0 y Hne) in E0.
            destruct (la_pend _ _ L y y0 ly E0 Ey) as (H1 & q & z & H2 & H3). split; [congruence|]. exists q, z. split; [|eapply OTHER; eauto].
            apply HS2. eapply stay_sits; [exact ST|]. apply HS0. exact H2.
          * intros q z Hin'. unfold forgotten in Hin'. apply filter_In in Hin' as [Hin' Hne']. cbn in Hne'.
            destruct (la_wait _ _ L q z Hin') as (y & yt & ly & Sy & Gy & Dy & Ly & Cy & Ty).
            assert (Hne : y <> x). { intros ->. assert (q = p) by exact (sits_fun w x p Hx q Sy). subst q. assert (X : same_place p p = true) by (apply same_place_eq; reflexivity). rewrite X in Hne'. discriminate Hne'. }
            rewrite <- (G0 y Hne) in Gy. destruct (ST y yt Gy) as (y1 & Gy1 & _). destruct (DK y yt y1 Gy Gy1) as [E1 E2]. rewrite <- (G2 y Hne) in Gy1.
            exists y, y1, ly. split; [apply HS2; eapply stay_sits; [exact ST|]; apply HS0; exact Sy|]. split; [exact Gy1|]. split; [congruence|]. split; [congruence|]. auto.
        + apply HS2. eapply stay_sits; [exact ST|exact S0].
      - subst d. cbn [cut] in HC. injection HC as <- <-. cbn [app]. exists w.
        assert (FO : forgotten p (waiting m) = waiting m).
        { unfold forgotten. clear - F. induction (waiting m) as [|z l IH]; [reflexivity|]. cbn in *. destruct (same_place (fst z) p); [discriminate F|]. cbn. f_equal. apply IH. exact F. }
        split; [|split; [rewrite FO; destruct m; exact L|exact Hx]]. unfold check. rewrite Hg. destruct (i_def it) as [l'|] eqn:Ed; [|reflexivity]. exfalso.
        destruct (la_pend _ _ L x it l' Hg Ed) as (_ & q & d' & Sq & Hin). assert (q = p) by (eapply sits_fun; eauto). subst q.
        pose proof (find_none _ _ F _ Hin) as X. cbn in X. assert (same_place p p = true) by (apply same_place_eq; reflexivity). congruence.
    Qed.
    Lemma known_inv w D p : Inv w D -> (known D p <-> exists x, sits w x p).
    Proof.
      intros I. destruct p as [|c p]; [split; [exists 0; constructor|left; reflexivity]|]. split.
      - intros [X|(t & i & H)]; [discriminate X|]. apply (v_thing _ _ _ _ I) in H as (x & it & _ & Hs & _). eauto.
      - intros (x & H). right. destruct c as [c m]. exact (thing_in ok any w D x _ I (sits_cons_nz _ _ _ _ _ H) H).
    Qed.

    Lemma waits_nowhere w m p : Late w m -> (forall x, ~ sits w x p) -> due p m = [] /\ forgotten p (waiting m) = waiting m.
    Proof.
      intros L NO. assert (WN : find (fun z => same_place (fst z) p) (waiting m) = None).
      { destruct (find (fun z => same_place (fst z) p) (waiting m)) as [[q z]|] eqn:X; [|reflexivity]. exfalso. apply find_some in X as [Hin Hq]. cbn in Hq. apply same_place_eq in Hq. subst q.
        destruct (la_wait _ _ L p z Hin) as (y & _ & _ & Sy & _). eapply NO; eauto. }
      unfold due, waits. rewrite WN. split; [reflexivity|]. unfold forgotten. clear - WN. induction (waiting m) as [|z l IH]; [reflexivity|]. cbn in *.
      destruct (same_place (fst z) p); [discriminate WN|]. cbn. f_equal. apply IH. exact WN.
    Qed.
    Lemma open1_more m p : incl (made m) (made (fst (open1 m p))) /\ incl (waiting (fst (open1 m p))) (waiting m).
    Proof. unfold open1. destruct (cut (made m) (due p m)) as [r e]. cbn. split; [apply incl_appr; apply incl_refl|]. intros x Hx. apply filter_In in Hx. apply Hx. Qed.
    Lemma opened_more ps : forall m, incl (made m) (made (fst (opened m ps))) /\ incl (waiting (fst (opened m ps))) (waiting m).
    Proof.
      induction ps as [|p ps IH]; intro m; [split; apply incl_refl|]. cbn [opened]. destruct (open1_more m p) as [A B]. destruct (open1 m p) as [m1 [e|]]; cbn [fst] in *; [auto|].
      destruct (IH m1) as [A' B']. split; eapply incl_tran; eauto.
    Qed.
    Lemma opened_app ps1 : forall m ps2, opened m (ps1 ++ ps2) = match opened m ps1 with (m1, None) => opened m1 ps2 | x => x end.
    Proof. induction ps1 as [|p ps1 IH]; intros m ps2; [reflexivity|]. cbn [app opened]. destruct (open1 m p) as [m1 [e|]]; [reflexivity|apply IH]. Qed.
    Lemma openly_app ps1 : forall m ps2, openly m (ps1 ++ ps2) -> openly m ps1 /\ match opened m ps1 with (m1, None) => openly m1 ps2 | _ => True end.
    Proof.
      induction ps1 as [|p ps1 IH]; intros m ps2 H; [split; [exact I|exact H]|]. cbn [app openly opened] in *. destruct H as [H1 H2]. destruct (open1 m p) as [m1 [e|]]; [auto|].
      destruct (IH m1 ps2 H2) as [A B]. auto.
    Qed.
    Lemma due_fits m p : (forall q d, In (q, d) (waiting m) -> fits ok E d) -> fits ok E (due p m).
    Proof.
      intro H. unfold due, waits. destruct (find (fun z => same_place (fst z) p) (waiting m)) as [[q z]|] eqn:X; cbn; [|intros p' t f u i []].
      apply find_some in X as [X _]. eapply H; eauto.
    Qed.

    (** Looking into the container [x] at [p], or nowhere. *)
    Lemma open_late w m x p m1 e : Late w m -> sits w x p -> openly m [p] -> open1 m p = (m1, e) -> incl (made m1) E -> (forall q d, In (q, d) (waiting m) -> fits ok E d) ->
      exists w', match e with None => check (run (S n)) w x = Ret w' tt /\ check (run (S n)) w' x = Ret w' tt | Some y => check (run (S n)) w x = Throw y w' end /\
        Late w' m1 /\ sits w' x p.
    Proof.
      intros L Hx [DI _] HO HE HF. unfold open1 in HO. destruct (cut (made m) (due p m)) as [r e0] eqn:HC. injection HO as <- <-.
      destruct (look_late w m x p r e0 L Hx DI HC HE (due_fits m p HF)) as (w' & R & L' & Hx'). exists w'. split; [|auto]. destruct e0 as [y|]; [exact R|]. split; [exact R|].
      apply (check_here ok (run (S n)) _ w' _ x p (la_inv _ _ L') (late_calm _ _ L') Hx'). cbn [waiting]. intros (z & Hz). unfold forgotten in Hz. apply filter_In in Hz as [_ Hz].
      cbn in Hz. assert (X : same_place p p = true) by (apply same_place_eq; reflexivity). rewrite X in Hz. discriminate Hz.
    Qed.
    Lemma open_none w m p : Late w m -> (forall x, ~ sits w x p) -> open1 m p = (m, None).
    Proof. intros L NO. destruct (waits_nowhere w m p L NO) as [A B]. unfold open1. rewrite A, B. cbn. destruct m; reflexivity. Qed.

    Lemma seek_late w m : Late w m -> (forall q d, In (q, d) (waiting m) -> fits ok E d) -> forall p m1 e, openly m (path p) -> opened m (path p) = (m1, e) -> incl (made m1) E ->
      exists w1, match e with
                 | Some y => seek (run (S n)) w p = Throw y w1
                 | None => exists r, seek (run (S n)) w p = Ret w1 r /\ forall x, r = Some x <-> sits w1 x p
                 end /\ Late w1 m1.
    Proof.
      intros L HF. induction p as [|[c s] p IH]; intros m1 e HO HP HE.
      - injection HP as <- <-. exists w. split; [|exact L]. exists (Some 0). split; [reflexivity|]. intro x. split; [intros [= <-]; constructor|]. intro H. inversion H; subst. reflexivity.
      - cbn [path] in HO, HP. apply openly_app in HO as [O1 O2]. rewrite opened_app in HP. destruct (opened m (path p)) as [m0 [y|]] eqn:H0.
        + injection HP as <- <-. destruct (IH m0 (Some y) O1 eq_refl HE) as (w1 & R & L1). exists w1. split; [|exact L1]. cbn [seek]. rewrite R. reflexivity.
        + cbn [opened] in HP. assert (HP' : open1 m0 p = (m1, e)) by (destruct (open1 m0 p) as [m2 [z|]]; exact HP). clear HP.
          assert (HE0 : incl (made m0) E) by (eapply incl_tran; [|exact HE]; pose proof (proj1 (open1_more m0 p)) as X; rewrite HP' in X; exact X).
          destruct (IH m0 None O1 eq_refl HE0) as (w1 & (r & R & F) & L1). cbn [seek]. rewrite R. cbn [bind].
          assert (HF0 : forall q d, In (q, d) (waiting m0) -> fits ok E d).
          { intros q d Hq. apply (HF q d). pose proof (proj2 (opened_more (path p) m)) as X. rewrite H0 in X. exact (X _ Hq). }
          destruct r as [o|].
          * assert (Ho : sits w1 o p) by (apply F; reflexivity). destruct (open_late w1 m0 o p m1 e L1 Ho O2 HP' HE HF0) as (w2 & R2 & L2 & Ho2). destruct e as [y|].
            -- exists w2. split; [|exact L2]. unfold get_item. rewrite R2. reflexivity.
            -- destruct R2 as [K1 K2]. rewrite (get_item_settled (run (S n)) w1 w2 o c s K1 K2). pose proof (la_inv _ _ L2) as I2. destruct (String.eqb_spec s "") as [->|Hs].
               ++ unfold get_item. rewrite K2. cbn [bind]. exists (touch w2 (o, LList c)). assert (J : Inv (touch w2 (o, LList c)) (made m1)) by (apply inv_marked; exact I2).
                  split; [|destruct m1; exact (late_kept w2 _ _ _ L2 (kept_marked w2 _) J)]. eexists. split; [reflexivity|]. intro x. split; [discriminate|]. intro H. exfalso.
                  destruct (sits_under _ _ _ _ _ H) as (o' & it & _ & Hg & _ & Hn & _). destruct (v_calm _ _ _ _ J x it Hg) as (_ & X). congruence.
               ++ destruct (get_item_calm ok any (run (S n)) w2 (made m1) o p c s I2 Ho2 K2 Hs) as (b & r & -> & F2). exists (marked w2 b).
                  split; [|destruct m1; exact (late_kept w2 _ _ _ L2 (kept_marked w2 b) (inv_marked _ _ _ _ b I2))]. exists r. split; [reflexivity|]. intro x. rewrite F2. symmetry. split; apply sits_same; reflexivity.
          * assert (NO : forall x, ~ sits w1 x p) by (intros x H; apply F in H; discriminate H). rewrite (open_none w1 m0 p L1 NO) in HP'. injection HP' as <- <-.
            exists w1. split; [|exact L1]. exists None. split; [reflexivity|]. intro x. split; [discriminate|]. intro H.
            destruct (sits_under _ _ _ _ _ H) as (o & _ & _ & _ & _ & _ & _ & Ho). exfalso. eapply NO; eauto.
    Qed.

    (** Questions that look into nothing further. *)
    Lemma seeking_late w m p m1 e f P : Late w m -> (forall q d, In (q, d) (waiting m) -> fits ok E d) -> openly m (path p) -> opened m (path p) = (m1, e) -> incl (made m1) E ->
      (forall w1 x, Late w1 m1 -> sits w1 x p -> known (made m1) p -> exists w2 r, f w1 x = Ret w2 r /\ Late w2 m1 /\ P r) ->
      (forall w1, Late w1 m1 -> ~ known (made m1) p -> P Missing) ->
      exists w', ended e w' (seeking (run (S n)) w p f) P /\ Late w' m1.
    Proof.
      intros L HF HO HP HE H1 H2. destruct (seek_late w m L HF p m1 e HO HP HE) as (w1 & R & L1). unfold seeking. destruct e as [y|].
      - exists w1. rewrite R. split; [reflexivity|exact L1].
      - destruct R as (r & R & F). rewrite R. cbn [bind]. pose proof (known_inv w1 _ p (la_inv _ _ L1)) as K. destruct r as [x|].
        + assert (Hx : sits w1 x p) by (apply F; reflexivity). destruct (H1 w1 x L1 Hx) as (w2 & r & E2 & L2 & Pr); [apply K; eauto|]. exists w2. split; [exists r; auto|exact L2].
        + exists w1. split; [|exact L1]. exists Missing. split; [reflexivity|]. apply (H2 w1 L1). intro X. apply K in X as (x & Hx). apply F in Hx. discriminate Hx.
    Qed.
    Lemma check_items w m x : Late w m -> check_item (run (S n)) w x = check (run (S n)) w x.
    Proof.
      intros L. unfold check_item. destruct (get w x) as [it|] eqn:Hg; [|unfold check; rewrite Hg; reflexivity]. destruct (is_container (i_cat it)) eqn:Hc; [reflexivity|]. unfold check. rewrite Hg. destruct (i_def it) as [l|] eqn:Ed; [|reflexivity]. exfalso.
      destruct (la_pend _ _ L x it l Hg Ed) as (_ & q & d & Sq & Hin). destruct (la_wait _ _ L q d Hin) as (y & yt & ly & Sy & Gy & _ & _ & Cy & _).
      pose proof (v_wf _ _ _ _ (la_inv _ _ L)) as W. assert (y = x) by exact (sits_inj ok w W q y x Sy Sq). subst y.
      destruct (sits_get ok w x q W Sq) as (it2 & Hg2 & Hk2). congruence.
    Qed.
    (** Questions that look into what they find. *)
    Lemma asking_late w m p m1 e f g P : Late w m -> (forall q d, In (q, d) (waiting m) -> fits ok E d) -> openly m (path p ++ [p]) -> opened m (path p ++ [p]) = (m1, e) -> incl (made m1) E ->
      (forall w1 w2 m0 x, Late w1 m0 -> Late w2 m1 -> sits w1 x p -> sits w2 x p -> check (run (S n)) w1 x = Ret w2 tt -> check (run (S n)) w2 x = Ret w2 tt -> f w1 x = g w2 x) ->
      (forall w1 w2 m0 x y, Late w1 m0 -> sits w1 x p -> check (run (S n)) w1 x = Throw y w2 -> f w1 x = Throw y w2) ->
      (forall w1 x, e = None -> Late w1 m1 -> sits w1 x p -> known (made m1) p -> exists w2 r, g w1 x = Ret w2 r /\ Late w2 m1 /\ P r) ->
      (forall w1, Late w1 m1 -> ~ known (made m1) p -> P Missing) ->
      exists w', ended e w' (seeking (run (S n)) w p f) P /\ Late w' m1.
    Proof.
      intros L HF HO HP HE Hf Hy H1 H2. apply openly_app in HO as [O1 O2]. rewrite opened_app in HP. unfold seeking. destruct (opened m (path p)) as [m0 [y|]] eqn:H0.
      - injection HP as <- <-. destruct (seek_late w m L HF p m0 (Some y) O1 H0 HE) as (w1 & R & L1). exists w1. rewrite R. split; [reflexivity|exact L1].
      - cbn [opened] in HP. assert (HP' : open1 m0 p = (m1, e)) by (destruct (open1 m0 p) as [m2 [z|]]; exact HP). clear HP.
        assert (HE0 : incl (made m0) E) by (eapply incl_tran; [|exact HE]; pose proof (proj1 (open1_more m0 p)) as X; rewrite HP' in X; exact X).
        assert (HF0 : forall q d, In (q, d) (waiting m0) -> fits ok E d).
        { intros q d Hq. apply (HF q d). pose proof (proj2 (opened_more (path p) m)) as X. rewrite H0 in X. exact (X _ Hq). }
        destruct (seek_late w m L HF p m0 None O1 H0 HE0) as (w1 & (r & R & F) & L1). rewrite R. cbn [bind]. destruct r as [x|].
        + assert (Hx : sits w1 x p) by (apply F; reflexivity). destruct (open_late w1 m0 x p m1 e L1 Hx O2 HP' HE HF0) as (w2 & R2 & L2 & Hx2). destruct e as [y|].
          * exists w2. rewrite (Hy w1 w2 m0 x y L1 Hx R2). split; [reflexivity|exact L2].
          * destruct R2 as [R2 R3']. rewrite (Hf w1 w2 m0 x L1 L2 Hx Hx2 R2 R3'). destruct (H1 w2 x eq_refl L2 Hx2) as (w3 & r & R3 & L3 & Pr); [apply (known_inv w2 _ p (la_inv _ _ L2)); eauto|].
            exists w3. split; [exists r; auto|exact L3].
        + assert (NO : forall x, ~ sits w1 x p) by (intros x H; apply F in H; discriminate H). rewrite (open_none w1 m0 p L1 NO) in HP'. injection HP' as <- <-.
          exists w1. split; [|exact L1]. exists Missing. split; [reflexivity|]. apply (H2 w1 L1). intro X. apply (known_inv w1 _ p (la_inv _ _ L1)) in X as (x & Hx). eapply NO; eauto.
    Qed.
    Lemma late_touched w m x : Late w m -> Late (touch w x) m.
    Proof. intro L. destruct m. exact (late_kept w _ _ _ L (kept_marked w _) (inv_marked _ _ _ _ _ (la_inv _ _ L))). Qed.
    Lemma attrs_late w m x p : Late w m -> sits w x p -> exists it, get w x = Some it /\ nv_ok (i_attrs it) /\ forall s v, In (Attribute p s v) (made m) <-> val (i_attrs it) s = Some v.
    Proof.
      intros L Hs. pose proof (la_inv _ _ L) as I. destruct (sits_get ok w x p (v_wf _ _ _ _ I) Hs) as (it & Hg & _).
      exists it. split; [exact Hg|]. split; [apply (l_attrs _ _ _ _ (wf_local _ _ _ _ (v_wf _ _ _ _ I) x it Hg))|]. intros s v. rewrite (v_attr _ _ _ _ I). split.
      - intros (y & yt & Sy & Hy & Hv). assert (y = x) by exact (sits_inj ok w (v_wf _ _ _ _ I) p y x Sy Hs). subst y. congruence.
      - intro Hv. exists x, it. auto.
    Qed.
    Lemma elems_late w m x p : Late w m -> sits w x p -> exists it, get w x = Some it /\ nv_ok (i_elems it) /\ forall s v, In (Element p s v) (made m) <-> val (i_elems it) s = Some v.
    Proof.
      intros L Hs. pose proof (la_inv _ _ L) as I. destruct (sits_get ok w x p (v_wf _ _ _ _ I) Hs) as (it & Hg & _).
      exists it. split; [exact Hg|]. split; [apply (l_elems _ _ _ _ (wf_local _ _ _ _ (v_wf _ _ _ _ I) x it Hg))|]. intros s v. rewrite (v_elem _ _ _ _ I). split.
      - intros (y & yt & Sy & Hy & Hv). assert (y = x) by exact (sits_inj ok w (v_wf _ _ _ _ I) p y x Sy Hs). subst y. congruence.
      - intro Hv. exists x, it. auto.
    Qed.

    (** Look-up of methods, in base classes too, none of which waits. *)
    Lemma method_find w m o p s args : Late w m -> incl (made m) E -> sits w o p -> (forall q x, q = p \/ ancestor (made m) p q -> ~ In (q, x) (waiting m)) ->
      exists l r, get_method (run (S n)) (S k) w o (signed s args) = Ret (marked w l) r /\
        match r with
        | Some x => exists q, (q = p \/ ancestor (made m) p q) /\ sits w x ((Method, signed s args) :: q)
        | None => forall x q, q = p \/ ancestor (made m) p q -> ~ sits w x ((Method, signed s args) :: q)
        end.
    Proof.
      intros L HE Hs NW. pose proof (la_inv _ _ L) as J. pose proof (late_calm _ _ L) as CA. destruct (h_rank _ _ _ TE) as (rank & RK0 & Hrk).
      assert (RK : ranked rank (made m)) by (intros x y H; apply RK0; eapply parent_incl; eauto). set (g := signed s args).
      assert (HP : In "("%char (txt g)) by (unfold g; rewrite <- signature_signed, txt_str; apply signature_has_paren).
      assert (AN : forall z, answers (txt z) (txt g) <-> z = g).
      { intro z. rewrite (answers_nonempty_sig _ _ HP). split; [intro H; apply txt_inj; symmetry; exact H|intros ->; reflexivity]. }
      unfold get_method. assert (Hq : (g =? "")%string = false) by (apply String.eqb_neq; apply signed_nonempty). rewrite Hq.
      destruct (sits_get ok w o p (v_wf _ _ _ _ J) Hs) as (it & Hg & Hk). rewrite Hg. set (own := fun w a => find_method (run (S n)) w a Method g).
      assert (OWN : forall v b q, twin v w -> sits w b q -> q = p \/ ancestor (made m) p q -> exists l r, own v b = Ret (marked v l) r /\ forall x, r = Some x <-> sits w x ((Method, g) :: q)).
      { intros v b q TW Sb HA. apply (find_method_twin ok any (run (S n)) v w _ b q Method g TW J Sb); [|intros; apply AN].
        eapply (check_away ok (run (S n)) _ w b q); eauto; [apply J|]. intros (x & Hx). exact (NW q x HA Hx). }
      destruct (cat_eqb (i_cat it) Class) eqn:EC.
      - destruct (dfs_find ok any rank w (made m) RK J own (fun b => match own w b with Ret _ r => r | _ => None end) k w o p (twin_refl w) Hs (Hrk p)) as (l & r & -> & F).
        { intros v b q TW Sb HA. destruct (OWN v b q TW Sb HA) as (l & r & -> & H1). destruct (OWN w b q (twin_refl w) Sb HA) as (l2 & r2 & -> & H2). exists l. f_equal.
          apply opt_eq. intro x. rewrite H1, H2. tauto. }
        exists l, r. split; [reflexivity|]. destruct r as [x|].
        + destruct F as (b & q & Sb & HA & Hx). destruct (OWN w b q (twin_refl w) Sb HA) as (l2 & r2 & E2 & H2). rewrite E2 in Hx. exists q. split; [exact HA|]. apply H2. exact Hx.
        + intros x q HA Sx. destruct (sits_under _ _ _ _ _ Sx) as (b & _ & _ & _ & _ & _ & _ & Sb). specialize (F b q Sb HA).
          destruct (OWN w b q (twin_refl w) Sb HA) as (l2 & r2 & E2 & H2). rewrite E2 in F. apply H2 in Sx. congruence.
      - destruct (OWN w o p (twin_refl w) Hs (or_introl eq_refl)) as (l & r & E1 & H1). exists l, r. split; [exact E1|]. destruct r as [x|].
        + exists p. split; [left; reflexivity|]. apply H1. reflexivity.
        + intros x q [->|HA] Sx; [apply H1 in Sx; discriminate|]. pose proof (no_bases ok any w _ p q J HA) as X. rewrite <- Hk in X. rewrite X in EC. discriminate EC.
    Qed.
    Lemma get_method_late w w1 m m1 p o g : Late w m -> Late w1 m1 -> sits w o p -> sits w1 o p -> g <> ""%string -> check (run (S n)) w o = Ret w1 tt -> check (run (S n)) w1 o = Ret w1 tt ->
      get_method (run (S n)) (S k) w o g = get_method (run (S n)) (S k) w1 o g.
    Proof.
      intros L L1 S0 S1 Hm H1 H2. destruct (sits_get ok w o p (v_wf _ _ _ _ (la_inv _ _ L)) S0) as (it & Hg & Hc). destruct (sits_get ok w1 o p (v_wf _ _ _ _ (la_inv _ _ L1)) S1) as (it1 & Hg1 & Hc1).
      unfold get_method. rewrite Hg, Hg1, Hc, Hc1. apply String.eqb_neq in Hm. rewrite Hm. destruct (cat_eqb (kind_at p) Class); [|apply find_method_settled; assumption].
      apply dfs_settled. apply find_method_settled; assumption.
    Qed.
    Lemma get_method_throw w w1 m p o g y : Late w m -> sits w o p -> g <> ""%string -> check (run (S n)) w o = Throw y w1 -> get_method (run (S n)) (S k) w o g = Throw y w1.
    Proof.
      intros L S0 Hm H1. destruct (sits_get ok w o p (v_wf _ _ _ _ (la_inv _ _ L)) S0) as (it & Hg & Hc). unfold get_method. rewrite Hg. apply String.eqb_neq in Hm. rewrite Hm.
      destruct (cat_eqb (i_cat it) Class); [cbn [dfs]|]; unfold find_method; rewrite H1; reflexivity.
    Qed.
    (** A container that was looked into waits no more. *)
    Lemma opened_in ps : forall m m1 p, opened m (ps ++ [p]) = (m1, None) -> forall x, ~ In (p, x) (waiting m1).
    Proof.
      intros m m1 p H x Hx. rewrite opened_app in H. destruct (opened m ps) as [m0 [e|]]; [discriminate H|]. cbn [opened] in H.
      assert (m1 = fst (open1 m0 p)) by (destruct (open1 m0 p) as [m2 [z|]]; [discriminate H|]; injection H as <-; reflexivity). subst m1. clear H.
      unfold open1 in Hx. destruct (cut (made m0) (due p m0)) as [r e]. cbn [fst waiting] in Hx. unfold forgotten in Hx. apply filter_In in Hx as [_ Hx].
      cbn in Hx. assert (X : same_place p p = true) by (apply same_place_eq; reflexivity). rewrite X in Hx. discriminate Hx.
    Qed.
    Lemma ask_late w m q m1 e : Late w m -> (forall q d, In (q, d) (waiting m) -> fits ok E d) -> discreet m (Look q) -> opened m (opens q) = (m1, e) -> incl (made m1) E ->
      exists w', ended e w' (ask (run (S n)) (S k) w q) (true_of (made m1) q) /\ Late w' m1.
    Proof.
      intros L HF DI HP HE. destruct q as [p|p s args|p c|p s|p|p s|p]; cbn [ask discreet opens true_of] in *.
      - eapply seeking_late; eauto.
        + intros w1 x L1 Hx _. pose proof (la_inv _ _ L1) as I. destruct p as [|c p].
          * inversion Hx; subst. destruct (v_global _ _ _ _ I) as (g & Hg & _ & _ & E1 & E2). exists w1, (Found 0 0). unfold show. rewrite Hg, E1, E2. split; [reflexivity|]. split; [exact L1|reflexivity].
          * destruct (sits_get ok w1 x _ (v_wf _ _ _ _ I) Hx) as (it & Hg & _). unfold show. rewrite Hg. eexists _, _. split; [reflexivity|]. split; [exact L1|]. cbn [true_of truth thing].
            apply (v_thing _ _ _ _ I). exists x, it. split; [destruct c; exact (sits_cons_nz _ _ _ _ _ Hx)|auto].
        + intros w1 L1 NK. destruct p as [|c p]; [exfalso; apply NK; left; reflexivity|]. cbn [true_of truth thing]. intros t i H. apply NK. right. eauto.
      - destruct DI as [DI NW]. eapply asking_late with (g := fun w x => bind (get_method (run (S n)) (S k) w x (signed s args)) (fun w r => match r with None => Ret w Missing | Some z => show w z end)); eauto.
        + intros w1 w2 m0 x L1 L2 H1 H2 C1 C2. rewrite (get_method_late w1 w2 m0 m1 p x _ L1 L2 H1 H2 (signed_nonempty s args) C1 C2). reflexivity.
        + intros w1 w2 m0 x y L1 H1 C1. rewrite (get_method_throw w1 w2 m0 p x _ y L1 H1 (signed_nonempty s args) C1). reflexivity.
        + intros w1 x -> L1 Hx Kn. rewrite HP in NW.
          destruct (method_find w1 m1 x p s args L1 HE Hx) as (l & r & -> & F); [intros q z [->|HA]; [exact (opened_in _ _ _ _ HP z)|exact (NW q z HA)]|]. cbn [bind].
          pose proof (la_inv _ _ L1) as I. assert (L2 : Late (marked w1 l) m1) by (destruct m1; exact (late_kept w1 _ _ _ L1 (kept_marked w1 l) (inv_marked _ _ _ _ l I))).
          destruct r as [z|].
          * destruct F as (q & HA & Hz). destruct (sits_get ok w1 z _ (v_wf _ _ _ _ I) Hz) as (it & Hg & _). unfold show. change (get (marked w1 l) z) with (get w1 z). rewrite Hg.
            eexists _, _. split; [reflexivity|]. split; [exact L2|]. cbn. exists q. split; [exact HA|]. apply (v_thing _ _ _ _ I). exists z, it. split; [exact (sits_cons_nz _ _ _ _ _ Hz)|auto].
          * eexists _, _. split; [reflexivity|]. split; [exact L2|]. cbn. intros q t i HA Hin. apply (v_thing _ _ _ _ I) in Hin as (z & _ & _ & Hz & _). exact (F z q HA Hz).
        + intros w1 L1 NK q t i HA Hin. apply NK. pose proof (la_inv _ _ L1) as I. apply (known_inv w1 _ p I). destruct HA as [->|HA].
          * apply (v_thing _ _ _ _ I) in Hin as (z & _ & _ & Hz & _). destruct (sits_under _ _ _ _ _ Hz) as (o & _ & _ & _ & _ & _ & _ & Ho). eauto.
          * assert (Z : exists c, parent (made m1) p c) by (inversion HA; subst; eauto). destruct Z as (c & t' & f & n' & r & i' & _ & H & _).
            apply (v_base _ _ _ _ I) in H as (x & it & Sx & _). eauto.
      - eapply asking_late with (g := fun w x => Ret (touch w (x, LList c)) (Number (ml_size (list_of w x c)))); eauto.
        + intros w1 w2 m0 x _ _ _ _ C1 _. unfold get_count. rewrite C1. reflexivity.
        + intros w1 w2 m0 x y _ _ C1. unfold get_count. rewrite C1. reflexivity.
        + intros w1 x _ L1 Hx Kn. cbn beta. eexists _, _. split; [reflexivity|]. split; [apply late_touched; exact L1|]. cbn [true_of truth]. split; [exact Kn|]. pose proof (la_inv _ _ L1) as I.
          destruct (sits_get ok w1 x p (v_wf _ _ _ _ I) Hx) as (it & Hg & _). unfold list_of. rewrite Hg.
          destruct (listed_names ok any w1 _ x it p c I Hx Hg) as (N1 & M1). exists (map (names w1) (ml_items (i_list it c))). split; [exact N1|]. split; [apply map_length|exact M1].
      - eapply asking_late with (g := fun w x => said match get w x with None => UB | Some it => Ret (touch w (x, LAttrs)) (nv_ask (i_attrs it) (QOf s)) end); eauto.
        + intros w1 w2 m0 x L1 _ _ _ C1 _. unfold attr_query. rewrite (check_items w1 m0 x L1), C1. reflexivity.
        + intros w1 w2 m0 x y L1 _ C1. unfold attr_query. rewrite (check_items w1 m0 x L1), C1. reflexivity.
        + intros w1 x _ L1 Hx Kn. destruct (attrs_late w1 m1 x p L1 Hx) as (it & Hg & O & F). rewrite Hg. cbn [bind said nv_ask]. eexists _, _. split; [reflexivity|].
          split; [apply late_touched; exact L1|]. cbn [true_of truth]. split; [exact Kn|]. apply val_value; [exact O|]. intro v. apply F.
      - eapply asking_late with (g := fun w x => said match get w x with None => UB | Some it => Ret (touch w (x, LAttrs)) (nv_ask (i_attrs it) QCount) end); eauto.
        + intros w1 w2 m0 x L1 _ _ _ C1 _. unfold attr_query. rewrite (check_items w1 m0 x L1), C1. reflexivity.
        + intros w1 w2 m0 x y L1 _ C1. unfold attr_query. rewrite (check_items w1 m0 x L1), C1. reflexivity.
        + intros w1 x _ L1 Hx Kn. destruct (attrs_late w1 m1 x p L1 Hx) as (it & Hg & O & F). rewrite Hg. cbn [bind said nv_ask]. eexists _, _. split; [reflexivity|].
          split; [apply late_touched; exact L1|]. cbn [true_of truth]. split; [exact Kn|]. apply nv_counts; [exact O|]. intro s. split; intros (v & H); exists v; apply F; exact H.
      - eapply seeking_late; eauto. intros w1 x L1 Hx Kn. destruct (elems_late w1 m1 x p L1 Hx) as (it & Hg & O & F). unfold elem_query. rewrite Hg. cbn [bind said nv_ask].
        eexists _, _. split; [reflexivity|]. split; [apply late_touched; exact L1|]. cbn [true_of truth]. split; [exact Kn|]. apply val_value; [exact O|]. intro v. apply F.
      - eapply seeking_late; eauto. intros w1 x L1 Hx Kn. destruct (elems_late w1 m1 x p L1 Hx) as (it & Hg & O & F). unfold elem_query. rewrite Hg. cbn [bind said nv_ask].
        eexists _, _. split; [reflexivity|]. split; [apply late_touched; exact L1|]. cbn [true_of truth]. split; [exact Kn|]. apply nv_counts; [exact O|]. intro s. split; intros (v & H); exists v; apply F; exact H.
    Qed.

    Lemma act_late w m s m1 e : Late w m -> discreet m s -> after m s = Some (m1, e) -> incl (made m1) E -> accepted ok E m s ->
      exists w1, does (S k) ok (S n) w (made m1) s e w1 /\ Late w1 m1.
    Proof.
      intros L DI HA HE HO. destruct s as [l|a l|q]; cbn [after accepted] in *.
      - destruct (told_by l) as [d|] eqn:HS; [|discriminate HA]. destruct (cut (made m) d) as [r e0] eqn:HC. injection HA as <- <-.
        destruct (chain_late w m l d r e0 L (DI d HS) HS HC HE (HO d eq_refl)) as (w1 & R & L1). exists w1. split; [|exact L1]. cbn [does ReflModel.run]. unfold ended.
        destruct e0 as [y|]; [rewrite R; reflexivity|]. destruct R as (b' & R & _). exists tt. rewrite R. auto.
      - destruct (told_by a) as [d|] eqn:HS; [|discriminate HA]. destruct (tell (spot a) (spot a) [] l) as [d2|] eqn:HR; [|discriminate HA].
        destruct (cut (made m) d) as [r e0] eqn:HC. assert (HM : made m1 = r ++ made m) by (destruct e0; [|destruct (waits (spot a) m)]; injection HA as <- _; reflexivity). rewrite HM in *.
        destruct (chain_late w m a d r e0 L (DI d HS) HS HC HE (HO d eq_refl)) as (w1 & R & L1). cbn [does ReflModel.run]. rewrite exec_app. destruct e0 as [y|].
        + injection HA as <- <-. exists w1. split; [rewrite R; reflexivity|exact L1].
        + destruct R as (b' & R & o1 & o & st & -> & _ & So & Co & _). rewrite R. cbn [bind exec_with step b_cont]. fold (spot a) in So, Co.
          pose proof (defer_late w1 (Mind (r ++ made m) (waiting m)) o (spot a) l d2 L1 So Co HR) as X. change (waits (spot a) (Mind (r ++ made m) (waiting m))) with (waits (spot a) m) in X.
          destruct (waits (spot a) m) as [z|]; injection HA as <- <-.
          * exists w1. unfold skip. rewrite X. split; [reflexivity|exact L1].
          * destruct X as (w2 & X & L2). exists w2. unfold skip. rewrite X. split; [exists tt; auto|exact L2].
      - injection HA as HA. exact (ask_late w m q m1 e L HO DI HA HE).
    Qed.

    Lemma after_more m s m1 e : after m s = Some (m1, e) -> incl (made m) (made m1).
    Proof.
      destruct s as [l|a l|q]; cbn [after]; intro H.
      - destruct (told_by l) as [d|]; [|discriminate H]. destruct (cut (made m) d) as [r e0]. injection H as <- _. apply incl_appr, incl_refl.
      - destruct (told_by a) as [d|]; [|discriminate H]. destruct (tell (spot a) (spot a) [] l); [|discriminate H]. destruct (cut (made m) d) as [r e0].
        destruct e0; [|destruct (waits (spot a) m)]; injection H as <- _; apply incl_appr, incl_refl.
      - injection H as H. pose proof (proj1 (opened_more (opens q) m)) as X. rewrite H in X. exact X.
    Qed.
    Lemma outcome_more : forall h m m' es, outcome m h = Some (m', es) -> incl (made m) (made m').
    Proof.
      induction h as [|s h IH]; intros m m' es H; [injection H as <- _; apply incl_refl|]. cbn [outcome] in H. destruct (after m s) as [[m1 e]|] eqn:A; [|discriminate H].
      destruct (outcome m1 h) as [[m2 es2]|] eqn:O; [|discriminate H]. injection H as <- _. eapply incl_tran; [eapply after_more; eauto|eapply IH; eauto].
    Qed.
    Lemma acts_late : forall h w m m' es, Late w m -> outcome m h = Some (m', es) -> discreetly m h -> all_accepted ok E m h -> incl (made m') E ->
      exists w', lived (S k) ok (S n) w m h es w' /\ Late w' m'.
    Proof.
      induction h as [|s h IH]; intros w m m' es L H DI HO HE; [injection H as <- <-; exists w; split; [reflexivity|exact L]|].
      cbn [outcome discreetly all_accepted] in *. destruct (after m s) as [[m1 e]|] eqn:A; [|discriminate H].
      destruct (outcome m1 h) as [[m2 es2]|] eqn:O; [|discriminate H]. injection H as <- <-. destruct DI as [D1 D2]. destruct HO as [O1 O2]. cbn [fst] in HE.
      destruct (act_late w m s m1 e L D1 A) as (w1 & R & L1); [eapply incl_tran; [eapply outcome_more; eauto|exact HE]|exact O1|].
      destruct (IH w1 m1 m2 es2 L1 O D2 O2 HE) as (w2 & R2 & L2). exists w2. split; [cbn [lived snd]; eauto|exact L2].
    Qed.
  End Act.

  Lemma late0 : Late world0 (Mind [] []).
  Proof.
    split; cbn [made waiting]; [apply (inv0 ok any Logic.I)| |intros q d []]. intros a it l Hg Hd. exfalso.
    pose proof (proj1 (v_calm _ _ _ _ (inv0 ok none Q0) a it Hg)) as X. unfold none in X. congruence.
  Qed.
  Lemma late_done w m : Late w m -> waiting m = [] -> OrderProofs.Inv ok none w (made m).
  Proof.
    intros [I A B] E. destruct I as [I1 I2 I3 I4 I5 I6 I7 I8]. constructor; auto. intros a it Hg. split; [|apply (I2 a it Hg)]. unfold none.
    destruct (i_def it) as [l|] eqn:Ed; [|reflexivity]. exfalso. destruct (A a it l Hg Ed) as (_ & q & d & _ & Hin). rewrite E in Hin. exact Hin.
  Qed.
End Late.
