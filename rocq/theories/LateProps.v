(** C70: deferred definitions that name base classes or fail.
    A deferred definition runs when somebody first looks into its container, with the base classes registered by then. If it cannot
    be made, that look-up ends with its exception; what it stated before stays, the rest never appears, it does not run again. *)
From Coq Require Import List Bool Arith Lia String Ascii Permutation.
From Verif Require Import Util RegistryModel ListsModel ListsProofs StringsModel StringsSpec ReflModel ReflSpec ReflProofs OrderSpec OrderProofs OrderProps
  FailSpec FailProofs FailProps DelaySpec DelayProofs LateSpec LateProofs.
Import ListNotations.
Local Open Scope list_scope.
Local Open Scope string_scope.
Local Open Scope list_scope.

(** Each act ends as the statements say, questions are answered by what is stated by then, and when nothing waits any more the
    registry shows what was kept and nothing else. *)
Theorem C70_course ok k n h m es : outcome (Mind [] []) h = Some (m, es) -> discreetly (Mind [] []) h -> all_accepted ok (made m) (Mind [] []) h ->
  sound (made m) -> tree ok k (made m) ->
  exists w, lived (S k) ok (S n) world0 (Mind [] []) h es w /\
    (waiting m = [] -> shows (run (S k) ok n) w (made m) /\ kin (run (S k) ok n) (S k) w (made m)).
Proof.
  intros HO HD HA SM TM. destruct (acts_late ok k n (made m) SM TM h world0 (Mind [] []) m es (late0 ok) HO HD HA (incl_refl _)) as (w & R & L). exists w. split; [exact R|].
  intro E. pose proof (late_done ok w m L E) as I. split; [exact (shows_ok _ _ _ _ I)|exact (kin_ok _ _ _ _ _ TM I)].
Qed.
Print Assumptions C70_course.

(** Deferring leaves no trace: a program without deferred definitions that keeps the same leaves a registry no look-up tells apart. *)
Theorem C70_same ok k n h m es h' ds' : outcome (Mind [] []) h = Some (m, es) -> discreetly (Mind [] []) h -> all_accepted ok (made m) (Mind [] []) h ->
  sound (made m) -> tree ok k (made m) -> once (made m) -> waiting m = [] ->
  states h' ds' -> compiles ok ds' -> (forall d, In d (made m) <-> In d (kept_of ds')) ->
  exists w w', lived (S k) ok (S n) world0 (Mind [] []) h es w /\ attempted (S k) ok (S n) world0 h' (ends_of ds') w' /\ alike (run (S k) ok n) (S k) w w'.
Proof.
  intros HO HD HA SM TM ON E HS CK M. destruct (acts_late ok k n (made m) SM TM h world0 (Mind [] []) m es (late0 ok) HO HD HA (incl_refl _)) as (w & R & L).
  destruct (attempts_ok ok k n h' ds' HS (sound_ext _ _ M SM) (tree_ext _ _ _ _ M TM) CK) as (w' & A' & I'). exists w, w'. split; [exact R|]. split; [exact A'|].
  exact (alike_ok ok k _ w w' _ _ (late_done ok w m L E) I' TM ON M).
Qed.
Print Assumptions C70_same.

(** ** Everything deferred first, looked into later *)

Lemma outcome_app h1 : forall m h2, outcome m (h1 ++ h2) =
  match outcome m h1 with Some (m1, es1) => option_map (fun x => (fst x, es1 ++ snd x)) (outcome m1 h2) | None => None end.
Proof.
  induction h1 as [|s h1 IH]; intros m h2; [cbn; destruct (outcome m h2) as [[? ?]|]; reflexivity|]. cbn [app outcome]. destruct (after m s) as [[m1 e]|]; [|reflexivity].
  rewrite IH. destruct (outcome m1 h1) as [[m2 es2]|]; [|reflexivity]. cbn. destruct (outcome m2 h2) as [[m3 es3]|]; reflexivity.
Qed.
(** Definitions all of whose statements are there in the end are accepted. *)
Definition within (K : list decl) (s : act) : Prop :=
  match s with
  | Chain l => forall d, told_by l = Some d -> incl d K
  | Defer a l => (forall d, told_by a = Some d -> incl d K) /\ forall d, tell (spot a) (spot a) [] l = Some d -> incl d K
  | Look _ => True
  end.
Lemma tree_fits ok k K d : tree ok k K -> incl d K -> fits ok K d.
Proof. intros HT HI p t f u i Hd Hin. exact (h_ok _ _ _ HT p u i t f Hin (HI _ Hd)). Qed.
Lemma within_accepted ok k K : tree ok k K -> forall h m m' es, outcome m h = Some (m', es) -> Forall (within K) h -> (forall q d, In (q, d) (waiting m) -> incl d K) -> all_accepted ok K m h.
Proof.
  intro HT. induction h as [|s h IH]; intros m m' es HO HI HW; [exact I|]. cbn [outcome all_accepted] in *. destruct (after m s) as [[m1 e]|] eqn:A; [|discriminate HO].
  destruct (outcome m1 h) as [[m2 es2]|] eqn:O; [|discriminate HO]. inversion HI as [|s0 h0 H1 H2]; subst. split.
  - destruct s as [l|a l|q]; cbn [accepted within] in *.
    + intros d Hd. exact (tree_fits ok k K d HT (H1 d Hd)).
    + intros d Hd. exact (tree_fits ok k K d HT (proj1 H1 d Hd)).
    + intros p d Hd. exact (tree_fits ok k K d HT (HW p d Hd)).
  - eapply IH; eauto. clear HO O. destruct s as [l|a l|q]; cbn [after within] in *.
    + destruct (told_by l) as [d|]; [|discriminate A]. destruct (cut (made m) d) as [r e0]. injection A as <- _. exact HW.
    + destruct (told_by a) as [d|]; [|discriminate A]. destruct (tell (spot a) (spot a) [] l) as [d2|]; [|discriminate A]. destruct (cut (made m) d) as [r e0].
      destruct e0; [|destruct (waits (spot a) m)]; injection A as <- _; try exact HW. intros q d' [H|H]; [injection H as <- <-; apply H1; reflexivity|eapply HW; eauto].
    + injection A as A. intros q' d Hq. apply (HW q' d). pose proof (proj2 (opened_more (opens q) m)) as X. rewrite A in X. exact (X _ Hq).
Qed.

Lemma waits_none p m : ~ In p (map fst (waiting m)) -> waits p m = None.
Proof.
  intro H. unfold waits. destruct (find (fun x => same_place (fst x) p) (waiting m)) as [[q d]|] eqn:F; [|reflexivity]. exfalso. apply find_some in F as [F E]. cbn in E.
  apply same_place_eq in E. subst q. apply H. apply in_map_iff. exists (p, d). auto.
Qed.
Lemma defers_outcome E : sound E -> forall xs ds m, Forall2 parts xs ds -> (forall d p t f, In d ds -> ~ In (Derives p t f) (fst d)) ->
  incl (made m) E -> (forall d, In d ds -> incl (fst d) E) -> NoDup (map (fun x => spot (fst x)) xs ++ map fst (waiting m)) ->
  exists m', outcome m (defers xs) = Some (m', map (fun _ => None) xs) /\ (forall z, In z (made m') <-> In z (made m) \/ exists d, In d ds /\ In z (fst d)) /\
    (forall q d, In (q, d) (waiting m') <-> In (q, d) (waiting m) \/ exists x e, In (x, (e, d)) (combine xs ds) /\ q = spot (fst x)) /\ NoDup (map fst (waiting m')).
Proof.
  intro SE. induction xs as [|x xs IH]; intros ds m HP HF HD HE ND; inversion HP as [|x0 d0 xs0 ds0 [P1 P2] PS]; subst.
  - exists m. split; [reflexivity|]. split; [intro z; split; [auto|intros [H|(d & [] & _)]; exact H]|]. split; [|exact ND]. intros q d. split; [auto|intros [H|(y & e & [] & _)]; exact H].
  - cbn [defers map outcome]. cbn [after]. rewrite P1, P2.
    rewrite (cut_sound E (made m) (fst d0) SE HD (HE _ (or_introl eq_refl))) by (apply ready_none; intros p t f; apply HF; left; reflexivity).
    cbn [map app] in ND. inversion ND as [|y ys N1 N2]; subst. rewrite in_app_iff in N1.
    rewrite (waits_none (spot (fst x)) m) by tauto.
    destruct (IH ds0 (Mind (fst d0 ++ made m) ((spot (fst x), snd d0) :: waiting m)) PS) as (m' & O & M & W & N).
    + intros d p t f Hd. apply HF. right. exact Hd.
    + cbn. apply incl_app; [apply HE; left; reflexivity|exact HD].
    + intros d Hd. apply HE. right. exact Hd.
    + cbn [waiting map fst]. apply NoDup_Add with (a := spot (fst x)) (l := map (fun x => spot (fst x)) xs ++ map fst (waiting m)); [apply Add_app|]. split; [exact N2|]. rewrite in_app_iff. exact N1.
    + fold (defers xs). rewrite O. exists m'. split; [reflexivity|]. cbn [made waiting] in M, W. split; [|split; [|exact N]].
      * intro z. rewrite M, in_app_iff. split.
        -- intros [[H|H]|(d & H1 & H2)]; [right; exists d0; cbn; auto|auto|right; exists d; cbn; auto].
        -- intros [H|(d & [<-|H1] & H2)]; [auto|auto|right; exists d; auto].
      * intros q d. rewrite W. cbn [combine In]. split.
        -- intros [[H|H]|(y & e & H1 & H2)]; [|auto|right; exists y, e; auto]. injection H as <- <-. right. exists x, (fst d0). split; [left; destruct d0; reflexivity|reflexivity].
        -- intros [H|(y & e & [H|H1] & H2)]; [auto| |right; exists y, e; auto]. injection H as <- ->. left. left. rewrite H2. reflexivity.
Qed.
Lemma opened_outcome E : sound E -> forall ps m, incl (made m) E -> (forall q d, In (q, d) (waiting m) -> incl d E) -> NoDup (map fst (waiting m)) ->
  (forall q d p t f, In (q, d) (waiting m) -> In (Derives p t f) d -> exists c r i, In (Thing ((Class, c) :: r) t i) (made m)) ->
  exists m', opened m ps = (m', None) /\
    (forall z, In z (made m') <-> In z (made m) \/ exists q d, In (q, d) (waiting m) /\ In q ps /\ In z d) /\
    (forall q d, In (q, d) (waiting m') <-> In (q, d) (waiting m) /\ ~ In q ps) /\ NoDup (map fst (waiting m')).
Proof.
  intro SE. induction ps as [|p ps IH]; intros m HD HE ND HB.
  - exists m. split; [reflexivity|]. split; [intro z; split; [auto|intros [H|(q & d & _ & [] & _)]; exact H]|]. split; [|exact ND]. intros q d. cbn. tauto.
  - cbn [opened]. unfold open1.
    assert (WD : forall z, In z (due p m) <-> exists d, In (p, d) (waiting m) /\ In z d).
    { intro z. unfold due, waits. destruct (find (fun x => same_place (fst x) p) (waiting m)) as [[q d]|] eqn:F; cbn [option_map snd].
      - apply find_some in F as [F E1]. cbn in E1. apply same_place_eq in E1. subst q. split; [eauto|]. intros (d' & H1 & H2). replace d with d'; [exact H2|].
        clear - ND F H1. induction (waiting m) as [|[a b] l IHl]; [destruct F|]. cbn in ND. inversion ND as [|y ys N1 N2]; subst.
        destruct F as [F|F], H1 as [H1|H1]; try congruence; [injection F as -> ->|injection H1 as -> ->|auto]; exfalso; apply N1; apply in_map_iff; [exists (p, d')|exists (p, d)]; auto.
      - split; [intros []|]. intros (d & H1 & H2). pose proof (find_none _ _ F _ H1) as X. cbn in X. assert (same_place p p = true) by (apply same_place_eq; reflexivity). congruence. }
    rewrite (cut_sound E (made m) (due p m) SE HD).
    2:{ intros z Hz. apply WD in Hz as (d & H1 & H2). exact (HE p d H1 z H2). }
    2:{ apply ready_all. intros q t f Hz. apply WD in Hz as (d & H1 & H2). eapply HB; eauto. }
    assert (FI : forall q d, In (q, d) (forgotten p (waiting m)) <-> In (q, d) (waiting m) /\ q <> p).
    { intros q d. unfold forgotten. rewrite filter_In. cbn. split; intros [H1 H2]; (split; [exact H1|]).
      - intros ->. assert (X : same_place p p = true) by (apply same_place_eq; reflexivity). rewrite X in H2. discriminate H2.
      - destruct (same_place q p) eqn:X; [|reflexivity]. apply same_place_eq in X. contradiction. }
    destruct (IH (Mind (due p m ++ made m) (forgotten p (waiting m)))) as (m' & O & M & W & N); cbn [made waiting].
    + apply incl_app; [|exact HD]. intros z Hz. apply WD in Hz as (d & H1 & H2). exact (HE p d H1 z H2).
    + intros q d H. apply FI in H as [H _]. exact (HE q d H).
    + clear - ND. induction (waiting m) as [|[a b] l IHl]; [constructor|]. cbn in *. inversion ND as [|y ys N1 N2]; subst. destruct (negb (same_place a p)); [|auto]. cbn. constructor; [|auto].
      intro X. apply N1. apply in_map_iff in X as ([a' b'] & E1 & X). cbn in E1. subst a'. unfold forgotten in X. apply filter_In in X as [X _]. apply in_map_iff. exists (a, b'). auto.
    + intros q d p' t f H1 H2. apply FI in H1 as [H1 _]. destruct (HB q d p' t f H1 H2) as (c' & r & i & H). exists c', r, i. apply in_app_iff. auto.
    + rewrite O. exists m'. split; [reflexivity|]. cbn [made waiting In] in M, W |- *. split; [|split; [|exact N]].
      * intro z. rewrite M, in_app_iff, WD. split.
        -- intros [[(d & H1 & H2)|H]|(q & d & H1 & H2 & H3)]; [right; exists p, d; auto|auto|]. apply FI in H1 as [H1 _]. right. exists q, d. auto.
        -- intros [H|(q & d & H1 & H2 & H3)]; [auto|]. destruct (place_dec q p) as [->|Hne]; [left; left; eauto|]. destruct H2 as [H2|H2]; [congruence|]. right. exists q, d. rewrite FI. auto.
      * intros q d. rewrite W, FI. split; [intros ((H1 & H2) & H3); split; [exact H1|]; intros [H|H]; [congruence|auto]|]. intros (H1 & H2). split; [split; [exact H1|]; intros ->; auto|auto].
Qed.
Lemma looks_opened : forall qs m m', opened m (flat_map opens qs) = (m', None) -> outcome m (looks qs) = Some (m', map (fun _ => None) qs).
Proof.
  induction qs as [|q qs IH]; intros m m' H; [injection H as <-; reflexivity|]. cbn [flat_map looks map outcome after] in *. rewrite opened_app in H.
  destruct (opened m (opens q)) as [m1 [e|]]; [discriminate H|]. fold (looks qs). rewrite (IH m1 m' H). reflexivity.
Qed.

(** Chains that defer all they say about base classes can run in any order: if every container is looked into once the classes are
    there, in whatever order, no call fails and the registry is the one of a program without deferred definitions in which base
    classes come first. *)
Theorem C70_any_order ok k n xs ds qs h' ds' : Forall2 parts xs ds -> NoDup (map (fun x => spot (fst x)) xs) -> (forall x, In x xs -> exists q, In q qs /\ In (spot (fst x)) (opens q)) ->
  (forall d p t f, In d ds -> ~ In (Derives p t f) (fst d)) ->
  (forall d p t f, In d ds -> In (Derives p t f) (snd d) -> exists e c r i, In e ds /\ In (Thing ((Class, c) :: r) t i) (fst e)) ->
  states h' ds' -> sound (List.concat ds') -> tree ok k (List.concat ds') -> once (List.concat ds') -> ready [] (List.concat ds') ->
  (forall z, In z (List.concat ds') <-> exists d, In d ds /\ (In z (fst d) \/ In z (snd d))) ->
  discreetly (Mind [] []) (defers xs ++ looks qs) ->
  exists w w', lived (S k) ok (S n) world0 (Mind [] []) (defers xs ++ looks qs) (map (fun _ => None) xs ++ map (fun _ => None) qs) w /\
    complete (S k) ok (S n) world0 h' w' /\ alike (run (S k) ok n) (S k) w w'.
Proof.
  intros HP ND HL HF HB HS SE TE ON RE M DI. set (E := List.concat ds') in *.
  destruct (defers_outcome E SE xs ds (Mind [] []) HP HF) as (m1 & O1 & M1 & W1 & N1).
  { intros z []. }
  { intros d Hd z Hz. apply M. eauto. }
  { cbn. rewrite app_nil_r. exact ND. }
  cbn [made waiting] in M1, W1.
  assert (IN : forall x e d, In (x, (e, d)) (combine xs ds) -> In x xs /\ In (e, d) ds) by (intros x e d H; split; [eapply in_combine_l; eauto|eapply in_combine_r; eauto]).
  assert (HL' : forall x, In x xs -> In (spot (fst x)) (flat_map opens qs)) by (intros x Hx; apply in_flat_map; exact (HL x Hx)).
  destruct (opened_outcome E SE (flat_map opens qs) m1) as (m & O2 & M2 & W2 & _).
  { intros z Hz. apply M1 in Hz as [[]|(d & Hd & Hz)]. apply M. eauto. }
  { intros q d Hq z Hz. apply W1 in Hq as [[]|(x & e & Hx & _)]. destruct (IN _ _ _ Hx) as [_ H]. apply M. exists (e, d). auto. }
  { exact N1. }
  { intros q d p t f Hq Hz. apply W1 in Hq as [[]|(x & e & Hx & _)]. destruct (IN _ _ _ Hx) as [_ H]. destruct (HB (e, d) p t f H Hz) as (e' & c & r & i & H1 & H2).
    exists c, r, i. apply M1. eauto. }
  assert (WE : waiting m = []).
  { destruct (waiting m) as [|[q d] l] eqn:X; [reflexivity|]. exfalso. assert (Hin : In (q, d) (waiting m)) by (rewrite X; left; reflexivity).
    rewrite <- X in W2. apply W2 in Hin as [Hin Hn]. apply W1 in Hin as [[]|(x & e & Hx & ->)]. apply Hn. apply HL'. apply (IN _ _ _ Hx). }
  assert (ME : forall z, In z E <-> In z (made m)).
  { intro z. rewrite M2, M1, M. split.
    - intros (d & Hd & [H|H]); [left; right; eauto|]. right. destruct (Forall2_in_r _ _ _ HP d Hd) as (x & Hx & _).
      assert (exists y, In (y, d) (combine xs ds)) as (y & Hy).
      { clear - HP Hd. induction HP as [|a b xs ds P PS IHP]; [destruct Hd|]. destruct Hd as [->|Hd]; [exists a; left; reflexivity|]. destruct (IHP Hd) as (y & Hy). exists y. right. exact Hy. }
      exists (spot (fst y)), (snd d). split; [apply W1; right; exists y, (fst d); split; [destruct d; exact Hy|reflexivity]|]. split; [|exact H]. apply HL'. eapply in_combine_l; eauto.
    - intros [[[]|(d & H1 & H2)]|(q & d & H1 & _ & H2)]; [eauto|]. apply W1 in H1 as [[]|(x & e & Hx & _)]. destruct (IN _ _ _ Hx) as [_ H]. exists (e, d). auto. }
  assert (O : outcome (Mind [] []) (defers xs ++ looks qs) = Some (m, map (fun _ => None) xs ++ map (fun _ => None) qs)) by (rewrite outcome_app, O1, (looks_opened qs m1 m O2); reflexivity).
  pose proof (sound_ext _ _ ME SE) as SM. pose proof (tree_ext _ _ _ _ ME TE) as TM.
  destruct (acts_late ok k n (made m) SM TM _ world0 (Mind [] []) m _ (late0 ok) O DI) as (w & R & L).
  { eapply within_accepted; eauto; [|intros q d []]. apply Forall_app. split; apply Forall_forall; intros s Hs; apply in_map_iff in Hs as (x & <- & Hx); [|exact I].
    destruct (Forall2_in_l _ _ _ HP x Hx) as (d & Hd & P1 & P2). cbn [within]. split; intros d' E'; [rewrite P1 in E'|rewrite P2 in E']; injection E' as <-; intros z Hz; apply ME, M; eauto. }
  { apply incl_refl. }
  destruct (sessions_ok ok none Q0 QN k n h' ds' HS SE TE RE) as (w' & C & I'). exists w, w'. split; [exact R|]. split; [exact C|].
  refine (alike_ok ok k _ w w' _ _ (late_done ok w m L WE) I' TM (once_ext _ _ ME ON) _). intro z. symmetry. apply ME.
Qed.
Print Assumptions C70_any_order.

(** ** Examples *)

(** A test that suffices for [discreet]. *)
Definition quiet_bases (D : list decl) (q : place) : bool :=
  forallb (fun z => match z with
                    | Derives _ t _ => forallb (fun y => match y with Thing r u _ => negb (same_place r q && Nat.eqb u t) | _ => true end) D
                    | _ => true
                    end) D.
Definition quiet_apart (W : list (place * list decl)) (D d : list decl) : bool :=
  forallb (fun x =>
    forallb (fun z => match z with Thing (_ :: p) _ _ => negb (same_place p (fst x)) | _ => true end) d &&
    quiet_bases (d ++ D) (fst x)) W.
Fixpoint quiet_opens (m : mind) (ps : list place) : bool :=
  match ps with
  | [] => true
  | p :: ps' => quiet_apart (forgotten p (waiting m)) (made m) (due p m) && match open1 m p with (m1, None) => quiet_opens m1 ps' | _ => true end
  end.
Definition quiet (m : mind) (s : act) : bool :=
  match s with
  | Chain l | Defer l _ => match told_by l with Some d => quiet_apart (waiting m) (made m) d | None => false end
  | Look (FindMethod p n args) => quiet_opens m (path p ++ [p]) &&
      match opened m (path p ++ [p]) with (m1, None) => forallb (fun x => quiet_bases (made m1) (fst x)) (waiting m1) | _ => true end
  | Look q => quiet_opens m (opens q)
  end.
Fixpoint quietly (m : mind) (h : list act) : bool :=
  match h with
  | [] => true
  | s :: h' => quiet m s && match after m s with Some (m1, _) => quietly m1 h' | None => false end
  end.
Lemma same_refl p : same_place p p = true.
Proof. apply same_place_eq. reflexivity. Qed.
Lemma ancestor_last D p q : ancestor D p q -> exists x, parent D x q.
Proof. induction 1 as [p q H|p q r _ _ IH]; eauto. Qed.
Lemma quiet_bases_ok D p q : quiet_bases D q = true -> ~ ancestor D p q.
Proof.
  unfold quiet_bases. intros H HA. rewrite forallb_forall in H. destruct (ancestor_last _ _ _ HA) as (y & u & f & n' & r & j & E & A & B). specialize (H _ A). cbn in H. rewrite forallb_forall in H.
  specialize (H _ B). cbn beta iota in H. rewrite same_refl, Nat.eqb_refl in H. discriminate H.
Qed.
Lemma quiet_apart_ok W D d : quiet_apart W D d = true -> apart W D d.
Proof.
  unfold quiet_apart. intro H. rewrite forallb_forall in H. intros q x Hin. specialize (H _ Hin). cbn [fst] in H.
  apply andb_true_iff in H as [H1 H2]. rewrite forallb_forall in H1. split.
  - intros c n t i Hx. specialize (H1 _ Hx). cbn in H1. rewrite same_refl in H1. discriminate H1.
  - intros c n p t i _ _. apply quiet_bases_ok. exact H2.
Qed.
Lemma quiet_opens_ok : forall ps m, quiet_opens m ps = true -> openly m ps.
Proof.
  induction ps as [|p ps IH]; intros m H; [exact I|]. cbn [quiet_opens openly] in *. apply andb_true_iff in H as [H1 H2]. split; [apply quiet_apart_ok; exact H1|].
  destruct (open1 m p) as [m1 [e|]]; [exact I|apply IH; exact H2].
Qed.
Lemma quiet_discreet m s : quiet m s = true -> discreet m s.
Proof.
  destruct s as [l|a l|q]; cbn [quiet discreet].
  1, 2: match goal with |- match ?x with _ => _ end = true -> _ => destruct x as [d|]; [|discriminate] end; intros H d' E; injection E as <-; apply quiet_apart_ok; exact H.
  destruct q; try apply quiet_opens_ok. intro H. apply andb_true_iff in H as [H1 H2]. split; [apply quiet_opens_ok; exact H1|]. cbn [opens]. destruct (opened m (path p ++ [p])) as [m1 [e|]]; [exact I|].
  intros q x HA Hin. rewrite forallb_forall in H2. exact (quiet_bases_ok _ p q (H2 _ Hin) HA).
Qed.
Lemma quietly_discreetly : forall h m, quietly m h = true -> discreetly m h.
Proof.
  induction h as [|s h IH]; intros m H; [exact I|]. cbn [quietly discreetly] in *. apply andb_true_iff in H as [H1 H2]. split; [apply quiet_discreet; exact H1|].
  destruct (after m s) as [[m1 e]|]; [apply IH; exact H2|discriminate H2].
Qed.
Lemma anyone_accepts K : forall h m m' es, outcome m h = Some (m', es) -> all_accepted anyone K m h.
Proof.
  induction h as [|s h IH]; intros m m' es H; [exact I|]. cbn [outcome all_accepted] in *. split; [destruct s; cbn [accepted]; repeat intro; reflexivity|].
  destruct (after m s) as [[m1 e]|]; [|discriminate H]. destruct (outcome m1 h) as [[m2 es2]|] eqn:O; [|discriminate H]. eapply IH; eauto.
Qed.

(** The derived class is looked into before its base is there: one property stays, the base and the other property are lost. Deferring
    the same once more completes it; a definition that waits already is not replaced. *)
Definition box : prog := [KClass "Box" 8 false false false].
Definition box_later : prog := [KProperty "w" 4; KBase [(7, 1)]; KProperty "h" 3].
Definition shape : prog := [KClass "Shape" 7 true false false; KProperty "x" 5; KMethod "area" [] 6; KEnd].
Definition tries_late : list act := [Defer box box_later; Look (Find [(Property, "w"); (Class, "Box")]); Chain shape; Look (Count [(Class, "Box")] Property);
  Defer box box_later; Defer box box_later; Look (AttrCount [(Class, "Box")]); Look (FindMethod [(Class, "Box")] "area" [])].
Definition late_made : list decl := match outcome (Mind [] []) tries_late with Some (m, _) => made m | None => [] end.
Lemma box_parent D p q : (forall x t f, In (Derives x t f) D -> x = [(Class, "Box")] /\ t = 7) -> (forall m r i, In (Thing ((Class, m) :: r) 7 i) D -> (m, r) = ("Shape", [])) ->
  parent D p q -> p = [(Class, "Box")] /\ q = [(Class, "Shape")].
Proof. intros H1 H2 (t & f & m & r & i & -> & A & B). apply H1 in A as [-> ->]. apply H2 in B. injection B as -> ->. auto. Qed.
Lemma box_ancestor D p q : (forall x t f, In (Derives x t f) D -> x = [(Class, "Box")] /\ t = 7) -> (forall m r i, In (Thing ((Class, m) :: r) 7 i) D -> (m, r) = ("Shape", [])) ->
  ancestor D p q -> p = [(Class, "Box")] /\ q = [(Class, "Shape")].
Proof.
  intros H1 H2. induction 1 as [p q H|p q r H _ IH]; apply (box_parent D) in H; auto. destruct H as [-> ->], IH as [X _]. discriminate X.
Qed.
Ltac box_facts := vm_compute; intros; try (intro); repeat match goal with
  | H : _ \/ _ |- _ => destruct H as [H|H]
  | H : False |- _ => destruct H
  end; try discriminate; repeat match goal with
  | H : Thing _ _ _ = Thing _ _ _ |- _ => injection H; clear H; intros; subst
  | H : Derives _ _ _ = Derives _ _ _ |- _ => injection H; clear H; intros; subst
  end; try discriminate; auto.
Lemma box_tree D : (forall x t f, In (Derives x t f) D -> x = [(Class, "Box")] /\ t = 7) -> (forall m r i, In (Thing ((Class, m) :: r) 7 i) D -> (m, r) = ("Shape", [])) ->
  (forall c m t i t' i', c = Property \/ c = Method -> In (Thing [(c, m); (Class, "Box")] t i) D -> ~ In (Thing [(c, m); (Class, "Shape")] t' i') D) -> tree anyone 1 D /\ once D.
Proof.
  intros H1 H2 H3. split; [constructor|].
  - exists (fun p => match p with (_, n) :: _ => if (n =? "Box")%string then 1 else 0 | [] => 0 end). split.
    + intros p q H. apply (box_parent D) in H as [-> ->]; [cbn; lia|exact H1|exact H2].
    + intros [|[c n] p]; [lia|]. destruct (n =? "Box")%string; lia.
  - intros p t i b f _ _. reflexivity.
  - intros c p q m t i t' i' Hc HA. apply (box_ancestor D) in HA as [-> ->]; [exact (H3 c m t i t' i' Hc)|exact H1|exact H2].
  - intros c p q q' m t i t' i' Hc [->|HA] [->|HA'] A B; auto.
    + apply (box_ancestor D) in HA' as [-> ->]; auto. exfalso. eapply H3; eauto.
    + apply (box_ancestor D) in HA as [-> ->]; auto. exfalso. eapply H3; eauto.
    + apply (box_ancestor D) in HA as [-> ->]; auto. apply (box_ancestor D) in HA' as [_ ->]; auto.
Qed.
Definition eager : list prog := [[KClass "Shape" 7 true false false; KProperty "x" 5; KMethod "area" [] 6; KEnd; KClass "Box" 8 false false false; KBase [(7, 1)]; KProperty "h" 3; KProperty "w" 4; KEnd]].
Example C70_tries : exists m, outcome (Mind [] []) tries_late = Some (m, [None; Some Unregistered; None; None; None; Some Redefinition; None; None]) /\
  discreetly (Mind [] []) tries_late /\ all_accepted anyone (made m) (Mind [] []) tries_late /\ sound (made m) /\ tree anyone 1 (made m) /\ once (made m) /\ waiting m = [] /\
  states eager (stated_by eager) /\ compiles anyone (stated_by eager) /\ (forall d, In d (made m) <-> In d (kept_of (stated_by eager))) /\
  (* after the fourth act *)
  exists m4 es, outcome (Mind [] []) (firstn 4 tries_late) = Some (m4, es) /\ waiting m4 = [] /\ In (Thing [(Property, "w"); (Class, "Box")] 0 4) (made m4) /\
    ~ In (Derives [(Class, "Box")] 7 1) (made m4) /\ ~ In (Thing [(Property, "h"); (Class, "Box")] 0 3) (made m4).
Proof.
  eexists. split; [vm_compute; reflexivity|]. cbn [made waiting]. split; [apply quietly_discreetly; vm_compute; reflexivity|]. split; [eapply anyone_accepts; vm_compute; reflexivity|].
  split; [apply consistent_sound; vm_compute; reflexivity|]. apply and_assoc. split; [apply box_tree; box_facts|]. split; [reflexivity|].
  split; [repeat (constructor; [reflexivity|]); constructor|]. split; [intros p t f u i _ _; reflexivity|]. split; [intro d; vm_compute; intuition auto|].
  eexists _, _. split; [vm_compute; reflexivity|]. cbn [made waiting]. split; [reflexivity|]. split; [cbn; tauto|]. split; intro H; no_clash; discriminate.
Qed.

(** The derived class is defined first, both defer, the base is looked into last. *)
Definition both : list (prog * prog) := [(box, box_later); ([KClass "Shape" 7 true false false], [KProperty "x" 5; KMethod "area" [] 6])].
Definition both_stated : list (list decl * list decl) := Eval vm_compute in
  map (fun x => (match told_by (fst x) with Some d => d | None => [] end, match tell (spot (fst x)) (spot (fst x)) [] (snd x) with Some d => d | None => [] end)) both.
Definition in_turn : list query := [Find [(Property, "x"); (Class, "Shape")]; AttrOf [(Class, "Box")] "unit"; FindMethod [(Class, "Box")] "area" []].
Example C70_both : Forall2 parts both both_stated /\ NoDup (map (fun x => spot (fst x)) both) /\ (forall x, In x both -> exists q, In q in_turn /\ In (spot (fst x)) (opens q)) /\
  (forall d p t f, In d both_stated -> ~ In (Derives p t f) (fst d)) /\
  (forall d p t f, In d both_stated -> In (Derives p t f) (snd d) -> exists e c r i, In e both_stated /\ In (Thing ((Class, c) :: r) t i) (fst e)) /\
  states eager (stated_by eager) /\ sound (List.concat (stated_by eager)) /\ tree anyone 1 (List.concat (stated_by eager)) /\ once (List.concat (stated_by eager)) /\
  ready [] (List.concat (stated_by eager)) /\ (forall z, In z (List.concat (stated_by eager)) <-> exists d, In d both_stated /\ (In z (fst d) \/ In z (snd d))) /\
  discreetly (Mind [] []) (defers both ++ looks in_turn).
Proof.
  split; [repeat constructor|]. split; [vm_compute; repeat constructor; intro H; no_clash; try destruct H as [H|H]; try discriminate; destruct H|].
  split; [intros x [<-|[<-|[]]]; [exists (AttrOf [(Class, "Box")] "unit")|exists (Find [(Property, "x"); (Class, "Shape")])]; vm_compute; auto|].
  split; [intros d p t f [<-|[<-|[]]] H; vm_compute in H; repeat (destruct H as [H|H]; [discriminate H|]); exact H|].
  split. { intros d p t f [<-|[<-|[]]] H; vm_compute in H; repeat (destruct H as [H|H]; [try discriminate H|]); try (destruct H; fail). injection H as <- <- <-. eexists. exists "Shape", [], 0. split; [right; left; reflexivity|]. cbn. auto. }
  split; [repeat (constructor; [reflexivity|]); constructor|]. split; [apply consistent_sound; vm_compute; reflexivity|]. apply and_assoc. split; [apply box_tree; box_facts|].
  split; [cbn; repeat split; do 3 eexists; cbn; intuition reflexivity|]. split; [|apply quietly_discreetly; vm_compute; reflexivity].
  intro z. split.
  - vm_compute. intro H. repeat (destruct H as [H|H]; [subst z; first [eexists; split; [left; reflexivity|]; cbn; tauto|eexists; split; [right; left; reflexivity|]; cbn; tauto]|]). destruct H.
  - intros (d & [<-|[<-|[]]] & H); vm_compute in H |- *; tauto.
Qed.

(** ** Where it is noticed *)

(** A class whose definition is deferred is not among the derived classes of its base until somebody looks into it: asking the base
    does not run it. *)
Theorem C70_derived_refuted : exists h q w x y w' x' y', play 5 anyone 5 world0 h = Ret w [] /\ class_of w 7 = Some x /\ class_of w 8 = Some y /\
  answer (derived_query (run 5 anyone 5) w x) = Some [] /\
  play 5 anyone 5 world0 (h ++ [Ask q]) = Ret w' [Number 2] /\ class_of w' 7 = Some x' /\ class_of w' 8 = Some y' /\
  answer (derived_query (run 5 anyone 5) w' x') = Some [8].
Proof.
  exists [Do (box ++ [KLazy [KBase [(7, 1)]; KProperty "h" 3; KProperty "w" 4]]); Do shape], (Count [(Class, "Box")] Property). do 6 eexists.
  do 7 (split; [vm_compute; reflexivity|]). vm_compute. reflexivity.
Qed.
Print Assumptions C70_derived_refuted.

(** The exception of a deferred definition comes out once: the same question asked again is answered without it,
    also when the base class is there by then. *)
Theorem C70_silent_refuted : exists h q w w' w'', play 5 anyone 5 world0 (h ++ [Ask q]) = Throw Unregistered w /\
  play 5 anyone 5 w [Ask q] = Ret w' [Number 1] /\ play 5 anyone 5 w' [Do shape; Ask q] = Ret w'' [Number 1].
Proof.
  exists [Do (box ++ [KLazy box_later])], (Count [(Class, "Box")] Property). do 3 eexists. do 2 (split; [vm_compute; reflexivity|]). vm_compute. reflexivity.
Qed.
Print Assumptions C70_silent_refuted.
