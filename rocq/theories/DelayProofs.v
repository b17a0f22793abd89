(** Proofs of C68: whether a definition is deferred cannot be told from the answers of look-ups. *)
From Coq Require Import List Bool Arith String Ascii Lia Permutation.
From Verif Require Import Util RegistryModel RegistryProofs ListsModel ListsSpec ListsProofs StringsModel StringsSpec StringsProofs
  ReflModel ReflSpec ReflProofs ReflExec ReflTerm OrderSpec OrderProofs DelaySpec.
Import ListNotations.
Local Open Scope list_scope.
Local Arguments list_sum : simpl never.

Lemma now_app a b : now (a ++ b) = now a ++ now b.
Proof. apply flat_map_app. Qed.
Lemma later_app a b : later (a ++ b) = later a ++ later b.
Proof. apply flat_map_app. Qed.
Lemma now_map l : now (map Now l) = l.
Proof. induction l as [|d l IH]; cbn; [reflexivity|]. f_equal. exact IH. Qed.
Lemma later_map l : later (map Now l) = [].
Proof. induction l as [|d l IH]; cbn; [reflexivity|]. exact IH. Qed.
Lemma adding_some d r ds : adding d r = Some ds -> exists e, r = Some e /\ ds = d ++ e.
Proof. destruct r as [e|]; [|discriminate]. intros [= <-]. eauto. Qed.
Lemma in_now d l : In d (now l) <-> In (Now d) l.
Proof.
  unfold now. rewrite in_flat_map. split.
  - intros ([x|p] & H & HI); [|destruct HI]. destruct HI as [<-|[]]. exact H.
  - intro H. exists (Now d). split; [exact H|left; reflexivity].
Qed.

(** ** Below a place *)
Definition under (q p : place) : Prop := exists r, p = r ++ q.
Lemma under_refl q : under q q.
Proof. exists []. reflexivity. Qed.
Lemma under_cons q p c : under q p -> under q (c :: p).
Proof. intros (r & ->). exists (c :: r). reflexivity. Qed.
Lemma under_trans a b c : under a b -> under b c -> under a c.
Proof. intros (r & ->) (s & ->). exists (s ++ r). apply app_assoc. Qed.
Lemma under_anti a b : under a b -> under b a -> a = b.
Proof.
  intros (r & ->) (s & E). assert (L : List.length (s ++ r) = 0).
  { rewrite app_assoc in E. apply (f_equal (@List.length _)) in E. rewrite app_length in E. lia. }
  apply length_zero_iff_nil in L. apply app_eq_nil in L as [_ ->]. reflexivity.
Qed.
Lemma under_tail q p c : under q (c :: p) -> q <> c :: p -> under q p.
Proof. intros ([|d r] & E) H; cbn in E; [congruence|]. injection E as _ ->. exists r. reflexivity. Qed.
Lemma under_length a b : under a b -> List.length a <= List.length b.
Proof. intros (r & ->). rewrite app_length. lia. Qed.
(** Of two places above a third one is above the other. *)
Lemma under_total a b p : under a p -> under b p -> under a b \/ under b a.
Proof.
  revert a b. induction p as [|c p IH]; intros a b Ha Hb.
  - destruct Ha as (r & E). symmetry in E. apply app_eq_nil in E as [_ ->]. left. exists b. rewrite app_nil_r. reflexivity.
  - destruct (place_dec a (c :: p)) as [->|Na]; [right; exact Hb|]. destruct (place_dec b (c :: p)) as [->|Nb]; [left; exact Ha|].
    apply IH; eapply under_tail; eauto.
Qed.

Definition below (q : place) (s : stmt) : Prop :=
  match s with
  | Now (Thing p _ _) => exists c r, p = c :: r /\ under q r
  | Now (Attribute p _ _) => under q p
  | Now (Element p _ _) => under q p /\ kind_at p = Enum
  | Now (Derives _ _ _) => False
  | Later p => under q p
  end.
Lemma ctor_below q p on args : under q p -> Forall (below q) (map Now (ctor_decl on p args)).
Proof. intro H. unfold ctor_decl. destruct on; repeat constructor. cbn. eexists _, _. split; [reflexivity|exact H]. Qed.
Lemma psize_cons c l : psize (c :: l) = csize c + psize l.
Proof. reflexivity. Qed.
Lemma tells_below : forall m l item cont stack ds q, psize l < m -> tells item cont stack l = Some ds ->
  under q item -> under q cont -> Forall (under q) stack -> Forall (below q) ds.
Proof.
  induction m as [|m IHm]; [lia|]. intros l item cont stack ds q Hm. revert item cont stack ds. induction l as [|c l IH]; intros item cont stack ds HT Hi Hc Hs.
  { injection HT as <-. constructor. }
  rewrite psize_cons in Hm. assert (Hm' : psize l < S m) by lia. specialize (IH Hm').
  unfold tells in *. cbn [tells_with] in HT. destruct c; try discriminate HT.
  - apply adding_some in HT as (e & He & ->). apply Forall_app. split; [|eapply IH; eauto]. destruct (n =? "")%string; repeat constructor. exact Hi.
  - destruct (n =? "")%string; [discriminate|]. destruct (cat_eqb _ _); [|discriminate]. apply adding_some in HT as (e & He & ->). apply Forall_app.
    split; [repeat constructor; eexists _, _; split; [reflexivity|exact Hc]|]. eapply IH; eauto using under_cons.
  - destruct (n =? "")%string; [discriminate|]. apply adding_some in HT as (e & He & ->). apply Forall_app. split; [|eapply IH; eauto using under_cons].
    rewrite map_cons, !map_app. constructor; [eexists _, _; split; [reflexivity|exact Hc]|]. rewrite !Forall_app. repeat split; apply ctor_below; apply under_cons; exact Hc.
  - (* KLazy *) destruct (deferred (KLazy p) cont) as [d|] eqn:Ed; [|discriminate]. apply adding_some in HT as (e & He & ->). apply Forall_app.
    split; [|eapply IH; eauto]. constructor; [exact Hc|]. eapply (IHm p cont cont []); eauto. cbn [csize] in Hm. unfold psize in *. lia.
  - (* KBase *) destruct l0; [|discriminate]. destruct (cat_eqb _ _); [|discriminate]. eapply IH; eauto.
  - destruct (n =? "")%string; [discriminate|]. apply adding_some in HT as (e & He & ->). apply Forall_app.
    split; [repeat constructor; eexists _, _; split; [reflexivity|exact Hc]|]. eapply IH; eauto using under_cons.
  - apply adding_some in HT as (e & He & ->). apply Forall_app. split; [|eapply IH; eauto]. destruct (n =? "")%string; [constructor|].
    destruct (cat_eqb (kind_at item) Enum) eqn:EC; repeat constructor; [exact Hi|]. apply cat_eqb_eq. exact EC.
  - destruct (cat_eqb _ _); [|discriminate]. apply adding_some in HT as (e & He & ->). apply Forall_app.
    split; [repeat constructor; eexists _, _; split; [reflexivity|exact Hc]|]. eapply IH; eauto.
  - apply adding_some in HT as (e & He & ->). apply Forall_app.
    split; [repeat constructor; eexists _, _; split; [reflexivity|exact Hc]|]. eapply IH; eauto.
  - apply adding_some in HT as (e & He & ->). apply Forall_app. split; [|eapply IH; eauto]. destruct (n =? "")%string; repeat constructor.
    eexists _, _; split; [reflexivity|exact Hc].
  - destruct stack as [|p s]; [discriminate|]. inversion Hs; subst. eapply IH; eauto.
Qed.
Lemma deferred_below l q ds : tells q q [] l = Some ds -> Forall (below q) ds.
Proof. intro H. eapply tells_below; eauto using under_refl. Qed.

Lemma below_free q ds : Forall (below q) ds -> free (now ds).
Proof.
  intros H p t f Hin. rewrite Forall_forall in H. induction ds as [|[d|c] ds IH]; cbn [now] in Hin; [destruct Hin| |apply IH; [intros x Hx; apply H; right; exact Hx|exact Hin]].
  destruct Hin as [->|Hin]; [exact (H (Now (Derives p t f)) (or_introl eq_refl))|]. apply IH; [intros x Hx; apply H; right; exact Hx|exact Hin].
Qed.
Lemma tells_free l ds : tells_by l = Some ds -> free (now ds).
Proof. intro H. eapply below_free. eapply deferred_below. exact H. Qed.
Lemma free_app D D' : free D -> free D' -> free (D ++ D').
Proof. intros F F' p t f H. apply in_app_iff in H as [H|H]; [exact (F _ _ _ H)|exact (F' _ _ _ H)]. Qed.
Lemma all_told_free : forall es ds, all_told es = Some ds -> free (now ds).
Proof.
  induction es as [|[l|q] es IH]; intros ds H; cbn in H; [injection H as <-; intros ? ? ? []| |apply IH; exact H].
  destruct (tells_by l) as [d|] eqn:El; [|discriminate]. apply adding_some in H as (e & He & ->). rewrite now_app. apply free_app; [eapply tells_free; eauto|apply IH; exact He].
Qed.

(** Chains that defer nothing and name no bases are those of C67. *)
Lemma and_then_adding d r : adding (map Now d) (option_map (map Now) r) = option_map (map Now) (and_then d r).
Proof. destruct r as [e|]; cbn; [|reflexivity]. rewrite map_app. reflexivity. Qed.
Lemma tell_tells : forall l item cont stack ds, tell item cont stack l = Some ds -> free ds -> tells item cont stack l = Some (map Now ds).
Proof.
  assert (X : forall d r r' ds, (forall e, r = Some e -> free e -> r' = Some (map Now e)) -> and_then d r = Some ds -> free ds -> adding (map Now d) r' = Some (map Now ds)).
  { intros d r r' ds H E F. apply and_then_some in E as (e & He & ->). rewrite (H e He); [cbn; rewrite map_app; reflexivity|]. intros p t f Hin. apply (F p t f). apply in_app_iff. auto. }
  induction l as [|c l IH]; intros item cont stack ds HT FE.
  { injection HT as <-. reflexivity. }
  unfold tells in *. cbn [tell tells_with] in *. destruct c; try discriminate HT.
  - destruct (n =? "")%string; pose proof (X _ _ _ _ (IH _ _ _) HT FE) as Y; exact Y.
  - destruct (n =? "")%string; [discriminate|]. destruct (cat_eqb _ _); [|discriminate]. pose proof (X _ _ _ _ (IH _ _ _) HT FE) as Y; exact Y.
  - destruct (n =? "")%string; [discriminate|]. pose proof (X _ _ _ _ (IH _ _ _) HT FE) as Y; exact Y.
  - (* KBase *) destruct (cat_eqb _ _); [|discriminate]. destruct l0 as [|[t f] l0]; [|exfalso; apply and_then_some in HT as (e & _ & ->); exact (FE cont t f (or_introl eq_refl))].
    apply and_then_some in HT as (e & He & ->). apply IH; assumption.
  - destruct (n =? "")%string; [discriminate|]. pose proof (X _ _ _ _ (IH _ _ _) HT FE) as Y; exact Y.
  - destruct (n =? "")%string; [|destruct (cat_eqb _ _)]; pose proof (X _ _ _ _ (IH _ _ _) HT FE) as Y; exact Y.
  - destruct (cat_eqb _ _); [|discriminate]. pose proof (X _ _ _ _ (IH _ _ _) HT FE) as Y; exact Y.
  - pose proof (X _ _ _ _ (IH _ _ _) HT FE) as Y; exact Y.
  - destruct (n =? "")%string; pose proof (X _ _ _ _ (IH _ _ _) HT FE) as Y; exact Y.
  - destruct stack as [|p s]; [discriminate|]. apply IH; assumption.
Qed.

Definition any (d : option prog) (l : bool) : Prop := True.

(** ** Definitions that wait *)
Definition pending (w : world) (a : nat) (l : prog) : Prop := exists it, get w a = Some it /\ i_def it = Some l /\ i_lock it = false.
Definition idle (w : world) (a : nat) : Prop := forall l, ~ pending w a l.
Definition go (q : place) (w w' : world) : Prop :=
  stay w w' /\ forall a l, pending w' a l -> pending w a l \/ exists p, sits w' a p /\ under q p.
Lemma go_refl q w : go q w w.
Proof. split; [apply stay_refl|auto]. Qed.
Lemma go_trans q a b c : go q a b -> go q b c -> go q a c.
Proof.
  intros (S1 & P1) (S2 & P2). split; [eapply stay_trans; eauto|]. intros x l H. destruct (P2 x l H) as [H1|H1]; [|auto].
  destruct (P1 x l H1) as [H2|(p & Hs & Hu)]; [auto|]. right. exists p. split; [eapply stay_sits; eauto|exact Hu].
Qed.
Lemma go_up q q' w w' : under q q' -> go q' w w' -> go q w w'.
Proof.
  intros U (S & P). split; [exact S|]. intros a l H. destruct (P a l H) as [H1|(p & Hs & Hu)]; [auto|]. right. exists p. split; [exact Hs|].
  eapply under_trans; eauto.
Qed.
Lemma kept_go q w w' : kept w w' -> go q w w'.
Proof.
  intros (S & D & N). split; [exact S|]. intros a l (it' & Hg & Hd & Hl). left. destruct (get w a) as [it|] eqn:E.
  - destruct (D a it it' E Hg) as [A B]. exists it. split; [exact E|]. split; congruence.
  - rewrite (N a it' Hg E) in Hd. discriminate.
Qed.
Lemma kept_idle w w' a it : kept w w' -> get w a = Some it -> idle w a -> idle w' a.
Proof.
  intros (S & D & N) Hg H l (it' & Hg' & Hd & Hl). destruct (D a it it' Hg Hg') as [A B]. apply (H l). exists it. split; [exact Hg|]. split; congruence.
Qed.

Section Delay.
  Variable ok : nat -> nat -> bool.
  Notation Inv := (OrderProofs.Inv ok any).
  Notation wf := (WF false false ok).
  Variable E : list decl.
  Hypothesis SE : sound E.
  Hypothesis FE : free E.
  Lemma free_in A : incl A E -> free A.
  Proof. intros H p t f Hin. exact (FE p t f (H _ Hin)). Qed.

  Definition due (PL : list (nat * list stmt)) : list place := flat_map (fun e => later (snd e)) PL.
  Record Core (w : world) (A : list decl) (PL : list (nat * list stmt)) (R : list place) (B : nat) : Prop := {
    t_inv : Inv w A;
    t_pl : forall a ds, In (a, ds) PL -> exists q l, pending w a l /\ sits w a q /\ is_container (kind_at q) = true /\ tells q q [] l = Some ds /\ incl (now ds) E;
    t_all : forall a l, pending w a l -> exists ds, In (a, ds) PL;
    t_nd : NoDup (map fst PL);
    t_due : NoDup (due PL ++ R);
    t_free : forall a it l q, get w a = Some it -> i_def it = Some l -> sits w a q -> ~ In q (due PL ++ R);
    t_fuel : List.length PL + List.length (due PL ++ R) <= B }.
  Definition summed (A : list decl) (PL : list (nat * list stmt)) (T : list decl) : Prop :=
    forall d, In d T <-> In d A \/ exists a ds, In (a, ds) PL /\ In d (now ds).
  Definition St (w : world) (T : list decl) (R : list place) (B : nat) : Prop := exists A PL, Core w A PL R B /\ summed A PL T.

  Lemma core_inv w A PL R B : Core w A PL R B -> Inv w A.
  Proof. apply t_inv. Qed.
  Lemma core_less w A PL R B B' : Core w A PL R B -> B <= B' -> Core w A PL R B'.
  Proof. intros [a b c d e f g] H. constructor; auto. lia. Qed.

  (** Steps that do not concern what waits. *)
  Lemma core_kept w w' A A' PL R B : Core w A PL R B -> kept w w' -> Inv w' A' -> Core w' A' PL R B.
  Proof.
    intros C K I'. pose proof (proj1 K) as S. destruct K as (_ & D & N).
    assert (PP : forall a l, pending w a l -> pending w' a l).
    { intros a l (it & Hg & Hd & Hl). destruct (S a it Hg) as (it' & Hg' & _). destruct (D a it it' Hg Hg') as [E1 E2]. exists it'. split; [exact Hg'|]. split; congruence. }
    assert (PB : forall a it' l, get w' a = Some it' -> i_def it' = Some l -> exists it, get w a = Some it /\ i_def it = Some l /\ i_lock it = i_lock it').
    { intros a it' l Hg Hd. destruct (get w a) as [it|] eqn:Eg; [|rewrite (N a it' Hg Eg) in Hd; discriminate].
      destruct (D a it it' Eg Hg) as [E1 E2]. exists it. split; [reflexivity|]. split; congruence. }
    constructor.
    - exact I'.
    - intros a ds H. destruct (t_pl _ _ _ _ _ C a ds H) as (q & l & P & Hs & R1). exists q, l. split; [auto|]. split; [eapply stay_sits; eauto|exact R1].
    - intros a l (it' & Hg & Hd & Hl). destruct (PB a it' l Hg Hd) as (it & Hg0 & Hd0 & El). apply (t_all _ _ _ _ _ C a l). exists it. split; [exact Hg0|]. split; congruence.
    - apply C.
    - apply C.
    - intros a it' l q Hg Hd Hs. destruct (PB a it' l Hg Hd) as (it & Hg0 & Hd0 & _). eapply (t_free _ _ _ _ _ C); eauto.
      destruct (sits_total ok w (v_wf _ _ _ _ (t_inv _ _ _ _ _ C)) a it Hg0) as (q' & Hq). replace q with q'; [exact Hq|].
      eapply sits_fun; [exact Hs|]. eapply stay_sits; eauto.
    - apply C.
  Qed.
  Lemma st_kept w w' A PL R B T d : Core w A PL R B -> summed A PL T -> kept w w' -> Inv w' (d ++ A) -> St w' (d ++ T) R B.
  Proof.
    intros C M K I'. exists (d ++ A), PL. split; [eapply core_kept; eauto|]. intro x. rewrite !in_app_iff, (M x). tauto.
  Qed.
  Lemma st_more w T T' R B : (forall d, In d T' <-> In d T) -> St w T R B -> St w T' R B.
  Proof. intros H (A & PL & C & M). exists A, PL. split; [exact C|]. intro d. rewrite H. apply M. Qed.
  Lemma summed_in A PL T : summed A PL T -> incl A T.
  Proof. intros M d H. apply M. auto. Qed.

  (** A change of the fields of deferred definitions only. *)
  Lemma inv_def w A a f : Inv w A -> keeps f -> (forall it, i_attrs (f it) = i_attrs it /\ i_elems (f it) = i_elems it /\ i_inv (f it) = i_inv it) ->
    wf (upd w a f) -> Inv (upd w a f) A.
  Proof.
    intros I KF HF W.
    assert (HS : forall x q, sits (upd w a f) x q <-> sits w x q) by (intros; apply sits_upd; exact KF).
    assert (FW : forall x it, get w x = Some it -> exists it', get (upd w a f) x = Some it' /\ i_cat it' = i_cat it /\ i_name it' = i_name it /\ i_type it' = i_type it /\
      i_bases it' = i_bases it /\ i_attrs it' = i_attrs it /\ i_elems it' = i_elems it /\ i_inv it' = i_inv it).
    { intros x it Hg. destruct (Nat.eq_dec x a) as [->|Hne].
      - exists (f it). rewrite (upd_at w a f it Hg). destruct (KF it) as (K1 & K2 & K3 & K4 & K5 & K6 & K7). destruct (HF it) as (F1 & F2 & F3). auto 10.
      - exists it. rewrite upd_off by exact Hne. auto 10. }
    assert (BW : forall x it', get (upd w a f) x = Some it' -> exists it, get w x = Some it /\ i_cat it' = i_cat it /\ i_name it' = i_name it /\ i_type it' = i_type it /\
      i_bases it' = i_bases it /\ i_attrs it' = i_attrs it /\ i_elems it' = i_elems it /\ i_inv it' = i_inv it).
    { intros x it' Hg. destruct (upd_cases w a f x it' Hg) as (it & Hg0 & _). exists it. split; [exact Hg0|].
      destruct (FW x it Hg0) as (it2 & Hg2 & R). assert (it2 = it') by congruence. subst it2. exact R. }
    constructor.
    - exact W.
    - intros x it' Hg. destruct (BW x it' Hg) as (it & Hg0 & _ & E1 & _). rewrite E1. split; [exact Logic.I|]. apply (v_calm _ _ _ _ I x it Hg0).
    - rewrite upd_held. exact (v_held _ _ _ _ I).
    - intros p t i. rewrite (v_thing _ _ _ _ I). split.
      + intros (x & it & Hx & Hs & Hg & Ht & Hi). destruct (FW x it Hg) as (it' & Hg' & _ & _ & E1 & _ & _ & _ & E2). exists x, it'. rewrite HS.
        split; [exact Hx|]. split; [exact Hs|]. split; [exact Hg'|]. split; congruence.
      + intros (x & it' & Hx & Hs & Hg & Ht & Hi). destruct (BW x it' Hg) as (it & Hg' & _ & _ & E1 & _ & _ & _ & E2). exists x, it. rewrite HS in Hs.
        split; [exact Hx|]. split; [exact Hs|]. split; [exact Hg'|]. split; congruence.
    - intros p n v. rewrite (v_attr _ _ _ _ I). split.
      + intros (x & it & Hs & Hg & Hv). destruct (FW x it Hg) as (it' & Hg' & _ & _ & _ & _ & E1 & _). exists x, it'. rewrite HS, E1. auto.
      + intros (x & it' & Hs & Hg & Hv). destruct (BW x it' Hg) as (it & Hg' & _ & _ & _ & _ & E1 & _). exists x, it. rewrite HS in Hs. rewrite E1 in Hv. auto.
    - intros p n v. rewrite (v_elem _ _ _ _ I). split.
      + intros (x & it & Hs & Hg & Hv). destruct (FW x it Hg) as (it' & Hg' & _ & _ & _ & _ & _ & E1 & _). exists x, it'. rewrite HS, E1. auto.
      + intros (x & it' & Hs & Hg & Hv). destruct (BW x it' Hg) as (it & Hg' & _ & _ & _ & _ & _ & E1 & _). exists x, it. rewrite HS in Hs. rewrite E1 in Hv. auto.
    - intros p n v. rewrite (v_base _ _ _ _ I). split.
      + intros (x & it & Hs & Hg & Hv). destruct (FW x it Hg) as (it' & Hg' & _ & _ & _ & E1 & _). exists x, it'. rewrite HS, E1. auto.
      + intros (x & it' & Hs & Hg & Hv). destruct (BW x it' Hg) as (it & Hg' & _ & _ & _ & E1 & _). exists x, it. rewrite HS in Hs. rewrite E1 in Hv. auto.
    - destruct (v_global _ _ _ _ I) as (g & Hg & A1 & A2 & A3 & A4). destruct (FW 0 g Hg) as (g' & Hg' & B1 & B2 & B3 & _ & _ & _ & B4). exists g'.
      split; [exact Hg'|]. repeat split; congruence.
  Qed.

  Lemma upd_same w a f it : get w a = Some it -> f it = it -> upd w a f = w.
  Proof.
    intros Hg Z. unfold upd. rewrite Hg. unfold put. destruct w as [ws wc wh wr]. cbn. f_equal. unfold get in Hg. cbn in Hg. rewrite Z. clear - Hg.
    revert a Hg. induction ws as [|y ws IHw]; intros [|a] Hg; cbn in *; try congruence. f_equal. apply IHw. exact Hg.
  Qed.

  (** ** Running what waits *)
  Section Run.
    Variable run : world -> nat -> prog -> out unit.
    Variable n : nat.
    Hypothesis Prun : forall w a p, wf w -> hk false w -> cont w a -> post false false ok w (run w a p) (fun _ _ => True).
    Hypothesis Hrun : forall w T R B a q l ds, tells q q [] l = Some ds -> sits w a q -> is_container (kind_at q) = true ->
      St w T (later ds ++ R) B -> incl T E -> incl (now ds) E -> B < n ->
      exists w', run w a l = Ret w' tt /\ St w' (now ds ++ T) R B /\ go q w w'.

    Lemma idle_check w a it : get w a = Some it -> idle w a -> check run w a = Ret w tt.
    Proof.
      intros Hg H. unfold check. rewrite Hg. destruct (i_def it) as [l|] eqn:Ed; [|reflexivity]. destruct (i_lock it) eqn:El; [reflexivity|].
      exfalso. apply (H l). exists it. auto.
    Qed.

    Lemma settle w T R B a q : St w T R B -> sits w a q -> incl T E -> B <= n ->
      exists w1, check run w a = Ret w1 tt /\ check run w1 a = Ret w1 tt /\ idle w1 a /\ St w1 T R B /\ go q w w1.
    Proof.
      intros HS Ha HT HB. destruct HS as (A & PL & C & M). pose proof (t_inv _ _ _ _ _ C) as I. pose proof (v_wf _ _ _ _ I) as W.
      destruct (sits_get ok w a q W Ha) as (it & Hg & Hk).
      destruct (i_def it) as [l|] eqn:Ed; [destruct (i_lock it) eqn:El|].
      1, 3: assert (ID : idle w a) by (intros l' (it' & Hg' & Hd & Hl); congruence);
        exists w; rewrite (idle_check w a it Hg ID); split; [reflexivity|]; split; [reflexivity|]; split; [exact ID|]; split; [exists A, PL; auto|apply go_refl].
      assert (PA : pending w a l) by (exists it; auto). destruct (t_all _ _ _ _ _ C a l PA) as (ds & Hin).
      destruct (t_pl _ _ _ _ _ C a ds Hin) as (q' & l' & (it' & Hg' & Hd' & _) & Hs' & Hc & HTell & HE).
      assert (it' = it) by congruence. subst it'. assert (l' = l) by congruence. subst l'. assert (Eq : q' = q) by (eapply sits_fun; eauto). subst q'.
      destruct (in_split _ _ Hin) as (l1 & l2 & EPL). set (PL0 := l1 ++ l2).
      assert (NA : ~ In a (map fst PL0) /\ NoDup (map fst PL0)).
      { pose proof (t_nd _ _ _ _ _ C) as ND. rewrite EPL, map_app in ND. cbn [map fst] in ND. unfold PL0. rewrite map_app. split; [|eapply NoDup_remove_1; exact ND].
        eapply NoDup_remove_2; exact ND. }
      destruct NA as [NA ND0].
      assert (PD : Permutation (due PL ++ R) (due PL0 ++ later ds ++ R)).
      { unfold due, PL0. rewrite EPL, !flat_map_app. cbn [flat_map snd]. rewrite <- !app_assoc. apply Permutation_app_head.
        rewrite !app_assoc. apply Permutation_app_tail. apply Permutation_app_comm. }
      set (w0 := upd w a begin_def).
      assert (Hp : prim false false ok w w0) by (eapply PBegin; eauto). pose proof (prim_wf _ _ _ _ _ W Hp) as W0.
      assert (KB : keeps begin_def) by (intro; repeat split).
      assert (S0 : stay w w0).
      { intros y yt Hy. unfold w0. rewrite get_upd. destruct (Nat.eqb_spec y a) as [->|_]; [|eauto]. rewrite Hy. exists (begin_def yt). repeat split. }
      assert (Ha0 : sits w0 a q) by (eapply stay_sits; eauto).
      assert (G0 : forall x, x <> a -> get w0 x = get w x) by (intros; apply upd_off; assumption).
      assert (GA : get w0 a = Some (begin_def it)) by (apply upd_at; exact Hg).
      assert (P0 : forall x l', pending w0 x l' -> x <> a /\ pending w x l').
      { intros x l' (xt & Hx & Hd & Hl). destruct (Nat.eq_dec x a) as [->|Hne]; [rewrite GA in Hx; injection Hx as <-; discriminate Hl|].
        rewrite (G0 x Hne) in Hx. split; [exact Hne|]. exists xt. auto. }
      assert (INPL : forall x ds', In (x, ds') PL0 -> x <> a /\ In (x, ds') PL).
      { intros x ds' H. split; [intros ->; apply NA; apply in_map_iff; exists (a, ds'); auto|]. rewrite EPL. unfold PL0 in H. apply in_app_iff in H. apply in_app_iff. cbn. tauto. }
      assert (C0 : Core w0 A PL0 (later ds ++ R) (B - 1)).
      { constructor.
        - apply inv_def; auto.
        - intros x ds' H. destruct (INPL x ds' H) as [Hne H']. destruct (t_pl _ _ _ _ _ C x ds' H') as (p & l' & (xt & Hx & Hd & Hl) & Hs & R1).
          exists p, l'. split; [exists xt; rewrite (G0 x Hne); auto|]. split; [eapply stay_sits; eauto|exact R1].
        - intros x l' H. destruct (P0 x l' H) as [Hne H']. destruct (t_all _ _ _ _ _ C x l' H') as (ds' & Hd). exists ds'.
          rewrite EPL in Hd. apply in_app_iff in Hd as [Hd|[Hd|Hd]]; [|injection Hd as -> _; congruence|]; apply in_app_iff; auto.
        - exact ND0.
        - eapply Permutation_NoDup; [exact PD|apply C].
        - intros x xt l' p Hx Hd Hs HIn. apply (Permutation_in _ (Permutation_sym PD)) in HIn. revert HIn.
          assert (Hsw : sits w x p) by (apply (sits_upd w a begin_def x p KB); exact Hs).
          destruct (Nat.eq_dec x a) as [->|Hne]; [eapply (t_free _ _ _ _ _ C); eauto|]. rewrite (G0 x Hne) in Hx. eapply (t_free _ _ _ _ _ C); eauto.
        - pose proof (t_fuel _ _ _ _ _ C) as F. rewrite (Permutation_length PD) in F. unfold PL0. rewrite EPL in F. rewrite app_length in *. cbn [List.length] in F. unfold PL0 in F. lia. }
      set (T0 := A ++ flat_map (fun e => now (snd e)) PL0).
      assert (M0 : summed A PL0 T0).
      { intro d. unfold T0. rewrite in_app_iff, in_flat_map. split; (intros [H|H]; [auto|right]).
        - destruct H as ((x & ds') & H1 & H2). eauto.
        - destruct H as (x & ds' & H1 & H2). exists (x, ds'). auto. }
      assert (MT : forall d, In d T <-> In d (now ds ++ T0)).
      { intro d. rewrite (M d), in_app_iff, (M0 d). split.
        - intros [H|(x & ds' & H1 & H2)]; [auto|]. rewrite EPL in H1. apply in_app_iff in H1 as [H1|[H1|H1]].
          + right. right. exists x, ds'. split; [apply in_app_iff; auto|exact H2].
          + injection H1 as -> ->. auto.
          + right. right. exists x, ds'. split; [apply in_app_iff; auto|exact H2].
        - intros [H|[H|(x & ds' & H1 & H2)]]; [right; eauto|auto|]. right. exists x, ds'. split; [apply INPL; exact H1|exact H2]. }
      assert (B1 : 1 <= B). { pose proof (t_fuel _ _ _ _ _ C) as F. rewrite EPL, app_length in F. cbn in F. lia. }
      destruct (Hrun w0 T0 R (B - 1) a q l ds HTell Ha0 Hc) as (w' & HR & (A' & PL' & C' & M') & G').
      { exists A, PL0. auto. }
      { intros d H. apply HT. apply MT. apply in_app_iff. auto. }
      { exact HE. }
      { lia. }
      assert (HK0 : hk false w0) by (intros y; unfold w0; rewrite upd_held, (v_held _ _ _ _ I); intros []).
      pose proof (Prun w0 a l W0 HK0) as HP. rewrite HR in HP. destruct HP as (Hsteps & (_ & HL & _) & _).
      { exists (begin_def it). split; [exact GA|]. cbn. congruence. }
      specialize (HL a). unfold locked in HL. rewrite GA in HL. destruct (get w' a) as [at'|] eqn:Hga'; [|discriminate]. cbn in HL.
      set (w1 := upd w' a end_def).
      assert (Hp1 : prim false false ok w' w1) by (eapply PEnd; eauto).
      pose proof (t_inv _ _ _ _ _ C') as I'. pose proof (prim_wf _ _ _ _ _ (v_wf _ _ _ _ I') Hp1) as W1.
      assert (KE : keeps end_def) by (intro; repeat split).
      assert (S1 : stay w' w1).
      { intros y yt Hy. unfold w1. rewrite get_upd. destruct (Nat.eqb_spec y a) as [->|_]; [|eauto]. rewrite Hy. exists (end_def yt). repeat split. }
      assert (G1 : forall x, x <> a -> get w1 x = get w' x) by (intros; apply upd_off; assumption).
      assert (GA1 : get w1 a = Some (end_def at')) by (apply upd_at; exact Hga').
      assert (ID1 : idle w1 a) by (intros l' (xt & Hx & Hd & Hl); rewrite GA1 in Hx; injection Hx as <-; discriminate Hd).
      assert (P1 : forall x l', pending w1 x l' -> x <> a /\ pending w' x l').
      { intros x l' H. destruct (Nat.eq_dec x a) as [->|Hne]; [exfalso; eapply ID1; eauto|]. split; [exact Hne|]. destruct H as (xt & Hx & R1). rewrite (G1 x Hne) in Hx. exists xt. auto. }
      assert (C1 : Core w1 A' PL' R (B - 1)).
      { constructor.
        - apply inv_def; auto.
        - intros x ds' H. destruct (t_pl _ _ _ _ _ C' x ds' H) as (p & l' & (xt & Hx & Hd & Hl) & Hs & R1). exists p, l'.
          assert (Hne : x <> a) by (intros ->; congruence). split; [exists xt; rewrite (G1 x Hne); auto|]. split; [eapply stay_sits; eauto|exact R1].
        - intros x l' H. apply (t_all _ _ _ _ _ C' x l'). apply P1. exact H.
        - apply C'.
        - apply C'.
        - intros x xt l' p Hx Hd Hs. destruct (Nat.eq_dec x a) as [->|Hne]; [rewrite GA1 in Hx; injection Hx as <-; discriminate Hd|].
          rewrite (G1 x Hne) in Hx. eapply (t_free _ _ _ _ _ C'); eauto. apply (sits_upd w' a end_def x p KE). exact Hs.
        - apply C'. }
      exists w1. split.
      { unfold check. rewrite Hg, Ed, El. fold w0. rewrite HR. reflexivity. }
      split; [eapply idle_check; eauto|]. split; [exact ID1|]. split.
      { exists A', PL'. split; [eapply core_less; [exact C1|lia]|]. intro d. rewrite (MT d). apply M'. }
      destruct G' as (Sg & Pg). split; [eapply stay_trans; [exact S0|]; eapply stay_trans; [exact Sg|exact S1]|].
      intros x l' H. destruct (P1 x l' H) as [Hne H']. destruct (Pg x l' H') as [H2|(p & Hs & Hu)].
      - left. apply P0. exact H2.
      - right. exists p. split; [eapply stay_sits; eauto|exact Hu].
    Qed.

    (** Look-ups run what waits first, and nothing after. *)
    Lemma get_item_settled w w1 o c m : check run w o = Ret w1 tt -> check run w1 o = Ret w1 tt -> get_item run w o c m = get_item run w1 o c m.
    Proof. intros H1 H2. unfold get_item. rewrite H1, H2. reflexivity. Qed.
    Lemma find_method_settled w w1 o c m : check run w o = Ret w1 tt -> check run w1 o = Ret w1 tt -> find_method run w o c m = find_method run w1 o c m.
    Proof. intros H1 H2. unfold find_method. rewrite H1, H2. reflexivity. Qed.
    Lemma dfs_settled {R} (own : world -> nat -> out (option R)) j w w1 o : own w o = own w1 o -> dfs own (S j) w o = dfs own (S j) w1 o.
    Proof. intro H. cbn [dfs]. rewrite H. reflexivity. Qed.
    Lemma stay_cat w w1 o it : stay w w1 -> get w o = Some it -> exists it1, get w1 o = Some it1 /\ i_cat it1 = i_cat it.
    Proof. intros S Hg. destruct (S o it Hg) as (it1 & Hg1 & Hc & _). exists it1. auto. Qed.
    Variable k : nat.
    Lemma get_property_settled w w1 o it m : stay w w1 -> get w o = Some it -> m <> ""%string -> check run w o = Ret w1 tt -> check run w1 o = Ret w1 tt ->
      get_property run (S k) w o m = get_property run (S k) w1 o m.
    Proof.
      intros S Hg Hm H1 H2. destruct (stay_cat w w1 o it S Hg) as (it1 & Hg1 & Hc). unfold get_property. rewrite Hg, Hg1, Hc.
      apply String.eqb_neq in Hm. rewrite Hm. destruct (cat_eqb (i_cat it) Class); [|apply get_item_settled; assumption].
      apply dfs_settled. apply get_item_settled; assumption.
    Qed.
    Lemma get_method_settled w w1 o it m : stay w w1 -> get w o = Some it -> m <> ""%string -> check run w o = Ret w1 tt -> check run w1 o = Ret w1 tt ->
      get_method run (S k) w o m = get_method run (S k) w1 o m.
    Proof.
      intros S Hg Hm H1 H2. destruct (stay_cat w w1 o it S Hg) as (it1 & Hg1 & Hc). unfold get_method. rewrite Hg, Hg1, Hc.
      apply String.eqb_neq in Hm. rewrite Hm. destruct (cat_eqb (i_cat it) Class); [|apply find_method_settled; assumption].
      apply dfs_settled. apply find_method_settled; assumption.
    Qed.
    Lemma create_settled lookup o it w w1 : lookup w = lookup w1 -> create lookup o it w = create lookup o it w1.
    Proof. intro H. unfold create. rewrite H. reflexivity. Qed.

    (** ** Definitions, one by one *)
    Lemma create_st w T R B o p c m t inv lookup : St w T R B -> sits w o p -> is_container (kind_at p) = true -> incl T E -> B <= n ->
      m <> ""%string -> c <> Class -> In (Thing ((c, m) :: p) t inv) E ->
      (forall w1, stay w w1 -> check run w o = Ret w1 tt -> check run w1 o = Ret w1 tt -> lookup w = lookup w1) ->
      (forall w1 A, Inv w1 A -> incl A E -> sits w1 o p -> check run w1 o = Ret w1 tt ->
         exists l r, lookup w1 = Ret (marked w1 l) r /\ forall x, r = Some x <-> sits w1 x ((c, m) :: p)) ->
      exists w' x, create lookup o (fresh c m (Some o) t inv) w = Ret w' (Some x) /\ St w' ([Thing ((c, m) :: p) t inv] ++ T) R B /\ go p w w' /\
        sits w' x ((c, m) :: p).
    Proof.
      intros HS Ho Hc HT HB Hm Hcc HIn HL HC. destruct (settle w T R B o p HS Ho HT HB) as (w1 & C1 & C2 & ID & (A & PL & CO & M) & G).
      rewrite (create_settled lookup o _ w w1); [|apply HL; auto; apply G].
      assert (HA : incl A E) by (intros d Hd; apply HT; eapply summed_in; eauto).
      assert (Ho1 : sits w1 o p) by (eapply stay_sits; [apply G|exact Ho]). pose proof (t_inv _ _ _ _ _ CO) as I.
      destruct (create_ok ok any Logic.I w1 A o p c m t inv lookup I Ho1 Hc Hm Hcc (HC w1 A I HA Ho1 C2)) as (w2 & x & H & K & Sx & J).
      { apply (agreed E SE A); assumption. }
      exists w2, x. split; [exact H|]. split; [apply (st_kept w1 w2 A PL R B T [_] CO M K J)|]. split; [eapply go_trans; [exact G|apply kept_go; exact K]|exact Sx].
    Qed.
    Lemma ctor_st w T R B o p m args inv : St w T R B -> sits w o p -> is_container (kind_at p) = true -> incl T E -> B <= n ->
      In (Thing (ctor_place p m args) 0 inv) E ->
      exists w' x, create_ctor run w o m args inv = Ret w' (Some x) /\ St w' ([Thing (ctor_place p m args) 0 inv] ++ T) R B /\ go p w w'.
    Proof.
      intros HS Ho Hc HT HB HIn. destruct (settle w T R B o p HS Ho HT HB) as (w1 & C1 & C2 & ID & (A & PL & CO & M) & G).
      assert (X : create_ctor run w o m args inv = create_ctor run w1 o m args inv) by (apply create_settled; apply find_method_settled; assumption).
      assert (HA : incl A E) by (intros d Hd; apply HT; eapply summed_in; eauto).
      assert (Ho1 : sits w1 o p) by (eapply stay_sits; [apply G|exact Ho]).
      destruct (ctor_ok ok any Logic.I run E SE w1 A o p m args inv (t_inv _ _ _ _ _ CO) Ho1 C2 Hc HA HIn) as (w2 & x & H & K & J).
      exists w2, x. rewrite X. split; [exact H|]. split; [apply (st_kept w1 w2 A PL R B T [_] CO M K J)|]. eapply go_trans; [exact G|apply kept_go; exact K].
    Qed.
    Lemma ctor_if_st w T R B o p on args : St w T R B -> sits w o p -> is_container (kind_at p) = true -> incl T E -> B <= n ->
      incl (ctor_decl on p args) E ->
      exists w', ctor_if run on args o w = Ret w' tt /\ St w' (ctor_decl on p args ++ T) R B /\ go p w w'.
    Proof.
      intros HS Ho Hc HT HB HI. unfold ctor_if, ctor_decl in *. destruct on; [|exists w; split; [reflexivity|]; split; [exact HS|apply go_refl]].
      destruct (ctor_st w T R B o p "" args 0 HS Ho Hc HT HB) as (w' & x & -> & HS' & G); [apply HI; left; reflexivity|]. exists w'. split; [reflexivity|]. auto.
    Qed.
    Lemma class_st w T R B o p m t : St w T R B -> sits w o p -> is_container (kind_at p) = true -> incl T E -> B <= n -> m <> ""%string ->
      In (Thing ((Class, m) :: p) t 0) E ->
      exists w' x, create_class run w o m t = Ret w' (Some x) /\ St w' ([Thing ((Class, m) :: p) t 0] ++ T) R B /\ go p w w' /\ sits w' x ((Class, m) :: p).
    Proof.
      intros HS Ho Hc HT HB Hm HIn. destruct (settle w T R B o p HS Ho HT HB) as (w1 & C1 & C2 & ID & (A & PL & CO & M) & G).
      assert (X : create_class run w o m t = create_class run w1 o m t) by (unfold create_class; rewrite (get_item_settled w w1 o Class m C1 C2); reflexivity).
      assert (HA : incl A E) by (intros d Hd; apply HT; eapply summed_in; eauto).
      assert (Ho1 : sits w1 o p) by (eapply stay_sits; [apply G|exact Ho]).
      destruct (class_ok ok any Logic.I run E SE w1 A o p m t (t_inv _ _ _ _ _ CO) Ho1 C2 Hc Hm HA HIn) as (w2 & x & H & K & Sx & J).
      exists w2, x. rewrite X. split; [exact H|]. split; [apply (st_kept w1 w2 A PL R B T [_] CO M K J)|].
      split; [eapply go_trans; [exact G|apply kept_go; exact K]|exact Sx].
    Qed.

    Lemma lazy_st w T R B o p l ds : St w T (p :: later ds ++ R) B -> sits w o p -> is_container (kind_at p) = true -> tells p p [] l = Some ds ->
      incl (now ds) E ->
      exists w', set_deferred w o l = Ret w' tt /\ St w' (now ds ++ T) R B /\ go p w w'.
    Proof.
      intros (A & PL & C & M) Ho Hc HT HE. pose proof (t_inv _ _ _ _ _ C) as I. destruct (sits_get ok w o p (v_wf _ _ _ _ I) Ho) as (it & Hg & Hk).
      unfold set_deferred. rewrite Hg. destruct (i_def it) as [l'|] eqn:Ed.
      { exfalso. apply (t_free _ _ _ _ _ C o it l' p Hg Ed Ho). apply in_app_iff. right. left. reflexivity. }
      assert (El : i_lock it = false).
      { destruct (i_lock it) eqn:X; [|reflexivity]. exfalso. apply (l_lock _ _ _ _ (wf_local _ _ _ _ (v_wf _ _ _ _ I) o it Hg) X). exact Ed. }
      set (w1 := upd w o (accept_def l)). exists w1. split; [reflexivity|].
      assert (Hp : prim false false ok w w1). { eapply PDef; eauto; [rewrite Hk; exact Hc|split; discriminate]. }
      pose proof (prim_wf _ _ _ _ _ (v_wf _ _ _ _ I) Hp) as W1.
      assert (KB : keeps (accept_def l)) by (intro; repeat split).
      assert (S1 : stay w w1).
      { intros y yt Hy. unfold w1. rewrite get_upd. destruct (Nat.eqb_spec y o) as [->|_]; [|eauto]. rewrite Hy. exists (accept_def l yt). repeat split. }
      assert (Ho1 : sits w1 o p) by (eapply stay_sits; eauto).
      assert (G1 : forall x, x <> o -> get w1 x = get w x) by (intros; apply upd_off; assumption).
      assert (GO : get w1 o = Some (accept_def l it)) by (apply upd_at; exact Hg).
      assert (NO : ~ In o (map fst PL)).
      { intro H. apply in_map_iff in H as ((x & ds') & Ex & H). cbn in Ex. subst x. destruct (t_pl _ _ _ _ _ C o ds' H) as (q & l' & (ot & Ht & Hd & _) & _). congruence. }
      assert (PD : Permutation (due PL ++ p :: later ds ++ R) (p :: due ((o, ds) :: PL) ++ R)).
      { change (due ((o, ds) :: PL)) with (later ds ++ due PL). rewrite <- Permutation_middle. apply Permutation_cons; [reflexivity|].
        rewrite !app_assoc. apply Permutation_app_tail. apply Permutation_app_comm. }
      split.
      - exists A, ((o, ds) :: PL). split.
        + constructor.
          * apply inv_def; auto.
          * intros x ds' [H|H].
            -- injection H as <- <-. exists p, l. split; [exists (accept_def l it); auto|]. auto.
            -- destruct (t_pl _ _ _ _ _ C x ds' H) as (q & l' & (xt & Hx & R1) & Hs & R2). exists q, l'.
               assert (Hne : x <> o) by (intros ->; apply NO; apply in_map_iff; exists (o, ds'); auto).
               split; [exists xt; rewrite (G1 x Hne); auto|]. split; [eapply stay_sits; eauto|exact R2].
          * intros x l' (xt & Hx & R1). destruct (Nat.eq_dec x o) as [->|Hne]; [exists ds; left; reflexivity|].
            rewrite (G1 x Hne) in Hx. destruct (t_all _ _ _ _ _ C x l') as (ds' & H); [exists xt; auto|]. exists ds'. right. exact H.
          * cbn. constructor; [exact NO|apply C].
          * pose proof (Permutation_NoDup PD (t_due _ _ _ _ _ C)) as X. inversion X; assumption.
          * intros x xt l' q Hx Hd Hs HIn. assert (Hsw : sits w x q) by (apply (sits_upd w o (accept_def l) x q KB); exact Hs).
            destruct (Nat.eq_dec x o) as [->|Hne].
            -- assert (q = p) by (eapply sits_fun; eauto). subst q. pose proof (Permutation_NoDup PD (t_due _ _ _ _ _ C)) as X. inversion X; contradiction.
            -- rewrite (G1 x Hne) in Hx. apply (t_free _ _ _ _ _ C x xt l' q Hx Hd Hsw). apply (Permutation_in _ (Permutation_sym PD)). right. exact HIn.
          * pose proof (t_fuel _ _ _ _ _ C) as F. rewrite (Permutation_length PD) in F. cbn [List.length] in *. lia.
        + intro d. rewrite in_app_iff, (M d). split.
          * intros [H|[H|(a & ds' & H1 & H2)]]; [right; exists o, ds; split; [left; reflexivity|exact H]|auto|right; exists a, ds'; split; [right; exact H1|exact H2]].
          * intros [H|(a & ds' & [H1|H1] & H2)]; [auto|injection H1 as <- <-; auto|right; right; eauto].
      - split; [exact S1|]. intros x l' (xt & Hx & R1). destruct (Nat.eq_dec x o) as [->|Hne]; [right; exists p; split; [exact Ho1|apply under_refl]|].
        left. rewrite (G1 x Hne) in Hx. exists xt. auto.
    Qed.

    (** ** Chains *)
    Variable use : world -> prog -> out unit.
    Notation exec := (exec_with run (S k) ok use).
    Lemma stay_saved w w' s ps : stay w w' -> Forall2 (saved w) s ps -> Forall2 (saved w') s ps.
    Proof. intros K. induction 1 as [|o p s ps (a & E1 & E2 & E3) H IH]; constructor; auto. exists a. split; [exact E1|]. split; [eapply stay_sits; eauto|exact E3]. Qed.
    Lemma st_wf w T R B : St w T R B -> wf w.
    Proof. intros (A & PL & C & _). exact (v_wf _ _ _ _ (t_inv _ _ _ _ _ C)). Qed.
    Lemma st_held w T R B : St w T R B -> w_held w = [].
    Proof. intros (A & PL & C & _). exact (v_held _ _ _ _ (t_inv _ _ _ _ _ C)). Qed.
    Lemma st_category w T R B a p : St w T R B -> sits w a p -> category w a = Some (kind_at p).
    Proof. intros H Hs. destruct (sits_get ok w a p (st_wf _ _ _ _ H) Hs) as (it & Hg & Hk). unfold category. rewrite Hg. cbn. congruence. Qed.

    Lemma exec_st B R q : B <= n -> forall l item cont stack ds w T a o s, tells item cont stack l = Some ds ->
      sits w a item -> sits w o cont -> is_container (kind_at cont) = true -> Forall2 (saved w) s stack -> under q cont -> Forall (under q) stack ->
      St w T (later ds ++ R) B -> incl T E -> incl (now ds) E ->
      exists w' b', exec w (Builder (Some a) (Some o) s) l = Ret w' b' /\ St w' (now ds ++ T) R B /\ go q w w'.
    Proof.
      intros HB. induction l as [|c l IH]; intros item cont stack ds w T a o s HT Ha Ho Hc HSt Uc Us HS HD HE.
      { injection HT as <-. exists w, (Builder (Some a) (Some o) s). split; [reflexivity|]. split; [exact HS|apply go_refl]. }
      rewrite exec_cons. unfold tells in HT. cbn [tells_with] in HT.
      assert (NEXT : forall d e item' cont' stack' w1 a1 o1 s1, ds = d ++ e -> tells item' cont' stack' l = Some e ->
        sits w1 a1 item' -> sits w1 o1 cont' -> is_container (kind_at cont') = true -> Forall2 (saved w1) s1 stack' -> under q cont' -> Forall (under q) stack' ->
        St w1 (now d ++ T) (later e ++ R) B -> go q w w1 ->
        exists w' b', exec w1 (Builder (Some a1) (Some o1) s1) l = Ret w' b' /\ St w' (now ds ++ T) R B /\ go q w w').
      { intros d e item' cont' stack' w1 a1 o1 s1 -> He H1 H2 H3 H4 H5 H6 H7 H8. rewrite now_app in HE.
        destruct (IH item' cont' stack' e w1 (now d ++ T) a1 o1 s1 He H1 H2 H3 H4 H5 H6 H7) as (w' & b' & R' & J & G).
        - intros x Hx. apply in_app_iff in Hx as [Hx|Hx]; [|apply HD; exact Hx]. apply HE. apply in_app_iff. left. exact Hx.
        - intros x Hx. apply HE. apply in_app_iff. right. exact Hx.
        - exists w', b'. split; [exact R'|]. split; [|eapply go_trans; eauto]. eapply st_more; [|exact J]. intro x. rewrite now_app, !in_app_iff. tauto. }
      destruct c; try discriminate HT; cbn [step b_item b_cont b_stack].
      - (* KAttr *) apply adding_some in HT as (e & He & Ed).
        destruct (sits_get ok w a item (st_wf _ _ _ _ HS) Ha) as (it & Hg & _). rewrite Hg. unfold holds. rewrite (st_held _ _ _ _ HS). cbn [existsb]. rewrite andb_false_r.
        destruct (String.eqb_spec n0 "") as [->|Hn].
        + assert (X : nv_set (i_attrs it) "" v = Some (i_attrs it)) by reflexivity. rewrite X. cbn [bind].
          rewrite (upd_same w a _ it Hg) by (destruct it; reflexivity). rewrite Ed in HS. eapply (NEXT []); eauto. apply go_refl.
        + destruct HS as (A & PL & C & M). assert (HA : incl A E) by (intros y Hy; apply HD; eapply summed_in; eauto).
          destruct (attr_ok ok any E SE w A a item it n0 v (t_inv _ _ _ _ _ C) Ha Hg Hn HA) as (l' & -> & K & J); [apply HE; rewrite Ed; left; reflexivity|]. cbn [bind].
          rewrite Ed in C. assert (HS' := st_kept w _ A PL _ B T [Attribute item n0 v] C M K J).
          eapply (NEXT [Now (Attribute item n0 v)]); eauto; try (eapply kept_sits; eauto); [eapply saved_kept; eauto|apply kept_go; exact K].
      - (* KNamespace *) destruct (String.eqb_spec n0 "") as [->|Hn]; [discriminate|].
        destruct (cat_eqb (kind_at cont) Namespace) eqn:EC; [|discriminate]. apply adding_some in HT as (e & He & Ed).
        apply cat_eqb_eq in EC. rewrite (st_category _ _ _ _ o cont HS Ho), EC. rewrite Ed in HS, HE.
        destruct (create_st w T (later e ++ R) B o cont Namespace n0 0 0 (fun w => get_item run w o Namespace n0) HS Ho Hc HD HB Hn) as (w1 & x & H & HS' & G & Sx);
          [discriminate|apply HE; left; reflexivity|intros; apply get_item_settled; assumption|intros w1 A I _ Hs1 CH; apply (get_item_calm ok any run w1 A o cont Namespace n0 I Hs1 CH Hn)|].
        unfold create_namespace. rewrite H. cbn [bind]. eapply (NEXT [_]); eauto using under_cons.
        + constructor; [|eapply stay_saved; [apply G|exact HSt]]. exists o. split; [reflexivity|]. split; [eapply stay_sits; [apply G|exact Ho]|exact Hc].
        + eapply go_up; eauto.
      - (* KClass *) destruct (String.eqb_spec n0 "") as [->|Hn]; [discriminate|]. apply adding_some in HT as (e & He & Ed).
        set (p := (Class, n0) :: cont) in *. set (D := Thing p t 0 :: ctor_decl d p A0 ++ ctor_decl c p (ASelf false) ++ ctor_decl m p (ASelf true)) in *.
        rewrite Ed, later_app, later_map in HS. cbn [app] in HS.
        assert (HI : forall x, In x D -> In x E).
        { intros x Hx. apply HE. rewrite Ed, now_app, now_map. apply in_app_iff. left. exact Hx. }
        destruct (class_st w T _ B o cont n0 t HS Ho Hc HD HB Hn) as (w1 & x & -> & HS1 & G1 & S1); [apply HI; left; reflexivity|]. cbn [bind].
        unfold auto_ctors. fold p in S1, HS1.
        assert (D1 : incl ([Thing p t 0] ++ T) E) by (intros y [<-|Hy]; [apply HI; left; reflexivity|apply HD; exact Hy]).
        assert (I1 : incl (ctor_decl d p A0) E) by (intros y Hy; apply HI; right; rewrite !in_app_iff; tauto).
        assert (I2 : incl (ctor_decl c p (ASelf false)) E) by (intros y Hy; apply HI; right; rewrite !in_app_iff; tauto).
        assert (I3 : incl (ctor_decl m p (ASelf true)) E) by (intros y Hy; apply HI; right; rewrite !in_app_iff; tauto).
        destruct (ctor_if_st w1 _ _ B x p d A0 HS1 S1 eq_refl D1 HB I1) as (w2 & -> & HS2 & G2). cbn [bind].
        assert (S2 : sits w2 x p) by (eapply stay_sits; [apply G2|exact S1]).
        destruct (ctor_if_st w2 _ _ B x p c (ASelf false) HS2 S2 eq_refl) as (w3 & -> & HS3 & G3);
          [intros y Hy; apply in_app_iff in Hy as [Hy|Hy]; auto|exact HB|exact I2|]. cbn [bind].
        assert (S3 : sits w3 x p) by (eapply stay_sits; [apply G3|exact S2]).
        destruct (ctor_if_st w3 _ _ B x p m (ASelf true) HS3 S3 eq_refl) as (w4 & -> & HS4 & G4);
          [intros y Hy; rewrite !in_app_iff in Hy; destruct Hy as [Hy|[Hy|[Hy|Hy]]]; auto; apply D1; rewrite in_app_iff; auto|exact HB|exact I3|]. cbn [bind].
        assert (UP : under cont p) by (apply under_cons; apply under_refl).
        assert (G : go cont w w4).
        { eapply go_trans; [exact G1|]. eapply go_trans; [eapply go_up; [exact UP|exact G2]|]. eapply go_trans; [eapply go_up; [exact UP|exact G3]|eapply go_up; [exact UP|exact G4]]. }
        assert (S4 : sits w4 x p) by (eapply stay_sits; [apply G4|exact S3]).
        eapply (NEXT (map Now D)); [exact Ed|exact He|exact S4|exact S4|reflexivity| |apply under_cons; exact Uc|constructor; assumption| |eapply go_up; eauto].
        + constructor; [|eapply stay_saved; [apply G|exact HSt]]. exists o. split; [reflexivity|]. split; [eapply stay_sits; [apply G|exact Ho]|exact Hc].
        + eapply st_more; [|exact HS4]. intro y. rewrite now_map. unfold D. cbn [In app]. rewrite !in_app_iff. cbn [In]. tauto.
      - (* KLazy *) destruct (deferred (KLazy p) cont) as [dd|] eqn:Edd; [|discriminate]. apply adding_some in HT as (e & He & Ed).
        rewrite Ed in HS, HE. change (later ((Later cont :: dd) ++ e)) with (cont :: later (dd ++ e)) in HS. rewrite later_app in HS. cbn [app] in HS. rewrite <- app_assoc in HS.
        change (now ((Later cont :: dd) ++ e)) with (now (dd ++ e)) in HE. rewrite now_app in HE.
        destruct (lazy_st w T (later e ++ R) B o cont p dd HS Ho Hc Edd) as (w1 & H & HS' & G); [intros y Hy; apply HE; apply in_app_iff; auto|].
        unfold skip. rewrite H. cbn [bind]. eapply (NEXT (Later cont :: dd)); eauto; [eapply stay_sits; [apply G|assumption]..|eapply stay_saved; [apply G|assumption]|eapply go_up; eauto].
      - (* KBase *) destruct l0; [|discriminate]. destruct (cat_eqb (kind_at cont) Class) eqn:EC; [|discriminate]. apply cat_eqb_eq in EC. rewrite (st_category _ _ _ _ o cont HS Ho), EC.
        unfold skip. cbn [add_bases bind]. eapply (NEXT [] ds); eauto. apply go_refl.
      - (* KEnum *) destruct (String.eqb_spec n0 "") as [->|Hn]; [discriminate|]. apply adding_some in HT as (e & He & Ed). rewrite Ed in HS, HE.
        destruct (create_st w T (later e ++ R) B o cont Enum n0 t 0 (fun w => get_item run w o Enum n0) HS Ho Hc HD HB Hn) as (w1 & x & H & HS' & G & Sx);
          [discriminate|apply HE; left; reflexivity|intros; apply get_item_settled; assumption|intros w1 A I _ Hs1 CH; apply (get_item_calm ok any run w1 A o cont Enum n0 I Hs1 CH Hn)|].
        unfold create_enum. rewrite H. cbn [bind]. eapply (NEXT [_]); eauto; [eapply stay_sits; [apply G|exact Ho]|eapply stay_saved; [apply G|assumption]|eapply go_up; eauto].
      - (* KElement *) apply adding_some in HT as (e & He & Ed).
        destruct (sits_get ok w a item (st_wf _ _ _ _ HS) Ha) as (it & Hg & Hk). rewrite Hg, Hk. unfold holds. rewrite (st_held _ _ _ _ HS). cbn [existsb]. rewrite andb_false_r.
        destruct (cat_eqb (kind_at item) Enum) eqn:EC.
        + apply cat_eqb_eq in EC. destruct (String.eqb_spec n0 "") as [->|Hn].
          * assert (X : nv_set (i_elems it) "" v = Some (i_elems it)) by reflexivity. rewrite X. cbn [bind].
            rewrite (upd_same w a _ it Hg) by (destruct it; reflexivity). rewrite Ed in HS. eapply (NEXT []); eauto. apply go_refl.
          * destruct HS as (A & PL & C & M). assert (HA : incl A E) by (intros y Hy; apply HD; eapply summed_in; eauto).
            destruct (elem_ok ok any E SE w A a item it n0 v (t_inv _ _ _ _ _ C) Ha Hg (eq_trans Hk EC) Hn HA) as (l' & -> & K & J); [apply HE; rewrite Ed; left; reflexivity|]. cbn [bind].
            rewrite Ed in C. assert (HS' := st_kept w _ A PL _ B T [Element item n0 v] C M K J).
            eapply (NEXT [Now (Element item n0 v)]); eauto; try (eapply kept_sits; eauto); [eapply saved_kept; eauto|apply kept_go; exact K].
        + cbn [bind]. assert (Ed2 : ds = [] ++ e) by (destruct (n0 =? "")%string; exact Ed). rewrite Ed2 in HS. eapply (NEXT []); eauto. apply go_refl.
      - (* KCtor *) destruct (cat_eqb (kind_at cont) Class) eqn:EC; [|discriminate]. apply adding_some in HT as (e & He & Ed).
        apply cat_eqb_eq in EC. rewrite (st_category _ _ _ _ o cont HS Ho), EC. rewrite Ed in HS, HE.
        destruct (ctor_st w T (later e ++ R) B o cont n0 args inv HS Ho Hc HD HB) as (w1 & x & H & HS' & G); [apply HE; left; reflexivity|].
        unfold skip. rewrite H. cbn [bind]. eapply (NEXT [_]); eauto; [eapply stay_sits; [apply G|assumption]..|eapply stay_saved; [apply G|assumption]|eapply go_up; eauto].
      - (* KMethod *) apply adding_some in HT as (e & He & Ed). rewrite Ed in HS, HE.
        destruct (sits_get ok w o cont (st_wf _ _ _ _ HS) Ho) as (ot & Hgo & _).
        destruct (create_st w T (later e ++ R) B o cont Method (signed n0 args) 0 inv (fun w => get_method run (S k) w o (signed n0 args)) HS Ho Hc HD HB) as (w1 & x & H & HS' & G & Sx);
          [apply signed_nonempty|discriminate|apply HE; left; reflexivity|intros; eapply get_method_settled; eauto; apply signed_nonempty|
           intros w1 A I HA1 Hs1 CH; apply (method_calm ok any run k w1 A o cont n0 args I Hs1 CH); apply lone_free; apply free_in; exact HA1|].
        unfold skip, create_method. rewrite signature_signed, H. cbn [bind].
        eapply (NEXT [_]); eauto; [eapply stay_sits; [apply G|assumption]..|eapply stay_saved; [apply G|assumption]|eapply go_up; eauto].
      - (* KProperty *) apply adding_some in HT as (e & He & Ed). unfold create_property. destruct (String.eqb_spec n0 "") as [->|Hn].
        + cbn [skip bind]. rewrite Ed in HS. eapply (NEXT []); eauto. apply go_refl.
        + rewrite Ed in HS, HE. destruct (sits_get ok w o cont (st_wf _ _ _ _ HS) Ho) as (ot & Hgo & _).
          destruct (create_st w T (later e ++ R) B o cont Property n0 0 inv (fun w => get_property run (S k) w o n0) HS Ho Hc HD HB Hn) as (w1 & x & H & HS' & G & Sx);
            [discriminate|apply HE; left; reflexivity|intros; eapply get_property_settled; eauto|
             intros w1 A I HA1 Hs1 CH; apply (property_calm ok any run k w1 A o cont n0 I Hs1 CH Hn); apply lone_free; apply free_in; exact HA1|].
          unfold skip. rewrite H. cbn [bind].
          eapply (NEXT [_]); eauto; [eapply stay_sits; [apply G|assumption]..|eapply stay_saved; [apply G|assumption]|eapply go_up; eauto].
      - (* KEnd *) destruct stack as [|p ps]; [discriminate|]. inversion HSt as [|o1 p1 s1 ps1 (x & -> & Sx & Cx) HS' E1 E2]; subst. inversion Us; subst. cbn [bind].
        eapply (NEXT [] ds); eauto. apply go_refl.
    Qed.
  End Run.

  Lemma run_st k : forall n w T R B a q l ds, tells q q [] l = Some ds -> sits w a q -> is_container (kind_at q) = true ->
    St w T (later ds ++ R) B -> incl T E -> incl (now ds) E -> B < n ->
    exists w', ReflModel.run (S k) ok n w a l = Ret w' tt /\ St w' (now ds ++ T) R B /\ go q w w'.
  Proof.
    induction n as [|n IH]; intros w T R B a q l ds HT Ha Hc HS HD HE HB; [lia|]. cbn [ReflModel.run]. unfold on.
    destruct (exec_st (ReflModel.run (S k) ok n) n (fun w a p H1 H2 H3 => run_post false false ok (S k) n w a p H1 H2 H3 (pre_ff w p)) IH k
      (fun w p => ReflModel.run (S k) ok n w 0 p) B R q ltac:(lia) l q q [] ds w T a a []) as (w' & b' & -> & HS' & G); auto using under_refl.
    exists w'. auto.
  Qed.

  (** ** Questions *)
  Section Ask.
    Variable k n : nat.
    Notation run := (ReflModel.run (S k) ok n).
    Lemma settled_st w T R B a q : St w T R B -> sits w a q -> incl T E -> B <= n ->
      exists w1, check run w a = Ret w1 tt /\ check run w1 a = Ret w1 tt /\ idle w1 a /\ St w1 T R B /\ go q w w1.
    Proof.
      apply settle; [intros v b p H1 H2 H3; exact (run_post false false ok (S k) n v b p H1 H2 H3 (pre_ff v p))|]. intros. eapply run_st; eauto.
    Qed.

    (** Nothing waits above [p]. *)
    Definition clear_to (w : world) (p : place) : Prop := forall a l q, pending w a l -> sits w a q -> under q p -> q = p.
    Definition clear_at (w : world) (p : place) : Prop := forall a l q, pending w a l -> sits w a q -> ~ under q p.
    Lemma clear_cons w p c : clear_at w p -> clear_to w (c :: p).
    Proof. intros H a l q P S U. destruct (place_dec q (c :: p)) as [X|X]; [exact X|]. exfalso. eapply H; eauto. eapply under_tail; eauto. Qed.
    Lemma clear_go w w' p a : wf w -> wf w' -> go p w w' -> clear_to w p -> idle w' a -> sits w' a p -> clear_at w' p.
    Proof.
      intros W W' (S & P) C ID Ha x l q Px Sx U. assert (NE : q <> p).
      { intros ->. assert (x = a) by (eapply sits_inj; eauto). subst x. apply (ID l). exact Px. }
      destruct (P x l Px) as [P0|(p' & Sp & Up)].
      - apply NE. destruct P0 as (it & Hg & R). destruct (sits_total ok w W x it Hg) as (q' & Hq). assert (q' = q) by (eapply sits_fun; [exact Sx|eapply stay_sits; eauto]).
        subst q'. apply (C x l q); [exists it; auto|exact Hq|exact U].
      - assert (p' = q) by (eapply sits_fun; eauto). subst p'. apply NE. symmetry. apply under_anti; assumption.
    Qed.
    Lemma clear_none w p : wf w -> clear_to w p -> (forall x, ~ sits w x p) -> clear_at w p.
    Proof. intros W C H a l q P S U. assert (q = p) by (eapply C; eauto). subst q. apply (H a). exact S. Qed.

    (** What is stated of clear places is in the registry. *)
    Lemma clear_in w A PL R B T d : Core w A PL R B -> summed A PL T ->
      (forall q, (exists a l, pending w a l /\ sits w a q) -> is_container (kind_at q) = true -> ~ below q (Now d)) -> (In d T <-> In d A).
    Proof.
      intros C M H. rewrite (M d). split; [|auto]. intros [X|(a & ds & Hin & Hd)]; [exact X|]. exfalso.
      destruct (t_pl _ _ _ _ _ C a ds Hin) as (q & l & P & S & Hc & HT & _). apply in_now in Hd. pose proof (deferred_below l q ds HT) as F.
      rewrite Forall_forall in F. apply (H q); [exists a, l; auto|exact Hc|apply F; exact Hd].
    Qed.
    Lemma clear_thing w A PL R B T c p t i : Core w A PL R B -> summed A PL T -> clear_at w p -> (In (Thing (c :: p) t i) T <-> In (Thing (c :: p) t i) A).
    Proof.
      intros C M H. eapply clear_in; eauto. intros q (a & l & P & S) _ (c' & r & Er & U). injection Er as <- <-. eapply H; eauto.
    Qed.
    Lemma clear_attr w A PL R B T p m v : Core w A PL R B -> summed A PL T -> clear_at w p -> (In (Attribute p m v) T <-> In (Attribute p m v) A).
    Proof. intros C M H. eapply clear_in; eauto. intros q (a & l & P & S) _ U. eapply H; eauto. Qed.
    Lemma clear_elem w A PL R B T p m v : Core w A PL R B -> summed A PL T -> clear_to w p -> (In (Element p m v) T <-> In (Element p m v) A).
    Proof.
      intros C M H. eapply clear_in; eauto. intros q (a & l & P & S) Hc (U & Hk). assert (q = p) by (eapply H; eauto). subst q. rewrite Hk in Hc. discriminate.
    Qed.

    Lemma no_name w T R B x c p : St w T R B -> ~ sits w x ((c, ""%string) :: p).
    Proof.
      intros (A & PL & C & _) H. destruct (sits_under _ _ _ _ _ H) as (o & it & _ & Hg & _ & Hn & _).
      destruct (v_calm _ _ _ _ (t_inv _ _ _ _ _ C) x it Hg) as (_ & X). congruence.
    Qed.
    Lemma st_marked w T R B b : St w T R B -> St (marked w b) T R B.
    Proof.
      intros (A & PL & C & M). exists A, PL. split; [|exact M]. eapply core_kept; [exact C|apply kept_marked|]. apply inv_marked. apply C.
    Qed.
    Lemma marked_pending w b a l : pending (marked w b) a l <-> pending w a l.
    Proof. reflexivity. Qed.
    Lemma marked_sits w b a p : sits (marked w b) a p <-> sits w a p.
    Proof. split; apply sits_same; reflexivity. Qed.
    Lemma marked_clear_at w b p : clear_at w p -> clear_at (marked w b) p.
    Proof. intros H a l q P S. apply marked_sits in S. eapply H; eauto. Qed.
    Lemma marked_clear_to w b p : clear_to w p -> clear_to (marked w b) p.
    Proof. intros H a l q P S. apply marked_sits in S. eapply H; eauto. Qed.

    Lemma seek_st w T R B : St w T R B -> incl T E -> B <= n -> forall p,
      exists w' r, seek run w p = Ret w' r /\ St w' T R B /\ clear_to w' p /\ forall x, r = Some x <-> sits w' x p.
    Proof.
      intros HS HT HB. induction p as [|[c m] p IH].
      - exists w, (Some 0). split; [reflexivity|]. split; [exact HS|]. split.
        + intros a l q P S (r & Er). symmetry in Er. apply app_eq_nil in Er. apply Er.
        + intro x. split; [intros [= <-]; constructor|]. intro H. inversion H; subst. reflexivity.
      - destruct IH as (w1 & r & HR & HS1 & C1 & F1). cbn [seek]. rewrite HR. cbn [bind]. destruct r as [o|].
        + assert (Ho : sits w1 o p) by (apply F1; reflexivity).
          destruct (settled_st w1 T R B o p HS1 Ho HT HB) as (w2 & K1 & K2 & ID & HS2 & G).
          assert (Ho2 : sits w2 o p) by (eapply stay_sits; [apply G|exact Ho]).
          assert (CA : clear_at w2 p) by exact (clear_go w1 w2 p o (st_wf _ _ _ _ HS1) (st_wf _ _ _ _ HS2) G C1 ID Ho2). rewrite (get_item_settled run w1 w2 o c m K1 K2).
          destruct (String.eqb_spec m "") as [->|Hm].
          * unfold get_item. rewrite K2. cbn [bind]. eexists _, _. split; [reflexivity|].
            split; [exact (st_marked _ _ _ _ _ HS2)|]. split; [exact (marked_clear_to _ _ _ (clear_cons _ _ _ CA))|].
            intro x. split; [discriminate|]. intro H. exfalso. revert H. eapply no_name. exact (st_marked _ _ _ _ _ HS2).
          * destruct HS2 as (A & PL & C & M). destruct (get_item_calm ok any run w2 A o p c m (t_inv _ _ _ _ _ C) Ho2 K2 Hm) as (b & r & -> & F).
            exists (marked w2 b), r. split; [reflexivity|]. split; [apply st_marked; exists A, PL; auto|]. split; [apply marked_clear_to; apply clear_cons; exact CA|].
            intro x. rewrite marked_sits. apply F.
        + assert (NO : forall x, ~ sits w1 x p) by (intros x H; apply F1 in H; discriminate).
          exists w1, None. split; [reflexivity|]. split; [exact HS1|]. split; [apply clear_cons; apply clear_none; eauto using st_wf|].
          intro x. split; [discriminate|]. intro H. destruct (sits_under _ _ _ _ _ H) as (o & _ & _ & _ & _ & _ & _ & Ho). exfalso. eapply NO; eauto.
    Qed.

    Lemma known_sits w T R B p : St w T R B -> clear_to w p -> (known T p <-> exists x, sits w x p).
    Proof.
      intros HS CT. pose proof HS as (A & PL & C & M). destruct p as [|[c m] p].
      - split; [exists 0; constructor|left; reflexivity].
      - assert (CE : (exists t i, In (Thing ((c, m) :: p) t i) T) <-> exists x, sits w x ((c, m) :: p)).
        { split.
          - intros (t & i & H). apply M in H as [H|(a & ds & Hin & Hd)].
            + apply (v_thing _ _ _ _ (t_inv _ _ _ _ _ C)) in H as (x & it & _ & Hs & _). eauto.
            + exfalso. destruct (t_pl _ _ _ _ _ C a ds Hin) as (q & l & P & S & Hc & HT & _). apply in_now in Hd. pose proof (deferred_below l q ds HT) as F.
              rewrite Forall_forall in F. destruct (F _ Hd) as (c' & r & Er & U). injection Er as <- <-.
              pose proof (CT a l q P S (under_cons _ _ _ U)) as X. subst q. apply under_length in U. cbn in U. lia.
          - intros (x & H). destruct (thing_in ok any w A x _ (t_inv _ _ _ _ _ C) (sits_cons_nz _ _ _ _ _ H) H) as (t & i & Hin). exists t, i. apply M. auto. }
        unfold known. rewrite <- CE. split; [intros [X|X]; [discriminate|exact X]|auto].
    Qed.
    Lemma thing_shown w T R B p x : St w T R B -> p <> [] -> sits w x p -> exists t i, show w x = Ret w (Found t i) /\ In (Thing p t i) T.
    Proof.
      intros (A & PL & C & M) Hp Hs. destruct (sits_get ok w x p (v_wf _ _ _ _ (t_inv _ _ _ _ _ C)) Hs) as (it & Hg & _). exists (i_type it), (i_inv it).
      unfold show. rewrite Hg. split; [reflexivity|]. apply M. left. apply (v_thing _ _ _ _ (t_inv _ _ _ _ _ C)). exists x, it.
      destruct p as [|[c m] p]; [congruence|]. split; [eapply sits_cons_nz; eauto|auto].
    Qed.
    Lemma nothing w T R B p : St w T R B -> p <> [] -> clear_to w p -> (forall x, ~ sits w x p) -> forall t i, ~ In (Thing p t i) T.
    Proof. intros HS Hp CT NO t i H. assert (K : known T p) by (right; eauto). apply (known_sits w T R B p HS CT) in K as (x & Hx). eapply NO; eauto. Qed.

    Lemma seeking_st w T R B p f P : St w T R B -> incl T E -> B <= n ->
      (forall w1 x, St w1 T R B -> clear_to w1 p -> sits w1 x p -> known T p -> exists w2 r, f w1 x = Ret w2 r /\ St w2 T R B /\ P r) ->
      (forall w1, St w1 T R B -> clear_to w1 p -> (forall x, ~ sits w1 x p) -> ~ known T p -> P Missing) ->
      exists w' r, seeking run w p f = Ret w' r /\ St w' T R B /\ P r.
    Proof.
      intros HS HT HB H1 H2. destruct (seek_st w T R B HS HT HB p) as (w1 & r & HR & HS1 & C1 & F1). unfold seeking. rewrite HR. cbn [bind].
      pose proof (known_sits w1 T R B p HS1 C1) as K. destruct r as [x|].
      - assert (Hx : sits w1 x p) by (apply F1; reflexivity). apply H1; auto. apply K. eauto.
      - assert (NO : forall x, ~ sits w1 x p) by (intros x H; apply F1 in H; discriminate). exists w1, Missing. split; [reflexivity|]. split; [exact HS1|].
        eapply H2; eauto. intro X. apply K in X as (x & Hx). eapply NO; eauto.
    Qed.

    Lemma nv_counts (l : @nvlist nat) (Q : string -> Prop) : nv_ok l -> (forall m, Q m <-> exists v, val l m = Some v) -> counts Q (nv_size l).
    Proof.
      intros O H. exists (map fst (nv_items l)). split; [apply O|]. split; [apply map_length|]. intro m. rewrite H.
      destruct (val l m) as [v|] eqn:Ev.
      - split; [eauto|]. intros _. destruct (in_dec string_dec m (map fst (nv_items l))) as [X|X]; [exact X|]. apply assoc_fst_none in X. unfold val in Ev. congruence.
      - split; [|intros (v & X); discriminate]. intro X. exfalso. unfold val in Ev. apply assoc_fst_none in Ev. contradiction.
    Qed.
    Lemma val_value (l : @nvlist nat) m (Q : nat -> Prop) : nv_ok l -> (forall v, Q v <-> val l m = Some v) -> value Q (nv_find 0 l m).
    Proof.
      intros O H. rewrite (nv_find_val 0 l m O). destruct (val l m) as [v|] eqn:Ev; [left; apply H; reflexivity|right]. split; [reflexivity|].
      intros u X. apply H in X. discriminate.
    Qed.
    Lemma check_item_is w x : check_item run w x = check run w x \/ (check_item run w x = Ret w tt /\ exists it, get w x = Some it /\ is_container (i_cat it) = false).
    Proof.
      unfold check_item. destruct (get w x) as [it|] eqn:Eg; [|left; unfold check; rewrite Eg; reflexivity].
      destruct (is_container (i_cat it)) eqn:Ec; [left; reflexivity|right]. split; [reflexivity|]. exists it. auto.
    Qed.
    Lemma attrs_st w T R B x p : St w T R B -> incl T E -> B <= n -> clear_to w p -> sits w x p ->
      exists w1 it, check_item run w x = Ret w1 tt /\ get w1 x = Some it /\ St w1 T R B /\ nv_ok (i_attrs it) /\
        forall m v, In (Attribute p m v) T <-> val (i_attrs it) m = Some v.
    Proof.
      intros HS HT HB CT Hs.
      assert (X : exists w1, check_item run w x = Ret w1 tt /\ St w1 T R B /\ clear_at w1 p /\ sits w1 x p).
      { destruct (check_item_is w x) as [->|(-> & it & Hg & Hc)].
        - destruct (settled_st w T R B x p HS Hs HT HB) as (w1 & K1 & K2 & ID & HS1 & G). exists w1. split; [exact K1|]. split; [exact HS1|].
          assert (Hs1 : sits w1 x p) by (eapply stay_sits; [apply G|exact Hs]). split; [|exact Hs1]. exact (clear_go w w1 p x (st_wf _ _ _ _ HS) (st_wf _ _ _ _ HS1) G CT ID Hs1).
        - exists w. split; [reflexivity|]. split; [exact HS|]. split; [|exact Hs]. intros a l q P Sa U. assert (q = p) by (eapply CT; eauto). subst q.
          assert (a = x) by (eapply sits_inj; eauto using st_wf). subst a. destruct HS as (A & PL & C & M). destruct (t_all _ _ _ _ _ C x l P) as (ds & Hin).
          destruct (t_pl _ _ _ _ _ C x ds Hin) as (q & l' & _ & Sq & Hk & _). assert (q = p) by (eapply sits_fun; eauto). subst q.
          destruct (sits_get ok w x p (v_wf _ _ _ _ (t_inv _ _ _ _ _ C)) Hs) as (it2 & Hg2 & Hk2). congruence. }
      destruct X as (w1 & HC & HS1 & CA & Hs1). pose proof HS1 as (A & PL & C & M). pose proof (t_inv _ _ _ _ _ C) as I.
      destruct (sits_get ok w1 x p (v_wf _ _ _ _ I) Hs1) as (it & Hg & _). exists w1, it. split; [exact HC|]. split; [exact Hg|]. split; [exact HS1|].
      split; [apply (l_attrs _ _ _ _ (wf_local _ _ _ _ (v_wf _ _ _ _ I) x it Hg))|]. intros m v. rewrite (clear_attr w1 A PL R B T p m v C M CA), (v_attr _ _ _ _ I). split.
      - intros (y & yt & Sy & Hy & Hv). assert (y = x) by (eapply sits_inj; [exact (v_wf _ _ _ _ I)|eauto|eauto]). subst y. congruence.
      - intro Hv. exists x, it. auto.
    Qed.
    Lemma elems_st w T R B x p : St w T R B -> clear_to w p -> sits w x p ->
      exists it, get w x = Some it /\ nv_ok (i_elems it) /\ forall m v, In (Element p m v) T <-> val (i_elems it) m = Some v.
    Proof.
      intros HS CT Hs. pose proof HS as (A & PL & C & M). pose proof (t_inv _ _ _ _ _ C) as I. destruct (sits_get ok w x p (v_wf _ _ _ _ I) Hs) as (it & Hg & _).
      exists it. split; [exact Hg|]. split; [apply (l_elems _ _ _ _ (wf_local _ _ _ _ (v_wf _ _ _ _ I) x it Hg))|]. intros m v.
      rewrite (clear_elem w A PL R B T p m v C M CT), (v_elem _ _ _ _ I). split.
      - intros (y & yt & Sy & Hy & Hv). assert (y = x) by (eapply sits_inj; [exact (v_wf _ _ _ _ I)|eauto|eauto]). subst y. congruence.
      - intro Hv. exists x, it. auto.
    Qed.

    Lemma ask_st w T R B q : St w T R B -> incl T E -> B <= n -> exists w' r, ask run (S k) w q = Ret w' r /\ St w' T R B /\ truth T q r.
    Proof.
      intros HS HT HB. destruct q as [p|p m args|p c|p m|p|p m|p]; cbn [ask]; apply seeking_st with (P := truth T _); auto.
      - intros w1 x HS1 C1 Hx _. destruct p as [|c p].
        + inversion Hx; subst. pose proof HS1 as (A & PL & C & M). destruct (v_global _ _ _ _ (t_inv _ _ _ _ _ C)) as (g & Hg & _ & _ & E1 & E2).
          exists w1, (Found 0 0). unfold show. rewrite Hg, E1, E2. split; [reflexivity|]. split; [exact HS1|reflexivity].
        + destruct (thing_shown w1 T R B (c :: p) x HS1) as (t & i & -> & Hin); [discriminate|exact Hx|]. eexists _, _. split; [reflexivity|]. split; [exact HS1|exact Hin].
      - intros w1 HS1 C1 NO _. destruct p as [|c p]; [exfalso; apply (NO 0); constructor|]. cbn. eapply nothing; eauto. discriminate.
      - intros w1 x HS1 C1 Hx _. destruct (settled_st w1 T R B x p HS1 Hx HT HB) as (w2 & K1 & K2 & ID & HS2 & G).
        assert (Hx2 : sits w2 x p) by (eapply stay_sits; [apply G|exact Hx]). assert (CA : clear_at w2 p) by exact (clear_go w1 w2 p x (st_wf _ _ _ _ HS1) (st_wf _ _ _ _ HS2) G C1 ID Hx2).
        destruct (sits_get ok w1 x p (st_wf _ _ _ _ HS1) Hx) as (it & Hg & _).
        rewrite (get_method_settled run k w1 w2 x it (signed m args)) by (auto using signed_nonempty; apply G).
        pose proof HS2 as (A & PL & C & M). destruct (method_calm ok any run k w2 A x p m args (t_inv _ _ _ _ _ C) Hx2 K2) as (b & r & -> & F); [apply lone_free; apply free_in; intros d Hd; apply HT; eapply summed_in; eauto|]. cbn [bind].
        pose proof (st_marked w2 T R B b HS2) as HS3. assert (C3 : clear_to (marked w2 b) ((Method, signed m args) :: p)) by (apply marked_clear_to; apply clear_cons; exact CA).
        destruct r as [y|].
        + destruct (thing_shown (marked w2 b) T R B ((Method, signed m args) :: p) y HS3) as (t & i & -> & Hin); [discriminate|apply marked_sits; apply F; reflexivity|].
          eexists _, _. split; [reflexivity|]. split; [exact HS3|exact Hin].
        + exists (marked w2 b), Missing. split; [reflexivity|]. split; [exact HS3|]. cbn. eapply nothing; eauto; [discriminate|]. intros y Hy. apply marked_sits in Hy. apply F in Hy. discriminate.
      - intros w1 HS1 C1 NO _. cbn. eapply nothing with (w := w1); eauto; [discriminate|apply clear_cons; apply clear_none; eauto using st_wf|].
        intros y Hy. destruct (sits_under _ _ _ _ _ Hy) as (o & _ & _ & _ & _ & _ & _ & Ho). eapply NO; eauto.
      - intros w1 x HS1 C1 Hx Kn. destruct (settled_st w1 T R B x p HS1 Hx HT HB) as (w2 & K1 & K2 & ID & HS2 & G).
        assert (Hx2 : sits w2 x p) by (eapply stay_sits; [apply G|exact Hx]). assert (CA : clear_at w2 p) by exact (clear_go w1 w2 p x (st_wf _ _ _ _ HS1) (st_wf _ _ _ _ HS2) G C1 ID Hx2).
        unfold get_count. rewrite K1. cbn [bind]. eexists _, _. split; [reflexivity|]. split; [exact (st_marked _ _ _ _ _ HS2)|]. cbn. split; [exact Kn|].
        pose proof HS2 as (A & PL & C & M). destruct (sits_get ok w2 x p (st_wf _ _ _ _ HS2) Hx2) as (it & Hg & _). unfold list_of. rewrite Hg.
        destruct (listed_names ok any w2 A x it p c (t_inv _ _ _ _ _ C) Hx2 Hg) as (N1 & M1). exists (map (names w2) (ml_items (i_list it c))).
        split; [exact N1|]. split; [apply map_length|]. intro m. rewrite M1. split; intros (t & i & H); exists t, i; apply (clear_thing w2 A PL R B T (c, m) p t i C M CA); exact H.
      - intros w1 x HS1 C1 Hx Kn. destruct (attrs_st w1 T R B x p HS1 HT HB C1 Hx) as (w2 & it & HC & Hg & HS2 & O & F). unfold attr_query. rewrite HC. cbn [bind]. rewrite Hg.
        cbn [bind said nv_ask]. eexists _, _. split; [reflexivity|]. split; [exact (st_marked _ _ _ _ _ HS2)|]. cbn. split; [exact Kn|]. apply val_value; [exact O|]. intro v. apply F.
      - intros w1 x HS1 C1 Hx Kn. destruct (attrs_st w1 T R B x p HS1 HT HB C1 Hx) as (w2 & it & HC & Hg & HS2 & O & F). unfold attr_query. rewrite HC. cbn [bind]. rewrite Hg.
        cbn [bind said nv_ask]. eexists _, _. split; [reflexivity|]. split; [exact (st_marked _ _ _ _ _ HS2)|]. cbn. split; [exact Kn|]. apply nv_counts; [exact O|].
        intro m. split; intros (v & H); exists v; apply F; exact H.
      - intros w1 x HS1 C1 Hx Kn. destruct (elems_st w1 T R B x p HS1 C1 Hx) as (it & Hg & O & F). unfold elem_query. rewrite Hg.
        cbn [bind said nv_ask]. eexists _, _. split; [reflexivity|]. split; [exact (st_marked _ _ _ _ _ HS1)|]. cbn. split; [exact Kn|]. apply val_value; [exact O|]. intro v. apply F.
      - intros w1 x HS1 C1 Hx Kn. destruct (elems_st w1 T R B x p HS1 C1 Hx) as (it & Hg & O & F). unfold elem_query. rewrite Hg.
        cbn [bind said nv_ask]. eexists _, _. split; [reflexivity|]. split; [exact (st_marked _ _ _ _ _ HS1)|]. cbn. split; [exact Kn|]. apply nv_counts; [exact O|].
        intro m. split; intros (v & H); exists v; apply F; exact H.
    Qed.

    Lemma play_st B : B < n -> forall es w T ds, all_told es = Some ds -> St w T (later ds) B -> incl T E -> incl (now ds) E ->
      exists w' rs, play (S k) ok n w es = Ret w' rs /\ honest T es rs /\ St w' (now ds ++ T) [] B.
    Proof.
      intro HB. induction es as [|[l|q] es IH]; intros w T ds HA HS HT HE; cbn [play all_told honest] in *.
      - injection HA as <-. exists w, []. auto.
      - destruct (tells_by l) as [d|] eqn:El; [|discriminate]. apply adding_some in HA as (e & He & ->). rewrite later_app in HS. rewrite now_app in HE.
        destruct (run_st k n w T (later e) B 0 [] l d El) as (w1 & -> & HS1 & _); auto; [constructor|intros x Hx; apply HE; apply in_app_iff; auto|]. cbn [bind].
        destruct (IH w1 (now d ++ T) e He HS1) as (w2 & rs & HP & HH & HS2).
        + intros x Hx. apply in_app_iff in Hx as [Hx|Hx]; [apply HE; apply in_app_iff; auto|auto].
        + intros x Hx. apply HE. apply in_app_iff. auto.
        + exists w2, rs. split; [exact HP|]. split; [exists d; auto|]. eapply st_more; [|exact HS2]. intro x. rewrite now_app, !in_app_iff. tauto.
      - destruct (ask_st w T (later ds) B q HS HT) as (w1 & r & -> & HS1 & HR); [lia|]. cbn [bind].
        destruct (IH w1 T ds HA HS1 HT HE) as (w2 & rs & -> & HH & HS2). cbn [bind]. exists w2, (r :: rs). auto.
    Qed.
  End Ask.

  Lemma st0 R : NoDup R -> St world0 [] R (List.length R).
  Proof.
    intro ND. exists [], []. split; [|intro d; cbn; split; [intros []|intros [[]|(a & ds & [] & _)]]].
    assert (NP : forall a it, get world0 a = Some it -> i_def it = None).
    { intros [|[|a]] it H; try discriminate. injection H as <-. reflexivity. }
    constructor.
    - apply inv0. exact Logic.I.
    - intros a ds [].
    - intros a l (it & Hg & Hd & _). rewrite (NP a it Hg) in Hd. discriminate.
    - constructor.
    - exact ND.
    - intros a it l q Hg Hd. rewrite (NP a it Hg) in Hd. discriminate.
    - cbn. lia.
  Qed.
End Delay.

Lemma counts_fun P m m' : counts P m -> counts P m' -> m' = m.
Proof.
  intros (l & N & <- & H) (l' & N' & <- & H'). apply Permutation_length. apply NoDup_Permutation; auto. intro x. rewrite H, H'. reflexivity.
Qed.
Lemma value_fun (P : nat -> Prop) v v' : (forall a b, P a -> P b -> b = a) -> value P v -> value P v' -> v' = v.
Proof. intros F [H|[-> H]] [H'|[-> H']]; [apply F; assumption|exfalso; eapply H'; eauto|exfalso; eapply H; eauto|reflexivity]. Qed.
Lemma thing_fun E p r r' : sound E -> thing E p r -> thing E p r' -> r' = r.
Proof.
  intros S H H'. destruct r, r'; cbn in *; try contradiction; try reflexivity; try (exfalso; eapply H; eauto; fail); try (exfalso; eapply H'; eauto; fail).
  destruct (s_thing _ S _ _ _ _ _ H H') as [-> ->]. reflexivity.
Qed.
Lemma truth_fun E q r r' : sound E -> truth E q r -> truth E q r' -> r' = r.
Proof.
  intros S H H'. destruct q as [p|p m args|p c|p m|p|p m|p].
  - destruct p; cbn in *; [congruence|]. eapply thing_fun; eauto.
  - cbn in *. eapply thing_fun; eauto.
  - destruct r, r'; cbn in *; try contradiction; try reflexivity; try tauto. f_equal. eapply counts_fun; [apply H|apply H'].
  - destruct r, r'; cbn in *; try contradiction; try reflexivity; try tauto. f_equal. eapply value_fun; [|apply H|apply H']. cbn. intros. eapply (s_attr _ S); eauto.
  - destruct r, r'; cbn in *; try contradiction; try reflexivity; try tauto. f_equal. eapply counts_fun; [apply H|apply H'].
  - destruct r, r'; cbn in *; try contradiction; try reflexivity; try tauto. f_equal. eapply value_fun; [|apply H|apply H']. cbn. intros. eapply (s_elem _ S); eauto.
  - destruct r, r'; cbn in *; try contradiction; try reflexivity; try tauto. f_equal. eapply counts_fun; [apply H|apply H'].
Qed.
Lemma truth_ext E E' q r : (forall d, In d E <-> In d E') -> truth E q r -> truth E' q r.
Proof.
  intros M H.
  assert (K : forall p, known E p <-> known E' p) by (intro p; unfold known; split; (intros [X|(t & i & X)]; [auto|right; exists t, i; apply M; exact X])).
  assert (TH : forall p, thing E p r -> thing E' p r).
  { intros p X. destruct r; cbn in *; auto; [intros t i Y; apply (X t i); apply M; exact Y|apply M; exact X]. }
  assert (CT : forall P P' m, (forall n, P n <-> P' n) -> counts P m -> counts P' m).
  { intros P P' m X (l & N & L & F). exists l. split; [exact N|]. split; [exact L|]. intro n. rewrite F. apply X. }
  assert (VT : forall (P P' : nat -> Prop) v, (forall n, P n <-> P' n) -> value P v -> value P' v).
  { intros P P' v X [Y|[-> Y]]; [left; apply X; exact Y|right]. split; [reflexivity|]. intros u Z. apply (Y u). apply X. exact Z. }
  destruct q as [p|p m args|p c|p m|p|p m|p].
  - destruct p; cbn in *; auto.
  - cbn in *. auto.
  - destruct r; cbn in *; try contradiction; [rewrite <- K; exact H|]. destruct H as [H1 H2]. split; [apply K; exact H1|]. eapply CT; [|exact H2]. intro n. split; intros (t & i & X); exists t, i; apply M; exact X.
  - destruct r; cbn in *; try contradiction; [rewrite <- K; exact H|]. destruct H as [H1 H2]. split; [apply K; exact H1|]. eapply VT; [|exact H2]. intro n. apply M.
  - destruct r; cbn in *; try contradiction; [rewrite <- K; exact H|]. destruct H as [H1 H2]. split; [apply K; exact H1|]. eapply CT; [|exact H2]. intro n. split; intros (u & X); exists u; apply M; exact X.
  - destruct r; cbn in *; try contradiction; [rewrite <- K; exact H|]. destruct H as [H1 H2]. split; [apply K; exact H1|]. eapply VT; [|exact H2]. intro n. apply M.
  - destruct r; cbn in *; try contradiction; [rewrite <- K; exact H|]. destruct H as [H1 H2]. split; [apply K; exact H1|]. eapply CT; [|exact H2]. intro n. split; intros (u & X); exists u; apply M; exact X.
Qed.
