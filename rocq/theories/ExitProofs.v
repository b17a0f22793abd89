(** Proofs about static construction and destruction (C47). *)
From Coq Require Import List Bool Arith Lia.
From Verif Require Import Util ExitModel ExitSpec.
Import ListNotations.

Ltac parts := repeat match goal with |- _ /\ _ => split end.

(** ** Lifetimes *)

Lemma alive_in o s : alive o s = true <-> In o (order s).
Proof. unfold alive. destruct (in_dec _ _ _); split; intro H; try congruence; contradiction. Qed.
Lemma alive_out o s : alive o s = false <-> ~ In o (order s).
Proof. unfold alive. destruct (in_dec _ _ _); split; intro H; try congruence; contradiction. Qed.
Lemma destroyed_in o s : destroyed o s = true <-> In o (dead s).
Proof. unfold destroyed. destruct (in_dec _ _ _); split; intro H; try congruence; contradiction. Qed.
Lemma destroyed_out o s : destroyed o s = false <-> ~ In o (dead s).
Proof. unfold destroyed. destruct (in_dec _ _ _); split; intro H; try congruence; contradiction. Qed.
Lemma mem_in t l : mem t l = true <-> In t l.
Proof. unfold mem. destruct (in_dec _ _ _); split; intro H; try congruence; contradiction. Qed.

(** [b] was constructed before [a]. *)
Definition below (a b : obj) (l : list obj) : Prop := forall A B, l = A ++ a :: B -> In b B.

Lemma below_cons o a b l : o <> a -> below a b l -> below a b (o :: l).
Proof.
  intros N H A B E. destruct A as [|x A]; cbn in E; inversion E; subst; [congruence|]. exact (H A B eq_refl).
Qed.
Lemma below_self a b l : ~ In a l -> In b l -> below a b (a :: l).
Proof.
  intros N H A B E. destruct A as [|x A]; cbn in E; inversion E; subst; [exact H|].
  exfalso. apply N. apply in_or_app. right; left; reflexivity.
Qed.
Lemma below_tail o a b l : below a b (o :: l) -> below a b l.
Proof. intros H A B E. apply (H (o :: A) B). cbn. rewrite E. reflexivity. Qed.
Lemma below_in a b l : below a b l -> In a l -> In b l.
Proof. intros H I. apply in_split in I as (A & B & ->). apply in_or_app. right; right. exact (H A B eq_refl). Qed.

(** ** The invariant *)

Definition entries key (s : st) : Prop := forall k c, In (k, c) (items s) -> key c = k /\ In (OConv c) (order s).

Record inv (key : nat -> nat) (s : st) : Prop := Inv {
  i_nodup : NoDup (order s ++ dead s);
  i_tflag : tflag s = true <-> In OTypes (dead s);
  i_lflag : lflag s = true <-> In OList (dead s);
  i_below : below OList OTypes (order s);
  i_items : entries key s;
  i_empty : ~ In OList (order s) -> items s = [] }.

Lemma inv0 key : inv key st0.
Proof.
  constructor; cbn; try tauto.
  - constructor.
  - split; [discriminate|tauto].
  - split; [discriminate|tauto].
  - intros A B E. destruct A; discriminate.
  - intros k c [].
Qed.

Lemma nodup_cons_app (o : obj) a b : NoDup (a ++ b) -> ~ In o a -> ~ In o b -> NoDup ((o :: a) ++ b).
Proof. intros H Ha Hb. cbn. constructor; [rewrite in_app_iff; tauto|exact H]. Qed.

(** A fresh object other than the table. *)
Lemma inv_construct key o s : inv key s -> ~ In o (order s) -> ~ In o (dead s) -> o <> OList -> inv key (construct o s).
Proof.
  intros [N T L B I E] Ha Hd Ho. constructor; cbn; try assumption.
  - exact (nodup_cons_app o _ _ N Ha Hd).
  - exact (below_cons o _ _ _ Ho B).
  - intros k c H. destruct (I k c H) as [K Hc]. split; [exact K|right; exact Hc].
  - intro H. apply E. tauto.
Qed.

Lemma inv_construct_list key s : inv key s -> ~ In OList (order s) -> ~ In OList (dead s) -> In OTypes (order s) ->
  inv key (construct OList s).
Proof.
  intros [N T L B I E] Ha Hd Ht. constructor; cbn; try assumption.
  - exact (nodup_cons_app _ _ _ N Ha Hd).
  - exact (below_self _ _ _ Ha Ht).
  - intros k c H. cbn in H. rewrite (E Ha) in H. destruct H.
  - tauto.
Qed.

Lemma static_cases o f s r : static o f s = r ->
  (In o (order s) /\ r = Ok s) \/ (~ In o (order s) /\ In o (dead s) /\ r = Bad f) \/
  (~ In o (order s) /\ ~ In o (dead s) /\ r = Ok (construct o s)).
Proof.
  unfold static. destruct (alive o s) eqn:A.
  - intros <-. left. split; [apply alive_in; exact A|reflexivity].
  - apply alive_out in A. destruct (destroyed o s) eqn:D; intros <-.
    + right; left. apply destroyed_in in D. auto.
    + right; right. apply destroyed_out in D. auto.
Qed.

(** customTypes() never faults; it gives null exactly once the registry is destroyed, else a live registry. *)
Lemma custom_types_ok key s : inv key s -> exists b s', custom_types s = Ok (b, s') /\
  (b = true <-> ~ In OTypes (dead s)) /\ (b = true -> In OTypes (order s')) /\
  ((s' = s /\ (b = true -> In OTypes (order s))) \/
   (b = true /\ ~ In OTypes (order s) /\ ~ In OTypes (dead s) /\ s' = construct OTypes s)).
Proof.
  intro I. unfold custom_types. destruct (tflag s) eqn:F.
  - exists false, s. apply (i_tflag _ _ I) in F.
    split; [reflexivity|]. split; [split; [discriminate|intro H; contradiction]|]. split; [discriminate|].
    left. split; [reflexivity|discriminate].
  - assert (D : ~ In OTypes (dead s)) by (intro D; apply (i_tflag _ _ I) in D; congruence).
    destruct (static_cases OTypes FTypes s _ eq_refl) as [[A E]|[[A [D' E]]|[A [_ E]]]]; rewrite E; [| contradiction|].
    + exists true, s. split; [reflexivity|]. split; [tauto|]. split; [tauto|]. left. tauto.
    + exists true, (construct OTypes s). split; [reflexivity|]. split; [tauto|]. split; [intros _; left; reflexivity|]. right. tauto.
Qed.

Lemma custom_types_inv key s b s' : inv key s -> custom_types s = Ok (b, s') -> inv key s'.
Proof.
  intros I E. destruct (custom_types_ok key s I) as (b1 & s1 & E1 & _ & _ & C). rewrite E1 in E. injection E as -> ->.
  destruct C as [[-> _]|(_ & A & D & ->)]; [exact I|]. apply inv_construct; auto. discriminate.
Qed.

(** The list of converters never faults either; when it is there, the registry is. *)
Lemma converter_list_ok key s : inv key s -> exists b s', converter_list s = Ok (b, s') /\ inv key s' /\
  (b = true -> In OList (order s') /\ In OTypes (order s')) /\ dead s' = dead s /\ (In OList (order s) -> b = true) /\
  (forall o, In o (order s) -> In o (order s')) /\
  (forall o, In o (order s') -> In o (order s) \/ o = OTypes \/ o = OList) /\
  items s' = items s /\ classes s' = classes s /\ kept s' = kept s.
Proof.
  intro I. unfold converter_list. destruct (custom_types_ok key s I) as (b1 & s1 & E1 & D1 & A1 & C). rewrite E1.
  pose proof (custom_types_inv key s b1 s1 I E1) as I1.
  assert (Dd : dead s1 = dead s) by (destruct C as [[-> _]|(_ & _ & _ & ->)]; reflexivity).
  assert (Up : forall o, In o (order s) -> In o (order s1)) by (destruct C as [[-> _]|(_ & _ & _ & ->)]; cbn; auto).
  assert (Dn : forall o, In o (order s1) -> In o (order s) \/ o = OTypes)
    by (destruct C as [[-> _]|(_ & _ & _ & ->)]; cbn; intros o Ho; intuition auto).
  assert (It : items s1 = items s) by (destruct C as [[-> _]|(_ & _ & _ & ->)]; reflexivity).
  assert (Cl : classes s1 = classes s) by (destruct C as [[-> _]|(_ & _ & _ & ->)]; reflexivity).
  assert (Kp : kept s1 = kept s) by (destruct C as [[-> _]|(_ & _ & _ & ->)]; reflexivity).
  destruct b1.
  - specialize (A1 eq_refl). unfold custom_list. destruct (lflag s1) eqn:F.
    + exists false, s1. apply (i_lflag _ _ I1) in F. parts; auto; try discriminate.
      * intro H. exfalso. apply Up in H. apply in_split in H as (p & q & H). pose proof (i_nodup _ _ I1) as N. rewrite H in N.
        rewrite <- app_assoc in N. apply NoDup_remove_2 in N. apply N. rewrite !in_app_iff. auto.
      * intros o Ho. destruct (Dn o Ho); auto.
    + assert (D : ~ In OList (dead s1)) by (intro D; apply (i_lflag _ _ I1) in D; congruence).
      destruct (static_cases OList FList s1 _ eq_refl) as [[A E]|[[A [D' E]]|[A [_ E]]]]; rewrite E; [|contradiction|].
      * exists true, s1. parts; auto. intros o Ho. destruct (Dn o Ho); auto.
      * exists true, (construct OList s1). parts; auto.
        -- exact (inv_construct_list key s1 I1 A D A1).
        -- intros _. cbn. auto.
        -- intros o Ho. right. auto.
        -- intros o [<-|Ho]; [auto|]. destruct (Dn o Ho); auto.
  - exists false, s1. split; [reflexivity|]. split; [exact I1|]. split; [discriminate|]. split; [exact Dd|]. split.
    + intro H. exfalso. pose proof (below_in _ _ _ (i_below _ _ I) H) as Ht.
      assert (Nd : ~ ~ In OTypes (dead s)) by (intro X; apply D1 in X; discriminate). apply Nd. intro Hd.
      apply in_split in Ht as (p & q & Ht). pose proof (i_nodup _ _ I) as N. rewrite Ht, <- app_assoc in N.
      apply NoDup_remove_2 in N. apply N. rewrite !in_app_iff. auto.
    + parts; auto. intros o Ho. destruct (Dn o Ho); auto.
Qed.

(** ** One call *)

Lemma inv_remove key k s : inv key s -> inv key (remove k s).
Proof.
  intros [N T L B I E]. constructor; cbn; try assumption.
  - intros k' c H. apply filter_In in H as [H _]. exact (I k' c H).
  - intro H. rewrite (E H). reflexivity.
Qed.

Lemma inv_add key c s : inv key s -> In (OConv c) (order s) -> In OList (order s) -> inv key (add (key c) c s).
Proof.
  intros I Hc Hl. unfold add. destruct (get (key c) s); [exact I|]. destruct I as [N T L B I E].
  constructor; cbn; try assumption.
  - intros k c' [X|X]; [|exact (I k c' X)]. injection X as <- <-. auto.
  - contradiction.
Qed.

Lemma get_in k s c : get k s = Some c -> In (k, c) (items s).
Proof.
  unfold get. destruct (find _ _) as [[k' c']|] eqn:F; [|discriminate]. intro E. injection E as <-.
  apply find_some in F as [F G]. cbn in *. apply Nat.eqb_eq in G. subst. exact F.
Qed.

(** The faults that do happen. *)
Definition possible (f : fault) : Prop :=
  match f with FTypes | FList | FConverter => False | _ => True end.

Definition oknext key (r : res (answer * st)) : Prop :=
  match r with Ok (_, s') => inv key s' | Bad f => possible f end.

Lemma step_inv key x s : inv key s -> oknext key (step key x s).
Proof.
  intro I. destruct x as [t|t|c|k|k|t|t| | | |u]; cbn [step].
  - destruct (custom_types_ok key s I) as (b & s1 & E & _). rewrite E. pose proof (custom_types_inv key s b s1 I E) as I1.
    destruct b; cbn; [|exact I1]. destruct I1. constructor; assumption.
  - destruct (mem t (kept s)); [|exact I]. destruct (alive OTypes s); [exact I|cbn; exact Logic.I].
  - destruct (static_cases (OConv c) FStatic s _ eq_refl) as [[A E]|[[A [D E]]|[A [D E]]]]; rewrite E; [|cbn; exact Logic.I|].
    + destruct (converter_list_ok key s I) as (b & s1 & E1 & I1 & Hb & _ & _ & Up & _). rewrite E1.
      destruct b; cbn; [|exact I1]. apply inv_add; [exact I1|exact (Up _ A)|apply Hb; reflexivity].
    + assert (I' : inv key (construct (OConv c) s)) by (apply inv_construct; auto; discriminate).
      destruct (converter_list_ok key _ I') as (b & s1 & E1 & I1 & Hb & _ & _ & Up & _). rewrite E1.
      destruct b; cbn; [|exact I1]. apply inv_add; [exact I1|apply Up; left; reflexivity|apply Hb; reflexivity].
  - destruct (converter_list_ok key s I) as (b & s1 & E1 & I1 & _). rewrite E1. destruct b; cbn; [|exact I1].
    apply inv_remove; exact I1.
  - destruct (converter_list_ok key s I) as (b & s1 & E1 & I1 & _). rewrite E1. destruct b; cbn; [|exact I1].
    destruct (get k s1) as [c|] eqn:G; [|exact I1]. apply get_in in G. apply (i_items _ _ I1) in G as [_ G].
    apply alive_in in G. rewrite G. exact I1.
  - destruct (static_cases OGlobal FGlobal s _ eq_refl) as [[A E]|[[A [D E]]|[A [D E]]]]; rewrite E; [|cbn; exact Logic.I|].
    + destruct (custom_types_ok key s I) as (b & s1 & E1 & _). rewrite E1. pose proof (custom_types_inv key s b s1 I E1) as I1.
      destruct b; cbn; [|exact I1]. destruct I1. constructor; assumption.
    + assert (I' : inv key (construct OGlobal s)) by (apply inv_construct; auto; discriminate).
      destruct (custom_types_ok key _ I') as (b & s1 & E1 & _). rewrite E1. pose proof (custom_types_inv key _ b s1 I' E1) as I1.
      destruct b; cbn; [|exact I1]. destruct I1. constructor; assumption.
  - destruct (custom_types_ok key s I) as (b & s1 & E & _). rewrite E. pose proof (custom_types_inv key s b s1 I E) as I1.
    destruct b; cbn; [|exact I1]. destruct (mem t (classes s1)); [|exact I1].
    destruct (alive OGlobal s1); [exact I1|exact Logic.I].
  - destruct (static_cases OGlobal FGlobal s _ eq_refl) as [[A E]|[[A [D E]]|[A [D E]]]]; rewrite E;
      [exact I|exact Logic.I|]. apply inv_construct; auto. discriminate.
  - destruct (alive OEmpty s); [exact I|exact Logic.I].
  - destruct (alive OEmpty s || destroyed OEmpty s) eqn:O; [exact I|]. apply orb_false_iff in O as [A D].
    apply alive_out in A. apply destroyed_out in D. apply inv_construct; auto. discriminate.
  - destruct (alive (OUser u) s || destroyed (OUser u) s) eqn:O; [exact I|]. apply orb_false_iff in O as [A D].
    apply alive_out in A. apply destroyed_out in D. apply inv_construct; auto. discriminate.
Qed.

Lemma run_inv key l : forall s, inv key s ->
  match run key l s with Ok (_, s') => inv key s' | Bad f => possible f end.
Proof.
  induction l as [|x l IH]; intros s I; cbn; [exact I|]. pose proof (step_inv key x s I) as S.
  destruct (step key x s) as [[a s1]|f]; cbn in S; [|exact S]. specialize (IH s1 S).
  destruct (run key l s1) as [[al s2]|f]; exact IH.
Qed.

(** ** One destruction *)

Lemma nodup_pop (o : obj) r d : NoDup ((o :: r) ++ d) -> NoDup (r ++ o :: d) /\ ~ In o r /\ ~ In o d.
Proof.
  intro N. cbn in N. inversion N as [|? ? H1 H2]; subst. rewrite in_app_iff in H1. split; [|tauto].
  apply NoDup_Add with (a := o) (l := r ++ d); [apply Add_app|]. split; [exact H2|rewrite in_app_iff; tauto].
Qed.

(** After [perish] all but the entries of the converter itself are in order. *)
Lemma perish_inv key o r s : inv key s -> order s = o :: r -> (forall c, o <> OConv c) -> inv key (perish o r s).
Proof.
  intros [N T L B I E] O C. rewrite O in *. destruct (nodup_pop _ _ _ N) as (N' & Nr & Nd).
  assert (Et : o = OTypes -> items s = [] /\ ~ In OList r).
  { intros ->. assert (X : ~ In OList r) by (intro X; apply Nr; exact (below_in _ _ _ (below_tail _ _ _ _ B) X)).
    split; [|exact X]. apply E. intros [Y|Y]; [discriminate|contradiction]. }
  constructor; cbn.
  - exact N'.
  - destruct o; rewrite ?T; clear; intuition discriminate.
  - destruct o; rewrite ?L; clear; intuition discriminate.
  - exact (below_tail _ _ _ _ B).
  - intros k c H. destruct (obj_eq_dec o OList) as [->|No]; [destruct H|].
    assert (H' : In (k, c) (items s)) by (destruct o; (exact H || congruence)).
    destruct (I k c H') as [K X]. rewrite O in X. destruct X as [X|X]; [|auto]. exfalso. exact (C c X).
  - intro H. destruct (obj_eq_dec o OList) as [->|No]; [reflexivity|].
    destruct o; try (apply E; intros [X|X]; [congruence|contradiction]). congruence.
Qed.

(** The list is found in the same way whatever is in it. *)
Lemma converter_list_items k s : converter_list s =
  match converter_list (remove k s) with Ok (b, s') => Ok (b, set_items (items s) s') | Bad f => Bad f end.
Proof.
  destruct s as [o d t l kp it cl]. unfold converter_list, custom_types, custom_list. cbn [tflag remove set_items].
  destruct t; [reflexivity|]. unfold static.
  assert (A : forall x o' k' i i', alive x (St o' d false l k' i cl) = alive x (St o' d false l k' i' cl)) by reflexivity.
  assert (D : forall x o' k' i i', destroyed x (St o' d false l k' i cl) = destroyed x (St o' d false l k' i' cl)) by reflexivity.
  unfold remove, set_items, construct. cbn [order dead tflag lflag kept items classes].
  set (it' := filter _ it). rewrite (A OTypes o kp it' it), (D OTypes o kp it' it).
  destruct (alive OTypes _).
  - cbn [lflag]. destruct l; [reflexivity|]. rewrite (A OList o kp it' it), (D OList o kp it' it).
    destruct (alive OList _); [reflexivity|]. destruct (destroyed OList _); reflexivity.
  - destruct (destroyed OTypes _); [reflexivity|]. cbn [lflag]. destruct l; [reflexivity|].
    rewrite (A OList (OTypes :: o) kp it' it), (D OList (OTypes :: o) kp it' it).
    destruct (alive OList _); [reflexivity|]. destruct (destroyed OList _); reflexivity.
Qed.

Lemma perish_conv key c r s : inv key s -> order s = OConv c :: r ->
  exists s', run key [Unregister (key c)] (perish (OConv c) r s) = Ok ([AUnit], s') /\ inv key s' /\
    dead s' = OConv c :: dead s /\ (forall o, In o r -> In o (order s')) /\
    (forall o, In o (order s') -> In o r \/ o = OTypes \/ o = OList).
Proof.
  intros [N T L B I E] O. rewrite O in *. destruct (nodup_pop _ _ _ N) as (N' & Nr & Nd).
  set (s1 := perish (OConv c) r s).
  (* the state without the entries of the converter satisfies the invariant *)
  assert (I0 : inv key (remove (key c) s1)).
  { constructor; cbn; try exact N'.
    - rewrite T. intuition discriminate.
    - rewrite L. intuition discriminate.
    - exact (below_tail _ _ _ _ B).
    - intros k c' H. apply filter_In in H as [H G]. cbn in G. apply negb_true_iff, Nat.eqb_neq in G.
      destruct (I k c' H) as [K X]. rewrite O in X. destruct X as [X|X]; [|auto]. injection X as <-. congruence.
    - intro H. rewrite E; [reflexivity|]. intros [X|X]; [discriminate|contradiction]. }
  destruct (converter_list_ok key _ I0) as (b & s2 & E2 & I2 & Hb & Dd & Hl & Up & Dn & It & Cl & Kp).
  (* the list is found in the same way whether or not the entries are there *)
  assert (Eq : converter_list s1 = match converter_list (remove (key c) s1) with
                                   | Ok (b, s') => Ok (b, set_items (items s1) s') | Bad f => Bad f end).
  { apply converter_list_items. }
  unfold s1 in *. cbn [run step]. rewrite Eq, E2. destruct b.
  - eexists. split; [reflexivity|].
    assert (R : remove (key c) (set_items (items (perish (OConv c) r s)) s2) = s2).
    { destruct s2 as [o2 d2 t2 l2 k2 i2 c2]. unfold remove, set_items. cbn in *. rewrite It. reflexivity. }
    rewrite R. split; [exact I2|]. split; [exact Dd|]. split; [exact Up|exact Dn].
  - eexists. split; [reflexivity|].
    assert (Nl : ~ In OList r) by (intro X; specialize (Hl X); discriminate).
    assert (Ei : items s = []) by (apply E; intros [X|X]; [discriminate|contradiction]).
    assert (R : set_items (items (perish (OConv c) r s)) s2 = s2).
    { destruct s2 as [o2 d2 t2 l2 k2 i2 c2]. unfold set_items. cbn in *. rewrite Ei in *. cbn in It. rewrite It. reflexivity. }
    rewrite R. split; [exact I2|]. split; [exact Dd|]. split; [exact Up|exact Dn].
Qed.

Lemma destroy_inv key dtor o r s : inv key s -> order s = o :: r ->
  match run key (body key dtor o) (perish o r s) with Ok (_, s') => inv key s' | Bad f => possible f end.
Proof.
  intros I O. destruct o as [| | | |c|u]; try (apply run_inv; apply perish_inv; auto; discriminate).
  destruct (perish_conv key c r s I O) as (s' & E & I' & _). cbn [body]. rewrite E. exact I'.
Qed.

Lemma leave_inv key dtor n : forall s, inv key s ->
  match leave key dtor n s with Ok (_, s') => inv key s' | Bad f => possible f end.
Proof.
  induction n as [|n IH]; intros s I; cbn; [exact I|]. destruct (order s) as [|o r] eqn:O; [exact I|].
  pose proof (destroy_inv key dtor o r s I O) as D. destruct (run key (body key dtor o) (perish o r s)) as [[al s1]|f]; [|exact D].
  specialize (IH s1 D). destruct (leave key dtor n s1) as [[bl s2]|f]; exact IH.
Qed.

Lemma life_inv key dtor main n :
  match life key dtor main n with Ok (_, s') => inv key s' | Bad f => possible f end.
Proof.
  unfold life. pose proof (run_inv key main st0 (inv0 key)) as R. destruct (run key main st0) as [[al s]|f]; [|exact R].
  pose proof (leave_inv key dtor n s R) as L. destruct (leave key dtor n s) as [[bl s']|f]; exact L.
Qed.

(** Prefixes of a run that goes through go through. *)
Lemma run_app key p q : forall s al s', run key p s = Ok (al, s') ->
  run key (p ++ q) s = match run key q s' with Ok (bl, s'') => Ok (al ++ bl, s'') | Bad f => Bad f end.
Proof.
  induction p as [|x p IH]; intros s al s' H; cbn in *.
  - injection H as <- <-. destruct (run key q s) as [[bl s'']|f]; reflexivity.
  - destruct (step key x s) as [[a s1]|f]; [|discriminate]. destruct (run key p s1) as [[bl s2]|f] eqn:R; [|discriminate].
    injection H as <- <-. rewrite (IH s1 bl s2 R). destruct (run key q s2) as [[cl s3]|f]; reflexivity.
Qed.

Lemma performs_inv key dtor main x s : performs key dtor main x s -> inv key s.
Proof.
  intros [p q al M R|n al s0 u r p q bl L O B R].
  - pose proof (run_inv key p st0 (inv0 key)) as X. rewrite R in X. exact X.
  - pose proof (life_inv key dtor main n) as X. rewrite L in X.
    pose proof (run_inv key p (perish _ r s0) (perish_inv key _ r s0 X O ltac:(discriminate))) as Y. rewrite R in Y. exact Y.
Qed.

(** ** Calls that never fault *)

Lemma plain_ok key x s : inv key s -> plain x -> exists a s', step key x s = Ok (a, s').
Proof.
  intros I P. destruct x as [t|t|c|k|k|t|t| | | |u]; cbn in P; try contradiction; cbn [step].
  - destruct (custom_types_ok key s I) as (b & s1 & E & _). rewrite E. destruct b; eauto.
  - destruct (converter_list_ok key s I) as (b & s1 & E1 & _). rewrite E1. destruct b; eauto.
  - destruct (converter_list_ok key s I) as (b & s1 & E1 & I1 & _). rewrite E1. destruct b; [|eauto].
    destruct (get k s1) as [c|] eqn:G; [|eauto]. apply get_in in G. apply (i_items _ _ I1) in G as [_ G].
    apply alive_in in G. rewrite G. eauto.
  - destruct (_ || _); eauto.
  - destruct (_ || _); eauto.
Qed.

Lemma plain_run key l : forall s, inv key s -> Forall plain l -> exists al s', run key l s = Ok (al, s').
Proof.
  induction l as [|x l IH]; intros s I P; cbn; [eauto|]. inversion P as [|? ? P1 P2]; subst.
  destruct (plain_ok key x s I P1) as (a & s1 & E). rewrite E. pose proof (step_inv key x s I) as I1. rewrite E in I1. cbn in I1.
  destruct (IH s1 I1 P2) as (al & s2 & E2). rewrite E2. eauto.
Qed.

Lemma plain_leave key dtor : (forall u, Forall plain (dtor u)) -> forall n s, inv key s ->
  exists al s', leave key dtor n s = Ok (al, s').
Proof.
  intros P. induction n as [|n IH]; intros s I; cbn; [eauto|]. destruct (order s) as [|o r] eqn:O; [eauto|].
  pose proof (destroy_inv key dtor o r s I O) as D.
  assert (H : exists al s', run key (body key dtor o) (perish o r s) = Ok (al, s')).
  { destruct o as [| | | |c|u]; try (cbn; eauto; fail).
    - destruct (perish_conv key c r s I O) as (s' & E & _). cbn [body]. rewrite E. eauto.
    - apply plain_run; [apply perish_inv; auto; discriminate|exact (P u)]. }
  destruct H as (al & s1 & E). rewrite E in *. destruct (IH s1 D) as (bl & s2 & E2). rewrite E2. eauto.
Qed.

(** ** Main: nothing is destroyed yet *)

Lemma custom_types_dead key s b s' : inv key s -> custom_types s = Ok (b, s') -> dead s' = dead s /\
  (forall o, In o (order s) -> In o (order s')) /\ (forall o, In o (order s') -> In o (order s) \/ o = OTypes) /\
  classes s' = classes s /\ kept s' = kept s.
Proof.
  intros I E. destruct (custom_types_ok key s I) as (b1 & s1 & E1 & _ & _ & C). rewrite E1 in E. injection E as -> ->.
  destruct C as [[-> _]|(_ & _ & _ & ->)]; cbn; parts; auto; intros o H; intuition auto.
Qed.

Lemma step_dead key x s a s' : inv key s -> step key x s = Ok (a, s') -> dead s' = dead s /\
  (forall o, In o (order s) -> In o (order s')) /\ (forall o, In o (order s') -> In o (order s) \/ In o (mentions x)).
Proof.
  intros I E. destruct x as [t|t|c|k|k|t|t| | | |u]; cbn [step] in E.
  - destruct (custom_types s) as [[b s1]|f] eqn:C; [|discriminate].
    destruct (custom_types_dead key s b s1 I C) as (D & Up & Dn & _). destruct b; injection E as <- <-; cbn; parts; auto;
      intros o H; destruct (Dn o H) as [X| ->]; auto.
  - destruct (mem t (kept s)); [destruct (alive OTypes s); [|discriminate]|]; injection E as <- <-; auto.
  - destruct (static_cases (OConv c) FStatic s _ eq_refl) as [[A E0]|[[A [D E0]]|[A [D E0]]]]; rewrite E0 in E; [|discriminate|].
    + destruct (converter_list_ok key s I) as (b & s1 & E1 & I1 & _ & Dd & _ & Up & Dn & _). rewrite E1 in E.
      assert (X : order s' = order s1 /\ dead s' = dead s1)
        by (destruct b; injection E as <- <-; [unfold add; destruct (get (key c) s1)|]; auto).
      destruct X as [X Y]. rewrite X, Y. parts; auto. intros o H. cbn. destruct (Dn o H) as [?|[->| ->]]; auto.
    + assert (I' : inv key (construct (OConv c) s)) by (apply inv_construct; auto; discriminate).
      destruct (converter_list_ok key _ I') as (b & s1 & E1 & I1 & _ & Dd & _ & Up & Dn & _). rewrite E1 in E.
      assert (X : order s' = order s1 /\ dead s' = dead s1)
        by (destruct b; injection E as <- <-; [unfold add; destruct (get (key c) s1)|]; auto).
      destruct X as [X Y]. rewrite X, Y. parts; auto.
      * intros o H. apply Up. right; exact H.
      * intros o H. cbn. destruct (Dn o H) as [[?|?]|[->| ->]]; auto.
  - destruct (converter_list_ok key s I) as (b & s1 & E1 & I1 & _ & Dd & _ & Up & Dn & _). rewrite E1 in E.
    assert (X : order s' = order s1 /\ dead s' = dead s1) by (destruct b; injection E as <- <-; auto).
    destruct X as [X Y]. rewrite X, Y. parts; auto. intros o H. cbn. destruct (Dn o H) as [?|[->| ->]]; auto.
  - destruct (converter_list_ok key s I) as (b & s1 & E1 & I1 & _ & Dd & _ & Up & Dn & _). rewrite E1 in E.
    assert (X : s' = s1).
    { destruct b; [|injection E as <- <-; auto]. destruct (get k s1); [destruct (alive _ s1); [|discriminate]|]; injection E as <- <-; auto. }
    subst s'. parts; auto. intros o H. cbn. destruct (Dn o H) as [?|[->| ->]]; auto.
  - destruct (static_cases OGlobal FGlobal s _ eq_refl) as [[A E0]|[[A [D E0]]|[A [D E0]]]]; rewrite E0 in E; [|discriminate|].
    + destruct (custom_types s) as [[b s1]|f] eqn:C; [|discriminate].
      destruct (custom_types_dead key s b s1 I C) as (D & Up & Dn & _). destruct b; injection E as <- <-; cbn; parts; auto;
        intros o H; destruct (Dn o H) as [X| ->]; auto.
    + assert (I' : inv key (construct OGlobal s)) by (apply inv_construct; auto; discriminate).
      destruct (custom_types (construct OGlobal s)) as [[b s1]|f] eqn:C; [|discriminate].
      destruct (custom_types_dead key _ b s1 I' C) as (Dd & Up & Dn & _). cbn in Dd, Up, Dn.
      destruct b; injection E as <- <-; cbn; parts; auto;
        intros o H; destruct (Dn o H) as [[?|?]| ->]; auto.
  - destruct (custom_types s) as [[b s1]|f] eqn:C; [|discriminate].
    destruct (custom_types_dead key s b s1 I C) as (D & Up & Dn & _).
    assert (X : s' = s1).
    { destruct b; [|injection E as <- <-; auto]. destruct (mem t (classes s1)); [destruct (alive _ s1); [|discriminate]|]; injection E as <- <-; auto. }
    subst s'. parts; auto. intros o H; destruct (Dn o H) as [X| ->]; cbn; auto.
  - destruct (static_cases OGlobal FGlobal s _ eq_refl) as [[A E0]|[[A [D E0]]|[A [D E0]]]]; rewrite E0 in E; [|discriminate|];
      injection E as <- <-; cbn; parts; auto. intros o [<-|H]; auto.
  - destruct (alive OEmpty s); [|discriminate]. injection E as <- <-. auto.
  - destruct (_ || _); injection E as <- <-; cbn; parts; auto. intros o [<-|H]; auto.
  - destruct (_ || _); injection E as <- <-; cbn; parts; auto. intros o [<-|H]; auto.
Qed.

(** What can go wrong, given what has been destroyed. *)
Lemma step_fault key x s f : inv key s -> step key x s = Bad f ->
  match x with
  | Held t => f = FHandle /\ In t (kept s) /\ ~ In OTypes (order s)
  | Register c => f = FStatic /\ In (OConv c) (dead s)
  | Define _ | Browse => f = FGlobal /\ In OGlobal (dead s)
  | Find t => f = FClass /\ In t (classes s) /\ ~ In OGlobal (order s) /\ ~ In OTypes (dead s)
  | Missing => f = FEmpty /\ ~ In OEmpty (order s)
  | _ => False
  end.
Proof.
  intros I E. destruct x as [t|t|c|k|k|t|t| | | |u];
    try (match type of E with step _ ?y _ = _ => destruct (plain_ok key y s I Logic.I) as (a & s' & E') end;
         rewrite E' in E; discriminate); cbn [step] in E.
  - destruct (mem t (kept s)) eqn:M; [|discriminate]. destruct (alive OTypes s) eqn:A; [discriminate|]. injection E as <-.
    apply mem_in in M. apply alive_out in A. auto.
  - destruct (static_cases (OConv c) FStatic s _ eq_refl) as [[A E0]|[[A [D E0]]|[A [D E0]]]]; rewrite E0 in E.
    + destruct (converter_list_ok key s I) as (b & s1 & E1 & _). rewrite E1 in E. destruct b; discriminate.
    + injection E as <-. auto.
    + assert (I' : inv key (construct (OConv c) s)) by (apply inv_construct; auto; discriminate).
      destruct (converter_list_ok key _ I') as (b & s1 & E1 & _). rewrite E1 in E. destruct b; discriminate.
  - destruct (static_cases OGlobal FGlobal s _ eq_refl) as [[A E0]|[[A [D E0]]|[A [D E0]]]]; rewrite E0 in E.
    + destruct (custom_types_ok key s I) as (b & s1 & E1 & _). rewrite E1 in E. destruct b; discriminate.
    + injection E as <-. auto.
    + assert (I' : inv key (construct OGlobal s)) by (apply inv_construct; auto; discriminate).
      destruct (custom_types_ok key _ I') as (b & s1 & E1 & _). rewrite E1 in E. destruct b; discriminate.
  - destruct (custom_types_ok key s I) as (b & s1 & E1 & Db & _). rewrite E1 in E. destruct b; [|discriminate].
    destruct (custom_types_dead key s true s1 I E1) as (D & Up & Dn & Cl & _).
    destruct (mem t (classes s1)) eqn:M; [|discriminate]. destruct (alive OGlobal s1) eqn:A; [discriminate|].
    injection E as <-. apply mem_in in M. rewrite Cl in M. apply alive_out in A. parts; auto; tauto.
  - destruct (static_cases OGlobal FGlobal s _ eq_refl) as [[A E0]|[[A [D E0]]|[A [D E0]]]]; rewrite E0 in E; try discriminate.
    injection E as <-. auto.
  - destruct (alive OEmpty s) eqn:A; [discriminate|]. injection E as <-. apply alive_out in A. auto.
Qed.

(** A type kept or linked means that the registry was constructed, a linked one the global namespace too. *)
Record known (s : st) : Prop := Known {
  n_kept : kept s <> [] -> In OTypes (order s ++ dead s);
  n_links : classes s <> [] -> In OGlobal (order s ++ dead s) }.

Lemma known_up s s' : known s -> dead s' = dead s -> (forall o, In o (order s) -> In o (order s')) ->
  kept s' = kept s -> classes s' = classes s -> known s'.
Proof.
  intros [K C] D Up Hk Hc. constructor; rewrite ?Hk, ?Hc; intro H; [apply K in H|apply C in H]; rewrite in_app_iff in *; rewrite D;
    destruct H; auto.
Qed.

Lemma step_known key x s a s' : inv key s -> known s -> step key x s = Ok (a, s') -> known s'.
Proof.
  intros I N E. pose proof (step_dead key x s a s' I E) as (D & Up & _).
  destruct x as [t|t|c|k|k|t|t| | | |u]; cbn [step] in E.
  - destruct (custom_types_ok key s I) as (b & s1 & C & _ & A & _). rewrite C in E.
    destruct (custom_types_dead key s b s1 I C) as (D1 & Up1 & _ & Cl & Kp).
    destruct b; injection E as <- <-; [|apply (known_up s); auto]. constructor; cbn.
    + intros _. apply in_or_app. left. exact (A eq_refl).
    + rewrite Cl. intro H. apply (n_links _ N) in H. rewrite in_app_iff in *. rewrite D1. destruct H; auto.
  - destruct (mem t (kept s)); [destruct (alive OTypes s); [|discriminate]|]; injection E as <- <-; auto.
  - destruct (static_cases (OConv c) FStatic s _ eq_refl) as [[A E0]|[[A [D0 E0]]|[A [D0 E0]]]]; rewrite E0 in E; [|discriminate|].
    + destruct (converter_list_ok key s I) as (b & s1 & E1 & I1 & _ & Dd & _ & Up1 & Dn & _ & Cl & Kp). rewrite E1 in E.
      apply (known_up s); auto; destruct b; injection E as <- <-; auto; unfold add; destruct (get (key c) s1); auto.
    + assert (I' : inv key (construct (OConv c) s)) by (apply inv_construct; auto; discriminate).
      destruct (converter_list_ok key _ I') as (b & s1 & E1 & I1 & _ & Dd & _ & Up1 & Dn & _ & Cl & Kp). rewrite E1 in E.
      apply (known_up s); auto; destruct b; injection E as <- <-; auto; unfold add; destruct (get (key c) s1); auto.
  - destruct (converter_list_ok key s I) as (b & s1 & E1 & I1 & _ & Dd & _ & Up1 & Dn & _ & Cl & Kp). rewrite E1 in E.
    apply (known_up s); auto; destruct b; injection E as <- <-; auto.
  - destruct (converter_list_ok key s I) as (b & s1 & E1 & I1 & _ & Dd & _ & Up1 & Dn & _ & Cl & Kp). rewrite E1 in E.
    assert (X : s' = s1).
    { destruct b; [|injection E as <- <-; auto]. destruct (get k s1); [destruct (alive _ s1); [|discriminate]|]; injection E as <- <-; auto. }
    subst s'. apply (known_up s); auto.
  - assert (X : exists s0, inv key s0 /\ In OGlobal (order s0) /\ known s0 /\
        (match custom_types s0 with Ok (true, s2) => Ok (AClass true, link t s2) | Ok (false, s2) => Ok (AClass false, s2) | Bad f => Bad f end = Ok (a, s'))).
    { destruct (static_cases OGlobal FGlobal s _ eq_refl) as [[A E0]|[[A [D0 E0]]|[A [D0 E0]]]]; rewrite E0 in E; [|discriminate|].
      - exists s. parts; auto.
      - exists (construct OGlobal s). parts; auto.
        + apply inv_construct; auto; discriminate.
        + left; reflexivity.
        + apply (known_up s); auto. intros o H; right; exact H. }
    destruct X as (s0 & I0 & G & N0 & X). destruct (custom_types_ok key s0 I0) as (b & s1 & C & _ & A & _). rewrite C in X.
    destruct (custom_types_dead key s0 b s1 I0 C) as (D1 & Up1 & _ & Cl & Kp).
    destruct b; injection X as <- <-; [|apply (known_up s0); auto]. constructor; cbn.
    + intros _. apply in_or_app. left. exact (A eq_refl).
    + intros _. apply in_or_app. left. apply Up1. exact G.
  - destruct (custom_types s) as [[b s1]|f] eqn:C; [|discriminate].
    destruct (custom_types_dead key s b s1 I C) as (D1 & Up1 & Dn & Cl & Kp).
    assert (X : s' = s1).
    { destruct b; [|injection E as <- <-; auto]. destruct (mem t (classes s1)); [destruct (alive _ s1); [|discriminate]|]; injection E as <- <-; auto. }
    subst s'. apply (known_up s); auto.
  - destruct (static_cases OGlobal FGlobal s _ eq_refl) as [[A E0]|[[A [D0 E0]]|[A [D0 E0]]]]; rewrite E0 in E; [|discriminate|];
      injection E as <- <-; auto. apply (known_up s); auto.
  - destruct (alive OEmpty s); [|discriminate]. injection E as <- <-. auto.
  - destruct (_ || _); injection E as <- <-; auto. apply (known_up s); auto.
  - destruct (_ || _); injection E as <- <-; auto. apply (known_up s); auto.
Qed.

(** ** Main goes through *)

Lemma main_run key l : forall s, inv key s -> known s -> dead s = [] -> In OEmpty (order s) \/ ~ In Missing l ->
  exists al s', run key l s = Ok (al, s') /\ inv key s' /\ known s' /\ dead s' = [].
Proof.
  induction l as [|x l IH]; intros s I N D M; cbn [run]; [eauto 10|].
  destruct (step key x s) as [[a s1]|f] eqn:E.
  - pose proof (step_inv key x s I) as I1. rewrite E in I1. cbn in I1.
    pose proof (step_known key x s a s1 I N E) as N1. pose proof (step_dead key x s a s1 I E) as (D1 & Up & _).
    destruct (IH s1 I1 N1) as (al & s2 & R & I2 & N2 & D2).
    + congruence.
    + destruct M as [M|M]; [left; auto|right]. intro H. apply M. right; exact H.
    + rewrite R. eauto 10.
  - exfalso. pose proof (step_fault key x s f I E) as F.
    destruct x as [t|t|c|k|k|t|t| | | |u]; try exact F; try (destruct F as [_ F]; rewrite D in F; exact F).
    + destruct F as (_ & K & A). apply A. assert (X : In OTypes (order s ++ dead s)) by (apply (n_kept _ N); intro Z; rewrite Z in K; destruct K).
      rewrite D, app_nil_r in X. exact X.
    + destruct F as (_ & K & A & _). apply A. assert (X : In OGlobal (order s ++ dead s)) by (apply (n_links _ N); intro Z; rewrite Z in K; destruct K).
      rewrite D, app_nil_r in X. exact X.
    + destruct F as (_ & A). destruct M as [M|M]; [exact (A M)|]. apply M. left; reflexivity.
Qed.

Lemma known0 : known st0.
Proof. constructor; cbn; congruence. Qed.

(** ** Objects constructed on top of others *)

(** [s'] has some more objects, none gone. *)
Definition grow (s s' : st) : Prop := dead s' = dead s /\ exists new, order s' = new ++ order s.

Lemma grow_refl s : grow s s.
Proof. split; [reflexivity|exists []; reflexivity]. Qed.
Lemma grow_trans a b c : grow a b -> grow b c -> grow a c.
Proof. intros [D [n O]] [D' [m O']]. split; [congruence|]. exists (m ++ n). rewrite O', O, app_assoc. reflexivity. Qed.
Lemma grow_construct o s : grow s (construct o s).
Proof. split; [reflexivity|exists [o]; reflexivity]. Qed.
Lemma grow_same s s' s'' : grow s s' -> order s'' = order s' -> dead s'' = dead s' -> grow s s''.
Proof. intros [D O] E F. split; [congruence|rewrite E; exact O]. Qed.

Lemma static_grow o f s s' : static o f s = Ok s' -> grow s s' /\ In o (order s') /\ classes s' = classes s /\ items s' = items s.
Proof.
  intro E. destruct (static_cases o f s _ eq_refl) as [[A X]|[[A [D X]]|[A [D X]]]]; rewrite X in E; [| discriminate|]; injection E as <-.
  - split; [apply grow_refl|auto].
  - split; [apply grow_construct|]. cbn. auto.
Qed.

Lemma custom_types_grow s b s' : custom_types s = Ok (b, s') ->
  grow s s' /\ (b = true -> In OTypes (order s')) /\ classes s' = classes s /\ items s' = items s.
Proof.
  unfold custom_types. destruct (tflag s).
  - intro E. injection E as <- <-. split; [apply grow_refl|]. split; [discriminate|auto].
  - destruct (static OTypes FTypes s) as [s1|f] eqn:E; [|discriminate]. intro X. injection X as <- <-.
    apply static_grow in E as (G & A & C). auto.
Qed.

Lemma converter_list_grow s b s' : converter_list s = Ok (b, s') ->
  grow s s' /\ (b = true -> In OList (order s')) /\ classes s' = classes s /\ items s' = items s.
Proof.
  unfold converter_list. destruct (custom_types s) as [[b1 s1]|f] eqn:E; [|discriminate].
  apply custom_types_grow in E as (G & A & C & T). destruct b1.
  - unfold custom_list. destruct (lflag s1).
    + intro X. injection X as <- <-. split; [exact G|]. split; [discriminate|auto].
    + destruct (static OList FList s1) as [s2|f] eqn:E2; [|discriminate]. intro X. injection X as <- <-.
      apply static_grow in E2 as (G2 & A2 & C2 & T2). split; [exact (grow_trans _ _ _ G G2)|]. split; [auto|]. split; congruence.
  - intro X. injection X as <- <-. split; [exact G|]. split; [discriminate|auto].
Qed.

Lemma add_same k c s : order (add k c s) = order s /\ dead (add k c s) = dead s /\ classes (add k c s) = classes s.
Proof. unfold add. destruct (get k s); auto. Qed.

Lemma step_grow key x s a s' : step key x s = Ok (a, s') -> grow s s' /\
  (classes s' = classes s \/ (In OGlobal (order s') /\ In OTypes (order s'))).
Proof.
  intro E. destruct x as [t|t|c|k|k|t|t| | | |u]; cbn [step] in E.
  - destruct (custom_types s) as [[b s1]|f] eqn:C; [|discriminate]. apply custom_types_grow in C as (G & _ & C & _).
    destruct b; injection E as <- <-; split; auto.
  - destruct (mem t (kept s)); [destruct (alive OTypes s); [|discriminate]|]; injection E as <- <-; split; auto using grow_refl.
  - destruct (static (OConv c) FStatic s) as [s1|f] eqn:S; [|discriminate]. apply static_grow in S as (G & _ & C & _).
    destruct (converter_list s1) as [[b s2]|f] eqn:L; [|discriminate]. apply converter_list_grow in L as (G2 & _ & C2 & _).
    pose proof (grow_trans _ _ _ G G2) as G3. destruct (add_same (key c) c s2) as (X & Y & Z).
    destruct b; injection E as <- <-; (split; [|left; congruence]); [exact (grow_same _ _ _ G3 X Y)|exact G3].
  - destruct (converter_list s) as [[b s2]|f] eqn:L; [|discriminate]. apply converter_list_grow in L as (G2 & _ & C2 & _).
    destruct b; injection E as <- <-; split; auto.
  - destruct (converter_list s) as [[b s2]|f] eqn:L; [|discriminate]. apply converter_list_grow in L as (G2 & _ & C2 & _).
    assert (X : s' = s2).
    { destruct b; [|injection E as <- <-; auto]. destruct (get k s2); [destruct (alive _ s2); [|discriminate]|]; injection E as <- <-; auto. }
    subst s'. auto.
  - destruct (static OGlobal FGlobal s) as [s1|f] eqn:S; [|discriminate]. apply static_grow in S as (G & Hg & C & _).
    destruct (custom_types s1) as [[b s2]|f] eqn:L; [|discriminate]. apply custom_types_grow in L as (G2 & Ht & C2 & _).
    pose proof (grow_trans _ _ _ G G2) as G3.
    destruct b; injection E as <- <-; (split; [exact G3|]); [right|left; congruence]. cbn. split; [|auto].
    destruct G2 as [_ [new ->]]. apply in_or_app. right; exact Hg.
  - destruct (custom_types s) as [[b s1]|f] eqn:C; [|discriminate]. apply custom_types_grow in C as (G & _ & C & _).
    assert (X : s' = s1).
    { destruct b; [|injection E as <- <-; auto]. destruct (mem t (classes s1)); [destruct (alive _ s1); [|discriminate]|]; injection E as <- <-; auto. }
    subst s'. auto.
  - destruct (static OGlobal FGlobal s) as [s1|f] eqn:S; [|discriminate]. apply static_grow in S as (G & _ & C & _).
    injection E as <- <-. auto.
  - destruct (alive OEmpty s); [|discriminate]. injection E as <- <-. auto using grow_refl.
  - destruct (_ || _); injection E as <- <-; auto using grow_refl, grow_construct.
  - destruct (_ || _); injection E as <- <-; auto using grow_refl, grow_construct.
Qed.

(** ** Objects of the program constructed after those of the library *)

Definition guard (b : obj) (s : st) : Prop := In b (order s) /\ forall u, below (OUser u) b (order s).

Lemma guard_push b new l : (In b l /\ forall u, below (OUser u) b l) -> In b (new ++ l) /\ forall u, below (OUser u) b (new ++ l).
Proof.
  intros [H G]. split; [apply in_or_app; right; exact H|]. intro u. induction new as [|o new IH]; [exact (G u)|].
  intros A B E. destruct A as [|x A]; cbn in E; inversion E; subst.
  - apply in_or_app. right; exact H.
  - eapply IH; eassumption.
Qed.

Lemma guard_grow b s s' : guard b s -> grow s s' -> guard b s'.
Proof. intros G [_ [new O]]. unfold guard. rewrite O. apply guard_push. exact G. Qed.

Definition guards s := guard OTypes s /\ guard OGlobal s /\ guard OEmpty s.
Definition no_user (s : st) : Prop := forall u, ~ In (OUser u) (order s).

Lemma alive_not_dead o s : NoDup (order s ++ dead s) -> In o (order s) -> ~ In o (dead s).
Proof.
  intros N H D. apply in_split in H as (p & q & H). rewrite H, <- app_assoc in N. apply NoDup_remove_2 in N.
  apply N. rewrite !in_app_iff. auto.
Qed.

Lemma guards_run key l : forall s, inv key s -> guards s -> Forall no_register l ->
  exists al s', run key l s = Ok (al, s') /\ inv key s' /\ guards s'.
Proof.
  induction l as [|x l IH]; intros s I G P; cbn [run]; [eauto 6|]. inversion P as [|? ? P1 P2]; subst.
  destruct (step key x s) as [[a s1]|f] eqn:E.
  - pose proof (step_inv key x s I) as I1. rewrite E in I1. cbn in I1. apply step_grow in E as [Gr _].
    destruct G as (G1 & G2 & G3).
    assert (G' : guards s1) by (unfold guards; parts; eapply guard_grow; eassumption).
    destruct (IH s1 I1 G' P2) as (al & s2 & R & I2 & H2). rewrite R. eauto 6.
  - exfalso. pose proof (step_fault key x s f I E) as F. destruct G as ([G1 _] & [G2 _] & [G3 _]). pose proof (i_nodup _ _ I) as N.
    destruct x as [t|t|c|k|k|t|t| | | |u]; try exact F; try exact P1; try tauto;
      destruct F as [_ F]; exact (alive_not_dead _ _ N G2 F).
Qed.

Lemma guard_pop b o r s : guard b s -> order s = o :: r -> o <> b -> guard b (perish o r s).
Proof.
  intros [H G] O N. rewrite O in *. split; cbn.
  - destruct H as [H|H]; [contradiction|exact H].
  - intro u. exact (below_tail _ _ _ _ (G u)).
Qed.

Lemma guard_last key b r s : inv key s -> guard b s -> order s = b :: r -> forall u, ~ In (OUser u) r.
Proof.
  intros I [_ G] O u H. pose proof (i_nodup _ _ I) as N. rewrite O in *. destruct (nodup_pop _ _ _ N) as (_ & Nr & _).
  apply Nr. exact (below_in _ _ _ (below_tail _ _ _ _ (G u)) H).
Qed.

Lemma guards_leave key dtor : (forall u, Forall no_register (dtor u)) -> forall n s, inv key s -> guards s \/ no_user s ->
  exists al s', leave key dtor n s = Ok (al, s').
Proof.
  intros P. induction n as [|n IH]; intros s I G; cbn [leave]; [eauto|]. destruct (order s) as [|o r] eqn:O; [eauto|].
  pose proof (destroy_inv key dtor o r s I O) as D.
  assert (H : exists al s', run key (body key dtor o) (perish o r s) = Ok (al, s') /\ (guards s' \/ no_user s')).
  { destruct (in_dec obj_eq_dec o [OTypes; OGlobal; OEmpty]) as [B|B].
    - assert (NU : forall u, ~ In (OUser u) r).
      { destruct G as [(G1 & G2 & G3)|G].
        - destruct B as [<-|[<-|[<-|[]]]]; [exact (guard_last key _ r s I G1 O)|exact (guard_last key _ r s I G2 O)|exact (guard_last key _ r s I G3 O)].
        - intros u H. apply (G u). rewrite O. right; exact H. }
      destruct B as [<-|[<-|[<-|[]]]]; cbn [body run]; do 2 eexists; (split; [reflexivity|right; exact NU]).
    - assert (G' : guards (perish o r s) \/ no_user (perish o r s)).
      { destruct G as [(G1 & G2 & G3)|G].
        - left. cbn in B. unfold guards. parts; (apply guard_pop; [assumption|exact O|intro; subst; tauto]).
        - right. intros u H. apply (G u). rewrite O. right; exact H. }
      destruct o as [| | | |c|u]; try (exfalso; apply B; cbn; tauto).
      + cbn [body run]. eauto.
      + cbn [body]. destruct (perish_conv key c r s I O) as (s' & E & _ & Dd & Up & Dn). rewrite E. do 2 eexists. split; [reflexivity|].
        destruct G' as [(G1 & G2 & G3)|G'].
        * left. cbn [run] in E. destruct (step key _ _) as [[a s2]|f] eqn:Es; [|discriminate]. injection E as _ <-.
          apply step_grow in Es as [Gr _]. unfold guards; parts; eapply guard_grow; eassumption.
        * right. intros u H. destruct (Dn _ H) as [X|[X|X]]; [exact (G' u X)| |]; discriminate.
      + cbn [body]. destruct G as [(G1 & G2 & G3)|G]; [|exfalso; apply (G u); rewrite O; left; reflexivity].
        assert (I' : inv key (perish (OUser u) r s)) by (apply perish_inv; auto; discriminate).
        assert (G'' : guards (perish (OUser u) r s)) by (unfold guards; parts; apply guard_pop; auto; discriminate).
        destruct (guards_run key (dtor u) _ I' G'' (P u)) as (al & s' & R & _ & G4). eauto. }
  destruct H as (al & s1 & E & G1). rewrite E in *. destruct (IH s1 D G1) as (bl & s2 & E2). rewrite E2. eauto.
Qed.

Lemma run_grow key l : forall s al s', run key l s = Ok (al, s') -> grow s s'.
Proof.
  induction l as [|x l IH]; intros s al s' R; cbn in R.
  - injection R as <- <-. apply grow_refl.
  - destruct (step key x s) as [[a s1]|f] eqn:E; [|discriminate]. destruct (run key l s1) as [[bl s2]|f] eqn:R1; [|discriminate].
    injection R as <- <-. apply step_grow in E as [G _]. exact (grow_trans _ _ _ G (IH _ _ _ R1)).
Qed.

Lemma run_mentions key l : forall s al s', inv key s -> run key l s = Ok (al, s') ->
  forall o, In o (order s') -> In o (order s) \/ exists x, In x l /\ In o (mentions x).
Proof.
  induction l as [|x l IH]; intros s al s' I R o H; cbn in R.
  - injection R as <- <-. auto.
  - destruct (step key x s) as [[a s1]|f] eqn:E; [|discriminate]. destruct (run key l s1) as [[bl s2]|f] eqn:R1; [|discriminate].
    injection R as <- <-. pose proof (step_inv key x s I) as I1. rewrite E in I1. cbn in I1.
    destruct (IH s1 bl s2 I1 R1 o H) as [X|(y & Y & Z)]; [|right; exists y; cbn; auto].
    destruct (step_dead key x s a s1 I E) as (_ & _ & Dn). destruct (Dn o X) as [Y|Y]; [auto|]. right. exists x. cbn; auto.
Qed.

Lemma late_life key dtor p q al s : run key p st0 = Ok (al, s) -> Forall no_make p ->
  In OTypes (order s) -> In OGlobal (order s) -> In OEmpty (order s) -> (forall u, Forall no_register (dtor u)) ->
  forall n, exists bl s', life key dtor (p ++ q) n = Ok (bl, s').
Proof.
  intros R M Ht Hg He P n. pose proof (run_inv key p st0 (inv0 key)) as I. rewrite R in I.
  assert (Kn : forall l s0 al s1, inv key s0 -> known s0 -> run key l s0 = Ok (al, s1) -> known s1).
  { clear. induction l as [|x l IH]; intros s0 al s1 I K E; cbn in E; [injection E as <- <-; exact K|].
    destruct (step key x s0) as [[a s2]|f] eqn:S; [|discriminate]. destruct (run key l s2) as [[bl s3]|f] eqn:R; [|discriminate].
    injection E as <- <-. pose proof (step_inv key x s0 I) as I1. rewrite S in I1. cbn in I1.
    exact (IH s2 bl s3 I1 (step_known key x s0 a s2 I K S) R). }
  pose proof (Kn p st0 al s (inv0 key) known0 R) as N. pose proof (run_grow key p st0 al s R) as [D _]. cbn in D.
  assert (NU : forall u, ~ In (OUser u) (order s)).
  { intros u H. destruct (run_mentions key p st0 al s (inv0 key) R _ H) as [[]|(x & Hx & Hm)].
    rewrite Forall_forall in M. specialize (M x Hx). destruct x; cbn in Hm, M; intuition discriminate. }
  assert (G : guards s).
  { assert (B : forall b, In b (order s) -> guard b s).
    { intros b Hb. split; [exact Hb|]. intros u A B E. exfalso. apply (NU u). rewrite E. apply in_or_app. right; left; reflexivity. }
    unfold guards. auto. }
  destruct (main_run key q s I N D (or_introl He)) as (bl & s1 & R1 & I1 & _). unfold life.
  rewrite (run_app key p q st0 al s R), R1. apply run_grow in R1 as Gr. destruct G as (G1 & G2 & G3).
  assert (G' : guards s1) by (unfold guards; parts; eapply guard_grow; eassumption).
  destruct (guards_leave key dtor P n s1 I1 (or_introl G')) as (cl & s2 & L). rewrite L. eauto.
Qed.

(** ** The global namespace constructed before the registry of types *)

Record first (s : st) : Prop := First {
  f_glob : In OGlobal (order s ++ dead s);
  f_order : In OTypes (order s) -> below OTypes OGlobal (order s) \/ In OGlobal (dead s);
  f_links : classes s <> [] -> In OTypes (order s) /\ below OTypes OGlobal (order s) }.

Lemma first_grow s s' : first s -> grow s s' -> NoDup (order s' ++ dead s') -> classes s' = classes s -> first s'.
Proof.
  intros F [D [new O]] N C. revert F. destruct s as [o d t l k i c]. destruct s' as [o' d' t' l' k' i' c']. cbn in *. subst.
  intros F. induction new as [|x new IH]; cbn in *.
  - destruct F as [A B E]. constructor; cbn in *; auto.
  - inversion N as [|? ? Nx N']; subst. rewrite !in_app_iff in Nx. specialize (IH N'). destruct IH as [A B E]. cbn in *.
    constructor; cbn.
    + right; exact A.
    + intro H. destruct (obj_eq_dec x OTypes) as [->|Nt].
      * rewrite in_app_iff in A. destruct A as [A|A]; [left|right; exact A]. apply below_self; [rewrite in_app_iff; tauto|exact A].
      * destruct H as [H|H]; [congruence|]. destruct (B H) as [X|X]; [left; apply below_cons; auto|right; exact X].
    + intro H. destruct (E H) as [X Y]. split; [right; exact X|]. apply below_cons; [|exact Y]. intros ->. apply Nx.
      rewrite !in_app_iff in *. tauto.
Qed.

Lemma first_links s s' : first s -> grow s s' -> NoDup (order s' ++ dead s') ->
  In OGlobal (order s') -> In OTypes (order s') -> first s'.
Proof.
  intros F G N Hg Ht.
  assert (X : first (St (order s') (dead s') (tflag s') (lflag s') (kept s') (items s') (classes s))).
  { apply (first_grow s); auto. }
  destruct X as [A B E]. cbn in *. constructor; auto. intros _. split; [exact Ht|].
  destruct (B Ht) as [Y|Y]; [exact Y|]. exfalso. exact (alive_not_dead _ _ N Hg Y).
Qed.

Lemma first_step key x s a s' : inv key s' -> first s -> step key x s = Ok (a, s') -> first s'.
Proof.
  intros I F E. apply step_grow in E as [G [C|[Hg Ht]]].
  - apply (first_grow s); auto. exact (i_nodup _ _ I).
  - apply (first_links s); auto. exact (i_nodup _ _ I).
Qed.

Lemma first_no_class key x s : inv key s -> first s -> step key x s <> Bad FClass.
Proof.
  intros I F E. pose proof (step_fault key x s FClass I E) as X. destruct x; try exact X; try (destruct X; discriminate).
  destruct X as (_ & K & A & _). apply A. destruct (f_links _ F) as [H B]; [intro Z; rewrite Z in K; destruct K|].
  exact (below_in _ _ _ B H).
Qed.

Lemma first_run key l : forall s, inv key s -> first s ->
  match run key l s with Ok (_, s') => first s' | Bad f => f <> FClass end.
Proof.
  induction l as [|x l IH]; intros s I F; cbn; [exact F|]. pose proof (step_inv key x s I) as I1. pose proof (first_no_class key x s I F) as NC.
  destruct (step key x s) as [[a s1]|f] eqn:E; [|intros ->; exact (NC eq_refl)]. cbn in I1.
  specialize (IH s1 I1 (first_step key x s a s1 I1 F E)). destruct (run key l s1) as [[al s2]|f]; exact IH.
Qed.

Lemma first_perish key o r s : inv key s -> first s -> order s = o :: r -> first (perish o r s).
Proof.
  intros I [A B E] O. pose proof (i_nodup _ _ I) as N. rewrite O in *. destruct (nodup_pop _ _ _ N) as (_ & Nr & Nd).
  constructor; cbn.
  - rewrite in_app_iff in *. cbn in *. tauto.
  - intro H. destruct B as [X|X]; [right; exact H|left; exact (below_tail _ _ _ _ X)|right; right; exact X].
  - intro H. destruct (obj_eq_dec o OTypes) as [->|No]; [congruence|].
    assert (H' : classes s <> []) by (destruct o; auto). destruct (E H') as [[X|X] Y]; [congruence|].
    split; [exact X|exact (below_tail _ _ _ _ Y)].
Qed.

Lemma first_leave key dtor n : forall s, inv key s -> first s -> leave key dtor n s <> Bad FClass.
Proof.
  induction n as [|n IH]; intros s I F; cbn [leave]; [discriminate|]. destruct (order s) as [|o r] eqn:O; [discriminate|].
  pose proof (destroy_inv key dtor o r s I O) as D. pose proof (first_perish key o r s I F O) as F1.
  assert (X : match run key (body key dtor o) (perish o r s) with Ok (_, s') => first s' | Bad f => f <> FClass end).
  { destruct o as [| | | |c|u]; try exact F1.
    - cbn [body] in *. destruct (perish_conv key c r s I O) as (s' & E & I' & _). rewrite E. cbn [run] in E.
      destruct (step key _ _) as [[a s2]|f] eqn:Es; [|discriminate]. injection E as _ <-. exact (first_step key _ _ _ _ I' F1 Es).
    - apply first_run; [|exact F1]. apply perish_inv; auto. discriminate. }
  destruct (run key (body key dtor o) (perish o r s)) as [[al s1]|f]; [|intro E; injection E as ->; exact (X eq_refl)].
  specialize (IH s1 D X). destruct (leave key dtor n s1) as [[bl s2]|f]; [discriminate|exact IH].
Qed.

(** ** The end comes *)

Lemma step_count key dtor U : forall o r s al s', inv key s -> order s = o :: r -> incl (order s ++ dead s) U ->
  (forall u x, In (OUser u) U -> In x (dtor u) -> incl (mentions x) U) -> incl [OTypes; OList] U ->
  run key (body key dtor o) (perish o r s) = Ok (al, s') ->
  incl (order s' ++ dead s') U /\ length (dead s') = S (length (dead s)).
Proof.
  intros o r s al s' I O In1 HU HT R.
  assert (Ho : In o U) by (apply In1; rewrite O; left; reflexivity).
  assert (D : dead s' = o :: dead s /\ (forall x, In x (order s') -> In x r \/ In x U)).
  { destruct o as [| | | |c|u]; try (cbn in R; injection R as <- <-; cbn; auto; fail).
    - cbn [body] in R. destruct (perish_conv key c r s I O) as (s2 & E & _ & Dd & _ & Dn). rewrite E in R. injection R as _ <-.
      split; [exact Dd|]. intros x Hx. destruct (Dn x Hx) as [X|[->| ->]]; auto; right; apply HT; cbn; auto.
    - cbn [body] in R. assert (I' : inv key (perish (OUser u) r s)) by (apply perish_inv; auto; discriminate).
      split; [apply run_grow in R as [X _]; exact X|]. intros x Hx.
      destruct (run_mentions key _ _ _ _ I' R x Hx) as [X|(y & Y & Z)]; [left; exact X|right]. exact (HU u y Ho Y x Z). }
  destruct D as [D Dn]. split; [|rewrite D; reflexivity]. intros x Hx. rewrite D in Hx. apply in_app_or in Hx as [Hx|[<-|Hx]].
  - destruct (Dn x Hx) as [X|X]; [|exact X]. apply In1. rewrite O. right. apply in_or_app. left; exact X.
  - exact Ho.
  - apply In1. apply in_or_app. right; exact Hx.
Qed.

Lemma leave_ends key dtor U : (forall u x, In (OUser u) U -> In x (dtor u) -> incl (mentions x) U) -> incl [OTypes; OList] U ->
  forall n s al s', inv key s -> incl (order s ++ dead s) U -> length U <= length (dead s) + n ->
  leave key dtor n s = Ok (al, s') -> order s' = [].
Proof.
  intros HU HT. induction n as [|n IH]; intros s al s' I In1 L E; cbn [leave] in E.
  - injection E as <- <-. destruct (order s) as [|o r] eqn:O; [reflexivity|]. exfalso.
    pose proof (i_nodup _ _ I) as X. rewrite O in X. apply (fun N => NoDup_incl_length N In1) in X. rewrite app_length in X. cbn in X. lia.
  - destruct (order s) as [|o r] eqn:O; [injection E as <- <-; exact O|].
    pose proof (destroy_inv key dtor o r s I O) as D.
    destruct (run key (body key dtor o) (perish o r s)) as [[bl s1]|f] eqn:R; [|discriminate].
    rewrite <- O in In1. destruct (step_count key dtor U o r s bl s1 I O In1 HU HT R) as [In2 L2].
    destruct (leave key dtor n s1) as [[cl s2]|f] eqn:E2; [|discriminate]. injection E as <- <-.
    apply (IH s1 cl s2 D In2); [lia|exact E2].
Qed.

(** ** A converter that is the only one for its pair *)

Record only (key : nat -> nat) (c : nat) (s : st) : Prop := Only {
  o_entry : In (OConv c) (order s) -> In OList (order s) -> In (key c, c) (items s);
  o_list : In (OConv c) (order s) -> In OList (order s ++ dead s) \/ In OTypes (dead s) }.

Lemma only_get key c s : inv key s -> (forall c', key c' = key c -> c' = c) -> In (key c, c) (items s) -> get (key c) s = Some c.
Proof.
  intros I U H. unfold get. destruct (find _ _) as [[k c']|] eqn:F.
  - apply find_some in F as [F G]. cbn in G. apply Nat.eqb_eq in G. subst k. destruct (i_items _ _ I _ _ F) as [K _]. cbn.
    rewrite (U c' K). reflexivity.
  - exfalso. apply find_none with (x := (key c, c)) in F; [|exact H]. cbn in F. rewrite Nat.eqb_refl in F. discriminate.
Qed.

(** The list, when it was not there and is now, was constructed by a call that found the registry. *)
Lemma only_same key c s s' : inv key s' -> only key c s -> grow s s' -> items s' = items s ->
  (In (OConv c) (order s') -> In (OConv c) (order s)) ->
  (In OList (order s') -> In OTypes (order s')) -> only key c s'.
Proof.
  intros I [A B] [D [new O]] It Hc Ht. constructor.
  - intros X Y. rewrite It. apply A; [auto|]. destruct (B (Hc X)) as [Z|Z].
    + rewrite in_app_iff in Z. destruct Z as [Z|Z]; [exact Z|]. exfalso. rewrite <- D in Z. exact (alive_not_dead _ _ (i_nodup _ _ I) Y Z).
    + exfalso. rewrite <- D in Z. exact (alive_not_dead _ _ (i_nodup _ _ I) (Ht Y) Z).
  - intro X. destruct (B (Hc X)) as [Z|Z]; [left|right; rewrite D; exact Z]. rewrite O, D. rewrite !in_app_iff in *. tauto.
Qed.

Lemma list_types key s : inv key s -> In OList (order s) -> In OTypes (order s).
Proof. intros I H. exact (below_in _ _ _ (i_below _ _ I) H). Qed.

Lemma step_only key c x s a s' : inv key s -> (forall c', key c' = key c -> c' = c) -> x <> Unregister (key c) ->
  only key c s -> step key x s = Ok (a, s') -> only key c s'.
Proof.
  intros I U Nu On E. pose proof (step_inv key x s I) as I'. rewrite E in I'. cbn in I'.
  pose proof (step_grow key x s a s' E) as [G _]. pose proof (step_dead key x s a s' I E) as (Dd & Up & Dn).
  assert (Plain : items s' = items s -> x <> Register c -> only key c s').
  { intros It Nr. apply (only_same key c s); auto.
    - intro H. destruct (Dn _ H) as [X|X]; [exact X|]. exfalso. destruct x; cbn in X; intuition congruence.
    - apply list_types with (key := key). exact I'. }
  destruct x as [t|t|c'|k|k|t|t| | | |u]; cbn [step] in E.
  - apply Plain; [|discriminate]. destruct (custom_types s) as [[b s1]|f] eqn:C; [|discriminate]. apply custom_types_grow in C as (_ & _ & _ & C).
    destruct b; injection E as <- <-; exact C.
  - apply Plain; [|discriminate]. destruct (mem t (kept s)); [destruct (alive OTypes s); [|discriminate]|]; injection E as <- <-; reflexivity.
  - destruct (static (OConv c') FStatic s) as [s1|f] eqn:S; [|discriminate].
    pose proof (static_grow _ _ _ _ S) as (Gs & Hs & _ & Is).
    destruct (converter_list s1) as [[b s2]|f] eqn:L; [|discriminate].
    pose proof (converter_list_grow _ _ _ L) as (G2 & Hl & _ & I2).
    destruct (Nat.eq_dec c' c) as [->|Nc].
    + destruct b; injection E as <- <-.
      * (* added now, or an entry for the pair is there: it is this one's *)
        destruct (add_same (key c) c s2) as (Xo & Xd & _). constructor.
        -- intros X Y. rewrite Xo in *. unfold add. destruct (get (key c) s2) as [c1|] eqn:Gt; [|cbn; left; reflexivity].
           apply get_in in Gt. assert (K : key c1 = key c).
           { rewrite I2, Is in Gt. destruct (i_items _ _ I _ _ Gt). assumption. }
           rewrite (U c1 K) in Gt. exact Gt.
        -- intros _. left. rewrite Xo, Xd. apply in_or_app. left. exact (Hl eq_refl).
      * (* the list or the registry is gone *)
        assert (I1 : inv key s1).
        { destruct (static_cases (OConv c) FStatic s _ eq_refl) as [[A E0]|[[A [D E0]]|[A [D E0]]]]; rewrite E0 in S; [|discriminate|];
            injection S as <-; [exact I|apply inv_construct; auto; discriminate]. }
        assert (Gone : In OList (dead s2) \/ In OTypes (dead s2)).
        { revert L. unfold converter_list. destruct (custom_types_ok key s1 I1) as (b1 & s3 & E1 & D1 & _). rewrite E1.
          destruct (custom_types_dead key s1 b1 s3 I1 E1) as (D3 & _). pose proof (custom_types_inv key s1 b1 s3 I1 E1) as I3. destruct b1.
          - unfold custom_list. destruct (lflag s3) eqn:Fl.
            + intro X. injection X as <-. left. apply (i_lflag _ _ I3). exact Fl.
            + destruct (static OList FList s3); discriminate.
          - intro X. injection X as <-. right. rewrite D3. destruct (in_dec obj_eq_dec OTypes (dead s1)) as [Y|Y]; [exact Y|].
            apply D1 in Y. discriminate. }
        constructor.
        -- intros _ Y. exfalso. pose proof (i_nodup _ _ I') as N. destruct Gone as [Z|Z].
           ++ exact (alive_not_dead _ _ N Y Z).
           ++ exact (alive_not_dead _ _ N (list_types key s2 I' Y) Z).
        -- intros _. destruct Gone as [Z|Z]; [left; apply in_or_app; right; exact Z|right; exact Z].
    + (* another converter *)
      assert (G3 : grow s s2) by exact (grow_trans _ _ _ Gs G2).
      assert (Hc : In (OConv c) (order s') -> In (OConv c) (order s)).
      { intro H. destruct (Dn _ H) as [X|X]; [exact X|]. cbn in X. exfalso. intuition congruence. }
      assert (Hit : items s' = items s \/ items s' = (key c', c') :: items s).
      { destruct b; injection E as <- <-; [|left; congruence]. unfold add. destruct (get (key c') s2); [left; congruence|right].
        cbn. congruence. }
      destruct On as [A B]. constructor.
      * intros X Y. assert (Z : In (key c, c) (items s)).
        { apply A; [auto|]. destruct (B (Hc X)) as [Z|Z].
          - rewrite in_app_iff in Z. destruct Z as [Z|Z]; [exact Z|]. exfalso. rewrite <- Dd in Z. exact (alive_not_dead _ _ (i_nodup _ _ I') Y Z).
          - exfalso. rewrite <- Dd in Z. exact (alive_not_dead _ _ (i_nodup _ _ I') (list_types key s' I' Y) Z). }
        destruct Hit as [->| ->]; [exact Z|right; exact Z].
      * intro X. destruct (B (Hc X)) as [Z|Z]; [left|right; rewrite Dd; exact Z]. rewrite Dd. rewrite !in_app_iff in *.
        destruct Z as [Z|Z]; [left; apply Up; exact Z|right; exact Z].
  - destruct (converter_list s) as [[b s2]|f] eqn:L; [|discriminate].
    pose proof (converter_list_grow _ _ _ L) as (G2 & Hl & _ & I2).
    destruct b; injection E as <- <-; [|apply Plain; [exact I2|discriminate]].
    assert (Nk : k <> key c) by congruence.
    assert (On2 : only key c s2).
    { destruct (converter_list_ok key s I) as (b & s3 & E3 & I3 & _). rewrite L in E3. injection E3 as <- <-.
      apply (only_same key c s); auto.
      - intro H. destruct (Dn _ H) as [X|X]; [exact X|]. cbn in X. intuition discriminate.
      - apply list_types with (key := key). exact I3. }
    destruct On2 as [A B]. constructor; cbn; auto. intros X Y. apply filter_In. split; [auto|]. cbn.
    apply negb_true_iff, Nat.eqb_neq. congruence.
  - apply Plain; [|discriminate]. destruct (converter_list s) as [[b s2]|f] eqn:L; [|discriminate]. apply converter_list_grow in L as (_ & _ & _ & C2).
    destruct b; [|injection E as <- <-; auto]. destruct (get k s2); [destruct (alive _ s2); [|discriminate]|]; injection E as <- <-; auto.
  - apply Plain; [|discriminate]. destruct (static OGlobal FGlobal s) as [s1|f] eqn:S; [|discriminate]. apply static_grow in S as (_ & _ & _ & C).
    destruct (custom_types s1) as [[b s2]|f] eqn:L; [|discriminate]. apply custom_types_grow in L as (_ & _ & _ & C2).
    destruct b; injection E as <- <-; cbn; congruence.
  - apply Plain; [|discriminate]. destruct (custom_types s) as [[b s1]|f] eqn:C; [|discriminate]. apply custom_types_grow in C as (_ & _ & _ & C).
    destruct b; [|injection E as <- <-; auto]. destruct (mem t (classes s1)); [destruct (alive _ s1); [|discriminate]|]; injection E as <- <-; auto.
  - apply Plain; [|discriminate]. destruct (static OGlobal FGlobal s) as [s1|f] eqn:S; [|discriminate]. apply static_grow in S as (_ & _ & _ & C).
    injection E as <- <-. exact C.
  - apply Plain; [|discriminate]. destruct (alive OEmpty s); [|discriminate]. injection E as <- <-. reflexivity.
  - apply Plain; [|discriminate]. destruct (_ || _); injection E as <- <-; reflexivity.
  - apply Plain; [|discriminate]. destruct (_ || _); injection E as <- <-; reflexivity.
Qed.

Lemma run_only key c l : (forall c', key c' = key c -> c' = c) -> ~ In (Unregister (key c)) l ->
  forall s al s', inv key s -> only key c s -> run key l s = Ok (al, s') -> only key c s'.
Proof.
  intros U. induction l as [|x l IH]; intros N s al s' I On R; cbn in R.
  - injection R as <- <-. exact On.
  - destruct (step key x s) as [[a s1]|f] eqn:E; [|discriminate]. destruct (run key l s1) as [[bl s2]|f] eqn:R1; [|discriminate].
    injection R as <- <-. pose proof (step_inv key x s I) as I1. rewrite E in I1. cbn in I1.
    apply (IH (fun H => N (or_intror H)) s1 bl s2 I1); [|exact R1].
    apply (step_only key c x s a s1 I U); auto. intros ->. apply N. left; reflexivity.
Qed.

Lemma only0 key c : only key c st0.
Proof. constructor; intros []. Qed.

Lemma only_perish key c o r s : inv key s -> only key c s -> order s = o :: r -> only key c (perish o r s).
Proof.
  intros I [A B] O. pose proof (i_nodup _ _ I) as N. rewrite O in *. destruct (nodup_pop _ _ _ N) as (_ & Nr & Nd). constructor; cbn.
  - intros X Y. destruct (obj_eq_dec o OList) as [->|No]; [contradiction|].
    assert (Z : In (key c, c) (items s)) by (apply A; right; assumption). destruct o; auto; congruence.
  - intro X. destruct (B (or_intror X)) as [Z|Z].
    + left. rewrite in_app_iff in *. cbn in *. tauto.
    + right; right; exact Z.
Qed.

Lemma leave_only key dtor c : (forall c', key c' = key c -> c' = c) -> (forall u, ~ In (Unregister (key c)) (dtor u)) ->
  forall n s al s', inv key s -> only key c s -> leave key dtor n s = Ok (al, s') -> only key c s'.
Proof.
  intros U N. induction n as [|n IH]; intros s al s' I On E; cbn [leave] in E; [injection E as <- <-; exact On|].
  destruct (order s) as [|o r] eqn:O; [injection E as <- <-; exact On|].
  pose proof (destroy_inv key dtor o r s I O) as D. pose proof (only_perish key c o r s I On O) as P.
  destruct (run key (body key dtor o) (perish o r s)) as [[bl s1]|f] eqn:R; [|discriminate].
  destruct (leave key dtor n s1) as [[cl s2]|f] eqn:L; [|discriminate]. injection E as <- <-.
  apply (IH s1 cl s2 D); [|exact L]. clear L IH.
  destruct o as [| | | |c'|u]; try (cbn in R; injection R as <- <-; exact P).
  - cbn [body] in R. destruct (perish_conv key c' r s I O) as (s3 & E3 & I3 & Dd & Up & Dn). rewrite E3 in R. injection R as _ <-.
    destruct (Nat.eq_dec (key c') (key c)) as [K|K].
    + apply U in K. subst c'. assert (X : ~ In (OConv c) (order s3)).
      { intro H. assert (In (OConv c) (dead s3)) by (rewrite Dd; left; reflexivity). exact (alive_not_dead _ _ (i_nodup _ _ I3) H H0). }
      constructor; intro H; contradiction.
    + cbn [run step] in E3. destruct (converter_list (perish (OConv c') r s)) as [[b s4]|f] eqn:L; [|discriminate].
      pose proof (converter_list_grow _ _ _ L) as (G & Hl & _ & It).
      assert (X : order s3 = order s4 /\ dead s3 = dead s4 /\ (items s3 = items s4 \/ items s3 = items (remove (key c') s4)))
        by (destruct b; injection E3 as <-; auto).
      destruct X as (X1 & X2 & X3). destruct G as [Gd [new Go]]. cbn in Gd, Go, It. destruct P as [A B]. cbn in A, B.
      assert (Hc : In (OConv c) (order s3) -> In (OConv c) r).
      { intro H. destruct (Dn _ H) as [Y|[Y|Y]]; [exact Y|discriminate|discriminate]. }
      constructor.
      * intros X Y. assert (Z : In (key c, c) (items s)).
        { apply A; [auto|]. destruct (B (Hc X)) as [Z|Z].
          - rewrite in_app_iff in Z. destruct Z as [Z|Z]; [exact Z|]. exfalso.
            assert (Z' : In OList (dead s3)) by (rewrite Dd; exact Z). exact (alive_not_dead _ _ (i_nodup _ _ I3) Y Z').
          - exfalso. assert (Z' : In OTypes (dead s3)) by (rewrite Dd; exact Z).
            exact (alive_not_dead _ _ (i_nodup _ _ I3) (list_types key s3 I3 Y) Z'). }
        destruct X3 as [->| ->]; [rewrite It; exact Z|]. cbn. rewrite It. apply filter_In. split; [exact Z|]. cbn.
        apply negb_true_iff, Nat.eqb_neq. congruence.
      * intro X. rewrite Dd. destruct (B (Hc X)) as [Z|Z]; [left|right; exact Z]. rewrite in_app_iff in *.
        destruct Z as [Z|Z]; [left; apply Up; exact Z|right; exact Z].
  - cbn [body] in R. apply (run_only key c (dtor u) U (N u) (perish (OUser u) r s) bl s1); [|exact P|exact R].
    apply perish_inv; auto. discriminate.
Qed.

(** ** Classes during main *)

Lemma step_classes key x s a s' t : inv key s -> dead s = [] -> step key x s = Ok (a, s') ->
  In t (classes s') <-> In t (classes s) \/ x = Define t.
Proof.
  intros I D E.
  assert (Sm : classes s' = classes s -> x <> Define t -> In t (classes s') <-> In t (classes s) \/ x = Define t)
    by (intros -> N; tauto).
  destruct x as [u|u|c|k|k|u|u| | | |u]; cbn [step] in E; try (apply Sm; [|discriminate]).
  - destruct (custom_types s) as [[b s1]|f] eqn:C; [|discriminate]. apply custom_types_grow in C as (_ & _ & C & _).
    destruct b; injection E as <- <-; exact C.
  - destruct (mem u (kept s)); [destruct (alive OTypes s); [|discriminate]|]; injection E as <- <-; reflexivity.
  - destruct (static (OConv c) FStatic s) as [s1|f] eqn:S; [|discriminate]. apply static_grow in S as (_ & _ & C & _).
    destruct (converter_list s1) as [[b s2]|f] eqn:L; [|discriminate]. apply converter_list_grow in L as (_ & _ & C2 & _).
    destruct (add_same (key c) c s2) as (_ & _ & Z). destruct b; injection E as <- <-; congruence.
  - destruct (converter_list s) as [[b s2]|f] eqn:L; [|discriminate]. apply converter_list_grow in L as (_ & _ & C2 & _).
    destruct b; injection E as <- <-; exact C2.
  - destruct (converter_list s) as [[b s2]|f] eqn:L; [|discriminate]. apply converter_list_grow in L as (_ & _ & C2 & _).
    destruct b; [|injection E as <- <-; exact C2].
    destruct (get k s2); [destruct (alive _ s2); [|discriminate]|]; injection E as <- <-; exact C2.
  - destruct (static OGlobal FGlobal s) as [s1|f] eqn:S; [|discriminate].
    assert (D1 : dead s1 = []) by (apply static_grow in S as ([S _] & _); congruence).
    assert (I1 : inv key s1).
    { destruct (static_cases OGlobal FGlobal s _ eq_refl) as [[A X]|[[A [Y X]]|[A [Y X]]]]; rewrite X in S; [| discriminate|]; injection S as <-;
        [exact I|]. apply inv_construct; auto; discriminate. }
    apply static_grow in S as (_ & _ & C & _).
    destruct (custom_types_ok key s1 I1) as (b & s2 & E2 & B & _). rewrite E2 in E. apply custom_types_grow in E2 as (_ & _ & C2 & _).
    rewrite D1 in B. replace b with true in E by (symmetry; apply B; intros []). injection E as <- <-. cbn. rewrite C2, C.
    split; [intros [-> | H]; auto|]. intros [H|H]; [auto|]. left. injection H as <-. reflexivity.
  - destruct (custom_types s) as [[b s1]|f] eqn:C; [|discriminate]. apply custom_types_grow in C as (_ & _ & C & _).
    destruct b; [|injection E as <- <-; exact C].
    destruct (mem u (classes s1)); [destruct (alive _ s1); [|discriminate]|]; injection E as <- <-; exact C.
  - destruct (static OGlobal FGlobal s) as [s1|f] eqn:S; [|discriminate]. apply static_grow in S as (_ & _ & C & _).
    injection E as <- <-. exact C.
  - destruct (alive OEmpty s); [|discriminate]. injection E as <- <-. reflexivity.
  - destruct (_ || _); injection E as <- <-; reflexivity.
  - destruct (_ || _); injection E as <- <-; reflexivity.
Qed.

Lemma run_classes key t l : forall s al s', inv key s -> dead s = [] -> run key l s = Ok (al, s') ->
  inv key s' /\ dead s' = [] /\ (In t (classes s') <-> In t (classes s) \/ In (Define t) l).
Proof.
  induction l as [|x l IH]; intros s al s' I D R; cbn [run] in R.
  - injection R as _ <-. cbn. tauto.
  - pose proof (step_inv key x s I) as N. destruct (step key x s) as [[a s1]|f] eqn:E; [|discriminate]. cbn [oknext] in N.
    destruct (run key l s1) as [[bl s2]|f] eqn:R1; [|discriminate]. injection R as _ <-.
    pose proof (step_classes key x s a s1 t I D E) as C.
    apply step_dead in E as (D1 & _); [|exact I]. destruct (IH s1 bl s2 N (eq_trans D1 D) R1) as (I2 & D2 & C2).
    split; [exact I2|]. split; [exact D2|]. rewrite C2, C. cbn. split; [intros [[H|H]|H]|intros [H|[H|H]]]; auto.
Qed.
