(** Locks are taken downward, so that some thread can always go on. *)
From Coq Require Import List Bool Arith Lia Wellfounded.
From Verif Require Import DeferModel RaceModel RaceSpec RaceProofs BlockSpec.
Import ListNotations.

Lemma put_len {A} (l : list A) i x : length (put l i x) = length l.
Proof. revert i. induction l as [|a l IH]; intros [|i]; cbn; try reflexivity. f_equal. apply IH. Qed.

Lemma free_available s g m : free s g m = true <-> available s g m.
Proof.
  unfold free, available. rewrite forallb_forall. split.
  - intros F j m' Hj. specialize (F _ Hj). cbn in F. rewrite lock_beq_refl in F. cbn in F. destruct m, m'; try discriminate F. tauto.
  - intros A [j [g' m']] Hj. cbn [fst snd]. destruct (lock_beq g' g) eqn:E; [|reflexivity]. apply lock_beq_eq in E. subst g'.
    destruct (A j m' Hj) as [-> ->]. reflexivity.
Qed.

Lemma not_free s g m : free s g m = false -> exists j m', In (j, (g, m')) (held s).
Proof.
  unfold free. intro F. apply not_true_iff_false in F. destruct (existsb (fun e => lock_beq (fst (snd e)) g) (held s)) eqn:E.
  - apply existsb_exists in E. destruct E as ([j [g' m']] & Hj & Eg). cbn in Eg. apply lock_beq_eq in Eg. subst g'. exists j, m'. exact Hj.
  - exfalso. apply F. apply forallb_forall. intros e He. destruct (lock_beq (fst (snd e)) g) eqn:Eg; [|reflexivity].
    exfalso. apply not_true_iff_false in E. apply E. apply existsb_exists. exists e. tauto.
Qed.


Section Downward.
  Variables (L : layers) (defs : nat -> nat -> client).

  Definition height (g : lock) : nat :=
    match g with
    | KTypes | KConv => 0
    | KDerived _ | KNames _ => 1
    | KItems c _ => 2 + items L c
    | KBases c => 2 + bases L c
    end.

  Definition okv (l : loc) (v : val) : Prop :=
    match l with
    | LItems c _ => forall n i, In (n, i) (rows v) -> lower L (items L c) i
    | LBases c => forall t b, In (t, b) (rows v) -> types L t < bases L c
    | LDefer c => forall d, opt v = Some d -> gentle L (Some (room L c)) (defs d c)
    | _ => True
    end.
  Definition oka (a : aloc) (v : val) : Prop :=
    match a with
    | AMeta t => forall d, opt v = Some d -> bases L d <= types L t /\ lower L (S (types L t)) d
    | AFlag _ => True
    end.

  Lemma layered_ok s : layered L defs s -> (forall l, okv l (mem s l)) /\ (forall a, oka a (atom s a)).
  Proof.
    intros (A & B & C & D). split.
    - intros [ | | | |c k|c|c|x|x n|i|c]; cbn; try exact I.
      + intros n i Hi. exact (A c k n i Hi).
      + intros t b Ht. exact (B c t b Ht).
      + intros d Hd. exact (D c d Hd).
    - intros [t|c]; cbn; [|exact I]. exact (C t).
  Qed.

  Definition above (n : nat) (H : list hold) : Prop := forall h, In h H -> n <= height (fst h).

  Definition sub_need (q : sub) : nat :=
    match q with
    | SQual _ => 0
    | SRun _ c => room L c
    | SMember _ c _ => Nat.max (need_items L c) (need_bases L c)
    | SInherited c _ | SCast c _ => need_bases L c
    | SForce c => need_items L c
    end.
  Definition sub_ok (q : sub) : Prop := match q with SRun d c => gentle L (Some (room L c)) (defs d c) | _ => True end.
  Definition sub_ans (q : sub) (v : val) : Prop :=
    match q with
    | SMember _ c _ => exists o, v = VOpt o /\ forall i, o = Some i -> lower L (Nat.max (items L c) (bases L c)) i
    | _ => True
    end.

  (** Locks are taken that are below all that are held. *)
  Fixpoint ord (H : list hold) (p : prog) : Prop :=
    match p with
    | Done => H = []
    | Crash => True
    | Lock g m p' => above (S (height g)) H /\ ord ((g, m) :: H) p'
    | Unlock g m p' => In (g, m) H /\ ord (rem (g, m) H) p'
    | Load l k => forall v, okv l v -> ord H (k v)
    | Store l v p' | Alloc l v p' => okv l v -> ord H p'
    | Atomic a f k => forall v, oka a v -> oka a (f v) -> ord H (k v)
    | New k => forall n, ord H (k n)
    | Sub q k => above (sub_need q) H /\ sub_ok q /\ forall v, sub_ans q v -> ord H (k v)
    | Mark k => forall n, ord H (k n)
    | Note _ _ _ p' => ord H p'
    end.

  Lemma above_le n n' H : n' <= n -> above n H -> above n' H.
  Proof. intros Hn A h Hh. specialize (A h Hh). lia. Qed.
  Lemma above_cons n g m H : n <= height g -> above n H -> above n ((g, m) :: H).
  Proof. intros Hn A h [<-|Hh]; [exact Hn|exact (A h Hh)]. Qed.

  Lemma check_ord H c p : above (room L c) H -> ord H p -> ord H (check c p).
  Proof.
    intros A P. unfold check. cbn [ord]. intros v _. destruct (opt v); [|exact P]. intros old _ _. destruct (flag old); [exact P|].
    cbn [ord]. intros w Hw. destruct (opt w) as [d|] eqn:E; [|exact I]. cbn [ord].
    split; [exact A|]. split; [apply Hw; exact E|]. intros _ _ _ _ _ _. exact P.
  Qed.
  Lemma check_item_ord H i p : above (room L i) H -> ord H p -> ord H (check_item i p).
  Proof. intros A P. unfold check_item. cbn [ord]. intros v _. destruct v; try exact P. destruct k; try exact P; apply check_ord; assumption. Qed.
  Lemma check_list_ord H x p : above (need_list L x) H -> ord H p -> ord H (check_list x p).
  Proof. intros A P. destruct x as [i|i]; [|exact P]. apply check_item_ord; [|exact P]. apply (above_le _ _ _ (Nat.le_max_l _ 2) A). Qed.

  Lemma look_ord H g l k : above (S (height g)) H -> (forall v, okv l v -> ord H (k v)) -> ord H (look g l k).
  Proof.
    intros A P. unfold look. cbn [ord]. split; [exact A|]. intros v Hv. split; [left; reflexivity|]. rewrite rem_head. exact (P v Hv).
  Qed.

  Lemma each_ord H g l body finish todo :
    (forall r more, In r todo -> ord ((g, Shared) :: H) more -> ord ((g, Shared) :: H) (body r more)) ->
    ord H finish -> ord ((g, Shared) :: H) (each g l todo body finish).
  Proof.
    intros B F. induction todo as [|r todo IH]; cbn [each ord].
    - split; [left; reflexivity|]. rewrite rem_head. exact F.
    - intros v _. apply B; [left; reflexivity|]. apply IH. intros r' more Hr. apply B. right. exact Hr.
  Qed.
  Lemma for_each_ord H g l body finish : above (S (height g)) H ->
    (forall v r more, okv l v -> In r (rows v) -> ord ((g, Shared) :: H) more -> ord ((g, Shared) :: H) (body r more)) ->
    ord H finish -> ord H (for_each g l body finish).
  Proof.
    intros A B F. unfold for_each. cbn [ord]. split; [exact A|]. intros v Hv. apply each_ord; [|exact F].
    intros r more Hr. exact (B v r more Hv Hr).
  Qed.
  Lemma unlock_ord H g p : ord H p -> ord ((g, Shared) :: H) (Unlock g Shared p).
  Proof. intro P. cbn [ord]. split; [left; reflexivity|]. rewrite rem_head. exact P. Qed.

  Lemma assoc_ok c k v n i : okv (LItems c k) v -> assoc n (rows v) = Some i -> lower L (items L c) i.
  Proof. intros Hv E. apply assoc_some in E. exact (Hv n i E). Qed.

  Lemma item_ord H c k n q : above (need_items L c) H ->
    (forall o, (forall i, o = Some i -> lower L (items L c) i) -> ord H (q (VOpt o))) -> ord H (item c k n q).
  Proof.
    intros A Q. unfold item. unfold need_items in A. apply check_ord; [apply (above_le _ _ _ (Nat.le_max_l _ _) A)|].
    destruct (n =? 0); [apply Q; discriminate|]. apply look_ord.
    - apply (above_le (3 + items L c)); [cbn; lia|]. apply (above_le _ _ _ (Nat.le_max_r _ _) A).
    - intros v Hv. apply Q. intros i E. exact (assoc_ok c k v n i Hv E).
  Qed.
  Lemma find_method_ord H c k n q : above (need_items L c) H ->
    (forall o, (forall i, o = Some i -> lower L (items L c) i) -> ord H (q (VOpt o))) -> ord H (find_method c k n q).
  Proof.
    intros A Q. unfold find_method. unfold need_items in A. apply check_ord; [apply (above_le _ _ _ (Nat.le_max_l _ _) A)|].
    apply look_ord.
    - apply (above_le (3 + items L c)); [cbn; lia|]. apply (above_le _ _ _ (Nat.le_max_r _ _) A).
    - intros v Hv. apply Q. intros i E. exact (assoc_ok c k v n i Hv E).
  Qed.
  Lemma add_item_ord H c k n i q : above (3 + items L c) H ->
    (lower L (items L c) i -> ord H (q true)) -> ord H (q false) -> ord H (add_item c k n i q).
  Proof.
    intros A Q1 Q0. unfold add_item. cbn [ord]. split; [exact A|]. intros v Hv. destruct (assoc n (rows v)).
    - cbn [ord]. split; [left; reflexivity|]. rewrite rem_head. exact Q0.
    - cbn [ord]. intros Hs. split; [left; reflexivity|]. rewrite rem_head. apply Q1. apply (Hs n i). cbn [rows].
      apply in_or_app. right. left. reflexivity.
  Qed.

  Definition reach (k : category) (c : nat) : nat :=
    match k with Method | Property => Nat.max (items L c) (bases L c) | _ => items L c end.
  Definition reach_need (k : category) (c : nat) : nat :=
    match k with Method | Property => Nat.max (need_items L c) (need_bases L c) | _ => need_items L c end.

  Lemma reach_need_items k c : need_items L c <= reach_need k c.
  Proof. destruct k; cbn; lia. Qed.
  Lemma reach_le k c i : lower L (items L c) i -> lower L (reach k c) i.
  Proof. unfold lower. destruct k; cbn; lia. Qed.

  Lemma search_ord H c k n q : above (reach_need k c) H ->
    (forall o, (forall i, o = Some i -> lower L (reach k c) i) -> ord H (q (VOpt o))) -> ord H (search k c n q).
  Proof.
    intros A Q. unfold search.
    assert (It : (forall o, (forall i, o = Some i -> lower L (items L c) i) -> ord H (q (VOpt o)))).
    { intros o Ho. apply Q. intros i Hi. apply reach_le. apply Ho. exact Hi. }
    assert (Ai : above (need_items L c) H) by exact (above_le _ _ _ (reach_need_items k c) A).
    destruct k; try (apply item_ord; [exact Ai|exact It]); try (apply find_method_ord; [exact Ai|exact It]);
      (split; [exact A|split; [exact I|]]; intros v (o & -> & Ho); apply Q; exact Ho).
  Qed.

  Lemma create_ord H c k n q : above (reach_need k c) H ->
    (forall o, (forall i, o = Some i -> lower L (reach k c) i) -> ord H (q (VOpt o))) -> ord H (create k c n q).
  Proof.
    intros A Q. unfold create. destruct (_ && _); [apply Q; discriminate|]. apply search_ord; [exact A|].
    intros o Ho. cbn [opt]. destruct o as [i|]; [apply Q; exact Ho|]. cbn [ord]. intros i _.
    apply add_item_ord; [|intro Hi; apply Q; intros j [= <-]; apply reach_le; exact Hi|].
    - apply (above_le (need_items L c)); [unfold need_items; lia|]. exact (above_le _ _ _ (reach_need_items k c) A).
    - apply search_ord; [exact A|exact Q].
  Qed.

  Lemma create_class_ord H c n t q : above (need_items L c) H ->
    (forall o, (forall i, o = Some i -> lower L (items L c) i) -> ord H (q (VOpt o))) -> ord H (q VThrow) ->
    ord H (create_class c n t q).
  Proof.
    intros A Q T. unfold create_class. apply item_ord; [exact A|]. intros o Ho. cbn [opt]. destruct o as [i|]; [apply Q; exact Ho|].
    destruct (t =? 0); [exact T|]. cbn [ord]. intros m _ _. destruct (opt m).
    - cbn [ord]. intros m' _ _. destruct (opt m'); [|exact I]. cbn [ord]. split; [intros h _; cbn; lia|]. split; [exact I|].
      intros _ _. exact T.
    - cbn [ord]. intros i _. apply add_item_ord.
      + apply (above_le (need_items L c)); [unfold need_items; lia|exact A].
      + intro Hi. cbn [ord]. intros _ _ _. apply Q. intros j [= <-]. exact Hi.
      + apply item_ord; [exact A|exact Q].
  Qed.

  Lemma add_row_ord H g l n x p : above (S (height g)) H -> ord H p -> ord H (add_row g l n x p).
  Proof.
    intros A P. unfold add_row. cbn [ord]. split; [exact A|]. intros v _. destruct (assoc n (rows v)); cbn [ord].
    - split; [left; reflexivity|]. rewrite rem_head. exact P.
    - intros _. split; [left; reflexivity|]. rewrite rem_head. exact P.
  Qed.

  Lemma decays_ord H a b no k : ord H no -> (forall e, ord H (k e)) -> ord H (decays a b no k).
  Proof. intros N K. unfold decays. destruct (_ || _); [exact N|]. cbn [ord]. intros x _ y _. apply K. Qed.

  (** The limit of a client fits what its thread holds. *)
  Definition within (limit : option nat) (H : list hold) : Prop :=
    match limit with None => H = [] | Some m => above m H end.

  Lemma within_fits limit H n : within limit H -> fits limit n -> above n H.
  Proof.
    destruct limit as [m|]; cbn.
    - intros A F. exact (above_le _ _ _ F A).
    - intros -> _ h [].
  Qed.

  Ltac easyq Q := apply Q; cbn [plausible]; try exact I; try (intros; discriminate).

  Lemma den_ord :
    (forall c limit H q, gentle L limit c -> within limit H -> (forall b, ord H (q b)) -> ord H (den c q)) /\
    (forall a limit H q, gentle_api L limit a -> within limit H -> (forall v, plausible L a v -> ord H (q v)) -> ord H (den_api a q)).
  Proof.
    apply client_api_ind.
    - intros r limit H q _ _ Q. apply Q.
    - intros a IHa k IHk limit H q [Ga Gk] W Q. cbn [den ord]. intro b. apply (IHa limit H _ Ga W). intros v Hv. cbn [ord].
      apply (IHk v limit); [exact (Gk v Hv)|exact W|exact Q].
    - (* TypeByName *) intros n limit H q [F _] W Q. pose proof (within_fits _ _ _ W F) as A. cbn [den_api need] in *.
      destruct (n =? 0); [easyq Q|]. apply look_ord; [exact A|]. intros v _. easyq Q.
    - (* Register *) intros n d limit H q [F _] W Q. pose proof (within_fits _ _ _ W F) as A. cbn [den_api need] in *.
      unfold add_type. destruct (n =? 0); [easyq Q|]. cbn [ord]. split; [exact A|]. intros v _. destruct (assoc n (rows v)); cbn [ord].
      + split; [left; reflexivity|]. rewrite rem_head. easyq Q.
      + intros t _ _. split; [left; reflexivity|]. rewrite rem_head. easyq Q.
    - (* HasConv *) intros a b limit H q [F _] W Q. pose proof (within_fits _ _ _ W F) as A. cbn [den_api need] in *.
      apply decays_ord; [easyq Q|]. intro e. apply look_ord; [exact A|]. intros v _. easyq Q.
    - (* Convert *) intros a b limit H q [F _] W Q. pose proof (within_fits _ _ _ W F) as A. cbn [den_api need] in *.
      apply decays_ord; [easyq Q|]. intro e. apply look_ord; [exact A|]. intros v _. easyq Q.
    - (* RegConv *) intros a b f limit H q [F _] W Q. pose proof (within_fits _ _ _ W F) as A. cbn [den_api need] in *.
      apply decays_ord; [easyq Q|]. intro e. cbn [ord]. split; [exact A|]. intros v _. destruct (conv_of e (convs v)); cbn [ord].
      + split; [left; reflexivity|]. rewrite rem_head. easyq Q.
      + intros _. split; [left; reflexivity|]. rewrite rem_head. easyq Q.
    - (* UnregConv *) intros a b limit H q [F _] W Q. pose proof (within_fits _ _ _ W F) as A. cbn [den_api need] in *.
      apply decays_ord; [easyq Q|]. intro e. cbn [ord]. split; [exact A|]. intros v _ _. split; [left; reflexivity|]. rewrite rem_head. easyq Q.
    - (* FindClass *) intros t limit H q _ _ Q. cbn [den_api]. destruct (t =? 0); [easyq Q|]. cbn [ord].
      intros v Hv _. apply Q. intros d ->. apply Hv. reflexivity.
    - (* CreateClass *) intros c n t limit H q [F _] W Q. pose proof (within_fits _ _ _ W F) as A. cbn [den_api need] in *.
      apply create_class_ord; [exact A| |easyq Q]. intros o Ho. apply Q. intros i [= ->]. apply Ho. reflexivity.
    - (* Create *) intros k c n limit H q [F _] W Q. pose proof (within_fits _ _ _ W F) as A. cbn [den_api need] in *.
      apply create_ord; [exact A|]. intros o Ho. apply Q. intros i [= ->]. specialize (Ho i eq_refl).
      revert Ho. unfold lower. destruct k; cbn [reach]; lia.
    - (* Count *) intros c k limit H q [F _] W Q. pose proof (within_fits _ _ _ W F) as A. cbn [den_api need] in *. unfold need_items in A.
      apply check_ord; [apply (above_le _ _ _ (Nat.le_max_l _ _) A)|]. apply look_ord; [apply (above_le _ _ _ (Nat.le_max_r _ _) A)|].
      intros v _. easyq Q.
    - (* At *) intros c k i limit H q [F _] W Q. pose proof (within_fits _ _ _ W F) as A. cbn [den_api need] in *. unfold need_items in A.
      apply check_ord; [apply (above_le _ _ _ (Nat.le_max_l _ _) A)|]. apply look_ord; [apply (above_le _ _ _ (Nat.le_max_r _ _) A)|].
      intros v Hv. apply Q. intros j E. destruct (nth_error (rows v) i) as [[n x]|] eqn:En; [|discriminate]. cbn in E. injection E as ->.
      apply (Hv n j). exact (nth_error_In _ _ En).
    - (* Get *) intros c k n limit H q [F _] W Q. pose proof (within_fits _ _ _ W F) as A. cbn [den_api need] in *.
      apply item_ord; [exact A|]. intros o Ho. apply Q. intros i [= ->]. apply Ho. reflexivity.
    - (* GetMember *) intros k c n limit H q [F _] W Q. pose proof (within_fits _ _ _ W F) as A. cbn [den_api need] in *.
      destruct (n =? 0); [easyq Q|]. split; [exact A|]. split; [exact I|]. intros v (o & -> & Ho). apply Q. intros i [= ->]. apply Ho. reflexivity.
    - (* GetConstructor *) intros c n limit H q [F _] W Q. pose proof (within_fits _ _ _ W F) as A. cbn [den_api need] in *.
      apply find_method_ord; [exact A|]. intros o Ho. apply Q. intros i [= ->]. apply Ho. reflexivity.
    - (* EachClass *) intros c f IHf limit H q [F G] W Q. pose proof (within_fits _ _ _ W F) as A. cbn [den_api need] in *. unfold need_items in A.
      assert (Q1 : ord H (q VUnit)) by easyq Q.
      pose proof (above_le _ _ _ (Nat.le_max_r _ _) A) as A3.
      apply check_ord; [apply (above_le _ _ _ (Nat.le_max_l _ _) A)|]. apply for_each_ord; [exact A3| |exact Q1].
      intros v [n i] more Hv Hr Hm. cbn [snd]. apply (IHf i (Some (2 + items L c))); [apply G; exact (Hv n i Hr)| |].
      + apply above_cons; [cbn; lia|]. apply (above_le (3 + items L c)); [lia|exact A3].
      + intros [|]; [exact Hm|apply unlock_ord; exact Q1].
    - (* EachMethod *) intros c f IHf limit H q [F G] W Q. pose proof (within_fits _ _ _ W F) as A. cbn [den_api need] in *. unfold need_items in A.
      assert (Q1 : ord H (q VUnit)) by easyq Q.
      pose proof (above_le _ _ _ (Nat.le_max_r _ _) A) as A3.
      apply check_ord; [apply (above_le _ _ _ (Nat.le_max_l _ _) A)|]. apply for_each_ord; [exact A3| |exact Q1].
      intros v [n i] more Hv Hr Hm. cbn [snd]. apply (IHf i (Some (2 + items L c))); [apply G; exact (Hv n i Hr)| |].
      + apply above_cons; [cbn; lia|]. apply (above_le (3 + items L c)); [lia|exact A3].
      + intros [|]; [exact Hm|apply unlock_ord; exact Q1].
    - (* BaseCount *) intros c limit H q [F _] W Q. pose proof (within_fits _ _ _ W F) as A. cbn [den_api need] in *. unfold need_bases in A.
      apply check_ord; [apply (above_le _ _ _ (Nat.le_max_l _ _) A)|]. apply look_ord; [apply (above_le _ _ _ (Nat.le_max_r _ _) A)|].
      intros v _. easyq Q.
    - (* BaseAt *) intros c i limit H q [F _] W Q. pose proof (within_fits _ _ _ W F) as A. cbn [den_api need] in *. unfold need_bases in A.
      apply check_ord; [apply (above_le _ _ _ (Nat.le_max_l _ _) A)|]. apply look_ord; [apply (above_le _ _ _ (Nat.le_max_r _ _) A)|].
      intros v Hv. destruct (nth_error (rows v) i) as [[t b]|] eqn:E; [|easyq Q]. cbn [ord fst]. intros _ _ _. apply Q.
      intros t' [= <-]. apply (Hv t b). exact (nth_error_In _ _ E).
    - (* DerivedCount *) intros c limit H q [F _] W Q. pose proof (within_fits _ _ _ W F) as A. cbn [den_api need] in *.
      apply check_ord; [apply (above_le _ _ _ (Nat.le_max_l _ _) A)|]. apply look_ord; [apply (above_le _ _ _ (Nat.le_max_r _ _) A)|].
      intros v _. easyq Q.
    - (* DerivedAt *) intros c i limit H q [F _] W Q. pose proof (within_fits _ _ _ W F) as A. cbn [den_api need] in *.
      apply check_ord; [apply (above_le _ _ _ (Nat.le_max_l _ _) A)|]. apply look_ord; [apply (above_le _ _ _ (Nat.le_max_r _ _) A)|].
      intros v _. destruct (nth_error (rows v) i); easyq Q.
    - (* AddBase *) intros c t limit H q [F _] W Q. pose proof (within_fits _ _ _ W F) as A. cbn [den_api need] in *. unfold need_bases in A.
      unfold add_base. destruct (t =? 0); [easyq Q|]. cbn [ord]. intros m _ _. destruct (opt m); [|easyq Q].
      apply add_row_ord; [apply (above_le _ _ _ (Nat.le_max_r _ _) A)|].
      apply add_row_ord; [apply (above_le _ _ _ (Nat.le_max_r _ _)) in A; apply (above_le (3 + bases L c)); [cbn; lia|exact A]|]. easyq Q.
    - (* Inherited *) intros c b limit H q [F _] W Q. pose proof (within_fits _ _ _ W F) as A. cbn [den_api need] in *.
      split; [exact A|]. split; [exact I|]. intros v _. easyq Q.
    - (* Cast *) intros c b limit H q [F _] W Q. pose proof (within_fits _ _ _ W F) as A. cbn [den_api need] in *.
      split; [exact A|]. split; [exact I|]. intros v _. easyq Q.
    - (* Qualified *) intros i limit H q _ _ Q. cbn [den_api ord]. split; [intros h _; cbn; lia|]. split; [exact I|]. intros v _. easyq Q.
    - (* Size *) intros x limit H q [F _] W Q. pose proof (within_fits _ _ _ W F) as A. cbn [den_api need] in *.
      assert (A2 : above 2 H) by (apply (above_le (need_list L x)); [destruct x; cbn; lia|exact A]).
      apply check_list_ord; [exact A|]. apply look_ord; [exact A2|]. intros v _. easyq Q.
    - (* Value *) intros x i limit H q [F _] W Q. pose proof (within_fits _ _ _ W F) as A. cbn [den_api need] in *.
      assert (A2 : above 2 H) by (apply (above_le (need_list L x)); [destruct x; cbn; lia|exact A]).
      apply check_list_ord; [exact A|]. apply look_ord; [exact A2|]. intros v _. easyq Q.
    - (* ValueByName *) intros x n limit H q [F _] W Q. pose proof (within_fits _ _ _ W F) as A. cbn [den_api need] in *.
      assert (A2 : above 2 H) by (apply (above_le (need_list L x)); [destruct x; cbn; lia|exact A]).
      apply check_list_ord; [exact A|]. destruct (n =? 0); [easyq Q|]. apply look_ord; [exact A2|]. intros v _. easyq Q.
    - (* Name *) intros x i limit H q [F _] W Q. pose proof (within_fits _ _ _ W F) as A. cbn [den_api need] in *.
      assert (A2 : above 2 H) by (apply (above_le (need_list L x)); [destruct x; cbn; lia|exact A]).
      apply check_list_ord; [exact A|]. apply look_ord; [exact A2|]. intros v _. easyq Q.
    - (* EachValue *) intros x f IHf limit H q [F G] W Q. pose proof (within_fits _ _ _ W F) as A. cbn [den_api need] in *.
      assert (Q1 : ord H (q VUnit)) by easyq Q.
      assert (A2 : above 2 H) by (apply (above_le (need_list L x)); [destruct x; cbn; lia|exact A]).
      apply check_list_ord; [exact A|]. apply for_each_ord; [exact A2| |exact Q1]. intros v [n i] more _ _ Hm. cbn [fst snd].
      apply (IHf n i (Some 1)); [apply G| |].
      + apply above_cons; [cbn; lia|]. apply (above_le 2); [lia|exact A2].
      + intros [|]; [exact Hm|apply unlock_ord; exact Q1].
    - (* SetValue *) intros x n v limit H q [F _] W Q. pose proof (within_fits _ _ _ W F) as A. cbn [den_api need] in *.
      unfold set_value. destruct (n =? 0); [easyq Q|]. cbn [ord]. split; [exact A|]. intros w _. destruct (assoc n (rows w)); cbn [ord].
      + intros _. split; [left; reflexivity|]. rewrite rem_head. easyq Q.
      + intros _ _. split; [left; reflexivity|]. rewrite rem_head. easyq Q.
    - (* Use *) intros r limit H q _ _ Q. cbn [den_api]. destruct r as [[x n]|]; [|easyq Q]. cbn [ord]. intros v _. easyq Q.
    - (* Defer *) intros c d limit H q _ _ Q. cbn [den_api ord]. intros v _. destruct (opt v); cbn [ord].
      + split; [intros h _; cbn; lia|]. split; [exact I|]. intros _ _. easyq Q.
      + intros _. easyq Q.
    - (* Force *) intros c limit H q [F _] W Q. pose proof (within_fits _ _ _ W F) as A. cbn [den_api need] in *.
      split; [exact A|]. split; [exact I|]. intros v _. easyq Q.
  Qed.

  Lemma sub_ord H q k : above (sub_need q) H -> sub_ok q -> (forall v, sub_ans q v -> ord H (k v)) -> ord H (Sub q k).
  Proof. intros A B C. split; [exact A|]. split; [exact B|exact C]. Qed.

  (** A base of a class that is being walked. *)
  Lemma base_above H c d t : above (need_bases L c) H -> types L t < bases L c ->
    bases L d <= types L t /\ lower L (S (types L t)) d ->
    above (Nat.max (need_items L d) (need_bases L d)) ((KBases c, Shared) :: H).
  Proof.
    unfold lower. intros A T (B1 & B2 & B3). apply above_cons; [cbn [height]; unfold need_items, need_bases; lia|].
    apply (above_le (need_bases L c)); [unfold need_items, need_bases; lia|exact A].
  Qed.

  Lemma unfold_ord s H q : above (sub_need s) H -> sub_ok s -> (forall v, sub_ans s v -> ord H (q v)) -> ord H (unfold defs s q).
  Proof.
    intros A O Q. destruct s as [i|d c|k c n|c b|c b|c]; cbn [unfold sub_need sub_ok sub_ans] in *.
    - cbn [ord]. intros v _. assert (R : ord H (Load (LQual i) q)) by (cbn [ord]; intros w _; apply Q; exact I).
      destruct (path v); [|exact R]. cbn [ord]. intros s _. assert (N : ord H (Store (LQual i) (VPath []) (Load (LQual i) q))) by (intros _; exact R).
      destruct s as [| | | | | | |k n o| |]; try exact N. destruct o as [o|]; [|exact N]. apply sub_ord; [intros h _; cbn; lia|exact I|].
      intros w _ _. exact R.
    - apply (proj1 den_ord (defs d c) (Some (room L c))); [exact O|exact A|]. intros _. apply Q. exact I.
    - assert (Ai : above (need_items L c) H) by (apply (above_le _ _ _ (Nat.le_max_l _ _) A)).
      assert (Ab : above (need_bases L c) H) by (apply (above_le _ _ _ (Nat.le_max_r _ _) A)).
      apply find_method_ord; [exact Ai|]. intros o Ho. cbn [opt]. destruct o as [i|].
      + apply Q. exists (Some i). split; [reflexivity|]. intros j [= <-]. specialize (Ho i eq_refl). unfold lower in *. lia.
      + assert (N : ord H (q (VOpt None))) by (apply Q; exists None; split; [reflexivity|discriminate]).
        cbn [ord]. intros s _. destruct s as [| | | | | | |k' n' o'| |]; try exact N. destruct k'; try exact N.
        apply for_each_ord; [apply (above_le (need_bases L c)); [unfold need_bases; cbn; lia|exact Ab]| |exact N].
        intros v [t b] more Hv Hr Hm. cbn [fst]. pose proof (Hv t b Hr) as T. unfold direct_base. cbn [ord].
        intros v' Hv' _. destruct (opt v') as [d|] eqn:Ed; [|exact I]. pose proof (Hv' d Ed) as D.
        apply sub_ord; [exact (base_above _ _ _ _ Ab T D)|exact I|].
        intros w (o & -> & Hw). cbn [opt]. destruct o as [m|]; [|exact Hm]. apply unlock_ord. apply Q. exists (Some m).
        split; [reflexivity|]. intros j [= <-]. specialize (Hw m eq_refl). unfold lower in *. lia.
    - destruct (c =? b); [apply Q; exact I|]. apply check_ord; [apply (above_le (need_bases L c)); [unfold need_bases; lia|exact A]|].
      apply for_each_ord; [apply (above_le (need_bases L c)); [unfold need_bases; cbn; lia|exact A]| |apply Q; exact I].
      intros v [t b'] more Hv Hr Hm. cbn [fst]. pose proof (Hv t b' Hr) as T. unfold direct_base. cbn [ord].
      intros v' Hv' _. destruct (opt v') as [d|] eqn:Ed; [|exact I]. pose proof (Hv' d Ed) as D.
      pose proof (above_le _ _ _ (Nat.le_max_r _ _) (base_above _ _ _ _ A T D)) as Ad.
      apply sub_ord; [exact Ad|exact I|]. intros w _. destruct (flag w); [|exact Hm]. apply unlock_ord. apply Q. exact I.
    - destruct (c =? b); [apply Q; exact I|]. apply check_ord; [apply (above_le (need_bases L c)); [unfold need_bases; lia|exact A]|].
      apply for_each_ord; [apply (above_le (need_bases L c)); [unfold need_bases; cbn; lia|exact A]| |apply Q; exact I].
      intros v [t b'] more Hv Hr Hm. cbn [fst]. pose proof (Hv t b' Hr) as T. unfold direct_base. cbn [ord].
      intros v' Hv' _. destruct (opt v') as [d|] eqn:Ed; [|exact I]. pose proof (Hv' d Ed) as D.
      pose proof (above_le _ _ _ (Nat.le_max_r _ _) (base_above _ _ _ _ A T D)) as Ad.
      apply sub_ord; [exact Ad|exact I|]. intros w _. destruct (flag w); [|exact Hm].
      apply sub_ord; [exact Ad|exact I|]. intros u _. apply unlock_ord. apply Q. exact I.
    - assert (A3 : above (3 + items L c) H) by (apply (above_le (need_items L c)); [unfold need_items; lia|exact A]).
      assert (F : forall k more n i v, okv (LItems c k) v -> In (n, i) (rows v) -> ord ((KItems c k, Shared) :: H) more ->
                    ord ((KItems c k, Shared) :: H) (Sub (SForce i) (fun _ => more))).
      { intros k more n i v Hv Hr Hm. pose proof (Hv n i Hr) as [I1 I2]. apply sub_ord; [|exact I|intros _ _; exact Hm].
        cbn [sub_need]. apply above_cons; [cbn [height]; unfold need_items; lia|].
        apply (above_le (need_items L c)); [unfold need_items; lia|exact A]. }
      apply check_ord; [apply (above_le (need_items L c)); [unfold need_items; lia|exact A]|].
      apply for_each_ord; [exact A3|intros v [n i] more Hv Hr Hm; exact (F Class more n i v Hv Hr Hm)|].
      apply for_each_ord; [exact A3|intros v [n i] more Hv Hr Hm; exact (F Namespace more n i v Hv Hr Hm)|].
      apply Q. exact I.
  Qed.

  (** ** Executions *)

  Record tidy (s : state) : Prop := Tidy {
    tidy_threads : forall i p, nth_error (threads s) i = Some p -> ord (holds i (held s)) p;
    tidy_held : forall i h, In (i, h) (held s) -> i < length (threads s)
  }.

  Lemma turn_tidy s i : layered L defs s -> layered L defs (turn defs s i) -> tidy s -> tidy (turn defs s i).
  Proof.
    intros Ly Ly' [T Hh]. unfold turn in *. destruct (nth_error (threads s) i) as [p|] eqn:Hp; [|constructor; assumption].
    pose proof (T i p Hp) as P. pose proof (layered_ok s Ly) as [LV LA].
    assert (Li : i < length (threads s)) by (apply nth_error_Some; congruence).
    assert (Same : forall m a n lg p', ord (holds i (held s)) p' -> tidy (State m a (held s) n (put (threads s) i p') lg)).
    { intros m a n lg p' P'. constructor; cbn [threads held].
      - intros j q Hq. apply (put_nth (fun _ => True)) in Hq. destruct Hq as [[-> ->]|[N Hq]]; [exact P'|exact (T j q Hq)].
      - intros j h Hj. rewrite put_len. exact (Hh j h Hj). }
    destruct p as [| |g m q|g m q|l k|l v q|l v q|a f k|k|sb k|k|a b v q]; cbn [step mem atom held next threads log] in *.
    - apply Same. exact P.
    - apply Same. exact P.
    - destruct (free s g m); cbn [mem atom held next threads log]; [|apply Same; exact P]. constructor; cbn [threads held].
      + intros j q' Hq. apply (put_nth (fun _ => True)) in Hq. destruct Hq as [[-> ->]|[N Hq]].
        * unfold holds. cbn [filter fst]. rewrite Nat.eqb_refl. cbn [map snd]. exact (proj2 P).
        * pose proof (T j q' Hq) as Pj. unfold holds in *. cbn [filter fst].
          destruct (i =? j) eqn:E; [apply Nat.eqb_eq in E; congruence|]. exact Pj.
      + intros j h [[= <- _]|Hj]; rewrite put_len; [exact Li|exact (Hh j h Hj)].
    - constructor; cbn [threads held].
      + intros j q' Hq. apply (put_nth (fun _ => True)) in Hq. destruct Hq as [[-> ->]|[N Hq]].
        * rewrite holds_without. exact (proj2 P).
        * rewrite (holds_without_other _ _ _ _ (not_eq_sym N)). exact (T j q' Hq).
      + intros j h Hj. rewrite put_len. apply without_incl in Hj. exact (Hh j h Hj).
    - apply Same. apply P. apply LV.
    - apply Same. apply P. pose proof (proj1 (layered_ok _ Ly') l) as X. cbn [mem] in X. rewrite loc_beq_refl in X. exact X.
    - apply Same. apply P. pose proof (proj1 (layered_ok _ Ly') l) as X. cbn [mem] in X. rewrite loc_beq_refl in X. exact X.
    - apply Same. apply P; [apply LA|]. pose proof (proj2 (layered_ok _ Ly') a) as X. cbn [atom] in X.
      replace (aloc_beq a a) with true in X by (symmetry; apply internal_aloc_dec_lb; reflexivity). exact X.
    - apply Same. apply P.
    - apply Same. destruct P as (P1 & P2 & P3). apply unfold_ord; assumption.
    - apply Same. apply P.
    - apply Same. exact P.
  Qed.

  Lemma start_tidy m a n clients : (forall c, In c clients -> gentle L None c) -> tidy (start m a n clients).
  Proof.
    intro G. constructor; cbn [start threads held].
    - intros i p Hp. rewrite nth_error_map in Hp. destruct (nth_error clients i) as [c|] eqn:E; [|discriminate]. cbn in Hp. injection Hp as <-.
      apply (proj1 den_ord c None); [apply G; exact (nth_error_In _ _ E)|reflexivity|]. intros _. reflexivity.
    - intros i h [].
  Qed.

  (** ** Somebody can go on *)

  Lemma someone_goes w s : tidy s -> (forall i, nth_error (threads s) i <> Some Crash) ->
    forall n g, height g < n -> (exists i m p, nth_error (threads s) i = Some (Lock g m p)) -> exists i, can_go w s i.
  Proof.
    intros [T Hh] NC n. induction n as [|n IH]; intros g Hg Hw; [lia|].
    (* if the lock is held, look at who holds it *)
    assert (Holder : forall j m', In (j, (g, m')) (held s) -> exists i, can_go w s i).
    { intros j m' Hj. pose proof (Hh j _ Hj) as Lj. apply nth_error_Some in Lj. destruct (nth_error (threads s) j) as [p|] eqn:Ep; [|congruence].
      pose proof (T j p Ep) as P. apply holds_in in Hj.
      destruct (wants p) as [[g' md]|] eqn:Ew.
      - destruct p as [| |g0 m0 p0| | | | | | | | | ]; try discriminate Ew. cbn in Ew. injection Ew as -> ->. destruct P as [P _]. specialize (P _ Hj). cbn [fst] in P.
        apply (IH g'); [lia|]. exists j, md, p0. exact Ep.
      - exists j, p. split; [exact Ep|]. split; [intros ->; cbn [ord] in P; rewrite P in Hj; exact Hj|].
        split; [intros ->; exact (NC j Ep)|]. intros g0 m0 E. congruence. }
    destruct Hw as (i & m & p & Ep). destruct (free s g m) eqn:F; [|destruct (not_free _ _ _ F) as (j & m' & Hj); exact (Holder j m' Hj)].
    (* is there a writer that waits? *)
    destruct (existsb (fun q => match wants q with Some (g', Exclusive) => lock_beq g' g | _ => false end) (threads s)) eqn:X.
    - apply existsb_exists in X. destruct X as (q & Hq & Eq). apply In_nth_error in Hq. destruct Hq as [k Hk].
      destruct (wants q) as [[g' [|]]|] eqn:Eq'; try discriminate Eq. apply lock_beq_eq in Eq. subst g'.
      destruct (free s g Exclusive) eqn:FX; [|destruct (not_free _ _ _ FX) as (j & m' & Hj); exact (Holder j m' Hj)].
      exists k, q. split; [exact Hk|]. split; [intros ->; discriminate|]. split; [intros ->; discriminate|].
      intros g0 m0 E. rewrite Eq' in E. injection E as <- <-. split; [apply free_available; exact FX|]. intros _ E. discriminate E.
    - exists i, (Lock g m p). split; [exact Ep|]. split; [discriminate|]. split; [discriminate|]. intros g0 m0 E. injection E as <- <-.
      split; [apply free_available; exact F|]. intros _ _ j q Hq E. apply not_true_iff_false in X. apply X. apply existsb_exists.
      exists q. split; [exact (nth_error_In _ _ Hq)|]. rewrite E. apply lock_beq_refl.
  Qed.

  Lemma tidy_not_blocked w s : tidy s -> ~ blocked w s.
  Proof.
    intros T ((i & p & Hp & Nf) & NC & NG).
    destruct (wants p) as [[g m]|] eqn:Ew.
    - destruct p; try discriminate Ew. cbn in Ew. injection Ew as -> ->.
      destruct (someone_goes w s T NC (S (height g)) g (Nat.lt_succ_diag_r _)) as [j Hj]; [exists i, m, p; exact Hp|]. exact (NG j Hj).
    - apply (NG i). exists p. split; [exact Hp|]. split; [exact Nf|]. split; [intros ->; exact (NC i Hp)|]. intros g m E. congruence.
  Qed.

  (** The states along a schedule. *)
  Lemma exec_tidy sched : forall s, tidy s -> (forall k, layered L defs (exec defs s (firstn k sched))) -> tidy (exec defs s sched).
  Proof.
    induction sched as [|i sched IH]; intros s T Ly; [exact T|]. change (tidy (exec defs (turn defs s i) sched)). apply IH.
    - apply turn_tidy; [exact (Ly 0)|exact (Ly 1)|exact T].
    - intro k. exact (Ly (S k)).
  Qed.
End Downward.
