(** Every run of several threads has an order of the calls. Nothing here models code of /repo. *)
From Coq Require Import List Bool Arith Lia.
From Verif Require Import Util DeferModel RaceModel RaceSpec RaceProofs BlockProofs AtomicSpec AtomicBook AtomicProofs.
Import ListNotations.

Section Run.
  Variables (defs : nat -> nat -> client) (n0 : nat) (decay : nat -> nat) (m0 : loc -> val).
  Hypothesis Hdefs : forall d c, only (fun _ => early n0) [] (defs d c).

  Lemma listed_table l : listed l <-> table l = true.
  Proof. destruct l; cbn; split; intro; try reflexivity; try exact I; try contradiction; discriminate. Qed.
  Lemma home_listed a l : home a = Some l -> listed l.
  Proof. destruct a; cbn; try discriminate; try (intros [= <-]; exact I). destruct k, n; try discriminate; intros [= <-]; exact I. Qed.
  Lemma adds_listed a l n : adds a l n -> listed l.
  Proof. destruct a; cbn; try contradiction; try (intros [-> _]; exact I). intros [[-> _]|(b & -> & _)]; exact I. Qed.

  (** ** Histories *)
  Lemma happens_ext e m m1 m' : (forall l, listed l -> m1 l = m l) -> happens decay e m1 m' -> happens decay e m m'.
  Proof.
    intros E. destruct e as [a b v|a b l n i]; cbn [happens].
    - intros (l & Hl & F & Bt). exists l. rewrite <- (E l (home_listed _ _ Hl)). split; [exact Hl|]. split; [exact F|].
      intros x Lx Nx. rewrite <- (E x Lx). exact (Bt x Lx Nx).
    - intros (W & A & F & R & Bt). rewrite <- (E l (adds_listed _ _ _ A)). split; [exact W|]. split; [exact A|]. split; [exact F|]. split; [exact R|].
      intros x Lx Nx. rewrite <- (E x Lx). exact (Bt x Lx Nx).
  Qed.
  Lemma history_end h : forall m m1 m', history decay m h m1 -> (forall l, listed l -> m' l = m1 l) -> history decay m h m'.
  Proof.
    induction h as [|e h IH]; cbn [history]; intros m m1 m' Hh E.
    - intros l Ll. rewrite (E l Ll). exact (Hh l Ll).
    - destruct Hh as (m2 & A & B). exists m2. split; [exact A|exact (IH _ _ _ B E)].
  Qed.
  Lemma history_snoc h : forall m m1 m' e, history decay m h m1 -> happens decay e m1 m' -> history decay m (h ++ [e]) m'.
  Proof.
    induction h as [|x h IH]; cbn [history app]; intros m m1 m' e Hh E.
    - exists m'. split; [exact (happens_ext _ _ _ _ Hh E)|reflexivity].
    - destruct Hh as (m2 & A & B). exists m2. split; [exact A|exact (IH _ _ _ _ B E)].
  Qed.
  Lemma effect_names a l w v ans : home a = Some l -> append l = true -> effect decay a w v ans -> incl (map fst (rows w)) (map fst (rows v)).
  Proof.
    assert (G : forall n i, rows v = rows w ++ [(n, i)] -> incl (map fst (rows w)) (map fst (rows v))).
    { intros n i ->. rewrite map_app. apply incl_appl, incl_refl. }
    intros Hh Ha. destruct a; cbn in Hh; try discriminate Hh; cbn [effect];
      try (intros [-> _]; apply incl_refl); try (injection Hh as <-; discriminate Ha).
    - destruct (n =? 0); [intros [-> _]; apply incl_refl|]. intros (i & _ & [[-> _]|[_ R]]); [apply incl_refl|exact (G _ _ R)].
    - intros (i & _ & [[-> _]|[_ R]]); [apply incl_refl|exact (G _ _ R)].
    - intros [_ X]. destruct (n =? 0); [subst; apply incl_refl|]. destruct X as [[-> _]|[_ R]]; [apply incl_refl|exact (G _ _ R)].
  Qed.

  (** ** The invariant *)
  Definition sure (m : loc -> val) (H : list hold) (X : option (loc * val)) : Prop :=
    forall l w, X = Some (l, w) -> table l = true -> m l = w /\ sole H l.
  Definition known (m : loc -> val) (K : list (loc * nat)) : Prop :=
    forall l n, In (l, n) K -> append l = true /\ In n (map fst (rows (m l))).
  Record inv (s : state) (hist : list (event * owner)) (stk : nat -> list (frame * nat)) (cid : nat) : Prop := Inv {
    i_locks : forall i j g m m', In (i, (g, m)) (held s) -> In (j, (g, m')) (held s) -> i <> j -> m = Shared;
    i_next : n0 <= next s;
    i_info : forall t, t < n0 -> number (mem s (LInfo t)) = decay t;
    i_book : book (log s) hist stk cid;
    i_hist : history decay m0 (map fst hist) (mem s);
    i_live : forall i, stk i <> [] -> i < length (threads s);
    i_threads : forall i p, nth_error (threads s) i = Some p ->
      exists X K, sure (mem s) (holds i (held s)) X /\ known (mem s) K /\ lz n0 decay (map fst (stk i)) (holds i (held s)) X K p
  }.

  Lemma move s hist stk cid i p m' a' h' n' lg' p' hist' stk' cid' : inv s hist stk cid -> nth_error (threads s) i = Some p ->
    (forall i j g m m', In (i, (g, m)) h' -> In (j, (g, m')) h' -> i <> j -> m = Shared) -> n0 <= n' ->
    (forall t, t < n0 -> number (m' (LInfo t)) = decay t) -> book lg' hist' stk' cid' -> history decay m0 (map fst hist') m' ->
    (forall j, j <> i -> holds j h' = holds j (held s)) -> (forall j, j <> i -> stk' j = stk j) ->
    (forall l, table l = true -> m' l = mem s l \/
       (sole (holds i (held s)) l /\ (append l = true -> incl (map fst (rows (mem s l))) (map fst (rows (m' l)))))) ->
    (exists X K, sure m' (holds i h') X /\ known m' K /\ lz n0 decay (map fst (stk' i)) (holds i h') X K p') ->
    inv (State m' a' h' n' (put (threads s) i p') lg') hist' stk' cid'.
  Proof.
    intros [IL IN II IB IH IV IT] Hp L N F B Hh HH HS HM P. constructor; cbn [mem atom held next threads log]; try assumption.
    - intros j Hj. rewrite put_len. destruct (Nat.eq_dec j i) as [->|Nj]; [apply nth_error_Some; congruence|]. apply IV. rewrite <- (HS j Nj). exact Hj.
    - intros j q Hq. apply (put_nth (fun _ => True)) in Hq. destruct Hq as [[-> ->]|[Nj Hq]]; [exact P|]. rewrite (HH j Nj), (HS j Nj).
      destruct (IT j q Hq) as (X & K & S & KK & Z). exists X, K. split; [|split; [|exact Z]].
      + intros l w E T. destruct (S l w E T) as [E1 E2]. split; [|exact E2]. destruct (HM l T) as [->|[(g & Eg & Hg) _]]; [exact E1|].
        destruct E2 as (g' & Eg' & Hg'). assert (g' = g) as -> by congruence. apply holds_in in Hg. apply holds_in in Hg'.
        discriminate (IL _ _ _ _ _ Hg Hg' (not_eq_sym Nj)).
      + intros l n Hl. destruct (KK l n Hl) as [A1 A2]. split; [exact A1|].
        assert (T : table l = true) by (unfold append in A1; apply andb_true_iff in A1; tauto).
        destruct (HM l T) as [->|[_ I]]; [exact A2|]. exact (I A1 n A2).
  Qed.

  Lemma known_saw s hist stk cid K l : inv s hist stk cid -> known (mem s) K -> saw n0 decay K l (mem s l).
  Proof. intros I KK. split; [intros t -> Ht; exact (i_info _ _ _ _ I t Ht)|]. intros n Hn. exact (proj2 (KK l n Hn)). Qed.
  Lemma known_mind m K l : known m K -> known m (mind l (m l) K).
  Proof.
    intro KK. unfold mind. destruct (append l) eqn:A; [|exact KK]. intros l' n Hn. apply in_app_or in Hn. destruct Hn as [Hn|Hn]; [|exact (KK _ _ Hn)].
    apply in_map_iff in Hn. destruct Hn as (x & [= <- <-] & Hx). split; [exact A|exact Hx].
  Qed.
  Lemma top_frame (s : list (frame * nat)) a b d st : map fst s = (a, b, d) :: st -> exists c s', s = ((a, b, d), c) :: s' /\ map fst s' = st.
  Proof. destruct s as [|[f c] s']; [discriminate|]. cbn. intros [= -> <-]. exists c, s'. split; reflexivity. Qed.
  Lemma sure_none m H : sure m H None. Proof. intros l w [=]. Qed.

  Lemma turn_inv s i hist stk cid : inv s hist stk cid -> exists hist' stk' cid', inv (turn defs s i) hist' stk' cid'.
  Proof.
    intro I. unfold turn. destruct (nth_error (threads s) i) as [p|] eqn:Hp; [|exists hist, stk, cid; exact I].
    pose proof I as [IL IN II IB IH IV IT]. destruct (IT i p Hp) as (X & K & Sx & Kk & Z).
    assert (Same : forall a n hist' stk' cid' X' K' p', n0 <= n -> book (log s) hist' stk' cid' -> history decay m0 (map fst hist') (mem s) ->
      (forall j, j <> i -> stk' j = stk j) -> sure (mem s) (holds i (held s)) X' -> known (mem s) K' ->
      lz n0 decay (map fst (stk' i)) (holds i (held s)) X' K' p' ->
      inv (State (mem s) a (held s) n (put (threads s) i p') (log s)) hist' stk' cid').
    { intros a n hist' stk' cid' X' K' p' Hn HB HH HS HX HK HZ. apply (move s hist stk cid i p); try assumption.
      - reflexivity.
      - intros l _. left. reflexivity.
      - exists X', K'. repeat (split; [assumption|]). exact HZ. }
    assert (Write : forall l v l0 hist' stk' X' K' p', l = l0 -> (table l = true -> sole (holds i (held s)) l /\
        (append l = true -> incl (map fst (rows (mem s l))) (map fst (rows v)))) -> (forall t, l = LInfo t -> n0 <= t) ->
      book (log s) hist' stk' cid -> history decay m0 (map fst hist') (fun x => if loc_beq x l then v else mem s x) ->
      (forall j, j <> i -> stk' j = stk j) -> sure (fun x => if loc_beq x l then v else mem s x) (holds i (held s)) X' -> known (mem s) K' ->
      lz n0 decay (map fst (stk' i)) (holds i (held s)) X' K' p' ->
      inv (State (fun x => if loc_beq x l0 then v else mem s x) (atom s) (held s) (next s) (put (threads s) i p') (log s)) hist' stk' cid).
    { intros l v l0 hist' stk' X' K' p' <- HT HI HB HH HS HX HK HZ.
      assert (HM : forall x, table x = true -> (if loc_beq x l then v else mem s x) = mem s x \/
        (sole (holds i (held s)) x /\ (append x = true -> incl (map fst (rows (mem s x))) (map fst (rows (if loc_beq x l then v else mem s x)))))).
      { intros x T. destruct (loc_beq x l) eqn:E; [|left; reflexivity]. apply loc_beq_eq in E. subst x. right. apply HT. exact T. }
      apply (move s hist stk cid i p); try assumption.
      - intros t Ht. destruct (loc_beq (LInfo t) l) eqn:E; [|exact (II t Ht)]. apply loc_beq_eq in E. specialize (HI t (eq_sym E)). lia.
      - reflexivity.
      - exists X', K'. split; [exact HX|]. split; [|exact HZ]. intros x n Hn. destruct (HK x n Hn) as [A1 A2]. split; [exact A1|].
        assert (T : table x = true) by (unfold append in A1; apply andb_true_iff in A1; tauto).
        destruct (HM x T) as [->|[_ J]]; [exact A2|exact (J A1 n A2)]. }
    assert (Off : forall l v, table l = false -> history decay m0 (map fst hist) (fun x => if loc_beq x l then v else mem s x)).
    { intros l v T. apply (history_end _ _ _ _ IH). intros x Lx. destruct (loc_beq x l) eqn:E; [|reflexivity]. apply loc_beq_eq in E. subst.
      apply listed_table in Lx. congruence. }
    assert (OffX : forall l v, table l = false -> sure (fun x => if loc_beq x l then v else mem s x) (holds i (held s)) X).
    { intros l v T l' w E T'. destruct (loc_beq l' l) eqn:El; [apply loc_beq_eq in El; congruence|]. exact (Sx l' w E T'). }
    destruct p as [| |g m q|g m q|l k|l v q|l v q|a f k|k|sb k|k|a b v q]; cbn [step lz] in *; cbn [mem atom held next threads log].
    - exists hist, stk, cid. apply (Same _ _ _ _ _ X K); try assumption. reflexivity.
    - exists hist, stk, cid. apply (Same _ _ _ _ _ X K); try assumption. reflexivity.
    - (* Lock *) destruct (free s g m) eqn:Fr; cbn [mem atom held next threads log]; exists hist, stk, cid;
        [|apply (Same _ _ _ _ _ X K); try assumption; reflexivity].
      unfold free in Fr. rewrite forallb_forall in Fr.
      assert (FX : forall j md, In (j, (g, md)) (held s) -> m = Shared /\ md = Shared).
      { intros j md Hj. specialize (Fr _ Hj). cbn in Fr. rewrite lock_beq_refl in Fr. cbn in Fr. destruct m, md; try discriminate Fr. tauto. }
      apply (move s hist stk cid i (Lock g m q)); try assumption.
      + intros i1 i2 g0 m1 m2 [E1|H1] [E2|H2] N.
        * congruence.
        * injection E1 as <- <- <-. exact (proj1 (FX _ _ H2)).
        * injection E2 as <- <- <-. exact (proj2 (FX _ _ H1)).
        * exact (IL i1 i2 g0 m1 m2 H1 H2 N).
      + intros j Nj. unfold holds. cbn [filter fst]. rewrite (proj2 (Nat.eqb_neq i j)); [reflexivity|congruence].
      + reflexivity.
      + intros l _. left. reflexivity.
      + assert (Eh : holds i ((i, (g, m)) :: held s) = (g, m) :: holds i (held s)) by (unfold holds; cbn [filter fst]; rewrite Nat.eqb_refl; reflexivity).
        exists X, K. rewrite Eh. split; [|split; [exact Kk|exact Z]]. intros l w E T. destruct (Sx l w E T) as [A (g' & B1 & B2)]. split; [exact A|].
        exists g'. split; [exact B1|right; exact B2].
    - (* Unlock *) exists hist, stk, cid. destruct Z as [Hin Z]. apply (move s hist stk cid i (Unlock g m q)); try assumption.
      + intros i1 i2 g0 m1 m2 H1 H2. apply without_incl in H1, H2. exact (IL i1 i2 g0 m1 m2 H1 H2).
      + intros j Nj. apply holds_without_other. congruence.
      + reflexivity.
      + intros l _. left. reflexivity.
      + exists None, K. rewrite holds_without. split; [apply sure_none|]. split; [exact Kk|exact Z].
    - (* Load *) pose proof (known_mind _ _ l Kk) as Km. destruct (Z (mem s l) (known_saw _ _ _ _ _ l I Kk)) as [A|[[A1 A2]|(a & b & st & ans & E & A1 & A2 & A3)]].
      + exists hist, stk, cid. apply (Same _ _ _ _ _ X (mind l (mem s l) K)); try assumption. reflexivity.
      + exists hist, stk, cid. apply (Same _ _ _ _ _ (Some (l, mem s l)) (mind l (mem s l) K)); try assumption; [reflexivity|].
        intros l' w [= <- <-] _. split; [reflexivity|exact A1].
      + destruct (top_frame _ _ _ _ _ E) as (c & st' & E' & <-). exists (hist ++ [(Took a b ans, Open c)]), (upd stk i (((a, b, Some ans), c) :: st')), cid.
        apply (Same _ _ _ _ _ None (mind l (mem s l) K)); try assumption.
        * apply book_take; [exact IB|exact E'|]. intro W. congruence.
        * rewrite map_app. apply (history_snoc _ _ (mem s)); [exact IH|]. exists l. split; [exact A1|]. split; [exact A2|]. intros x _ _. reflexivity.
        * intros j Nj. apply upd_other. exact Nj.
        * apply sure_none.
        * rewrite upd_same. exact A3.
    - (* Store *) destruct (table l) eqn:T.
      + destruct Z as (w & -> & So & D). destruct (Sx l w eq_refl T) as [Ew _].
        destruct D as [(a & b & st & ans & E & A1 & A2 & A3)|(a & b & st & n & x & E & A1 & A2 & A3 & Ev & A5 & A6)].
        * destruct (top_frame _ _ _ _ _ E) as (c & st' & E' & <-). exists (hist ++ [(Took a b ans, Open c)]), (upd stk i (((a, b, Some ans), c) :: st')), cid.
          apply (Write l v l _ _ None K); try assumption.
          -- reflexivity.
          -- intros _. split; [exact So|]. intro Ha. rewrite Ew. exact (effect_names _ _ _ _ _ A1 Ha A2).
          -- intros t ->. discriminate T.
          -- apply book_take; [exact IB|exact E'|]. intro W. congruence.
          -- rewrite map_app. apply (history_snoc _ _ (mem s)); [exact IH|]. exists l. split; [exact A1|]. rewrite loc_beq_refl, Ew. split; [exact A2|].
             intros y _ Ny. destruct (loc_beq y l) eqn:El; [apply loc_beq_eq in El; contradiction|reflexivity].
          -- intros j Nj. apply upd_other. exact Nj.
          -- apply sure_none.
          -- rewrite upd_same. exact A3.
        * destruct (top_frame _ _ _ _ _ E) as (c & st' & E' & Es). exists (hist ++ [(Added a b l n x, Open c)]), stk, cid.
          apply (Write l v l _ _ None K); try assumption.
          -- reflexivity.
          -- intros _. split; [exact So|]. intro Ha. rewrite Ew, Ev. cbn [rows]. rewrite map_app. apply incl_appl, incl_refl.
          -- intros t ->. discriminate T.
          -- apply (book_add _ _ _ _ i a b c None st'); try assumption. reflexivity.
          -- rewrite map_app. apply (history_snoc _ _ (mem s)); [exact IH|]. cbn [map fst happens]. split; [exact A1|]. split; [exact A2|].
             rewrite loc_beq_refl, Ew. split; [exact A3|]. split; [rewrite Ev; reflexivity|].
             intros y _ Ny. destruct (loc_beq y l) eqn:El; [apply loc_beq_eq in El; contradiction|reflexivity].
          -- reflexivity.
          -- apply sure_none.
      + destruct Z as [A Z]. exists hist, stk, cid. apply (Write l v l _ _ X K); try assumption; try reflexivity.
        * intro; congruence.
        * intros t E. destruct (A t E).
        * apply Off. exact T.
        * apply OffX. exact T.
    - (* Alloc *) destruct Z as (T & A & Z). exists hist, stk, cid. apply (Write l v l _ _ X K); try assumption; try reflexivity.
      * intro; congruence.
      * apply Off. exact T.
      * apply OffX. exact T.
    - exists hist, stk, cid. apply (Same _ _ _ _ _ X K); try assumption; [reflexivity|apply Z].
    - exists hist, stk, cid. apply (Same _ _ _ _ _ X K); try assumption; [lia|reflexivity|apply Z; exact IN].
    - (* Sub *) destruct Z as (O & -> & Z). exists hist, stk, cid. apply (Same _ _ _ _ _ None K); try assumption; [reflexivity|].
      apply unfold_lz; assumption.
    - (* Mark *) destruct Z as (O & -> & a & Z). exists hist, (upd stk i (((a, length (log s), None), cid) :: stk i)), (S cid).
      apply (Same _ _ _ _ _ None K); try assumption; [apply book_push; exact IB|intros j Nj; apply upd_other; exact Nj|].
      rewrite upd_same. apply Z.
    - (* Note *) destruct (map fst (stk i)) as [|[[a' b'] d] st] eqn:E; [contradiction|]. destruct Z as (-> & -> & [Fw Fn] & -> & Z).
      destruct (top_frame _ _ _ _ _ E) as (c & st' & E' & <-).
      assert (Fin : exists hist1 stk1, book (log s) hist1 stk1 cid /\ history decay m0 (map fst hist1) (mem s) /\
                (forall j, j <> i -> stk1 j = stk j) /\ exists d1, stk1 i = ((a, b, d1), c) :: st' /\ (whole a -> d1 = Some v) /\ (~ whole a -> d1 = None)).
      { destruct (classic_whole a) as [W|W].
        - destruct (Fw W) as [->|[-> T]].
          + exists hist, stk. split; [exact IB|]. split; [exact IH|]. split; [reflexivity|]. exists (Some v). tauto.
          + exists (hist ++ [(Took a b v, Open c)]), (upd stk i (((a, b, Some v), c) :: st')). split; [apply book_take; assumption|]. split.
            * rewrite map_app. apply (history_snoc _ _ (mem s)); [exact IH|]. destruct (home a) as [l|] eqn:Eh; [|destruct (W Eh)].
              exists l. split; [exact Eh|]. split; [apply T|]. intros x _ _. reflexivity.
            * split; [intros j Nj; apply upd_other; exact Nj|]. exists (Some v). rewrite upd_same. tauto.
        - rewrite (Fn W) in E'. exists hist, stk. split; [exact IB|]. split; [exact IH|]. split; [reflexivity|]. exists None. tauto. }
      destruct Fin as (hist1 & stk1 & B1 & H1 & O1 & d1 & E1 & W1 & W2).
      exists (map (close c (length (log s))) hist1), (upd stk1 i st'), cid. apply (move s hist stk cid i (Note a b v q)); try assumption.
      + exact (book_note _ _ _ _ _ _ _ _ _ _ _ B1 E1 W1 W2).
      + rewrite close_all. exact H1.
      + reflexivity.
      + intros j Nj. rewrite upd_other by exact Nj. apply O1. exact Nj.
      + intros l _. left. reflexivity.
      + exists None, K. split; [apply sure_none|]. split; [exact Kk|]. rewrite upd_same. exact Z.
  Qed.

  Lemma exec_inv sched : forall s hist stk cid, inv s hist stk cid -> exists hist' stk' cid', inv (exec defs s sched) hist' stk' cid'.
  Proof.
    induction sched as [|i sched IH]; intros s hist stk cid I; [exists hist, stk, cid; exact I|].
    destruct (turn_inv s i hist stk cid I) as (h' & k' & c' & I'). exact (IH _ _ _ _ I').
  Qed.

  Lemma start_inv a n clients : n0 <= n -> (forall t, t < n0 -> number (m0 (LInfo t)) = decay t) ->
    (forall c, In c clients -> only (fun _ => early n0) [] c) -> inv (start m0 a n clients) [] (fun _ => []) 0.
  Proof.
    intros Hn HI HC. constructor; cbn [start mem atom held next threads log]; try assumption.
    - intros i j g m m' [].
    - apply book_start.
    - intros l _. reflexivity.
    - intros i H. destruct (H eq_refl).
    - intros i p Hp. rewrite nth_error_map in Hp. destruct (nth_error clients i) as [c|] eqn:E; [|discriminate]. cbn in Hp. injection Hp as <-.
      exists None, []. split; [apply sure_none|]. split; [intros l x []|].
      apply (proj1 (den_lz n0 decay) c []); [apply HC; exact (nth_error_In _ _ E)|exact Logic.I|]. intros _. reflexivity.
  Qed.

  Definition answer_in (hist : list (event * owner)) (p : nat) : option nat :=
    match nth_error hist p with Some (_, Ans j) => Some j | _ => None end.

  Lemma inv_ordered s hist stk cid : inv s hist stk cid -> ordered decay m0 s (map fst hist) (answer_in hist).
  Proof.
    intros [IL IN II IB IH IV IT]. split; [exact IH|].
    assert (N : forall p e, nth_error (map fst hist) p = Some e -> exists o, nth_error hist p = Some (e, o)).
    { intros p e. rewrite nth_error_map. destruct (nth_error hist p) as [[e' o]|]; [|discriminate]. cbn. intros [= ->]. exists o. reflexivity. }
    split; [|split].
    - intros p e He. destruct (N p e He) as (o & Ho). unfold answer_in. rewrite Ho. destruct o as [c|j].
      + destruct (b_open _ _ _ _ IB e c (nth_error_In _ _ Ho)) as (i & d & Hi & _).
        assert (Li : i < length (threads s)) by (apply IV; intro E; rewrite E in Hi; contradiction).
        destruct (nth_error (threads s) i) as [q|] eqn:Eq; [|apply nth_error_None in Eq; lia]. exists q. split; [exact (nth_error_In _ _ Eq)|].
        intros ->. destruct (IT i _ Eq) as (X & K & _ & _ & Z). cbn in Z. destruct (stk i); [contradiction|discriminate Z].
      + exact (b_ans _ _ _ _ IB e j (nth_error_In _ _ Ho)).
    - intros j a b v Hj W. destruct (b_log _ _ _ _ IB j a b v Hj W) as (p & Hp & U). exists p. split; [rewrite nth_error_map, Hp; reflexivity|].
      intros p' _. unfold answer_in. split; [|intros ->; rewrite Hp; reflexivity].
      destruct (nth_error hist p') as [[e [c|k]]|] eqn:E; try discriminate. intros [= ->]. exact (U _ _ E).
    - intros p q j e _ Ha He Hb. destruct (N q e He) as (o & Ho). unfold answer_in in Ha.
      destruct (nth_error hist p) as [[e' [c|k]]|] eqn:E; try discriminate. injection Ha as ->. exact (b_time _ _ _ _ IB _ _ _ _ _ _ E Ho Hb).
  Qed.

  Lemma run_ordered a n clients sched : n0 <= n -> (forall t, t < n0 -> number (m0 (LInfo t)) = decay t) ->
    (forall c, In c clients -> only (fun _ => early n0) [] c) ->
    exists h answer, ordered decay m0 (exec defs (start m0 a n clients) sched) h answer.
  Proof.
    intros Hn HI HC. destruct (exec_inv sched _ _ _ _ (start_inv a n clients Hn HI HC)) as (hist & stk & cid & I).
    exists (map fst hist), (answer_in hist). exact (inv_ordered _ _ _ _ I).
  Qed.
End Run.
