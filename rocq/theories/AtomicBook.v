(** Keeping a book of what the calls of several threads did, and in which order. Nothing here models code of /repo. *)
From Coq Require Import List Bool Arith Lia.
From Verif Require Import DeferModel RaceModel RaceSpec AtomicSpec.
Import ListNotations.

(** An event belongs to a call that is open, or to an answer. *)
Inductive owner := Open (c : nat) | Ans (j : nat).
Definition frame := (api * nat * option val)%type.
Definition upd {A} (f : nat -> A) (i : nat) (x : A) : nat -> A := fun j => if j =? i then x else f j.

Lemma upd_same {A} (f : nat -> A) i x : upd f i x i = x.
Proof. unfold upd. rewrite Nat.eqb_refl. reflexivity. Qed.
Lemma upd_other {A} (f : nat -> A) i x j : j <> i -> upd f i x j = f j.
Proof. intro N. unfold upd. rewrite (proj2 (Nat.eqb_neq j i) N). reflexivity. Qed.
Lemma upd_case {A} (f : nat -> A) i x j (P : A -> Prop) : (j = i -> P x) -> (j <> i -> P (f j)) -> P (upd f i x j).
Proof. intros A1 A2. unfold upd. destruct (Nat.eqb_spec j i); [apply A1|apply A2]; assumption. Qed.

Record book (lg : list (api * nat * val)) (hist : list (event * owner)) (stk : nat -> list (frame * nat)) (cid : nat) : Prop := Book {
  b_ans : forall e j, In (e, Ans j) hist -> exists v, nth_error lg j = Some (caller e, begun e, v) /\
            match e with Took _ _ w => v = w | Added _ _ _ _ _ => True end;
  b_open : forall e c, In (e, Open c) hist -> exists i d, In ((caller e, begun e, d), c) (stk i) /\
            match e with Took _ _ w => d = Some w | Added _ _ _ _ _ => ~ whole (caller e) end;
  b_dup : forall i, NoDup (map snd (stk i));
  b_apart : forall i j c, In c (map snd (stk i)) -> In c (map snd (stk j)) -> i = j;
  b_small : forall i c, In c (map snd (stk i)) -> c < cid;
  b_begun : forall e o, In (e, o) hist -> begun e <= length lg;
  b_late : forall i a b d c, In ((a, b, d), c) (stk i) -> b <= length lg;
  b_done : forall i a b v c, In ((a, b, Some v), c) (stk i) ->
            exists p, nth_error hist p = Some (Took a b v, Open c) /\ forall p' e', nth_error hist p' = Some (e', Open c) -> p' = p;
  b_todo : forall i a b c, In ((a, b, None), c) (stk i) -> whole a -> forall e, ~ In (e, Open c) hist;
  b_log : forall j a b v, nth_error lg j = Some (a, b, v) -> whole a ->
            exists p, nth_error hist p = Some (Took a b v, Ans j) /\ forall p' e', nth_error hist p' = Some (e', Ans j) -> p' = p;
  b_time : forall p q e j e' o, nth_error hist p = Some (e, Ans j) -> nth_error hist q = Some (e', o) -> j < begun e' -> p < q
}.

Lemma ids_in {A} (l : list (A * nat)) f c : In (f, c) l -> In c (map snd l).
Proof. intro H. apply in_map_iff. exists (f, c). split; [reflexivity|exact H]. Qed.
Lemma ids_same {A} (l : list (A * nat)) f f' c : NoDup (map snd l) -> In (f, c) l -> In (f', c) l -> f = f'.
Proof.
  induction l as [|[g d] l IH]; cbn; [intros _ []|]. intros N. inversion N as [|x y Hx Hy]; subst.
  intros [[= -> ->]|H] [[= <- ]|H'].
  - reflexivity.
  - destruct Hx. exact (ids_in _ _ _ H').
  - subst. destruct Hx. exact (ids_in _ _ _ H).
  - exact (IH Hy H H').
Qed.

Lemma classic_whole a : whole a \/ ~ whole a.
Proof. unfold whole. destruct (home a); [left; discriminate|right; intro W; apply W; reflexivity]. Qed.

(** A call begins. *)
Lemma book_push lg hist stk cid i a : book lg hist stk cid ->
  book lg hist (upd stk i (((a, length lg, None), cid) :: stk i)) (S cid).
Proof.
  intros [A O D P S G L N T J M].
  assert (F : forall j f c, In (f, c) (upd stk i (((a, length lg, None), cid) :: stk i) j) ->
            (j = i /\ f = (a, length lg, None) /\ c = cid) \/ In (f, c) (stk j)).
  { intros j f c. unfold upd. destruct (Nat.eqb_spec j i) as [->|]; [|tauto]. intros [[= <- <-]|H]; [left; tauto|tauto]. }
  assert (F' : forall j c, In c (map snd (upd stk i (((a, length lg, None), cid) :: stk i) j)) ->
            (j = i /\ c = cid) \/ In c (map snd (stk j))).
  { intros j c H. apply in_map_iff in H. destruct H as ([f c'] & <- & H). destruct (F _ _ _ H) as [(-> & _ & ->)|H1]; [left; tauto|right].
    exact (ids_in _ _ _ H1). }
  assert (F2 : forall j x, In x (stk j) -> In x (upd stk i (((a, length lg, None), cid) :: stk i) j)).
  { intros j x H. unfold upd. destruct (Nat.eqb_spec j i) as [->|]; [right; exact H|exact H]. }
  constructor.
  - exact A.
  - intros e c H. destruct (O e c H) as (j & d & Hj & X). exists j, d. split; [apply F2; exact Hj|exact X].
  - intro j. unfold upd. destruct (j =? i); [|apply D]. cbn. constructor; [|apply D]. intro H. pose proof (S _ _ H). lia.
  - intros j k c H1 H2. destruct (F' _ _ H1) as [[-> ->]|K1], (F' _ _ H2) as [[-> Ec]|K2].
    + reflexivity.
    + pose proof (S _ _ K2). lia.
    + subst. pose proof (S _ _ K1). lia.
    + exact (P _ _ _ K1 K2).
  - intros j c H. destruct (F' _ _ H) as [[-> ->]|K]; [lia|]. pose proof (S _ _ K). lia.
  - exact G.
  - intros j a' b d c H. destruct (F _ _ _ H) as [(_ & [= -> -> ->] & _)|K]; [lia|exact (L _ _ _ _ _ K)].
  - intros j a' b v c H. destruct (F _ _ _ H) as [(_ & X & _)|K]; [discriminate X|exact (N _ _ _ _ _ K)].
  - intros j a' b c H W e He. destruct (F _ _ _ H) as [(_ & _ & ->)|K]; [|exact (T _ _ _ _ K W e He)].
    destruct (O e cid He) as (k & d & Hk & _). pose proof (S _ _ (ids_in _ _ _ Hk)). lia.
  - exact J.
  - exact M.
Qed.

Lemma nth_last {A} (l : list A) x p y : nth_error (l ++ [x]) p = Some y -> (p < length l /\ nth_error l p = Some y) \/ (p = length l /\ y = x).
Proof.
  intro H. destruct (Nat.lt_ge_cases p (length l)) as [L|L].
  - left. split; [exact L|]. rewrite nth_error_app1 in H by exact L. exact H.
  - right. rewrite nth_error_app2 in H by exact L. destruct (p - length l) as [|k] eqn:E; [|destruct k; discriminate H].
    cbn in H. injection H as <-. split; [lia|reflexivity].
Qed.
Lemma nth_first {A} (l : list A) x p y : nth_error l p = Some y -> nth_error (l ++ [x]) p = Some y.
Proof. intro H. rewrite nth_error_app1; [exact H|]. apply nth_error_Some. congruence. Qed.

(** A call takes effect. *)
Lemma book_take lg hist stk cid i a b c st v : book lg hist stk cid -> stk i = ((a, b, None), c) :: st -> whole a ->
  book lg (hist ++ [(Took a b v, Open c)]) (upd stk i (((a, b, Some v), c) :: st)) cid.
Proof.
  intros [A O D P S G L N T J M] E W.
  assert (Di : NoDup (map snd (stk i))) by apply D.
  assert (Hi : In ((a, b, None), c) (stk i)) by (rewrite E; left; reflexivity).
  assert (Ids : forall j, map snd (upd stk i (((a, b, Some v), c) :: st) j) = map snd (stk j)).
  { intro j. unfold upd. destruct (Nat.eqb_spec j i) as [->|]; [rewrite E; reflexivity|reflexivity]. }
  assert (F : forall j f d, In (f, d) (upd stk i (((a, b, Some v), c) :: st) j) ->
            (j = i /\ f = (a, b, Some v) /\ d = c) \/ (d <> c /\ In (f, d) (stk j))).
  { intros j f d. unfold upd. destruct (Nat.eqb_spec j i) as [->|Nj].
    - intros [[= <- <-]|H]; [left; tauto|right]. rewrite E in Di |- *. inversion Di as [|x y Hx Hy]; subst. split; [|right; exact H].
      intros ->. exact (Hx (ids_in _ _ _ H)).
    - intro H. right. split; [|exact H]. intros ->. exact (Nj (P _ _ _ (ids_in _ _ _ H) (ids_in _ _ _ Hi))). }
  assert (F2 : forall j f d, In (f, d) (stk j) -> d <> c -> In (f, d) (upd stk i (((a, b, Some v), c) :: st) j)).
  { intros j f d H Nd. unfold upd. destruct (Nat.eqb_spec j i) as [->|]; [|exact H]. rewrite E in H. destruct H as [[= _ X]|H]; [congruence|right; exact H]. }
  assert (NoC : forall e d, In (e, Open d) hist -> d <> c) by (intros e d H ->; exact (T _ _ _ _ Hi W e H)).
  constructor.
  - intros e j H. apply in_app_or in H. destruct H as [H|[[=]|[]]]. exact (A e j H).
  - intros e d H. apply in_app_or in H. destruct H as [H|[[= <- <-]|[]]].
    + destruct (O e d H) as (j & x & Hj & X). exists j, x. split; [|exact X]. apply F2; [exact Hj|exact (NoC _ _ H)].
    + exists i, (Some v). split; [|reflexivity]. rewrite upd_same. left. reflexivity.
  - intro j. rewrite Ids. apply D.
  - intros j k d H1 H2. rewrite Ids in H1, H2. exact (P _ _ _ H1 H2).
  - intros j d H. rewrite Ids in H. exact (S _ _ H).
  - intros e o H. apply in_app_or in H. destruct H as [H|[[= <- <-]|[]]]; [exact (G _ _ H)|]. exact (L _ _ _ _ _ Hi).
  - intros j a' b' d c' H. destruct (F _ _ _ H) as [(_ & [= -> -> ->] & _)|[_ K]]; [exact (L _ _ _ _ _ Hi)|exact (L _ _ _ _ _ K)].
  - intros j a' b' w d H. destruct (F _ _ _ H) as [(_ & [= -> -> ->] & ->)|[Nd K]].
    + exists (length hist). split; [rewrite nth_error_app2, Nat.sub_diag by lia; reflexivity|]. intros p' e' H'.
      destruct (nth_last _ _ _ _ H') as [[_ X]|[-> _]]; [|reflexivity]. destruct (NoC _ _ (nth_error_In _ _ X) eq_refl).
    + destruct (N _ _ _ _ _ K) as (p & Hp & U). exists p. split; [exact (nth_first _ _ _ _ Hp)|]. intros p' e' H'.
      destruct (nth_last _ _ _ _ H') as [[_ X]|[_ [= _ X]]]; [exact (U _ _ X)|congruence].
  - intros j a' b' d H W' e He. destruct (F _ _ _ H) as [(_ & X & _)|[Nd K]]; [discriminate X|]. apply in_app_or in He.
    destruct He as [He|[[= _ X]|[]]]; [exact (T _ _ _ _ K W' e He)|congruence].
  - intros j a' b' w H W'. destruct (J _ _ _ _ H W') as (p & Hp & U). exists p. split; [exact (nth_first _ _ _ _ Hp)|]. intros p' e' H'.
    destruct (nth_last _ _ _ _ H') as [[_ X]|[_ X]]; [exact (U _ _ X)|discriminate X].
  - intros p q e j e' o Hp Hq Hj. destruct (nth_last _ _ _ _ Hp) as [[Lp Xp]|[_ Xp]]; [|discriminate Xp].
    destruct (nth_last _ _ _ _ Hq) as [[Lq Xq]|[-> _]]; [exact (M _ _ _ _ _ _ Xp Xq Hj)|exact Lp].
Qed.

(** A call that does more adds a row. *)
Lemma book_add lg hist stk cid i a b c d st l n x : book lg hist stk cid -> stk i = ((a, b, d), c) :: st -> ~ whole a -> d = None ->
  book lg (hist ++ [(Added a b l n x, Open c)]) stk cid.
Proof.
  intros [A O D P S G L N T J M] E W ->.
  assert (Hi : In ((a, b, None), c) (stk i)) by (rewrite E; left; reflexivity).
  constructor.
  - intros e j H. apply in_app_or in H. destruct H as [H|[[=]|[]]]. exact (A e j H).
  - intros e d H. apply in_app_or in H. destruct H as [H|[[= <- <-]|[]]]; [exact (O e d H)|]. exists i, None. split; [exact Hi|exact W].
  - exact D.
  - exact P.
  - exact S.
  - intros e o H. apply in_app_or in H. destruct H as [H|[[= <- <-]|[]]]; [exact (G _ _ H)|]. exact (L _ _ _ _ _ Hi).
  - exact L.
  - intros j a' b' w d H. destruct (N _ _ _ _ _ H) as (p & Hp & U). exists p. split; [exact (nth_first _ _ _ _ Hp)|]. intros p' e' H'.
    destruct (nth_last _ _ _ _ H') as [[_ X]|[_ [= _ ->]]]; [exact (U _ _ X)|].
    pose proof (P _ _ _ (ids_in _ _ _ H) (ids_in _ _ _ Hi)) as ->. pose proof (ids_same _ _ _ _ (D i) H Hi). discriminate.
  - intros j a' b' d H W' e He. apply in_app_or in He. destruct He as [He|[[= _ ->]|[]]]; [exact (T _ _ _ _ H W' e He)|].
    pose proof (P _ _ _ (ids_in _ _ _ H) (ids_in _ _ _ Hi)) as ->. pose proof (ids_same _ _ _ _ (D i) H Hi) as [= -> _]. exact (W W').
  - intros j a' b' w H W'. destruct (J _ _ _ _ H W') as (p & Hp & U). exists p. split; [exact (nth_first _ _ _ _ Hp)|]. intros p' e' H'.
    destruct (nth_last _ _ _ _ H') as [[_ X]|[_ X]]; [exact (U _ _ X)|discriminate X].
  - intros p q e j e' o Hp Hq Hj. destruct (nth_last _ _ _ _ Hp) as [[Lp Xp]|[_ Xp]]; [|discriminate Xp].
    destruct (nth_last _ _ _ _ Hq) as [[Lq Xq]|[-> _]]; [exact (M _ _ _ _ _ _ Xp Xq Hj)|exact Lp].
Qed.

(** A call is answered. *)
Definition close (c j : nat) (x : event * owner) : event * owner :=
  match snd x with Open c' => if c' =? c then (fst x, Ans j) else x | Ans _ => x end.
Lemma close_fst c j x : fst (close c j x) = fst x.
Proof. destruct x as [e [c'|k]]; cbn; [destruct (c' =? c)|]; reflexivity. Qed.
Lemma close_all c j h : map fst (map (close c j) h) = map fst h.
Proof. rewrite map_map. apply map_ext. intro x. apply close_fst. Qed.
Lemma close_open c j e d x : close c j x = (e, Open d) -> x = (e, Open d) /\ d <> c.
Proof.
  destruct x as [e' [c'|k]]; cbn; [|discriminate]. destruct (Nat.eqb_spec c' c); [discriminate|]. intros [= -> ->]. tauto.
Qed.
Lemma close_ans c j e k x : close c j x = (e, Ans k) -> x = (e, Ans k) \/ (x = (e, Open c) /\ k = j).
Proof.
  destruct x as [e' [c'|k']]; cbn; [|tauto]. destruct (Nat.eqb_spec c' c); [|discriminate]. intros [= -> ->]. subst. tauto.
Qed.
Lemma nth_close c j h p y : nth_error (map (close c j) h) p = Some y -> exists x, nth_error h p = Some x /\ close c j x = y.
Proof. rewrite nth_error_map. destruct (nth_error h p) as [x|]; [|discriminate]. cbn. intros [= <-]. exists x. tauto. Qed.

Lemma book_note lg hist stk cid i a b d c st v : book lg hist stk cid -> stk i = ((a, b, d), c) :: st ->
  (whole a -> d = Some v) -> (~ whole a -> d = None) ->
  book (lg ++ [(a, b, v)]) (map (close c (length lg)) hist) (upd stk i st) cid.
Proof.
  intros [A O D P S G L N T J M] E W1 W2.
  assert (Di : NoDup (map snd (stk i))) by apply D.
  assert (Hi : In ((a, b, d), c) (stk i)) by (rewrite E; left; reflexivity).
  assert (F : forall j f x, In (f, x) (upd stk i st j) -> x <> c /\ In (f, x) (stk j)).
  { intros j f x. unfold upd. destruct (Nat.eqb_spec j i) as [->|Nj].
    - intro H. rewrite E in Di |- *. inversion Di as [|y z Hx Hy]; subst. split; [|right; exact H]. intros ->. exact (Hx (ids_in _ _ _ H)).
    - intro H. split; [|exact H]. intros ->. exact (Nj (P _ _ _ (ids_in _ _ _ H) (ids_in _ _ _ Hi))). }
  assert (F' : forall j x, In x (map snd (upd stk i st j)) -> In x (map snd (stk j))).
  { intros j x H. apply in_map_iff in H. destruct H as ([f x'] & <- & H). exact (ids_in _ _ _ (proj2 (F _ _ _ H))). }
  assert (Own : forall e, In (e, Open c) hist -> caller e = a /\ begun e = b /\ match e with Took _ _ w => d = Some w | Added _ _ _ _ _ => ~ whole a end).
  { intros e H. destruct (O e c H) as (j & d' & Hj & X). pose proof (P _ _ _ (ids_in _ _ _ Hj) (ids_in _ _ _ Hi)) as ->.
    pose proof (ids_same _ _ _ _ Di Hj Hi) as [= E1 E2 E3]. split; [exact E1|]. split; [exact E2|]. destruct e; [congruence|]. rewrite E1 in X. exact X. }
  assert (Old : forall e j, In (e, Ans j) hist -> j < length lg).
  { intros e j H. destruct (A e j H) as (w & Hw & _). apply nth_error_Some. congruence. }
  constructor.
  - intros e j H. apply in_map_iff in H. destruct H as (x & Hx & H). destruct (close_ans _ _ _ _ _ Hx) as [->|[-> ->]].
    + destruct (A e j H) as (w & Hw & X). exists w. split; [exact (nth_first _ _ _ _ Hw)|exact X].
    + destruct (Own e H) as (<- & <- & X). exists v. split; [rewrite nth_error_app2, Nat.sub_diag by lia; reflexivity|].
      destruct e as [a' b' w|]; [|exact I]. cbn in *. destruct (classic_whole a') as [Y|Y]; [specialize (W1 Y)|specialize (W2 Y)]; congruence.
  - intros e d' H. apply in_map_iff in H. destruct H as (x & Hx & H). destruct (close_open _ _ _ _ _ Hx) as [-> Nd].
    destruct (O e d' H) as (j & d0 & Hj & X). exists j, d0. split; [|exact X]. unfold upd. destruct (Nat.eqb_spec j i) as [->|]; [|exact Hj].
    rewrite E in Hj. destruct Hj as [[= _ _ _ Y]|Hj]; [congruence|exact Hj].
  - intro j. unfold upd. destruct (j =? i); [|apply D]. rewrite E in Di. inversion Di; assumption.
  - intros j k x H1 H2. exact (P _ _ _ (F' _ _ H1) (F' _ _ H2)).
  - intros j x H. exact (S _ _ (F' _ _ H)).
  - intros e o H. apply in_map_iff in H. destruct H as ([e' o'] & Hx & H). rewrite app_length. cbn. pose proof (close_fst c (length lg) (e', o')) as X.
    rewrite Hx in X. cbn in X. subst. pose proof (G _ _ H). lia.
  - intros j a' b' d' x H. rewrite app_length. cbn. pose proof (L _ _ _ _ _ (proj2 (F _ _ _ H))). lia.
  - intros j a' b' w x H. destruct (F _ _ _ H) as [Nx K]. destruct (N _ _ _ _ _ K) as (p & Hp & U). exists p. split.
    + rewrite nth_error_map, Hp. cbn. destruct (Nat.eqb_spec x c); [contradiction|reflexivity].
    + intros p' e' H'. destruct (nth_close _ _ _ _ _ H') as (y & Hy & Ey). destruct (close_open _ _ _ _ _ Ey) as [-> _]. exact (U _ _ Hy).
  - intros j a' b' x H W' e He. destruct (F _ _ _ H) as [Nx K]. apply in_map_iff in He. destruct He as (y & Ey & He).
    destruct (close_open _ _ _ _ _ Ey) as [-> _]. exact (T _ _ _ _ K W' e He).
  - intros j a' b' w H W'. destruct (nth_last _ _ _ _ H) as [[Lj Hj]|[-> [= -> -> ->]]].
    + destruct (J _ _ _ _ Hj W') as (p & Hp & U). exists p. split; [rewrite nth_error_map, Hp; reflexivity|]. intros p' e' H'.
      destruct (nth_close _ _ _ _ _ H') as (y & Hy & Ey). destruct (close_ans _ _ _ _ _ Ey) as [->|[-> ->]]; [exact (U _ _ Hy)|lia].
    + rewrite (W1 W') in Hi. destruct (N _ _ _ _ _ Hi) as (p & Hp & U). exists p. split.
      * rewrite nth_error_map, Hp. cbn. rewrite Nat.eqb_refl. reflexivity.
      * intros p' e' H'. destruct (nth_close _ _ _ _ _ H') as (y & Hy & Ey). destruct (close_ans _ _ _ _ _ Ey) as [->|[-> _]]; [|exact (U _ _ Hy)].
        pose proof (Old _ _ (nth_error_In _ _ Hy)). lia.
  - intros p q e j e' o Hp Hq Hj. destruct (nth_close _ _ _ _ _ Hp) as (y & Hy & Ey). destruct (nth_close _ _ _ _ _ Hq) as ([e'' o'] & Hz & Ez).
    pose proof (close_fst c (length lg) (e'', o')) as X. rewrite Ez in X. cbn in X. subst e''.
    destruct (close_ans _ _ _ _ _ Ey) as [->|[-> ->]]; [exact (M _ _ _ _ _ _ Hy Hz Hj)|]. pose proof (G _ _ (nth_error_In _ _ Hz)). lia.
Qed.

Lemma book_start : book [] [] (fun _ => []) 0.
Proof.
  constructor; cbn; try (intros; contradiction); try (intros; constructor).
  - intros j a b v H. destruct j; discriminate H.
  - intros p q e j e' o H. destruct p; discriminate H.
Qed.
