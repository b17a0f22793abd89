(** The bounds on recursion only cut executions off: with larger bounds every finished execution is the same. *)
From Coq Require Import List Bool Arith String Ascii Lia.
From Verif Require Import ListsModel StringsModel ReflModel.
Import ListNotations.

Definition le {A} (o o' : out A) : Prop := o = Fuel \/ o = o'.
Lemma le_refl {A} (o : out A) : le o o.
Proof. right. reflexivity. Qed.
Lemma le_fuel {A} (o : out A) : le Fuel o.
Proof. left. reflexivity. Qed.
Lemma le_bind {A B} (o o' : out A) (f f' : world -> A -> out B) :
  le o o' -> (forall w x, le (f w x) (f' w x)) -> le (bind o f) (bind o' f').
Proof. intros [-> | ->] H; [left; reflexivity|]. destruct o'; cbn; try apply le_refl. apply H. Qed.
Lemma le_holding {A} w l (b b' : world -> out A) : (forall w, le (b w) (b' w)) -> le (holding w l b) (holding w l b').
Proof. intro H. unfold holding. destruct (H (acquire w l)) as [-> | ->]; [left; reflexivity|apply le_refl]. Qed.

Section Mono.
  Variables run run' : world -> nat -> prog -> out unit.
  Variables k k' : nat.
  Variable okbase : nat -> nat -> bool.
  Variables use use' : world -> prog -> out unit.
  Hypothesis Hr : forall w a p, le (run w a p) (run' w a p).
  Hypothesis Hk : k <= k'.
  Hypothesis Hu : forall w p, le (use w p) (use' w p).

  Lemma check_le w a : le (check run w a) (check run' w a).
  Proof.
    unfold check. destruct (get w a) as [it|]; [|apply le_refl]. destruct (i_def it) as [p|]; [|apply le_refl].
    destruct (i_lock it); [apply le_refl|]. destruct (Hr (upd w a begin_def) a p) as [-> | ->]; [left; reflexivity|apply le_refl].
  Qed.
  Lemma get_item_le w a c n : le (get_item run w a c n) (get_item run' w a c n).
  Proof. apply le_bind; [apply check_le|intros; apply le_refl]. Qed.
  Lemma find_method_le w a c n : le (find_method run w a c n) (find_method run' w a c n).
  Proof. apply le_bind; [apply check_le|intros; apply le_refl]. Qed.

  Lemma dfs_le {R} (own own' : world -> nat -> out (option R)) : (forall w a, le (own w a) (own' w a)) ->
    forall m m' w a, m <= m' -> le (dfs own m w a) (dfs own' m' w a).
  Proof.
    intro Ho. induction m as [|m IH]; intros m' w a Hm; [apply le_fuel|]. destruct m' as [|m']; [lia|]. cbn [dfs].
    apply le_bind; [apply Ho|]. intros w1 [x|]; [apply le_refl|]. destruct (get w1 a) as [it|]; [|apply le_refl].
    apply le_holding. intro w2. revert w2. generalize (i_bases it). induction l as [|[t f] l IHl]; intro w2; [apply le_refl|].
    destruct (class_of w2 t) as [b|]; [|apply le_refl]. apply le_bind; [apply IH; lia|]. intros w3 [x|]; [apply le_refl|apply IHl].
  Qed.
  Lemma get_method_le w a n : le (get_method run k w a n) (get_method run' k' w a n).
  Proof.
    unfold get_method. destruct (n =? "")%string; [apply le_refl|]. destruct (get w a) as [it|]; [|apply le_refl].
    destruct (cat_eqb (i_cat it) Class); [|apply find_method_le]. apply dfs_le; [intros; apply find_method_le|exact Hk].
  Qed.
  Lemma get_property_le w a n : le (get_property run k w a n) (get_property run' k' w a n).
  Proof.
    unfold get_property. destruct (get w a) as [it|]; [|apply le_refl].
    destruct (cat_eqb (i_cat it) Class); [|apply get_item_le]. destruct (n =? "")%string; [apply le_refl|].
    apply dfs_le; [intros; apply get_item_le|exact Hk].
  Qed.
  Lemma create_le l l' o it w : (forall w, le (l w) (l' w)) -> le (create l o it w) (create l' o it w).
  Proof.
    intro H. apply le_bind; [apply H|]. intros w1 [x|]; [apply le_refl|]. destruct (add_new w1 o it); try apply le_refl. apply H.
  Qed.
  Lemma create_class_le w o n t : le (create_class run w o n t) (create_class run' w o n t).
  Proof.
    apply le_bind; [apply get_item_le|]. intros w1 [x|]; [apply le_refl|]. destruct (class_of w1 t); [apply le_refl|].
    destruct (add_new w1 o _); try apply le_refl. apply get_item_le.
  Qed.
  Lemma force_le : forall m m' r w a, m <= m' -> le (force run m r w a) (force run' m' r w a).
  Proof.
    induction m as [|m IH]; intros m' r w a Hm; [apply le_fuel|]. destruct m' as [|m']; [lia|]. cbn [force].
    apply le_bind; [apply check_le|]. intros w1 _. destruct r; [|apply le_refl].
    assert (HL : forall l w, le
      ((fix loop (w : world) (l : list nat) : out unit :=
              match l with [] => Ret w tt | x :: l' => bind (force run m true w x) (fun w' _ => loop w' l') end) w l)
      ((fix loop (w : world) (l : list nat) : out unit :=
              match l with [] => Ret w tt | x :: l' => bind (force run' m' true w x) (fun w' _ => loop w' l') end) w l)).
    { induction l as [|y l IHl]; intro w2; [apply le_refl|]. apply le_bind; [apply IH; lia|]. intros w3 _. apply IHl. }
    apply le_bind; [apply le_holding; intro; apply HL|]. intros w2 _. apply le_holding. intro. apply HL.
  Qed.
  Lemma each_le w a c vs : le (each run use w a c vs) (each run' use' w a c vs).
  Proof.
    apply le_bind; [apply check_le|]. intros w1 _. apply le_holding. intro w2. revert w2 vs. generalize (ml_items (list_of w1 a c)).
    induction l as [|y l IHl]; intros w2 [|v vs]; try apply le_refl. apply le_bind; [apply Hu|]. intros w3 _. apply IHl.
  Qed.
  Lemma ctor_if_le on args a w : le (ctor_if run on args a w) (ctor_if run' on args a w).
  Proof.
    unfold ctor_if. destruct on; [|apply le_refl]. apply le_bind; [apply create_le; intro; apply find_method_le|intros; apply le_refl].
  Qed.
  Lemma skip_le {A} b (o o' : out A) : le o o' -> le (skip b o) (skip b o').
  Proof. intro H. apply le_bind; [exact H|intros; apply le_refl]. Qed.
  Lemma on_container_le w a o o' : le o o' -> le (on_container w a o) (on_container w a o').
  Proof. intro H. unfold on_container. destruct (category w a) as [c|]; [|apply le_refl]. destruct (is_container c); [exact H|apply le_refl]. Qed.
  Lemma on_class_le w a o o' : le o o' -> le (on_class w a o) (on_class w a o').
  Proof. intro H. unfold on_class. destruct (category w a) as [[]|]; try apply le_refl. exact H. Qed.

  Lemma on_item_le w a o o' : le o o' -> le (on_item w a o) (on_item w a o').
  Proof. intro H. unfold on_item. destruct (category w a); [exact H|apply le_refl]. Qed.
  Lemma on_enum_le w a o o' : le o o' -> le (on_enum w a o) (on_enum w a o').
  Proof. intro H. unfold on_enum. destruct (category w a) as [[]|]; try apply le_refl. exact H. Qed.
  Lemma inherited_le w a b : le (inherited run k w a b) (inherited run' k' w a b).
  Proof.
    apply le_bind; [|intros; apply le_refl]. apply dfs_le; [|exact Hk].
    intros w1 a1. destruct (a1 =? b); [apply le_refl|]. apply le_bind; [apply check_le|intros; apply le_refl].
  Qed.
  Lemma cast_to_le : forall j j' w a b, j <= j' -> le (cast_to run k j w a b) (cast_to run' k' j' w a b).
  Proof.
    induction j as [|j IH]; intros j' w a b Hj; [apply le_fuel|]. destruct j' as [|j']; [lia|]. cbn [cast_to].
    destruct (a =? b); [apply le_refl|]. apply le_bind; [apply check_le|]. intros w1 _. destruct (get w1 a) as [it|]; [|apply le_refl].
    apply le_holding. intro w2. revert w2. generalize (i_bases it). induction l as [|[t f] l IHl]; intro w2; [apply le_refl|].
    destruct (class_of w2 t) as [d|]; [|apply le_refl]. apply le_bind; [apply inherited_le|]. intros w3 [|]; [|apply IHl].
    apply le_bind; [apply IH; lia|intros; apply le_refl].
  Qed.
  Lemma check_item_le w a : le (check_item run w a) (check_item run' w a).
  Proof. unfold check_item. destruct (get w a) as [it|]; [|apply le_refl]. destruct (is_container (i_cat it)); [apply check_le|apply le_refl]. Qed.
  Lemma visit_le : forall n vs w, le (visit use w n vs) (visit use' w n vs).
  Proof.
    induction n as [|n IH]; intros [|v vs] w; try apply le_refl. cbn [visit]. apply le_bind; [apply Hu|]. intros. apply IH.
  Qed.

  Lemma step_le w b c : le (step run k okbase use w b c) (step run' k' okbase use' w b c).
  Proof.
    destruct c as [n v|n|n t d c m|p|l|n t|n v|n args inv|n args inv|n inv| | |catch p|a c n|a c i|a c|a n|a n|a n|a|a b'|a r|a c vs|a|a b'|a q|a q|a vs|a vs];
      cbn [step]; try apply le_refl.
    - destruct (b_cont b) as [o|]; [|apply le_refl]. destruct (category w o) as [[]|]; try apply le_refl.
      apply le_bind; [|intros; apply le_refl]. apply create_le. intro. apply get_item_le.
    - destruct (b_cont b) as [o|]; [|apply le_refl]. apply le_bind; [apply create_class_le|]. intros w1 [x|]; [|apply le_refl].
      apply le_bind; [|intros; apply le_refl]. apply le_bind; [apply ctor_if_le|]. intros w2 _.
      apply le_bind; [apply ctor_if_le|]. intros w3 _. apply ctor_if_le.
    - destruct (b_cont b) as [o|]; [|apply le_refl]. apply le_bind; [|intros; apply le_refl]. apply create_le. intro. apply get_item_le.
    - destruct (b_cont b) as [o|]; [|apply le_refl]. destruct (category w o) as [[]|]; try apply le_refl.
      apply skip_le. apply create_le. intro. apply find_method_le.
    - destruct (b_cont b) as [o|]; [|apply le_refl]. apply skip_le. apply create_le. intro. apply get_method_le.
    - destruct (b_cont b) as [o|]; [|apply le_refl]. apply skip_le. unfold create_property.
      destruct (n =? "")%string; [apply le_refl|]. apply create_le. intro. apply get_property_le.
    - destruct (Hu w p) as [-> | ->]; [left; reflexivity|apply le_refl].
    - apply on_container_le, skip_le, get_item_le.
    - apply on_container_le, skip_le. apply le_bind; [apply check_le|intros; apply le_refl].
    - apply on_container_le, skip_le. apply le_bind; [apply check_le|intros; apply le_refl].
    - apply on_container_le, skip_le, get_method_le.
    - apply on_container_le, skip_le, get_property_le.
    - apply on_container_le, skip_le, find_method_le.
    - apply on_class_le, skip_le. apply le_bind; [apply check_le|intros; apply le_refl].
    - apply on_class_le, on_class_le, skip_le. apply le_bind; [|intros; apply le_refl]. apply dfs_le; [|exact Hk].
      intros w1 a1. destruct (a1 =? b'); [apply le_refl|]. apply le_bind; [apply check_le|intros; apply le_refl].
    - apply on_container_le, skip_le, force_le. exact Hk.
    - destruct c; try apply le_refl; apply on_container_le, skip_le, each_le.
    - apply on_class_le, skip_le. apply le_bind; [apply check_le|intros; apply le_refl].
    - apply on_class_le, on_class_le, skip_le, cast_to_le. exact Hk.
    - apply on_item_le, skip_le. apply le_bind; [apply check_item_le|intros; apply le_refl].
    - apply on_item_le, skip_le. apply le_bind; [apply check_item_le|]. intros w1 _. destruct (get w1 a) as [it|]; [|apply le_refl].
      apply le_holding. intro. apply visit_le.
    - apply on_enum_le, skip_le. unfold each_elem. destruct (get w a) as [it|]; [|apply le_refl].
      apply le_holding. intro. apply visit_le.
  Qed.
  Lemma exec_with_le p : forall w b, le (exec_with run k okbase use w b p) (exec_with run' k' okbase use' w b p).
  Proof.
    induction p as [|c p IH]; intros w b; [apply le_refl|]. cbn [exec_with]. apply le_bind; [apply step_le|]. intros. apply IH.
  Qed.
End Mono.

Lemma run_le k k' okbase : k <= k' -> forall n n' w a p, n <= n' -> le (run k okbase n w a p) (run k' okbase n' w a p).
Proof.
  intros Hk. induction n as [|n IH]; intros n' w a p Hn; [apply le_fuel|]. destruct n' as [|n']; [lia|]. cbn [run].
  apply le_bind; [|intros; apply le_refl]. apply exec_with_le; auto; intros; apply IH; lia.
Qed.

Lemma run_mono k k' okbase n n' w a p : k <= k' -> n <= n' -> run k okbase n w a p <> Fuel ->
  run k' okbase n' w a p = run k okbase n w a p.
Proof. intros H1 H2 H. destruct (run_le k k' okbase H1 n n' w a p H2) as [E|E]; [contradiction|auto]. Qed.

Lemma exec_le k k' okbase n n' w b p : k <= k' -> n <= n' -> le (exec k okbase n w b p) (exec k' okbase n' w b p).
Proof. intros H1 H2. apply exec_with_le; auto; intros; apply run_le; assumption. Qed.
