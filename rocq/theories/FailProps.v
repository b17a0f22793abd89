(** C69: a chain of definitions that fails leaves what it stated before, and can be run again.
    Base classes registered too late and types that already have a class end a chain with an exception. What the chain had
    registered by then stays and nothing else; running it again later completes it, as if it had not been tried before. *)
From Coq Require Import List Bool Arith Lia String Ascii Permutation.
From Verif Require Import Util RegistryModel ListsModel ListsProofs StringsModel StringsSpec ReflModel ReflSpec ReflProofs OrderSpec OrderProofs OrderProps FailSpec FailProofs.
Import ListNotations.
Local Open Scope list_scope.
Local Open Scope string_scope.
Local Open Scope list_scope.

(** Each chain ends as its statements say, and everything up to the first that cannot be made is there, and nothing else: names,
    classes, attributes, elements, bases, derived classes, inherited members. *)
Theorem C69_kept ok k n h ds : states h ds -> sound (kept_of ds) -> tree ok k (kept_of ds) -> compiles ok ds ->
  exists w, attempted (S k) ok (S n) world0 h (ends_of ds) w /\ shows (run (S k) ok n) w (kept_of ds) /\ kin (run (S k) ok n) (S k) w (kept_of ds).
Proof.
  intros HS SK TK CK. destruct (attempts_ok ok k n h ds HS SK TK CK) as (w & A & I). exists w. split; [exact A|]. split; [exact (shows_ok _ _ _ _ I)|exact (kin_ok _ _ _ _ _ TK I)].
Qed.
Print Assumptions C69_kept.

Lemma once_ext E E' : (forall d, In d E <-> In d E') -> once E -> once E'.
Proof.
  intros M ON c p q q' m t i t' i' Hc HA HA' H1 H2. apply M in H1, H2. assert (HI : incl E' E) by (intros d; apply M).
  refine (ON c p q q' m t i t' i' Hc _ _ H1 H2); [destruct HA as [->|HA]|destruct HA' as [->|HA']]; auto; right; eapply ancestor_incl; eauto.
Qed.
Lemma alike_ok ok k r w w' D D' : Inv ok none w D -> Inv ok none w' D' -> tree ok k D -> once D -> (forall d, In d D <-> In d D') -> alike r (S k) w w'.
Proof.
  intros I I' TD ON M. destruct (h_rank _ _ _ TD) as (rank & RK & RB). assert (M' : forall d, In d D' <-> In d D) by (intro d; symmetry; apply M).
  split; [exact (covers_ok ok none QN _ k w w' _ _ I I' M rank RK RB ON)|]. apply (covers_ok ok none QN _ k w' w _ _ I' I M' rank); [|exact RB|eapply once_ext; eauto].
  intros p q H. apply RK. eapply parent_incl; [|exact H]. intros d. apply M.
Qed.
Lemma compiles_in ok k ds E : tree ok k E -> incl (List.concat ds) E -> compiles ok ds.
Proof.
  intros TE HI p t f u i H1 H2. refine (h_ok _ _ _ TE p u i t f _ (HI _ H1)). apply (acc_incl ds [] E); [intros x []|exact HI|]. unfold acc. rewrite app_nil_r. exact H2.
Qed.

(** Failed chains leave no trace beyond what is kept: programs that keep the same leave registries no look-up tells apart, however
    often and where their chains failed. *)
Theorem C69_same ok k n h ds h' ds' : states h ds -> states h' ds' -> sound (kept_of ds) -> tree ok k (kept_of ds) -> once (kept_of ds) ->
  compiles ok ds -> compiles ok ds' -> (forall d, In d (kept_of ds) <-> In d (kept_of ds')) ->
  exists w w', attempted (S k) ok (S n) world0 h (ends_of ds) w /\ attempted (S k) ok (S n) world0 h' (ends_of ds') w' /\ alike (run (S k) ok n) (S k) w w'.
Proof.
  intros HS HS' SK TK ON CK CK' M. destruct (attempts_ok ok k n h ds HS SK TK CK) as (w & A & I).
  destruct (attempts_ok ok k n h' ds' HS' (sound_ext _ _ M SK) (tree_ext _ _ _ _ M TK) CK') as (w' & A' & I'). exists w, w'. split; [exact A|]. split; [exact A'|].
  eapply alike_ok; eauto.
Qed.
Print Assumptions C69_same.

(** If in the end each chain has completed once, however often it failed before, the registry is the one of a program in which
    base classes come first and nothing fails. *)
Theorem C69_eventually ok k n h ds h' ds' : states h ds -> states h' ds' -> sound (List.concat ds') -> tree ok k (List.concat ds') -> once (List.concat ds') ->
  ready [] (List.concat ds') -> (forall d, In d (List.concat ds) <-> In d (List.concat ds')) -> (forall d, In d ds -> In (d, None) (keep [] ds)) ->
  exists w w', attempted (S k) ok (S n) world0 h (ends_of ds) w /\ complete (S k) ok (S n) world0 h' w' /\ alike (run (S k) ok n) (S k) w w'.
Proof.
  intros HS HS' SE TE ON RE M HK. assert (HI : incl (List.concat ds) (List.concat ds')) by (intro d; apply M).
  assert (K : forall d, In d (kept_of ds) <-> In d (List.concat ds')).
  { intro x. split; intro H.
    - apply HI. apply (acc_incl ds [] (List.concat ds)); [intros y []|apply incl_refl|]. unfold acc. rewrite app_nil_r. exact H.
    - apply M in H. apply in_concat in H as (d & Hd & Hx). unfold kept_of. apply in_concat. exists d. split; [|exact Hx]. apply in_map_iff. exists (d, None). auto. }
  assert (K' : forall d, In d (List.concat ds') <-> In d (kept_of ds)) by (intro d; symmetry; apply K).
  destruct (attempts_ok ok k n h ds HS (sound_ext _ _ K' SE) (tree_ext _ _ _ _ K' TE) (compiles_in ok k ds _ TE HI)) as (w & A & I).
  destruct (sessions_ok ok none Q0 QN k n h' ds' HS' SE TE RE) as (w' & C & I'). exists w, w'. split; [exact A|]. split; [exact C|].
  eapply alike_ok; [exact I|exact I'|apply (tree_ext _ _ _ _ K' TE)|apply (once_ext _ _ K' ON)|exact K].
Qed.
Print Assumptions C69_eventually.

(** Trying all chains again and again, in an order that knows nothing of base classes, is enough: as many rounds as there are
    chains. In the last round none of them fails, and the registry is the one of the order in which base classes come first. *)
Theorem C69_rounds ok k n h ds h' ds' m : states h ds -> states h' ds' -> Permutation h h' -> List.length h = S m ->
  sound (List.concat ds') -> tree ok k (List.concat ds') -> once (List.concat ds') -> ready [] (List.concat ds') ->
  exists es w w', attempted (S k) ok (S n) world0 (List.concat (repeat h (S m))) (es ++ repeat None (S m)) w /\
    complete (S k) ok (S n) world0 h' w' /\ alike (run (S k) ok n) (S k) w w'.
Proof.
  intros HS HS' P HL SE TE ON RE.
  assert (L : List.length ds = S m) by (rewrite <- HL; symmetry; eapply Forall2_len; exact HS). 
  assert (L' : List.length ds' = S m) by (rewrite <- HL, (Permutation_length P); symmetry; eapply Forall2_len; exact HS').
  assert (S2 : forall h1 e1 h2 e2, states h1 e1 -> states h2 e2 -> incl h1 h2 -> incl e1 e2).
  { clear. intros h1 e1 h2 e2 H1 H2 I d Hd. destruct (Forall2_in_r _ _ _ H1 d Hd) as (l & Hl & T). apply I in Hl. destruct (Forall2_in_l _ _ _ H2 l Hl) as (d' & Hd' & T'). congruence. }
  assert (I1 : incl ds' ds) by (apply (S2 h' ds' h ds HS' HS); intros x Hx; eapply Permutation_in; [symmetry; exact P|exact Hx]).
  assert (I2 : incl ds ds') by (apply (S2 h ds h' ds' HS HS'); intros x Hx; eapply Permutation_in; [exact P|exact Hx]).
  assert (M : forall d, In d (List.concat ds) <-> In d (List.concat ds')) by (intro d; rewrite !in_concat; split; intros (x & Hx & Hd); exists x; auto).
  assert (HI : incl (List.concat ds) (List.concat ds')) by (intro d; apply M).
  destruct (rounds_ends _ ds ds' m SE HI RE I1 I2 L') as (es & HE). pose proof (rounds_kept _ ds ds' SE HI RE I1 I2) as K. rewrite L' in K.
  assert (K' : forall d, In d (List.concat ds') <-> In d (kept_of (rounds (S m) ds))) by (intro d; rewrite K; symmetry; apply M).
  destruct (attempts_ok ok k n _ _ (states_rounds (S m) h ds HS) (sound_ext _ _ K' SE) (tree_ext _ _ _ _ K' TE)) as (w & A & I).
  { apply (compiles_in ok k _ _ TE). intros x Hx. apply HI. eapply rounds_concat; eauto. }
  destruct (sessions_ok ok none Q0 QN k n h' ds' HS' SE TE RE) as (w' & C & I'). exists es, w, w'. split.
  - rewrite HE in A. replace (repeat None (S m)) with (map (fun _ : list decl => @None exn) ds); [exact A|]. rewrite <- L. clear. induction ds as [|d ds IH]; [reflexivity|]. cbn [map List.length repeat]. rewrite IH. reflexivity.
  - split; [exact C|]. eapply alike_ok; [exact I|exact I'|apply (tree_ext _ _ _ _ K' TE)|apply (once_ext _ _ K' ON)|]. intro d. symmetry. apply K'.
Qed.
Print Assumptions C69_rounds.

(** If each chain registers its classes before it names base classes, two rounds in any order are enough: in the first all classes
    are registered, and the second goes through. An order that would do without the second round need not even exist. *)
Theorem C69_twice ok k n h ds : states h ds -> sound (List.concat ds) -> tree ok k (List.concat ds) -> (forall d, In d ds -> classes_first d) ->
  (forall p t f, In (Derives p t f) (List.concat ds) -> exists m q i, In (Thing ((Class, m) :: q) t i) (List.concat ds)) ->
  exists es w, attempted (S k) ok (S n) world0 (h ++ h) (es ++ map (fun _ => None) h) w /\
    shows (run (S k) ok n) w (List.concat ds) /\ kin (run (S k) ok n) (S k) w (List.concat ds).
Proof.
  intros HS SE TE HC HB. pose proof (twice_kept ds SE HC HB) as K. assert (K' : forall d, In d (List.concat ds) <-> In d (kept_of (ds ++ ds))) by (intro d; symmetry; apply K).
  destruct (C69_kept ok k n (h ++ h) (ds ++ ds)) as (w & A & S1 & S2); [apply Forall2_app; exact HS|exact (sound_ext _ _ K' SE)|exact (tree_ext _ _ _ _ K' TE)| |].
  { apply (compiles_in ok k _ _ TE). rewrite concat_app. apply incl_app; apply incl_refl. }
  exists (ends_of ds), w. split; [|split; [exact (shows_ext _ _ _ _ K S1)|exact (kin_ext _ _ _ _ _ K S2)]].
  replace (map (fun _ => None) h) with (map (fun _ : list decl => @None exn) ds). 2:{ clear -HS. induction HS; [reflexivity|]. cbn. congruence. }
  unfold ends_of in *. rewrite (twice_keep ds SE HC HB), map_app, map_map in A. exact A.
Qed.
Print Assumptions C69_twice.

(** ** A family registered in the wrong order *)

Lemma tree_incl ok k E E' : incl E' E -> tree ok k E -> tree ok k E'.
Proof.
  intros HI [(rank & RK & RB) HO HW]. split.
  - exists rank. split; [|exact RB]. intros p q H. apply RK. eapply parent_incl; eauto.
  - intros p t i b f H1 H2. eapply HO; eauto.
  - intros c p q n t i t' i' Hc HA H1 H2. refine (HW c p q n t i t' i' Hc _ (HI _ H1) (HI _ H2)). eapply ancestor_incl; eauto.
Qed.
Lemma once_incl E E' : incl E' E -> once E -> once E'.
Proof.
  intros HI ON c p q q' m t i t' i' Hc HA HA' H1 H2.
  refine (ON c p q q' m t i t' i' Hc _ _ (HI _ H1) (HI _ H2)); [destruct HA as [->|HA]|destruct HA' as [->|HA']]; auto; right; eapply ancestor_incl; eauto.
Qed.

(** Disc before its base class Circle; Square with the type of Shape; Circle with a second base class that nobody registers. *)
Definition square : prog := [KNamespace "app"; KClass "Square" 7 true true false; KProperty "side" 5; KEnd; KEnd].
Definition base2' : prog := [KNamespace "app"; KClass "Circle" 9 false false false; KBase [(7, 1); (11, 2)]; KProperty "radius" 6; KEnd; KEnd].
Definition tries : list prog := [base3; base1; square; base2'; base4].
Definition tries' : list prog := [base1; base3; base2'; square; base4; base2'].
Example C69_tries : states tries (stated_by tries) /\ states tries' (stated_by tries') /\
  ends_of (stated_by tries) = [Some Unregistered; None; Some Duplicate; Some Unregistered; None] /\
  sound (kept_of (stated_by tries)) /\ tree anyone 2 (kept_of (stated_by tries)) /\ once (kept_of (stated_by tries)) /\ compiles anyone (stated_by tries) /\ compiles anyone (stated_by tries') /\
  (forall d, In d (kept_of (stated_by tries)) <-> In d (kept_of (stated_by tries'))) /\
  In (Derives (in_app "Circle") 7 1) (kept_of (stated_by tries)) /\ In (Thing (in_app "Disc") 10 0) (kept_of (stated_by tries)) /\
  ~ In (Thing ((Property, "radius") :: in_app "Circle") 0 6) (kept_of (stated_by tries)) /\ ~ In (Thing (in_app "Square") 7 0) (kept_of (stated_by tries)).
Proof.
  assert (HI : incl (kept_of (stated_by tries)) family). { intros d H. vm_compute in H. unfold family. cbn. intuition auto. }
  split; [repeat (constructor; [reflexivity|]); constructor|]. split; [repeat (constructor; [reflexivity|]); constructor|].
  split; [vm_compute; reflexivity|]. split; [apply consistent_sound; vm_compute; reflexivity|]. split; [exact (tree_incl _ _ _ _ HI family_tree)|].
  split; [exact (once_incl _ _ HI family_once)|]. split; [intros p t f u i _ _; reflexivity|]. split; [intros p t f u i _ _; reflexivity|].
  split; [intro d; vm_compute; intuition auto|]. split; [vm_compute; intuition auto|]. split; [vm_compute; intuition auto|].
  split; vm_compute; intro H; repeat (destruct H as [H|H]; [discriminate H|]); exact H.
Qed.

(** Derived classes first: Circle fails in the first round, but its class is there for Disc in the second. *)
Definition upside_down : list prog := [base3; base2; base4; base1].
Example C69_upside_down : states upside_down (stated_by upside_down) /\ Permutation upside_down [base1; base2; base3; base4] /\ List.length upside_down = 4 /\
  states [base1; base2; base3; base4] (stated_by [base1; base2; base3; base4]) /\ List.concat (stated_by [base1; base2; base3; base4]) = family /\
  sound family /\ tree anyone 2 family /\ once family /\ ready [] family /\
  (forall d, In d (stated_by upside_down) -> In (d, None) (keep [] (stated_by (upside_down ++ upside_down)))) /\
  ends_of (stated_by (upside_down ++ upside_down)) = [Some Unregistered; Some Unregistered; None; None; None; None; None; None].
Proof.
  split; [repeat (constructor; [reflexivity|]); constructor|].
  split. { unfold upside_down. apply Permutation_sym. apply (Permutation_cons_app [base3; base2; base4] []). apply (Permutation_cons_app [base3] [base4]). cbn. reflexivity. }
  split; [reflexivity|]. split; [repeat (constructor; [reflexivity|]); constructor|]. split; [vm_compute; reflexivity|]. split; [apply consistent_sound; vm_compute; reflexivity|].
  split; [exact family_tree|]. split; [exact family_once|]. split; [unfold family; cbn; repeat split; do 3 eexists; intuition reflexivity|]. split; [|vm_compute; reflexivity].
  vm_compute. intros d H. repeat (destruct H as [H|H]; [subst d; auto 10|]). destruct H.
Qed.

(** Two files that need one another: no order of the two goes through, two rounds do. *)
Definition file1 : prog := [KClass "A" 1 false false false; KEnd; KClass "B" 2 false false false; KEnd; KClass "A" 1 false false false; KBase [(3, 1)]; KEnd].
Definition file2 : prog := [KClass "C" 3 false false false; KEnd; KClass "D" 4 false false false; KBase [(2, 2)]; KMethod "m" [] 5; KEnd].
Definition files : list decl := Eval vm_compute in List.concat (stated_by [file1; file2]).
Lemma files_parent p q : parent files p q -> In (p, q) [([(Class, "A")], [(Class, "C")]); ([(Class, "D")], [(Class, "B")])].
Proof. intros (t & f & m & r & i & E & H1 & H2). subst q. unfold files in H1, H2. no_clash; try discriminate; cbn; auto. Qed.
Lemma files_ancestor p q : ancestor files p q -> In (p, q) [([(Class, "A")], [(Class, "C")]); ([(Class, "D")], [(Class, "B")])].
Proof.
  induction 1 as [p q H|p q r H _ IH]; apply files_parent in H; [exact H|]. cbn in H, IH. destruct H as [H|[H|[]]]; injection H as <- <-; destruct IH as [H|[H|[]]]; discriminate H.
Qed.
Lemma files_tree : tree anyone 1 files.
Proof.
  split.
  - exists (fun p => match p with (_, n) :: _ => if (n =? "A")%string then 1 else if (n =? "D")%string then 1 else 0 | [] => 0 end). split.
    + intros p q H. apply files_parent in H. cbn in H. destruct H as [H|[H|[]]]; injection H as <- <-; cbn; lia.
    + intros [|[c n] p]; [lia|]. destruct (n =? "A")%string, (n =? "D")%string; lia.
  - reflexivity.
  - intros c p q m t i t' i' Hc HA H1 H2. apply files_ancestor in HA. cbn in HA. destruct HA as [H|[H|[]]]; injection H as <- <-; unfold files in H1, H2; destruct Hc as [-> | ->]; no_clash; discriminate.
Qed.
Example C69_files : states [file1; file2] (stated_by [file1; file2]) /\ List.concat (stated_by [file1; file2]) = files /\ sound files /\ tree anyone 1 files /\
  (forall d, In d (stated_by [file1; file2]) -> classes_first d) /\ (forall p t f, In (Derives p t f) files -> exists m q i, In (Thing ((Class, m) :: q) t i) files) /\
  ends_of (stated_by [file1; file2]) = [Some Unregistered; None] /\ ends_of (stated_by [file2; file1]) = [Some Unregistered; None].
Proof.
  split; [repeat (constructor; [reflexivity|]); constructor|]. split; [vm_compute; reflexivity|]. split; [apply consistent_sound; vm_compute; reflexivity|]. split; [exact files_tree|].
  split; [|split; [|split; vm_compute; reflexivity]].
  - intros d [<-|[<-|[]]].
    + exists [Thing [(Class, "A")] 1 0; Thing [(Class, "B")] 2 0; Thing [(Class, "A")] 1 0], [Derives [(Class, "A")] 3 1]. split; [vm_compute; reflexivity|].
      split; intros; intro H; no_clash; try discriminate.
    + exists [Thing [(Class, "C")] 3 0; Thing [(Class, "D")] 4 0], [Derives [(Class, "D")] 2 2; Thing [(Method, signed "m" []); (Class, "D")] 0 5]. split; [vm_compute; reflexivity|].
      split; intros; intro H; no_clash; try discriminate.
  - intros p t f H. unfold files in H |- *. no_clash; do 3 eexists; cbn; auto 10.
Qed.

(** Chains that register another class after a base class may take as many rounds as there are chains. *)
Definition link1 : prog := [KClass "A" 1 false false false; KBase [(4, 1)]; KEnd; KClass "B" 2 false false false; KEnd].
Definition link2 : prog := [KClass "C" 3 false false false; KBase [(5, 1)]; KEnd; KClass "D" 4 false false false; KEnd].
Definition link3 : prog := [KClass "E" 5 false false false; KEnd].
Example C69_three : sound (List.concat (stated_by [link3; link2; link1])) /\ ready [] (List.concat (stated_by [link3; link2; link1])) /\
  ends_of (stated_by [link3; link2; link1]) = [None; None; None] /\
  ends_of (stated_by (List.concat (repeat [link1; link2; link3] 3))) = [Some Unregistered; Some Unregistered; None; Some Unregistered; None; None; None; None; None].
Proof.
  split; [apply consistent_sound; vm_compute; reflexivity|]. split; [cbn; repeat split; do 3 eexists; cbn; intuition reflexivity|]. split; vm_compute; reflexivity.
Qed.
