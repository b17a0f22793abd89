(** Property theorems C07, C09, C10, C11. *)
From Coq Require Import List Bool Arith String Ascii Lia.
From Verif Require Import Util RegistryModel ListsModel ListsSpec ListsProofs StringsSpec StringsModel StringsProofs.
Import ListNotations.
Local Open Scope list_scope.

(** ** C07 *)

(** The list holds exactly the first item requested under each name, in order of request. *)
Theorem C07_registration_order : forall nm h i,
  ml_get (ml_run nm ml0 h) i = nth_error (firsts nm [] (somes h)) i /\
  ml_size (ml_run nm ml0 h) = List.length (firsts nm [] (somes h)).
Proof.
  intros nm h i. rewrite ml_get_nth. unfold ml_size. rewrite ml_items_firsts. split; reflexivity.
Qed.
Print Assumptions C07_registration_order.

Theorem C07_names_unique : forall nm h i j a b,
  ml_get (ml_run nm ml0 h) i = Some a -> ml_get (ml_run nm ml0 h) j = Some b -> nm a = nm b -> i = j.
Proof. intros nm h i j a b. apply ml_names_unique. apply ml_run_ok, ml0_ok. Qed.
Print Assumptions C07_names_unique.

Theorem C07_name_and_index_agree : forall nm h n a, n <> ""%string ->
  (ml_find (ml_run nm ml0 h) n = Some a <-> exists i, ml_get (ml_run nm ml0 h) i = Some a /\ nm a = n).
Proof. intros nm h n a. apply ml_find_index. apply ml_run_ok, ml0_ok. Qed.
Print Assumptions C07_name_and_index_agree.

Theorem C07_indices_stable : forall nm h h' i a,
  ml_get (ml_run nm ml0 h) i = Some a -> ml_get (ml_run nm (ml_run nm ml0 h) h') i = Some a.
Proof. intros nm h h' i a. apply ml_stable. apply ml_run_ok, ml0_ok. Qed.
Print Assumptions C07_indices_stable.

(** A request is accepted exactly if it is not null and its name is new; then it gets the next index;
    otherwise nothing changes. *)
Theorem C07_add_outcome : forall nm h v,
  let l := ml_run nm ml0 h in
  (snd (ml_add nm l v) = true <-> exists a, v = Some a /\ (forall i b, ml_get l i = Some b -> nm b <> nm a)) /\
  (snd (ml_add nm l v) = true ->
     ml_get (fst (ml_add nm l v)) (ml_size l) = v /\ ml_size (fst (ml_add nm l v)) = S (ml_size l)) /\
  (snd (ml_add nm l v) = false -> fst (ml_add nm l v) = l).
Proof.
  intros nm h v l. assert (Hok : ml_ok nm l) by apply ml_run_ok, ml0_ok.
  split; [apply ml_accepted; exact Hok|]. split; [apply ml_accepted_last; exact Hok|apply ml_refused].
Qed.
Print Assumptions C07_add_outcome.

Definition ex_names (a : addr) : string :=
  match a with 0 => "alpha" | 1 => "beta" | 2 => "alpha" | 3 => "" | _ => "gamma" end%string.
Definition ex_history := [Some 0; None; Some 1; Some 2; Some 0; Some 3; Some 7; Some 9].

Example C07_example :
  map (ml_get (ml_run ex_names ml0 ex_history)) [0; 1; 2; 3; 4] = [Some 0; Some 1; Some 3; Some 7; None] /\
  ml_find (ml_run ex_names ml0 ex_history) "beta" = Some 1 /\
  ml_find (ml_run ex_names ml0 ex_history) "gamma" = Some 7 /\
  snd (ml_add ex_names (ml_run ex_names ml0 ex_history) (Some 2)) = false.
Proof. repeat split. Qed.

(** The empty name can be registered but not found: a listed item is not always found under its name. *)
Theorem C07_empty_name_refuted : exists nm h a i,
  ml_get (ml_run nm ml0 h) i = Some a /\ ml_find (ml_run nm ml0 h) (nm a) <> Some a.
Proof. exists ex_names, [Some 3], 3, 0. split; [reflexivity|discriminate]. Qed.
Print Assumptions C07_empty_name_refuted.

(** ** C09 *)

(** Insertion never fails; names appear in order of first insertion (the empty name is ignored); the value of
    a name is the one inserted last; index and name agree; [ev] (the empty variant) is the answer otherwise. *)
Theorem C09_insertion_ordered_map : forall (V : Type) (ev : V) (h : list (string * V)),
  exists l, nv_run nv0 h = Some l /\
    (forall i, nv_name l i = nth i (firsts (fun n : string => n) [""%string] (map fst h)) ""%string) /\
    nv_size l = List.length (firsts (fun n : string => n) [""%string] (map fst h)) /\
    (forall n, nv_find ev l n = if string_dec n "" then ev else
                                match last_set n h with Some v => v | None => ev end) /\
    (forall i, nv_get ev l i = nv_find ev l (nv_name l i)).
Proof. exact @nv_history. Qed.
Print Assumptions C09_insertion_ordered_map.

Theorem C09_positions_stable : forall (V : Type) (h h' : list (string * V)) l l' i,
  nv_run nv0 h = Some l -> nv_run l h' = Some l' -> i < nv_size l -> nv_name l' i = nv_name l i.
Proof. exact @nv_stable. Qed.
Print Assumptions C09_positions_stable.

Example C09_example :
  exists l, nv_run nv0 [("doc", 1); ("", 2); ("version", 3); ("doc", 4)]%string = Some l /\
    nv_find 0 l "doc" = 4 /\ nv_get 0 l 0 = 4 /\ nv_name l 1 = "version"%string /\ nv_find 0 l "" = 0 /\
    nv_size l = 2.
Proof. eexists. repeat split. Qed.

(** Traversal of attributes and elements hands out the pairs of [nv_name] and [nv_get] in index order, up to
    the first refusal. *)
Theorem C09_traversal : forall (V S : Type) (ev : V) (f : S -> string * V -> S * bool) (l : nvlist V) s,
  exists p, visited f (map (fun i => (nv_name l i, nv_get ev l i)) (seq 0 (nv_size l))) p s /\
            for_each f (nv_items l) s = after f p s.
Proof.
  intros V S ev f l s.
  replace (map (fun i => (nv_name l i, nv_get ev l i)) (seq 0 (nv_size l))) with (nv_items l);
    [apply for_each_visited|].
  unfold nv_name, nv_get, nv_size. generalize (nv_items l) as it. clear. intro it.
  induction it as [|[n v] it IH]; [reflexivity|]. cbn. f_equal. rewrite <- seq_shift, map_map. exact IH.
Qed.
Print Assumptions C09_traversal.

(** ** C10 *)

(** In every history of creations and queries the answer is the joined path, now and after any further
    history. *)
Theorem C10_qualified_name_is_path : forall h h' i, i < List.length (qrun q_global h) ->
  exists p l l',
    has_path (qrun q_global h) i p /\
    qualifiedName (S (List.length (qrun q_global h))) (qrun q_global h) i = Some (l, path_text p) /\
    qualifiedName (S (List.length (qrun l h'))) (qrun l h') i = Some (l', path_text p).
Proof. exact qualified_history. Qed.
Print Assumptions C10_qualified_name_is_path.

(** Names may be empty and may hold colons inside parentheses (as method signatures do). *)
Theorem C10_identifies_path : forall p q,
  Forall (fun n => item_text (lit n) = true) p -> Forall (fun n => item_text (lit n) = true) q ->
  path_text p = path_text q -> p = q.
Proof. exact path_text_inj_items. Qed.
Print Assumptions C10_identifies_path.

Definition ex_q := qrun q_global [QCreate "A" 0; QCreate "B" 1; QAsk 2; QCreate "f(std::string)" 2].
Example C10_example :
  has_path ex_q 3 ["A"; "B"; "f(std::string)"]%string /\
  option_map snd (qualifiedName 5 ex_q 3) = Some "::A::B::f(std::string)"%string /\
  Forall (fun n => item_text (lit n) = true) ["A"; "B"; "f(std::string)"]%string.
Proof.
  split; [|split; [reflexivity|repeat constructor]].
  apply (PStep ex_q 3 {| qi_name := "f(std::string)"; qi_owner := Some 2; qi_cache := "" |} 2 ["A"; "B"]%string);
    [reflexivity|reflexivity|].
  apply (PStep ex_q 2 {| qi_name := "B"; qi_owner := Some 1; qi_cache := "::A::B" |} 1 ["A"]%string);
    [reflexivity|reflexivity|].
  apply (PStep ex_q 1 {| qi_name := "A"; qi_owner := Some 0; qi_cache := "::A" |} 0 []);
    [reflexivity|reflexivity|].
  eapply PRoot; reflexivity.
Qed.

(** Without the condition on names two different paths print alike. *)
Theorem C10_colon_names_refuted : exists h i j p q,
  has_path (qrun q_global h) i p /\ has_path (qrun q_global h) j q /\ p <> q /\
  option_map snd (qualifiedName 9 (qrun q_global h) i) = option_map snd (qualifiedName 9 (qrun q_global h) j).
Proof.
  exists [QCreate "A" 0; QCreate "B" 1; QCreate "A::B" 0], 2, 3, ["A"; "B"]%string, ["A::B"]%string.
  repeat split; [| |discriminate].
  - apply (PStep _ 2 {| qi_name := "B"; qi_owner := Some 1; qi_cache := "" |} 1 ["A"]%string); [reflexivity|reflexivity|].
    apply (PStep _ 1 {| qi_name := "A"; qi_owner := Some 0; qi_cache := "" |} 0 []); [reflexivity|reflexivity|].
    eapply PRoot; reflexivity.
  - apply (PStep _ 3 {| qi_name := "A::B"; qi_owner := Some 0; qi_cache := "" |} 0 []); [reflexivity|reflexivity|].
    eapply PRoot; reflexivity.
Qed.
Print Assumptions C10_colon_names_refuted.

(** ** C11 *)

(** The visitor runs on exactly one prefix: all its items but the last are accepted and the last is refused,
    unless nothing remains. That prefix is unique. *)
Theorem C11_for_each_prefix : forall (A S : Type) (f : S -> A -> S * bool) l s,
  exists p, visited f l p s /\ (forall q, visited f l q s -> q = p) /\ for_each f l s = after f p s.
Proof.
  intros A S f l s. destruct (for_each_visited f l s) as (p & H & E). exists p.
  split; [exact H|]. split; [|exact E]. intros q Hq. eapply visited_unique; eassumption.
Qed.
Print Assumptions C11_for_each_prefix.

(** With a visitor that records what it sees: the record is that prefix, in order, each item once. *)
Theorem C11_visits_recorded : forall (A : Type) (ok : A -> bool) (l : list A),
  exists p r, l = p ++ r /\
    for_each (fun seen x => (seen ++ [x], ok x)) l [] = p /\
    (forall p1 x p2, p = p1 ++ x :: p2 -> p2 <> [] -> ok x = true) /\
    (r <> [] -> exists p1 x, p = p1 ++ [x] /\ ok x = false).
Proof.
  intros A ok l. destruct (for_each_visited (fun seen x => (seen ++ [x], ok x)) l []) as (p & (r & -> & H1 & H2) & E).
  assert (HA : forall p s, after (fun (seen : list A) x => (seen ++ [x], ok x)) p s = s ++ p).
  { clear. induction p as [|a p IH]; intro s; cbn; [symmetry; apply app_nil_r|].
    change (after (fun (seen : list A) x => (seen ++ [x], ok x)) p (s ++ [a]) = s ++ a :: p).
    rewrite IH, <- app_assoc. reflexivity. }
  exists p, r. rewrite E, HA. auto.
Qed.
Print Assumptions C11_visits_recorded.

Example C11_example :
  for_each (fun seen x => (seen ++ [x], x <? 3)) [1; 2; 5; 1; 7] [] = [1; 2; 5] /\
  for_each (fun seen x => (seen ++ [x], x <? 3)) [1; 2] [] = [1; 2].
Proof. split; reflexivity. Qed.
