(** Property theorems C04, C05, C06. *)
From Coq Require Import NArith List Bool Arith String Ascii Lia.
From Verif Require Import Util TypesModel TypesSpec TypesProofs TypesProps RegistryModel RegistryProofs.
Import ListNotations.
Local Open Scope list_scope.

(** C04: whatever happened before ([h]) and happens after ([h']), a registered name keeps one identifier,
    which keeps its description. *)
Theorem C04_register_then_anything : forall h h' n i dec,
  n <> ""%string ->
  let s := rrun reg0 h in
  exists id x,
    snd (register s n i dec) = Some id /\
    let s' := rrun (fst (register s n i dec)) h' in
    find_name s' n = Some id /\
    (forall i' dec', register s' n i' dec' = (s', Some id)) /\
    lookup_id (fst (register s n i dec)) (Some id) = DOk x /\
    lookup_id s' (Some id) = DOk x /\ tr_name x = n.
Proof. exact register_then. Qed.
Print Assumptions C04_register_then_anything.

Theorem C04_identifiers_distinguish_names : forall h n1 n2 id,
  find_name (rrun reg0 h) n1 = Some id -> find_name (rrun reg0 h) n2 = Some id -> n1 = n2.
Proof. exact find_injective. Qed.
Print Assumptions C04_identifiers_distinguish_names.

Theorem C04_only_registered_names_found : forall h n, n <> ""%string ->
  (find_name (rrun reg0 h) n = None <-> ~ mentions n h).
Proof. exact find_only_registered. Qed.
Print Assumptions C04_only_registered_names_found.

Definition i4 := info_of (mkQ RNone tint).
Definition i24 := info_of (mkQ RNone tcls).

Example C04_example :
  let h := [OReg "int" i4 None; OReg "" i4 None; OFind "X"; OReg "X" i24 None; OReg "int" i24 None] in
  find_name (rrun reg0 h) "int" = Some 0 /\ find_name (rrun reg0 h) "X" = Some 1 /\
  find_name (rrun reg0 h) "Y" = None /\ mentions "X" h /\ ~ mentions "Y" h.
Proof. cbn. repeat split; auto; intuition discriminate. Qed.

(** Once the registry has ended no name is found, nothing is entered, and no identifier leads anywhere. *)
Theorem C04_after_the_end : forall h h' n i dec t,
  let s := rrun (destroy_registry (rrun reg0 h)) h' in
  find_name s n = None /\ register s n i dec = (s, None) /\ lookup_id s t = DNull.
Proof.
  intros h h' n i dec t. assert (E : rrun (destroy_registry (rrun reg0 h)) h' = destroy_registry reg0).
  { unfold destroy_registry at 2. unfold rrun at 1. change (destroy_registry (rrun reg0 h)) with (destroy_registry reg0).
    induction h' as [|o h' IH]; [reflexivity|]. destruct o; exact IH. }
  cbn zeta. rewrite E. repeat split.
Qed.
Print Assumptions C04_after_the_end.

(** The identifier returned need not describe what was registered: types that print alike (for instance two
    types of one name in unnamed namespaces) share the description of the first. *)
Theorem C04_describes_registered_refuted : exists h n i id x,
  snd (register (rrun reg0 h) n i None) = Some id /\
  lookup_id (fst (register (rrun reg0 h) n i None)) (Some id) = DOk x /\
  ti_size (tr_info x) <> ti_size i.
Proof.
  exists [OReg "{anonymous}::X" i4 None], "{anonymous}::X"%string, i24, 0.
  eexists. split; [reflexivity|]. split; [reflexivity|]. discriminate.
Qed.
Print Assumptions C04_describes_registered_refuted.

(** An identifier that was never issued leads outside the registry. *)
Theorem C04_forged_identifier_refuted : exists h id, lookup_id (rrun reg0 h) (Some id) = DUB.
Proof. exists [], 7. reflexivity. Qed.
Print Assumptions C04_forged_identifier_refuted.

(** C05 *)
Theorem C05_decay_registered : forall nm,
  (forall a b, nm a = nm b -> a = b) -> (forall a, nm a <> ""%string) ->
  forall h s q s' id,
  mrun nm m0 h = Some s -> is_void q = false -> is_void (full_decay q) = false ->
  meta_id nm s q = Some (s', id) ->
  exists i d x, id = Some i /\ lookup_id (m_reg s') id = DOk x /\ tr_name x = nm q /\ tr_info x = info_of q /\
    decayId (m_reg s') id = DOk d /\
    meta_id nm s' (full_decay q) = Some (s', Some d) /\
    (exists y, lookup_id (m_reg s') (Some d) = DOk y /\ tr_name y = nm (full_decay q) /\
               tr_info y = info_of (full_decay q)) /\
    decayId (m_reg s') (Some d) = DOk d.
Proof. exact decay_registered. Qed.
Print Assumptions C05_decay_registered.

Theorem C05_never_out_of_fuel : forall nm,
  (forall a b, nm a = nm b -> a = b) -> (forall a, nm a <> ""%string) ->
  forall h, exists s, mrun nm m0 h = Some s.
Proof.
  intros nm Hinj Hne h. destruct (mrun_ok nm Hinj Hne h m0 (m0_inv nm)) as (s & E & _). eauto.
Qed.
Print Assumptions C05_never_out_of_fuel.

Theorem C05_identifiers_stable : forall nm,
  (forall a b, nm a = nm b -> a = b) -> (forall a, nm a <> ""%string) ->
  forall h s h' s' q i s1,
  mrun nm m0 h = Some s -> meta_id nm s q = Some (s1, i) ->
  mrun nm s1 h' = Some s' -> meta_id nm s' q = Some (s', i).
Proof. exact ids_stable. Qed.
Print Assumptions C05_identifiers_stable.

Theorem C05_identifiers_distinct : forall nm,
  (forall a b, nm a = nm b -> a = b) -> (forall a, nm a <> ""%string) ->
  forall h s q1 q2 s1 s2 i,
  mrun nm m0 h = Some s ->
  meta_id nm s q1 = Some (s1, Some i) -> meta_id nm s1 q2 = Some (s2, Some i) -> q1 = q2.
Proof. exact ids_distinct. Qed.
Print Assumptions C05_identifiers_distinct.

(** A naming of all types that meets the hypotheses: a prefix code. *)
Fixpoint un (n : nat) (s : string) : string :=
  match n with 0 => String "0"%char s | S n' => String "1"%char (un n' s) end.
Definition b2n (b : bool) : nat := if b then 1 else 0.
Definition kcode (k : base_kind) : nat :=
  match k with KVoid => 0 | KIntegral => 1 | KFloat => 2 | KEnum => 3 | KFunction => 4 | KUnion => 5
  | KClass => 6 | KMemberPointer => 7 | KOther => 8 end.
Fixpoint enc (t : ty) (s : string) : string :=
  match t with
  | TBase c v b => un 0 (un (b2n c) (un (b2n v) (un (kcode (b_kind b)) (un (b_id b)
      (un (N.to_nat (b_size b)) (un (N.to_nat (b_traits b)) s))))))
  | TPtr c v t' => un 1 (un (b2n c) (un (b2n v) (enc t' s)))
  | TArr t' n => un 2 (un (N.to_nat n) (enc t' s))
  end.
Definition rcode (r : refk) : nat := match r with RNone => 0 | RL => 1 | RR => 2 end.
Definition code_name (q : qty) : string := un (rcode (q_ref q)) (enc (q_ty q) "").

Lemma un_inj n m s s' : un n s = un m s' -> n = m /\ s = s'.
Proof.
  revert m. induction n as [|n IH]; intros [|m]; cbn; intro H; try discriminate; injection H as H; auto.
  apply IH in H as [-> ->]. auto.
Qed.
Lemma enc_inj t u s s' : enc t s = enc u s' -> t = u /\ s = s'.
Proof.
  revert u s s'. induction t as [c v b|c v t IH|t IH n]; intros [c' v' b'|c' v' u|u n'] s s' H; cbn in H;
    try (apply un_inj in H as [H _]; discriminate); try discriminate;
    repeat match goal with
    | E : String _ _ = String _ _ |- _ => injection E as E
    | E : un _ _ = un _ _ |- _ => apply un_inj in E as [? E]
    end.
  - subst s'. destruct b as [k i z tr], b' as [k' i' z' tr']; cbn in *. subst i'.
    assert (c = c') by (destruct c, c'; cbn in *; congruence).
    assert (v = v') by (destruct v, v'; cbn in *; congruence).
    assert (k = k') by (destruct k, k'; cbn in *; congruence).
    assert (z = z') by lia. assert (tr = tr') by lia. subst. auto.
  - apply IH in H as [-> ->].
    assert (c = c') by (destruct c, c'; cbn in *; congruence).
    assert (v = v') by (destruct v, v'; cbn in *; congruence). subst. auto.
  - apply IH in H as [-> ->]. assert (n = n') by lia. subst. auto.
Qed.
Lemma code_name_inj a b : code_name a = code_name b -> a = b.
Proof.
  destruct a as [r t], b as [r' t']. unfold code_name; cbn. intro H. apply un_inj in H as [Hr H].
  apply enc_inj in H as [-> _]. destruct r, r'; cbn in Hr; congruence.
Qed.
Lemma code_name_nonempty a : code_name a <> ""%string.
Proof. destruct a as [r t]. unfold code_name. destruct r; cbn; discriminate. Qed.

Example C05_example :
  (forall a b, code_name a = code_name b -> a = b) /\ (forall a, code_name a <> ""%string) /\
  exists s s', mrun code_name m0 [mkQ RL tcint; mkQ RNone tvoid] = Some s /\
    meta_id code_name s (mkQ RL (cptr tcint)) = Some (s', Some 3) /\
    decayId (m_reg s') (Some 3) = DOk 2 /\ decayId (m_reg s') (Some 1) = DOk 0.
Proof.
  split; [exact code_name_inj|]. split; [exact code_name_nonempty|].
  eexists _, _. split; [reflexivity|]. split; [reflexivity|]. split; reflexivity.
Qed.

(** [void const] decays to [void], which has no identifier: its recorded decayed type is itself. *)
Theorem C05_const_void_refuted : exists q s,
  meta_id code_name m0 q = Some (s, Some 0) /\ full_decay q <> q /\ decayId (m_reg s) (Some 0) = DOk 0.
Proof.
  exists (mkQ RNone (TBase true false {| b_kind := KVoid; b_id := 2; b_size := 0; b_traits := 0 |})).
  eexists. split; [reflexivity|]. split; [discriminate|reflexivity].
Qed.
Print Assumptions C05_const_void_refuted.

(** C06 *)
Theorem C06_converters_are_a_map_partial : forall dec h f t fn,
  one_value dec h ->
  let c := crun dec conv0 h in
  converter_for dec c (Some f) (Some t) = current dec (rev h) (dec f, dec t) /\
  (hasConverter dec c (Some f) (Some t) = true <-> exists g, current dec (rev h) (dec f, dec t) = Some g) /\
  (snd (registerConverter dec c (Some f) (Some t) fn) = true <-> current dec (rev h) (dec f, dec t) = None) /\
  (snd (registerConverter dec c (Some f) (Some t) fn) = false ->
     cv_items (fst (registerConverter dec c (Some f) (Some t) fn)) = cv_items c).
Proof. exact converters_refine. Qed.
Print Assumptions C06_converters_are_a_map_partial.

(** Which pairs are convertible is right for every history. *)
Theorem C06_convertible_pairs : forall dec h k,
  (exists g, assoc keyb k (cv_items (crun dec conv0 h)) = Some g) <-> (exists g, current dec (rev h) k = Some g).
Proof. exact crun_domain. Qed.
Print Assumptions C06_convertible_pairs.

Definition fA := {| f_type := 0; f_val := 10 |}.
Definition fB := {| f_type := 1; f_val := 20 |}.
Example C06_example :
  let h := [CReg (Some 0) (Some 1) fA; CReg (Some 0) (Some 1) fB; CUnreg (Some 0) (Some 1);
            CReg (Some 0) (Some 1) fB] in
  one_value (fun x => x) h /\
  converter_for (fun x => x) (crun (fun x => x) conv0 h) (Some 0) (Some 1) = Some fB.
Proof.
  split; [|reflexivity]. intros f t f' t' a b Ha Hb _ Hty.
  cbn in Ha, Hb. repeat (destruct Ha as [Ha|Ha]; [|]); repeat (destruct Hb as [Hb|Hb]; [|]);
    try contradiction; try discriminate; injection Ha as <- <- <-; injection Hb as <- <- <-;
    try reflexivity; discriminate.
Qed.

(** Without the guard: unregister a converter and register another function of the same C++ type (any two
    function pointers of one signature): the first function is used again. *)
Theorem C06_reregister_refuted : exists dec h f t g,
  current dec (rev h) (dec f, dec t) = Some g /\
  exists g', converter_for dec (crun dec conv0 h) (Some f) (Some t) = Some g' /\ g' <> g.
Proof.
  exists (fun x => x),
    [CReg (Some 0) (Some 1) {| f_type := 0; f_val := 10 |}; CUnreg (Some 0) (Some 1);
     CReg (Some 0) (Some 1) {| f_type := 0; f_val := 20 |}], 0, 1, {| f_type := 0; f_val := 20 |}.
  split; [reflexivity|]. eexists. split; [reflexivity|]. discriminate.
Qed.
Print Assumptions C06_reregister_refuted.
