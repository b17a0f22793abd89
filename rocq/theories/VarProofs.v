(** Lemmas for C21 and C22. *)
From Coq Require Import List Bool Arith Lia Permutation.
From Verif Require Import Util DeferModel DeferProofs VarModel VarSpec.
Import ListNotations.

Notation exec := VarModel.exec.

Notation cnt := (count_occ Nat.eq_dec).

Definition one (b : bool) : nat := if b then 1 else 0.

Definition ores (o : obj) : list nat := match res o with Some r => [r] | None => [] end.

Definition sres (x : storage) : list nat := match x with In_ o => ores o | _ => [] end.

Definition res_of (s : store) (v : var) : list nat :=
  match st v with
  | In_ o => ores o
  | Ptr b => match block s b with Some o => ores o | None => [] end
  | _ => []
  end.

Definition ptr_of (x : storage) : list nat := match x with Ptr b => [b] | _ => [] end.

Definition res_ok (t : ty) (o : obj) : Prop := if owns t then exists r, res o = Some r else res o = None.
Definition obj_ok (t : ty) (o : obj) : Prop := (exists x, val o = Some x) /\ res_ok t o.

Section Inv.
  Variable allowed : ty -> Prop.
  Hypothesis allowed_safe : forall t, allowed t -> safe t.

  Definition wf_st (s : store) (t : ty) (x : storage) : Prop :=
    (t = ref_ty /\ exists e, x = Addr e /\ e < length (ext s)) \/
    (allowed t /\
     match shape_of t with
     | Inplace => exists o, x = In_ o /\ obj_ok t o
     | Heap | Array => exists b o, x = Ptr b /\ block s b = Some o /\ obj_ok t o
     | Ref => False
     end).

  Definition wf (s : store) (v : var) : Prop :=
    match mgr v with None => st v = Raw | Some t => wf_st s t (st v) end.

  Record inv (s : store) (vs : list var) : Prop := {
    i_wf : Forall (wf s) vs;
    i_res : forall r, cnt (flat_map (res_of s) vs) r + cnt (released s) r + cnt (lost s) r = one (r <? acquired s);
    i_ptr : forall b, cnt (flat_map (fun v => ptr_of (st v)) vs) b + cnt (freed s) b + cnt (lostb s) b
                      = one (b <? length (heap s))
  }.

  (** What the rest of the variants rely on. *)
  Definition agree (s s' : store) (vs : list var) : Prop :=
    length (ext s') = length (ext s) /\
    forall v b, In v vs -> st v = Ptr b -> block s' b = block s b.

  Lemma agree_refl s vs : agree s s vs.
  Proof. split; auto. Qed.

  Lemma agree_trans a b c vs : agree a b vs -> agree b c vs -> agree a c vs.
  Proof.
    intros [E1 H1] [E2 H2]. split; [congruence|]. intros v p Hv Hp. rewrite (H2 v p Hv Hp). apply H1 with v; assumption.
  Qed.

  Lemma agree_sub s s' vs ws : agree s s' vs -> incl ws vs -> agree s s' ws.
  Proof. intros [E H] HI. split; [exact E|]. intros v b Hv. apply H. apply HI; exact Hv. Qed.

  Lemma wf_agree s s' v : length (ext s') = length (ext s) -> (forall b, st v = Ptr b -> block s' b = block s b) ->
    wf s v -> wf s' v.
  Proof.
    intros HE HB. unfold wf. destruct (mgr v) as [t|]; [|auto]. unfold wf_st.
    intros [(-> & e & E & L)|(HA & H)]; [left|right].
    - split; [reflexivity|]. exists e. split; [exact E|]. rewrite HE. exact L.
    - split; [exact HA|]. destruct (shape_of t); auto; destruct H as (b & o & E & Hb & Ho); exists b, o;
        (split; [exact E|]; split; [rewrite (HB b E); exact Hb|exact Ho]).
  Qed.

  Lemma cont_agree s s' v : (forall b, st v = Ptr b -> block s' b = block s b) -> cont s' v = cont s v.
  Proof.
    intro HB. unfold cont. destruct (mgr v); [|reflexivity]. destruct (st v) eqn:E; try reflexivity. rewrite (HB b eq_refl). reflexivity.
  Qed.

  Lemma res_agree s s' v : (forall b, st v = Ptr b -> block s' b = block s b) -> res_of s' v = res_of s v.
  Proof. intro HB. unfold res_of. destruct (st v) eqn:E; try reflexivity. rewrite (HB b eq_refl). reflexivity. Qed.

  Lemma agree_wf s s' vs : agree s s' vs -> Forall (wf s) vs -> Forall (wf s') vs.
  Proof.
    intros [HE HB] H. rewrite Forall_forall in *. intros v Hv. eapply wf_agree; [exact HE| |apply H; exact Hv].
    intros b Hb. eapply HB; eassumption.
  Qed.

  Lemma agree_res s s' vs : agree s s' vs -> flat_map (res_of s') vs = flat_map (res_of s) vs.
  Proof.
    intros [HE HB]. induction vs as [|v vs IH]; cbn; [reflexivity|]. rewrite IH.
    - f_equal. apply res_agree. intros b Hb. apply (HB v b); [left; reflexivity|exact Hb].
    - intros w b Hw. apply HB. right; exact Hw.
  Qed.

  Lemma agree_cont s s' vs v : agree s s' vs -> In v vs -> cont s' v = cont s v.
  Proof. intros [HE HB] Hv. apply cont_agree. intros b Hb. eapply HB; eassumption. Qed.

  Lemma perm_cnt (l l' : list nat) x : Permutation l l' -> cnt l x = cnt l' x.
  Proof. intro H. revert x. apply (Permutation_count_occ Nat.eq_dec). exact H. Qed.

  Lemma inv_perm s vs ws : inv s vs -> Permutation vs ws -> inv s ws.
  Proof.
    intros [W R P] H. constructor.
    - rewrite Forall_forall in *. intros v Hv. apply W. eapply Permutation_in; [symmetry; exact H|exact Hv].
    - intro r. rewrite <- (R r). rewrite (perm_cnt (flat_map (res_of s) ws) (flat_map (res_of s) vs));
        [reflexivity|apply Permutation_flat_map; symmetry; exact H].
    - intro b. rewrite <- (P b).
      rewrite (perm_cnt (flat_map (fun v => ptr_of (st v)) ws) (flat_map (fun v => ptr_of (st v)) vs));
        [reflexivity|apply Permutation_flat_map; symmetry; exact H].
  Qed.

  Lemma inv_empty s vs : inv s (v_empty :: vs) <-> inv s vs.
  Proof.
    split; intros [W R P]; constructor; cbn in *; auto.
    - inversion W; assumption.
    - constructor; [reflexivity|exact W].
  Qed.

  (** A pointer held by a variant: its block is live and is nobody else's. *)
  Lemma held_ptr s v vs b : inv s (v :: vs) -> st v = Ptr b ->
    b < length (heap s) /\ ~ In b (freed s) /\ (forall w, In w vs -> st w <> Ptr b) /\ ~ In b (lostb s).
  Proof.
    intros [_ _ P] E. specialize (P b). cbn [flat_map] in P. rewrite E in P. cbn [ptr_of app count_occ] in P.
    destruct (Nat.eq_dec b b) as [_|N]; [|congruence]. unfold one in P. destruct (Nat.ltb_spec b (length (heap s))) as [L|L]; [|lia].
    split; [exact L|]. assert (H0 : forall l, cnt l b = 0 -> ~ In b l) by (intros l; apply count_occ_not_In).
    split; [apply H0; lia|]. split; [|apply H0; lia].
    intros w Hw Ew. assert (HN : ~ In b (flat_map (fun v => ptr_of (st v)) vs)) by (apply H0; lia).
    apply HN. apply in_flat_map. exists w. split; [exact Hw|]. rewrite Ew. left; reflexivity.
  Qed.

  Lemma block_put_other s b c o : b <> c -> block (with_heap s (put (heap s) c o)) b = block s b.
  Proof. intro N. unfold block, with_heap. cbn. rewrite put_other by congruence. reflexivity. Qed.

  (** ** f_move *)
  Definition same_mem (s s' : store) : Prop :=
    heap s' = heap s /\ freed s' = freed s /\ lostb s' = lostb s /\ released s' = released s /\ ext s' = ext s.

  Lemma same_mem_block s s' b : same_mem s s' -> block s' b = block s b.
  Proof. intros (H1 & H2 & _). unfold block. rewrite H1, H2. reflexivity. Qed.

  Lemma same_mem_agree s s' vs : same_mem s s' -> agree s s' vs.
  Proof.
    intro H. split; [destruct H as (_ & _ & _ & _ & ->); reflexivity|]. intros. apply same_mem_block. exact H.
  Qed.

  Lemma same_mem_trans a b c : same_mem a b -> same_mem b c -> same_mem a c.
  Proof. intros (A1 & A2 & A3 & A4 & A5) (B1 & B2 & B3 & B4 & B5). repeat split; congruence. Qed.

  Lemma abandon_mem x s : (forall b, x <> Ptr b) -> same_mem s (abandon x s) /\ acquired (abandon x s) = acquired s /\
    (forall r, cnt (lost (abandon x s)) r = cnt (sres x) r + cnt (lost s) r) /\ (sres x = [] -> lost (abandon x s) = lost s).
  Proof.
    intro N. destruct x as [|o|b|e]; cbn; try (repeat split; auto; fail).
    - unfold ores. destruct (res o) as [r0|]; cbn; (split; [repeat split|split; [reflexivity|split]]); auto; try discriminate.
      intro r. destruct (Nat.eq_dec r0 r); lia.
    - exfalso. eapply N. reflexivity.
  Qed.

  Lemma ltb_S_one r n : one (r <? S n) = one (r <? n) + (if Nat.eq_dec n r then 1 else 0).
  Proof.
    unfold one. destruct (Nat.ltb_spec r (S n)), (Nat.ltb_spec r n), (Nat.eq_dec n r); lia.
  Qed.

  Lemma draw_sure t s : fallible t = false -> draw t s = (false, s).
  Proof. intro E. unfold draw. rewrite E. reflexivity. Qed.

  Lemma wf_mem s s' t x : same_mem s s' -> wf_st s t x -> wf_st s' t x.
  Proof.
    intros H W. apply (wf_agree s s' (Var (Some t) x)); [destruct H as (_ & _ & _ & _ & ->); reflexivity| |exact W].
    intros. apply same_mem_block. exact H.
  Qed.

  Lemma f_move_ok t src dst s : wf_st s t src -> (forall b, dst <> Ptr b) ->
    exists src' dst' s', f_move (Some t) src dst s = Ok (src', dst') s' /\ same_mem s s' /\
      wf_st s' t dst' /\ cont s' (Var (Some t) dst') = cont s (Var (Some t) src) /\
      (forall b, src' <> Ptr b) /\ ptr_of dst' = ptr_of src /\
      (forall r, cnt (sres dst') r + cnt (sres src') r + cnt (lost s') r + one (r <? acquired s)
               = cnt (sres src) r + cnt (sres dst) r + cnt (lost s) r + one (r <? acquired s')) /\
      (leak_free t -> sres src' = [] /\ (sres dst = [] -> lost s' = lost s)).
  Proof.
    intros W N. destruct (abandon_mem dst s N) as (AM & AA & AL & AZ).
    destruct W as [(-> & e & -> & L)|(HA & H)].
    - cbn. exists (Addr e), (Addr e), (abandon dst s). split; [reflexivity|]. split; [exact AM|]. split.
      { left. split; [reflexivity|]. exists e. split; [reflexivity|]. destruct AM as (_ & _ & _ & _ & ->). exact L. }
      split; [reflexivity|]. split; [discriminate|]. split; [reflexivity|]. split.
      { intro r. rewrite AA, AL. cbn. lia. }
      intros _. split; [reflexivity|exact AZ].
    - destruct (allowed_safe t HA) as (S1 & S2 & S3 & S4). unfold f_move. destruct (shape_of t) eqn:Es.
      + destruct H as (o & -> & (x & Ex) & Hr). unfold move_obj. destruct (steals t) eqn:Et; cbn [bind].
        * destruct (abandon_mem dst (note_built t false s) N) as (BM & BA & BL & BZ).
          exists (In_ hollow), (In_ o), (abandon dst (note_built t false s)). split; [reflexivity|].
          split; [exact BM|]. split.
          { right. split; [exact HA|]. rewrite Es. exists o. split; [reflexivity|]. split; [eauto|exact Hr]. }
          split; [reflexivity|]. split; [discriminate|]. split; [reflexivity|]. split.
          { intro r. rewrite BA, BL. cbn. lia. }
          intros _. split; [reflexivity|exact BZ].
        * unfold copy_obj. assert (Ec : copyable t = true) by (destruct S2 as [E|E]; [exact E|congruence]). rewrite Ec.
          rewrite (draw_sure t s (S4 eq_refl eq_refl)).
          set (fr := owns t && match res o with Some _ => true | None => false end). cbn [bind].
          destruct (abandon_mem dst (note_built t fr s) N) as (BM & BA & BL & BZ).
          exists (In_ o), (In_ (Obj (val o) (if fr then Some (acquired s) else None))), (abandon dst (note_built t fr s)).
          split; [reflexivity|]. split; [exact BM|]. split.
          { right. split; [exact HA|]. rewrite Es. eexists. split; [reflexivity|]. split; [exists x; exact Ex|].
            unfold res_ok in *. cbn [res]. subst fr. destruct (owns t); [|reflexivity]. destruct Hr as [r0 ->]. cbn. eauto. }
          split; [unfold cont; cbn; reflexivity|]. split; [discriminate|]. split; [reflexivity|]. split.
          { intro r. rewrite BA, BL. cbn [note_built acquired lost sres]. unfold ores. cbn [res].
            destruct fr; cbn [count_occ]; [rewrite ltb_S_one|]; destruct (Nat.eq_dec (acquired s) r); try lia;
            destruct (res o) as [r1|]; cbn; lia. }
          intro LF. specialize (LF Es). destruct (owns t) eqn:Eo.
          { rewrite LF in Et by reflexivity. discriminate. }
          unfold res_ok in Hr. rewrite Eo in Hr. split; [cbn; unfold ores; rewrite Hr; reflexivity|].
          intro Z. rewrite (BZ Z). reflexivity.
      + destruct H as (b & o & -> & Hb & Ho). exists Raw, (Ptr b), (abandon dst s).
        split; [destruct dst; try reflexivity; exfalso; eapply N; reflexivity|]. split; [exact AM|]. split.
        { apply (wf_mem s); [exact AM|]. right. split; [exact HA|]. rewrite Es. eauto. }
        split; [unfold cont; cbn; rewrite (same_mem_block _ _ b AM); reflexivity|]. split; [discriminate|]. split; [reflexivity|]. split.
        { intro r. rewrite AA, AL. cbn. lia. }
        intros _. split; [reflexivity|exact AZ].
      + destruct H as (b & o & -> & Hb & Ho). exists Raw, (Ptr b), (abandon dst s).
        split; [destruct dst; try reflexivity; exfalso; eapply N; reflexivity|]. split; [exact AM|]. split.
        { apply (wf_mem s); [exact AM|]. right. split; [exact HA|]. rewrite Es. eauto. }
        split; [unfold cont; cbn; rewrite (same_mem_block _ _ b AM); reflexivity|]. split; [discriminate|]. split; [reflexivity|]. split.
        { intro r. rewrite AA, AL. cbn. lia. }
        intros _. split; [reflexivity|exact AZ].
      + destruct H.
  Qed.

  (** ** swap *)

  (** Resources a variant holds, split into those in its storage and those behind its pointer. *)
  Definition far (s : store) (x : storage) : list nat :=
    match x with Ptr b => match block s b with Some o => ores o | None => [] end | _ => [] end.

  Lemma res_split s v r : cnt (res_of s v) r = cnt (sres (st v)) r + cnt (far s (st v)) r.
  Proof. unfold res_of, sres, far. destruct (st v); cbn; lia. Qed.

  Lemma far_ptr s s' x y : same_mem s s' -> ptr_of x = ptr_of y -> far s' x = far s y.
  Proof.
    intros H E. unfold far. destruct x, y; cbn in E; try discriminate; try reflexivity. injection E as ->.
    rewrite (same_mem_block _ _ _ H). reflexivity.
  Qed.

  Definition leakless : Prop := forall t, allowed t -> leak_free t.

  Lemma leak_free_wf s t x : leakless -> wf_st s t x -> leak_free t.
  Proof. intros L [(-> & _)|(HA & _)]; [intro; discriminate|apply L; exact HA]. Qed.

  Lemma cnt_app (l l' : list nat) r : cnt (l ++ l') r = cnt l r + cnt l' r.
  Proof. apply count_occ_app. Qed.

  Lemma swap_ok a b vs s : inv s (a :: b :: vs) ->
    exists a' b' s', v_swap a b s = Ok (a', b') s' /\ inv s' (a' :: b' :: vs) /\
      cont s' a' = cont s b /\ cont s' b' = cont s a /\ same_mem s s' /\ (leakless -> lost s' = lost s).
  Proof.
    intros [W R P].
    inversion W as [|? ? Wa W1]. subst. inversion W1 as [|? ? Wb W2]. subst. clear W W1.
    assert (FIN : forall a' b' s', same_mem s s' -> wf s' a' -> wf s' b' ->
      ptr_of (st a') = ptr_of (st b) -> ptr_of (st b') = ptr_of (st a) ->
      (forall r, cnt (sres (st a')) r + cnt (sres (st b')) r + cnt (lost s') r + one (r <? acquired s)
               = cnt (sres (st a)) r + cnt (sres (st b)) r + cnt (lost s) r + one (r <? acquired s')) ->
      inv s' (a' :: b' :: vs)).
    { intros a' b' s' M Wa' Wb' Pa Pb Q. constructor.
      - constructor; [exact Wa'|]. constructor; [exact Wb'|]. eapply agree_wf; [apply same_mem_agree; exact M|exact W2].
      - intro r. specialize (R r). specialize (Q r). cbn [flat_map] in *. rewrite !cnt_app in *.
        rewrite (agree_res s s') by (apply same_mem_agree; exact M). rewrite !res_split in *.
        rewrite (far_ptr s s' (st a') (st b) M Pa), (far_ptr s s' (st b') (st a) M Pb).
        destruct M as (_ & _ & _ & -> & _). lia.
      - intro p. specialize (P p). cbn [flat_map] in *. rewrite !cnt_app in *. rewrite Pa, Pb.
        destruct M as (-> & -> & -> & _ & _). lia. }
    unfold v_swap. unfold wf in Wa, Wb. destruct (mgr a) as [t|] eqn:Ea, (mgr b) as [u|] eqn:Eb.
    - (* both *)
      destruct (f_move_ok t (st a) Raw s Wa ltac:(discriminate)) as (a1 & tm & s1 & E1 & M1 & V1 & C1 & N1 & P1 & Q1 & L1).
      rewrite E1. cbn [bind].
      destruct (f_move_ok u (st b) a1 s1 (wf_mem _ _ _ _ M1 Wb) N1) as (b1 & a2 & s2 & E2 & M2 & V2 & C2 & N2 & P2 & Q2 & L2).
      rewrite E2. cbn [bind].
      destruct (f_move_ok t tm b1 s2 (wf_mem _ _ _ _ M2 V1) N2) as (tm' & b2 & s3 & E3 & M3 & V3 & C3 & N3 & P3 & Q3 & L3).
      rewrite E3. cbn [bind noexcept].
      destruct (abandon_mem tm' s3 N3) as (AM & AA & AL & AZ).
      assert (M : same_mem s (abandon tm' s3)) by (eauto using same_mem_trans).
      exists (Var (Some u) a2), (Var (Some t) b2), (abandon tm' s3). split; [reflexivity|].
      assert (Hblk : forall x y z, same_mem x y -> cont y (Var z a2) = cont x (Var z a2) /\ cont y (Var z b2) = cont x (Var z b2)).
      { intros x y z Hxy. split; apply cont_agree; intros; apply same_mem_block; exact Hxy. }
      split; [apply FIN|].
      + exact M.
      + unfold wf. cbn. apply (wf_mem s2); [eauto using same_mem_trans|exact V2].
      + unfold wf. cbn. apply (wf_mem s3); [exact AM|exact V3].
      + exact P2.
      + cbn. rewrite P3, P1. reflexivity.
      + intro r. specialize (Q1 r). specialize (Q2 r). specialize (Q3 r). cbn [st]. rewrite AA, AL. cbn [sres count_occ] in Q1. lia.
      + split; [|split; [|split; [exact M|]]].
        * rewrite (proj1 (Hblk s2 (abandon tm' s3) (Some u) (same_mem_trans _ _ _ M3 AM))). rewrite C2. rewrite (cont_agree s s1).
          -- unfold cont. rewrite Eb. reflexivity.
          -- intros; apply same_mem_block; exact M1.
        * rewrite (proj2 (Hblk s3 _ (Some t) AM)). rewrite C3. rewrite (cont_agree s1 s2).
          -- rewrite C1. unfold cont. rewrite Ea. reflexivity.
          -- intros; apply same_mem_block; exact M2.
        * intro LL. specialize (L1 (leak_free_wf _ _ _ LL Wa)). specialize (L2 (leak_free_wf _ _ _ LL Wb)).
          specialize (L3 (leak_free_wf _ _ _ LL V1)). destruct L1 as [L1a L1b], L2 as [L2a L2b], L3 as [L3a L3b].
          rewrite (AZ L3a), (L3b L2a), (L2b L1a), (L1b eq_refl). reflexivity.
    - (* other empty *)
      assert (NR : forall p, st b <> Ptr p) by (rewrite Wb; discriminate).
      destruct (f_move_ok t (st a) (st b) s Wa NR) as (a1 & b2 & s1 & E1 & M1 & V1 & C1 & N1 & P1 & Q1 & L1).
      rewrite E1. cbn [bind noexcept]. destruct (abandon_mem a1 s1 N1) as (AM & AA & AL & AZ).
      assert (M : same_mem s (abandon a1 s1)) by (eauto using same_mem_trans).
      exists (Var None Raw), (Var (Some t) b2), (abandon a1 s1). split; [reflexivity|]. split; [apply FIN|].
      + exact M.
      + reflexivity.
      + unfold wf. cbn. apply (wf_mem s1); [exact AM|exact V1].
      + rewrite Wb. reflexivity.
      + exact P1.
      + intro r. specialize (Q1 r). cbn [st sres count_occ]. rewrite AA, AL. lia.
      + split; [|split; [|split; [exact M|]]].
        * unfold cont. rewrite Eb. reflexivity.
        * rewrite (cont_agree s1); [|intros; apply same_mem_block; exact AM]. rewrite C1. unfold cont. rewrite Ea. reflexivity.
        * intro LL. destruct (L1 (leak_free_wf _ _ _ LL Wa)) as [La Lb]. rewrite (AZ La). apply Lb. rewrite Wb. reflexivity.
    - (* this empty *)
      assert (NR : forall p, st a <> Ptr p) by (rewrite Wa; discriminate).
      destruct (f_move_ok u (st b) (st a) s Wb NR) as (b1 & a2 & s1 & E1 & M1 & V1 & C1 & N1 & P1 & Q1 & L1).
      rewrite E1. cbn [bind noexcept]. destruct (abandon_mem b1 s1 N1) as (AM & AA & AL & AZ).
      assert (M : same_mem s (abandon b1 s1)) by (eauto using same_mem_trans).
      exists (Var (Some u) a2), (Var None Raw), (abandon b1 s1). split; [reflexivity|]. split; [apply FIN|].
      + exact M.
      + unfold wf. cbn. apply (wf_mem s1); [exact AM|exact V1].
      + reflexivity.
      + exact P1.
      + rewrite Wa. reflexivity.
      + intro r. specialize (Q1 r). cbn [st sres count_occ]. rewrite AA, AL. lia.
      + split; [|split; [|split; [exact M|]]].
        * rewrite (cont_agree s1); [|intros; apply same_mem_block; exact AM]. rewrite C1. unfold cont. rewrite Eb. reflexivity.
        * unfold cont. rewrite Ea. reflexivity.
        * intro LL. destruct (L1 (leak_free_wf _ _ _ LL Wb)) as [La Lb]. rewrite (AZ La). apply Lb. rewrite Wa. reflexivity.
    - exists a, b, s. split; [reflexivity|]. split; [apply FIN|].
      + repeat split.
      + unfold wf. rewrite Ea. exact Wa.
      + unfold wf. rewrite Eb. exact Wb.
      + rewrite Wa, Wb. reflexivity.
      + rewrite Wa, Wb. reflexivity.
      + intro r. lia.
      + split; [|split; [|split; [repeat split|reflexivity]]]; unfold cont; rewrite Ea, Eb; reflexivity.
  Qed.

  (** ** clear *)
  Lemma not_released s v vs r : inv s (v :: vs) -> In r (res_of s v) -> ~ In r (released s).
  Proof.
    intros [_ R _] Hr. specialize (R r). cbn [flat_map] in R. rewrite cnt_app in R.
    apply (count_occ_In Nat.eq_dec) in Hr. apply (count_occ_not_In Nat.eq_dec). unfold one in R. destruct (r <? acquired s); lia.
  Qed.

  Lemma destroy_ok t o s : (forall r, res o = Some r -> ~ In r (released s)) ->
    exists s', destroy_obj t o s = Ok tt s' /\ heap s' = heap s /\ freed s' = freed s /\ lostb s' = lostb s /\ lost s' = lost s /\ ext s' = ext s /\ acquired s' = acquired s /\ forall r, cnt (released s') r = cnt (ores o) r + cnt (released s) r.
  Proof.
    intro H. unfold destroy_obj, ores. destruct (res o) as [r|] eqn:E.
    - destruct (in_dec Nat.eq_dec r (released s)) as [HI|HI]; [destruct (H r eq_refl HI)|].
      eexists. split; [reflexivity|]. repeat split. intro q. cbn. destruct (Nat.eq_dec r q); lia.
    - eexists. split; [reflexivity|]. repeat split.
  Qed.

  Lemma clear_ok a vs s : inv s (a :: vs) ->
    exists s', v_clear a s = Ok v_empty s' /\ inv s' vs /\ agree s s' vs /\ ext s' = ext s /\ lost s' = lost s /\ lostb s' = lostb s.
  Proof.
    intro I. pose proof I as [W R P]. inversion W as [|? ? Wa Wv]. subst. unfold v_clear. unfold wf in Wa.
    destruct (mgr a) as [t|] eqn:Ea.
    2:{ exists s. split; [reflexivity|]. split; [|split; [apply agree_refl|auto]]. constructor; [exact Wv| |].
        - intro r. specialize (R r). cbn [flat_map] in R. unfold res_of at 1 in R. rewrite Wa in R. exact R.
        - intro b. specialize (P b). cbn [flat_map] in P. rewrite Wa in P. exact P. }
    unfold f_destroy. destruct Wa as [(-> & e & E & L)|(HA & H)].
    - cbn. rewrite E. exists s. split; [reflexivity|]. split; [|split; [apply agree_refl|auto]]. constructor; [exact Wv| |].
      + intro r. specialize (R r). cbn [flat_map] in R. unfold res_of at 1 in R. rewrite E in R. exact R.
      + intro b. specialize (P b). cbn [flat_map] in P. rewrite E in P. exact P.
    - assert (BLK : forall b o, st a = Ptr b -> block s b = Some o ->
        exists s', noexcept (bind (match block s b with
                       | Some o0 => bind (destroy_obj t o0 s) (fun _ s' =>
                           Ok tt (with_freed (with_heap s' (put (heap s') b None)) (b :: freed s')))
                       | None => UB end) (fun _ s' => Ok v_empty s')) = Ok v_empty s' /\ inv s' vs /\ agree s s' vs /\
              ext s' = ext s /\ lost s' = lost s /\ lostb s' = lostb s).
      { intros b o E Hb. rewrite Hb.
        destruct (destroy_ok t o s) as (s1 & -> & D1 & D2 & D3 & D4 & D5 & D6 & D7).
        { intros r Hr. apply (not_released s a vs r I). unfold res_of. rewrite E, Hb. unfold ores. rewrite Hr. left; reflexivity. }
        cbn [bind noexcept]. eexists. split; [reflexivity|].
        destruct (held_ptr s a vs b I E) as (Lb & NF & OTH & NL).
        assert (AG : agree s (with_freed (with_heap s1 (put (heap s1) b None)) (b :: freed s1)) vs).
        { split; [cbn; rewrite D5; reflexivity|]. intros v c Hv Ec.
          assert (Nbc : b <> c) by (intros ->; exact (OTH v Hv Ec)).
          unfold block, with_freed, with_heap. cbn [freed heap]. rewrite D1, D2. rewrite put_other by exact Nbc.
          destruct (in_dec Nat.eq_dec c (b :: freed s)) as [[K|K]|K]; [congruence| |];
            destruct (in_dec Nat.eq_dec c (freed s)) as [K'|K']; try reflexivity; try contradiction.
          exfalso. apply K. right; exact K'. }
        split; [|split; [exact AG|cbn; auto]]. constructor.
        - eapply agree_wf; [exact AG|exact Wv].
        - intro r. rewrite (agree_res _ _ _ AG). specialize (R r). cbn [flat_map] in R. rewrite cnt_app in R.
          unfold res_of at 1 in R. rewrite E, Hb in R. cbn [released lost acquired with_freed with_heap]. rewrite D4, D6, D7. lia.
        - intro p. specialize (P p). cbn [flat_map] in P. rewrite cnt_app, E in P. cbn [ptr_of] in P.
          cbn [freed heap lostb with_freed with_heap]. rewrite put_length, D1, D2, D3. cbn [count_occ] in *.
          destruct (Nat.eq_dec b p); lia. }
      destruct (shape_of t).
      + destruct H as (o & E & _). rewrite E.
        destruct (destroy_ok t o s) as (s1 & -> & D1 & D2 & D3 & D4 & D5 & D6 & D7).
        { intros r Hr. apply (not_released s a vs r I). unfold res_of. rewrite E. unfold ores. rewrite Hr. left; reflexivity. }
        cbn [bind noexcept]. exists s1. split; [reflexivity|].
        assert (AG : agree s s1 vs).
        { split; [rewrite D5; reflexivity|]. intros. unfold block. rewrite D1, D2. reflexivity. }
        split; [|split; [exact AG|auto]]. constructor.
        * eapply agree_wf; [exact AG|exact Wv].
        * intro r. rewrite (agree_res _ _ _ AG). specialize (R r). cbn [flat_map] in R. rewrite cnt_app in R.
          unfold res_of at 1 in R. rewrite E in R. rewrite D4, D6, D7. lia.
        * intro p. specialize (P p). cbn [flat_map] in P. rewrite E in P. cbn [ptr_of app] in P. rewrite D1, D2, D3. exact P.
      + destruct H as (b & o & E & Hb & _). specialize (BLK b o E Hb). rewrite E. exact BLK.
      + destruct H as (b & o & E & Hb & _). specialize (BLK b o E Hb). rewrite E. exact BLK.
      + destruct H.
  Qed.

  (** ** construction *)

  (** What running a constructor does. *)
  Definition light (t : ty) (x : nat) (build : store -> out obj) : Prop :=
    forall s, match build s with
      | Ok o s' => same_mem s s' /\ lost s' = lost s /\ val o = Some x /\ res_ok t o /\
                   forall r, cnt (ores o) r + one (r <? acquired s) = one (r <? acquired s')
      | Exn s' => same_mem s s' /\ lost s' = lost s /\ acquired s' = acquired s /\ (copyable t = true -> fallible t = true)
      | UB | Term => False
      end.

  Lemma copy_light t x o : val o = Some x -> res_ok t o -> light t x (copy_obj t o).
  Proof.
    intros Hx Hr s. unfold copy_obj. destruct (copyable t).
    2:{ repeat split; auto. discriminate. }
    unfold draw. assert (OKC : forall s1, same_mem s s1 -> lost s1 = lost s -> acquired s1 = acquired s ->
      let fresh := owns t && (match res o with Some _ => true | None => false end) in
      let o' := Obj (val o) (if fresh then Some (acquired s1) else None) in
      let s' := note_built t fresh s1 in
      same_mem s s' /\ lost s' = lost s /\ val o' = Some x /\ res_ok t o' /\
      forall r, cnt (ores o') r + one (r <? acquired s) = one (r <? acquired s')).
    { intros s1 (M1 & M2 & M3 & M4 & M5) L1 A1. cbv zeta. split; [repeat split; assumption|]. split; [exact L1|]. split; [exact Hx|].
      unfold res_ok in *. cbn [res]. split.
      - destruct (owns t); [|reflexivity]. destruct Hr as [r0 ->]. cbn. eauto.
      - intro r. unfold ores. cbn [res note_built acquired]. destruct (owns t && _); cbn [count_occ].
        + rewrite ltb_S_one, A1. lia.
        + rewrite A1. lia. }
    destruct (fallible t).
    - destruct (fails s) as [|[|] l].
      + apply OKC; repeat split.
      + repeat split; auto.
      + apply OKC; repeat split.
    - apply OKC; repeat split.
  Qed.

  Definition construct (t : ty) (build : store -> out obj) (s : store) : out storage :=
    match shape_of t with
    | Inplace => bind (build s) (fun o s' => Ok (In_ o) s')
    | _ => bind (on_heap t build s) (fun b s' => Ok (Ptr b) s')
    end.

  Lemma construct_ok t x build s vs : allowed t -> light t x build -> inv s vs ->
    match construct t build s with
    | Ok y s' => inv s' (Var (Some t) y :: vs) /\ agree s s' vs /\ ext s' = ext s /\ lost s' = lost s /\ lostb s' = lostb s /\
                 cont s' (Var (Some t) y) = Some (Own t x)
    | Exn s' => inv s' vs /\ agree s s' vs /\ ext s' = ext s /\ lost s' = lost s /\ (sure_copy t -> lostb s' = lostb s)
    | UB | Term => False
    end.
  Proof.
    intros HA HL I. destruct (allowed_safe t HA) as (S1 & _ & S3 & _). pose proof I as [W R P].
    assert (HEAP : shape_of t <> Inplace ->
      match bind (on_heap t build s) (fun b s' => Ok (Ptr b) s') with
      | Ok y s' => inv s' (Var (Some t) y :: vs) /\ agree s s' vs /\ ext s' = ext s /\ lost s' = lost s /\ lostb s' = lostb s /\
                   cont s' (Var (Some t) y) = Some (Own t x)
      | Exn s' => inv s' vs /\ agree s s' vs /\ ext s' = ext s /\ lost s' = lost s /\ (sure_copy t -> lostb s' = lostb s)
      | UB | Term => False
      end).
    { intro NI. unfold on_heap.
      assert (NPTR : forall c, length (heap s) <= c -> cnt (flat_map (fun v => ptr_of (st v)) vs) c = 0 /\ cnt (freed s) c = 0 /\ cnt (lostb s) c = 0).
      { intros c Hc. specialize (P c). unfold one in P. destruct (Nat.ltb_spec c (length (heap s))); lia. }
      assert (OTH : forall v c, In v vs -> st v = Ptr c -> c < length (heap s)).
      { intros v c Hv E. destruct (Nat.lt_ge_cases c (length (heap s))) as [L|L]; [exact L|]. exfalso.
        destruct (NPTR c L) as [Z _]. revert Z. apply Nat.neq_sym, Nat.lt_neq. apply (count_occ_In Nat.eq_dec).
        apply in_flat_map. exists v. split; [exact Hv|]. rewrite E. left; reflexivity. }
      set (b := length (heap s)) in *. set (s1 := with_heap s (heap s ++ [None])).
      assert (G : match (match build s1 with
                   | Ok o s2 => Ok b (with_heap s2 (put (heap s2) b (Some o)))
                   | Exn s2 => Exn (with_lostb s2 (b :: lostb s2))
                   | UB => UB | Term => Term end) with
        | Ok a s0 => forall y s', y = Ptr a -> s' = s0 -> inv s' (Var (Some t) y :: vs) /\ agree s s' vs /\ ext s' = ext s /\ lost s' = lost s /\ lostb s' = lostb s /\
                   cont s' (Var (Some t) y) = Some (Own t x)
        | Exn s' => inv s' vs /\ agree s s' vs /\ ext s' = ext s /\ lost s' = lost s /\ (sure_copy t -> lostb s' = lostb s)
        | UB | Term => False end).
      { specialize (HL s1). destruct (build s1) as [o s2|s2| |]; [| |exact HL|exact HL].
        - destruct HL as (H0 & L2 & V2 & R2 & A2). destruct H0 as (M1 & M2 & M3 & M4 & M5). cbn in M1, M2, M3, M4, M5, L2.
          intros y s' -> ->. set (s' := with_heap s2 (put (heap s2) b (Some o))).
          assert (LH : length (heap s2) = S b) by (rewrite M1, app_length; cbn; lia).
          assert (HB : block s' b = Some o).
          { unfold block, s'. cbn [with_heap freed heap]. rewrite put_same by lia. rewrite M2.
            destruct (in_dec Nat.eq_dec b (freed s)) as [K|K]; [|reflexivity]. exfalso.
            apply (count_occ_In Nat.eq_dec) in K. destruct (NPTR b (Nat.le_refl _)) as (_ & Z & _). lia. }
          assert (AG : agree s s' vs).
          { split; [cbn; rewrite M5; reflexivity|]. intros v c Hv Ec. pose proof (OTH v c Hv Ec) as Lc.
            unfold block, s'. cbn [with_heap freed heap]. rewrite put_other by lia. rewrite M1, M2.
            rewrite nth_error_app1 by lia. reflexivity. }
          split; [constructor|].
          + constructor; [|eapply agree_wf; [exact AG|exact W]]. unfold wf. cbn. right. split; [exact HA|].
            destruct (shape_of t); try congruence; exists b, o; (split; [reflexivity|]; split; [exact HB|]; split; [eauto|exact R2]).
          + intro r. specialize (R r). specialize (A2 r). cbn [flat_map]. rewrite cnt_app, (agree_res _ _ _ AG). unfold res_of at 1. cbn [st].
            rewrite HB. unfold s'. cbn [with_heap released lost acquired]. rewrite M4, L2. unfold s1 in A2. cbn [with_heap acquired] in A2. lia.
          + intro p. specialize (P p). cbn [flat_map st ptr_of app count_occ]. unfold s'. cbn [with_heap freed lostb heap].
            rewrite put_length, LH, M2, M3. rewrite ltb_S_one. fold b in P. destruct (Nat.eq_dec b p); lia.
          + split; [exact AG|]. split; [exact M5|]. split; [exact L2|]. split; [exact M3|]. unfold cont. cbn [mgr st]. rewrite HB, V2. reflexivity.
        - destruct HL as (H0 & L2 & A2 & C2). destruct H0 as (M1 & M2 & M3 & M4 & M5). cbn in M1, M2, M3, M4, M5, L2, A2.
          assert (AG : agree s (with_lostb s2 (b :: lostb s2)) vs).
          { split; [cbn; rewrite M5; reflexivity|]. intros v c Hv Ec. pose proof (OTH v c Hv Ec) as Lc.
            unfold block. cbn [with_lostb freed heap]. rewrite M1, M2. rewrite nth_error_app1 by lia. reflexivity. }
          split; [constructor|].
          + eapply agree_wf; [exact AG|exact W].
          + intro r. specialize (R r). rewrite (agree_res _ _ _ AG). cbn [with_lostb released lost acquired]. rewrite M4, L2, A2. exact R.
          + intro p. specialize (P p). cbn [with_lostb freed lostb heap count_occ]. rewrite M1, M2, M3, app_length, Nat.add_1_r.
            fold b. rewrite ltb_S_one. fold b in P. destruct (Nat.eq_dec b p); lia.
          + split; [exact AG|]. split; [exact M5|]. split; [exact L2|]. intro SC. destruct (SC NI) as [Ec Ef]. rewrite C2 in Ef by exact Ec. discriminate. }
      assert (E : match shape_of t, owns t with Array, true => False | _, _ => True end).
      { destruct (shape_of t); auto. rewrite S3; auto. }
      destruct (shape_of t), (owns t); try destruct E; try congruence;
        (destruct (match build s1 with Ok _ _ => _ | _ => _ end) as [a s0|s0| |]; cbn [bind]; [apply (G _ _ eq_refl eq_refl)|exact G|exact G|exact G]). }
    unfold construct. destruct (shape_of t) eqn:Es; try (apply HEAP; discriminate). clear HEAP.
    specialize (HL s). destruct (build s) as [o s2|s2| |]; cbn [bind]; [| |exact HL|exact HL].
    - destruct HL as (H0 & L2 & V2 & R2 & A2). pose proof (same_mem_agree s s2 vs H0) as AG. pose proof H0 as (M1 & M2 & M3 & M4 & M5).
      split; [constructor|].
      + constructor; [|eapply agree_wf; [exact AG|exact W]]. unfold wf. cbn. right. split; [exact HA|]. rewrite Es. exists o.
        split; [reflexivity|]. split; [eauto|exact R2].
      + intro r. specialize (R r). specialize (A2 r). cbn [flat_map]. rewrite cnt_app, (agree_res _ _ _ AG). unfold res_of at 1. cbn [st].
        rewrite M4, L2. lia.
      + intro p. specialize (P p). cbn [flat_map st ptr_of app]. rewrite M1, M2, M3. exact P.
      + split; [exact AG|]. split; [exact M5|]. split; [exact L2|]. split; [exact M3|]. unfold cont. cbn. rewrite V2. reflexivity.
    - destruct HL as (H0 & L2 & A2 & C2). pose proof (same_mem_agree s s2 vs H0) as AG. pose proof H0 as (M1 & M2 & M3 & M4 & M5).
      split; [constructor|].
      + eapply agree_wf; [exact AG|exact W].
      + intro r. specialize (R r). rewrite (agree_res _ _ _ AG). rewrite M4, L2, A2. exact R.
      + intro p. specialize (P p). rewrite M1, M2, M3. exact P.
      + split; [exact AG|]. split; [exact M5|]. split; [exact L2|]. intros _. exact M3.
  Qed.

  Definition sure : Prop := forall t, allowed t -> sure_copy t.

  (** Nothing the variants [vs] and the outside rely on has changed. *)
  Definition calm (s s' : store) (vs : list var) : Prop :=
    agree s s' vs /\ ext s' = ext s /\ (leakless -> lost s' = lost s).

  Lemma calm_refl s vs : calm s s vs.
  Proof. split; [apply agree_refl|auto]. Qed.

  Lemma calm_trans a b c vs : calm a b vs -> calm b c vs -> calm a c vs.
  Proof.
    intros (A1 & E1 & L1) (A2 & E2 & L2). split; [eauto using agree_trans|]. split; [congruence|].
    intro L. rewrite (L2 L). apply L1; exact L.
  Qed.

  Lemma calm_sub s s' vs ws : calm s s' vs -> incl ws vs -> calm s s' ws.
  Proof. intros (A & E & L) H. split; [eapply agree_sub; eassumption|auto]. Qed.

  Lemma build_ok t x build s vs : allowed t -> light t x build -> inv s vs ->
    match bind (construct t build s) (fun y s' => Ok (Var (Some t) y) s') with
    | Ok v s' => inv s' (v :: vs) /\ calm s s' vs /\ lostb s' = lostb s /\ cont s' v = Some (Own t x)
    | Exn s' => inv s' vs /\ calm s s' vs /\ (sure -> lostb s' = lostb s)
    | UB | Term => False
    end.
  Proof.
    intros HA HL I. pose proof (construct_ok t x build s vs HA HL I) as H.
    destruct (construct t build s) as [y s'|s'| |]; cbn [bind]; try exact H.
    - destruct H as (H1 & H2 & H3 & H4 & H5 & H6). split; [exact H1|]. split; [split; auto|]. split; assumption.
    - destruct H as (H1 & H2 & H3 & H4 & H5). split; [exact H1|]. split; [split; auto|]. intro S. apply H5. apply S. exact HA.
  Qed.

  Lemma copy_ok v vs s : inv s vs -> In v vs ->
    match v_copy v s with
    | Ok v' s' => inv s' (v' :: vs) /\ calm s s' vs /\ lostb s' = lostb s /\ cont s' v' = cont s v
    | Exn s' => inv s' vs /\ calm s s' vs /\ (sure -> lostb s' = lostb s)
    | UB | Term => False
    end.
  Proof.
    intros I Hv. pose proof I as [W R P]. rewrite Forall_forall in W. specialize (W v Hv). unfold wf in W.
    destruct (mgr v) as [t|] eqn:Em.
    2:{ unfold v_copy. rewrite Em. cbn. split; [|split; [apply calm_refl|split; [reflexivity|]]].
        - apply inv_empty in I. exact I.
        - unfold cont. rewrite Em. reflexivity. }
    destruct W as [(-> & e & E & L)|(HA & H)].
    - unfold v_copy. rewrite Em, E. cbn. split; [|split; [apply calm_refl|split; [reflexivity|]]].
      + constructor; cbn [flat_map].
        * constructor; [|apply I]. left. split; [reflexivity|]. exists e. auto.
        * exact R.
        * exact P.
      + unfold cont. rewrite Em, E. reflexivity.
    - assert (K : exists o x, val o = Some x /\ res_ok t o /\ cont s v = Some (Own t x) /\
        v_copy v s = bind (construct t (copy_obj t o) s) (fun y s' => Ok (Var (Some t) y) s')).
      { unfold v_copy, f_copy, construct, cont. rewrite Em. destruct (shape_of t) eqn:Es.
        - destruct H as (o & E & (x & Ex) & Hr). exists o, x. rewrite E, Ex. repeat split; auto.
        - destruct H as (b & o & E & Hb & (x & Ex) & Hr). exists o, x. rewrite E, Hb, Ex. repeat split; auto.
        - destruct H as (b & o & E & Hb & (x & Ex) & Hr). exists o, x. rewrite E, Hb, Ex. repeat split; auto.
        - destruct H. }
      destruct K as (o & x & Hx & Hr & -> & ->). apply build_ok; [exact HA|apply copy_light; assumption|exact I].
  Qed.

  Lemma make_ok t x rv vs s : allowed t -> inv s vs ->
    match v_make t x rv s with
    | Ok v' s' => inv s' (v' :: vs) /\ calm s s' vs /\ lostb s' = lostb s /\ cont s' v' = Some (Own t x)
    | Exn s' => inv s' vs /\ calm s s' vs /\ (sure -> lostb s' = lostb s)
    | UB | Term => False
    end.
  Proof.
    intros HA I.
    set (build := fun s => if rv && steals t
      then Ok (Obj (Some x) (if owns t then Some (acquired s) else None)) (note_built t (owns t) s)
      else copy_obj t (Obj (Some x) (if owns t then Some 0 else None)) s).
    replace (v_make t x rv s) with (bind (construct t build s) (fun y s' => Ok (Var (Some t) y) s')).
    - apply build_ok; [exact HA| |exact I]. intro s0. unfold build. destruct (rv && steals t).
      + split; [repeat split|]. split; [reflexivity|]. split; [reflexivity|]. unfold res_ok, ores. cbn [res note_built acquired].
        destruct (owns t); split; eauto; intro r; cbn [count_occ].
        rewrite ltb_S_one. lia.
      + apply copy_light; [reflexivity|]. unfold res_ok. cbn. destruct (owns t); eauto.
    - unfold v_make, construct. fold build. destruct (shape_of t).
      + change (if rv && steals t then _ else _) with (build s). destruct (build s); reflexivity.
      + destruct (on_heap t build s); reflexivity.
      + destruct (on_heap t build s); reflexivity.
      + destruct (on_heap t build s); reflexivity.
  Qed.

  Lemma swap_calm a b vs s : inv s (a :: b :: vs) ->
    exists a' b' s', v_swap a b s = Ok (a', b') s' /\ inv s' (a' :: b' :: vs) /\
      cont s' a' = cont s b /\ cont s' b' = cont s a /\ calm s s' vs /\ lostb s' = lostb s.
  Proof.
    intro I. destruct (swap_ok a b vs s I) as (a' & b' & s' & E & I' & C1 & C2 & M & L). exists a', b', s'.
    repeat (split; [assumption|]). split; [|apply M]. split; [apply same_mem_agree; exact M|]. split; [apply M|exact L].
  Qed.

  Lemma replace_ok temp this vs s : inv s (temp :: this :: vs) ->
    exists v s', replace temp this s = Ok v s' /\ inv s' (v :: vs) /\ calm s s' vs /\ lostb s' = lostb s /\
      cont s' v = cont s temp.
  Proof.
    intro I. unfold replace. destruct (swap_calm temp this vs s I) as (t' & v' & s1 & E & I1 & C1 & C2 & K & LB).
    rewrite E. cbn [bind]. destruct (clear_ok t' (v' :: vs) s1 I1) as (s2 & E2 & I2 & A2 & X2 & L2 & LB2).
    rewrite E2. cbn [bind]. exists v', s2. split; [reflexivity|]. split; [exact I2|]. split; [|split; [congruence|]].
    - eapply calm_trans; [exact K|]. split; [eapply agree_sub; [exact A2|]; intros w Hw; right; exact Hw|]. auto.
    - rewrite (agree_cont _ _ _ v' A2) by (left; reflexivity). exact C2.
  Qed.

  Lemma move_ok v vs s : inv s (v :: vs) ->
    exists new old s', v_move v s = Ok (new, old) s' /\ inv s' (new :: old :: vs) /\ calm s s' vs /\ lostb s' = lostb s /\
      cont s' new = cont s v /\ cont s' old = None.
  Proof.
    intro I. unfold v_move. destruct (swap_calm v_empty v vs s) as (a & b & s' & E & I' & C1 & C2 & K & LB).
    { apply inv_empty. exact I. }
    exists a, b, s'. repeat (split; [assumption|]). exact C2.
  Qed.
End Inv.

(** ** Scopes *)
Definition olist {A} (o : option A) : list A := match o with Some x => [x] | None => [] end.
Definition live (sc : scope) : list var := flat_map olist sc.

Lemma put_put {A} (l : list A) i x y : put (put l i x) i y = put l i y.
Proof. revert i. induction l as [|z l IH]; intros [|i]; cbn; auto. f_equal. apply IH. Qed.

Lemma put_comm {A} (l : list A) i j x y : i <> j -> put (put l i x) j y = put (put l j y) i x.
Proof. revert i j. induction l as [|z l IH]; intros [|i] [|j] N; cbn; auto; try congruence. f_equal. apply IH. congruence. Qed.

Lemma put_id {A} (l : list A) i x : nth_error l i = Some x -> put l i x = l.
Proof. revert i. induction l as [|z l IH]; intros [|i] H; cbn in *; try discriminate; [congruence|]. f_equal. auto. Qed.

Lemma put_out {A} (l : list A) i x : length l <= i -> put l i x = l.
Proof. revert i. induction l as [|z l IH]; intros [|i] H; cbn in *; auto; [lia|]. f_equal. apply IH; lia. Qed.

Lemma map_put {A B} (f : A -> B) l i x : map f (put l i x) = put (map f l) i (f x).
Proof. revert i. induction l as [|z l IH]; intros [|i]; cbn; auto. f_equal. apply IH. Qed.

Lemma live_put sc i x y : nth_error sc i = Some x -> Permutation (live (put sc i y)) (olist y ++ live (put sc i None)).
Proof.
  intro H. destruct (split_at _ _ _ H) as (l & r & _ & _ & HP). rewrite !HP. unfold live. rewrite !flat_map_app. cbn.
  rewrite !app_assoc. apply Permutation_app_tail. apply Permutation_app_comm.
Qed.

Lemma live_at sc i x : nth_error sc i = Some x -> Permutation (live sc) (olist x ++ live (put sc i None)).
Proof. intro H. rewrite <- (live_put sc i x x H). rewrite (put_id _ _ _ H). reflexivity. Qed.

Lemma live_at2 sc i j x y : i <> j -> nth_error sc i = Some x -> nth_error sc j = Some y ->
  Permutation (live sc) (olist x ++ olist y ++ live (put (put sc i None) j None)).
Proof.
  intros N Hi Hj. rewrite (live_at _ _ _ Hi). apply Permutation_app_head. apply live_at. rewrite put_other by exact N. exact Hj.
Qed.

Lemma live_put2 sc i j x y x' y' : i <> j -> nth_error sc i = Some x -> nth_error sc j = Some y ->
  Permutation (live (put (put sc i x') j y')) (olist x' ++ olist y' ++ live (put (put sc i None) j None)).
Proof.
  intros N Hi Hj. rewrite (live_put (put sc i x') j y) by (rewrite put_other by exact N; exact Hj).
  rewrite (put_comm _ i j x' None N). rewrite (live_put (put sc j None) i x) by (rewrite put_other by congruence; exact Hi).
  rewrite (put_comm sc j i) by congruence. rewrite !app_assoc. apply Permutation_app_tail. apply Permutation_app_comm.
Qed.

Lemma alive_nth sc i v : alive sc i = Some v -> nth_error sc i = Some (Some v).
Proof. unfold alive. destruct (nth_error sc i) as [[w|]|]; congruence. Qed.

Lemma dead_nth sc i : dead sc i = true -> nth_error sc i = Some None.
Proof. unfold dead. destruct (nth_error sc i) as [[w|]|]; congruence. Qed.

Lemma in_live sc v : In v (live sc) <-> In (Some v) sc.
Proof.
  unfold live. rewrite in_flat_map. split.
  - intros ([w|] & H1 & H2); [|destruct H2]. destruct H2 as [<-|[]]. exact H1.
  - intro H. exists (Some v). split; [exact H|left; reflexivity].
Qed.

Definition view (s : store) (sc : scope) := map (option_map (cont s)) sc.

Lemma view_agree s s' sc : agree s s' (live sc) -> view s' sc = view s sc.
Proof.
  intro H. unfold view. apply map_ext_in. intros [v|] Hv; [|reflexivity]. cbn. f_equal.
  eapply agree_cont; [exact H|]. apply in_live. exact Hv.
Qed.

Lemma view_put s s' sc i y : agree s s' (live (put sc i None)) ->
  view s' (put sc i y) = put (view s sc) i (option_map (cont s') y).
Proof.
  intro H. unfold view. rewrite map_put.
  rewrite <- (put_put (map _ sc) i None), <- (put_put (map (option_map (cont s)) sc) i None). f_equal.
  change (put (map (option_map (cont s')) sc) i None) with (put (map (option_map (cont s')) sc) i (option_map (cont s') None)).
  change (put (map (option_map (cont s)) sc) i None) with (put (map (option_map (cont s)) sc) i (option_map (cont s) None)).
  rewrite <- !map_put. apply (view_agree s s' _ H).
Qed.

Lemma view_put2 s s' sc i j x y : i <> j -> agree s s' (live (put (put sc i None) j None)) ->
  view s' (put (put sc i x) j y) = put (put (view s sc) i (option_map (cont s') x)) j (option_map (cont s') y).
Proof.
  intros N H. rewrite (put_comm sc i j x y N). rewrite <- (put_put (put sc j y) i None). unfold view at 1. rewrite map_put.
  fold (view s' (put (put sc j y) i None)). rewrite (put_comm sc j i) by congruence.
  rewrite (view_put s s' (put sc i None) j y H). unfold view. rewrite map_put. cbn [option_map].
  rewrite (put_comm _ i j) by exact N. rewrite put_put. rewrite (put_comm _ j i) by congruence. reflexivity.
Qed.

Lemma lives_abs s sc i : lives (abs s sc) i = option_map (cont s) (alive sc i).
Proof. unfold lives, alive, abs. cbn [fst]. rewrite nth_error_map. destruct (nth_error sc i) as [[v|]|]; reflexivity. Qed.

Lemma free_abs s sc i : free_name (abs s sc) i = dead sc i.
Proof. unfold free_name, dead, abs. cbn [fst]. rewrite nth_error_map. destruct (nth_error sc i) as [[v|]|]; reflexivity. Qed.

Section Exec.
  Variable allowed : ty -> Prop.
  Hypothesis allowed_safe : forall t, allowed t -> safe t.
  Local Notation inv := (inv allowed).
  Local Notation calm := (calm allowed).

  Lemma calm_abs s s' sc : calm s s' (live sc) -> abs s' sc = abs s sc.
  Proof. intros (A & E & _). unfold abs. f_equal; [|exact E]. apply view_agree. exact A. Qed.

  Lemma abs_put s s' sc i y : calm s s' (live (put sc i None)) ->
    abs s' (put sc i y) = set (abs s sc) i (option_map (cont s') y).
  Proof. intros (A & E & _). unfold abs, set. cbn [fst snd]. f_equal; [|exact E]. apply view_put. exact A. Qed.

  Lemma abs_put2 s s' sc i j x y : i <> j -> calm s s' (live (put (put sc i None) j None)) ->
    abs s' (put (put sc i x) j y) = set (set (abs s sc) i (option_map (cont s') x)) j (option_map (cont s') y).
  Proof. intros N (A & E & _). unfold abs, set. cbn [fst snd]. f_equal; [|exact E]. apply view_put2; assumption. Qed.

  Definition good (o : op) (sc : scope) (s : store) (r : out scope) : Prop :=
    match r with
    | Ok sc' s' => inv s' (live sc') /\ abs s' sc' = meaning o (abs s sc) /\ length sc' = length sc /\
                   (leakless allowed -> lost s' = lost s) /\ lostb s' = lostb s
    | Exn s' => inv s' (live sc) /\ abs s' sc = abs s sc /\ copies o /\
                (leakless allowed -> lost s' = lost s) /\ (sure allowed -> lostb s' = lostb s)
    | UB | Term => False
    end.

  Lemma good_skip o sc s : inv s (live sc) -> meaning o (abs s sc) = abs s sc -> good o sc s (Ok sc s).
  Proof. intros I E. cbn. rewrite E. auto. Qed.

  Lemma calm_same s vs : calm s s vs.
  Proof. apply calm_refl. Qed.

  Lemma set_same s sc i v : alive sc i = Some v -> set (abs s sc) i (Some (cont s v)) = abs s sc.
  Proof.
    intro H. apply alive_nth in H. unfold set, abs. cbn [fst snd]. f_equal. apply put_id. rewrite nth_error_map, H. reflexivity.
  Qed.

  Lemma inv_at s sc i v : inv s (live sc) -> alive sc i = Some v -> inv s (v :: live (put sc i None)).
  Proof. intros I H. apply alive_nth in H. eapply inv_perm; [exact I|]. apply (live_at _ _ _ H). Qed.

  Lemma inv_dead s sc i : inv s (live sc) -> dead sc i = true -> inv s (live (put sc i None)).
  Proof. intros I H. apply dead_nth in H. eapply inv_perm; [exact I|]. apply (live_at _ _ _ H). Qed.

  Lemma inv_put s sc i x y : nth_error sc i = Some x -> inv s (olist y ++ live (put sc i None)) -> inv s (live (put sc i y)).
  Proof. intros H I. eapply inv_perm; [exact I|]. symmetry. eapply live_put. exact H. Qed.

  Lemma inv_put2 s sc i j x y x' y' : i <> j -> nth_error sc i = Some x -> nth_error sc j = Some y ->
    inv s (olist x' ++ olist y' ++ live (put (put sc i None) j None)) -> inv s (live (put (put sc i x') j y')).
  Proof. intros N Hi Hj I. eapply inv_perm; [exact I|]. symmetry. eapply live_put2; eassumption. Qed.

  Lemma live_sub sc i : incl (live (put sc i None)) (live sc).
  Proof.
    intros v Hv. apply in_live in Hv. apply in_live. apply In_nth_error in Hv. destruct Hv as [j Hj].
    destruct (put_nth _ _ _ _ _ Hj) as [[_ K]|[_ K]]; [discriminate|]. eapply nth_error_In. exact K.
  Qed.

  Lemma exec_ok o sc s : inv s (live sc) -> (forall t, In t (types_of o) -> allowed t) -> no_self_swap o \/ (forall t, allowed t -> swappable t) ->
    good o sc s (exec o sc s).
  Proof.
    intros I HT HS. destruct o as [i|i t x rv|i e|i j|i j|i j|i j|i t x rv|i e|i j|i|i|i x]; cbn [exec].
    - (* New *)
      destruct (dead sc i) eqn:Ed.
      2:{ apply good_skip; [exact I|]. cbn. rewrite free_abs, Ed. reflexivity. }
      cbn [good meaning]. rewrite free_abs, Ed. split; [|split; [|split; [apply put_length|auto]]].
      + eapply inv_put; [apply dead_nth; exact Ed|]. cbn. apply inv_empty. apply inv_dead; assumption.
      + apply abs_put. apply calm_same.
    - (* Make *)
      destruct (dead sc i) eqn:Ed.
      2:{ apply good_skip; [exact I|]. cbn. rewrite free_abs, Ed. reflexivity. }
      pose proof (make_ok allowed allowed_safe t x rv (live sc) s (HT t (or_introl eq_refl)) I) as H.
      destruct (v_make t x rv s) as [v s'|s'| |]; cbn [bind good meaning]; try exact H.
      + destruct H as (H1 & K & LB & C). rewrite free_abs, Ed. split; [|split; [|split; [apply put_length|split; [apply K|exact LB]]]].
        * eapply inv_put; [apply dead_nth; exact Ed|]. cbn. eapply inv_perm; [exact H1|]. constructor.
          apply (live_at _ _ _ (dead_nth _ _ Ed)).
        * rewrite (abs_put s s'); [cbn; rewrite C; reflexivity|]. eapply calm_sub; [exact K|apply live_sub].
      + destruct H as (H1 & K & LB). split; [exact H1|]. split; [apply calm_abs; exact K|]. split; [exact Logic.I|]. split; [apply K|exact LB].
    - (* MakeRef *)
      destruct (dead sc i && (e <? length (ext s))) eqn:Ed.
      2:{ apply good_skip; [exact I|]. cbn [meaning]. rewrite free_abs. change (snd (abs s sc)) with (ext s). rewrite Ed. reflexivity. }
      cbn [good meaning]. rewrite free_abs. change (snd (abs s sc)) with (ext s). rewrite Ed. apply andb_true_iff in Ed. destruct Ed as [Ed El].
      apply Nat.ltb_lt in El. split; [|split; [|split; [apply put_length|auto]]].
      + eapply inv_put; [apply dead_nth; exact Ed|]. cbn. pose proof (inv_dead _ _ _ I Ed) as [W R P]. constructor; auto.
        constructor; [|exact W]. left. split; [reflexivity|]. exists e. auto.
      + rewrite (abs_put s s); [reflexivity|apply calm_same].
    - (* CopyNew *)
      destruct (alive sc j) as [v|] eqn:Ej.
      2:{ apply good_skip; [exact I|]. cbn. rewrite lives_abs, Ej. reflexivity. }
      destruct (dead sc i) eqn:Ed.
      2:{ apply good_skip; [exact I|]. cbn. rewrite lives_abs, Ej, free_abs, Ed. reflexivity. }
      assert (Hv : In v (live sc)) by (apply in_live; eapply nth_error_In; apply alive_nth; exact Ej).
      pose proof (copy_ok allowed allowed_safe v (live sc) s I Hv) as H.
      destruct (v_copy v s) as [v' s'|s'| |]; cbn [bind good meaning]; try exact H.
      + destruct H as (H1 & K & LB & C). rewrite lives_abs, Ej, free_abs, Ed. cbn [option_map].
        split; [|split; [|split; [apply put_length|split; [apply K|exact LB]]]].
        * eapply inv_put; [apply dead_nth; exact Ed|]. cbn. eapply inv_perm; [exact H1|]. constructor.
          apply (live_at _ _ _ (dead_nth _ _ Ed)).
        * rewrite (abs_put s s'); [cbn; rewrite C; reflexivity|]. eapply calm_sub; [exact K|apply live_sub].
      + destruct H as (H1 & K & LB). split; [exact H1|]. split; [apply calm_abs; exact K|]. split; [exact Logic.I|]. split; [apply K|exact LB].
    - (* MoveNew *)
      destruct (alive sc j) as [v|] eqn:Ej.
      2:{ apply good_skip; [exact I|]. cbn. rewrite lives_abs, Ej. reflexivity. }
      destruct (dead sc i) eqn:Ed.
      2:{ apply good_skip; [exact I|]. cbn. rewrite lives_abs, Ej, free_abs, Ed. reflexivity. }
      apply alive_nth in Ej as Nj. apply dead_nth in Ed as Ni. assert (N : j <> i) by congruence.
      assert (PM : Permutation (live sc) (v :: live (put (put sc j None) i None))).
      { apply (live_at2 sc j i (Some v) None N Nj Ni). }
      destruct (move_ok allowed allowed_safe v (live (put (put sc j None) i None)) s (inv_perm _ _ _ _ I PM)) as (new & old & s' & E & I' & K & LB & C1 & C2).
      rewrite E. cbn [bind good meaning]. rewrite lives_abs, Ej, free_abs, Ed. cbn [option_map].
      split; [|split; [|split; [rewrite !put_length; reflexivity|split; [apply K|exact LB]]]].
      + eapply inv_put2; [exact N|exact Nj|exact Ni|]. cbn. eapply inv_perm; [exact I'|]. constructor.
      + rewrite (abs_put2 s s' sc j i); [cbn; rewrite C1, C2; reflexivity|exact N|exact K].
    - (* CopyAssign *)
      destruct (alive sc i) as [a|] eqn:Ei.
      2:{ apply good_skip; [exact I|]. cbn. rewrite !lives_abs, Ei. reflexivity. }
      destruct (alive sc j) as [b|] eqn:Ej.
      2:{ apply good_skip; [exact I|]. cbn. rewrite !lives_abs, Ei, Ej. reflexivity. }
      destruct (Nat.eqb_spec i j) as [->|N].
      { apply good_skip; [exact I|]. cbn [meaning]. rewrite !lives_abs, Ei. cbn. apply set_same; exact Ei. }
      assert (Hv : In b (live sc)) by (apply in_live; eapply nth_error_In; apply alive_nth; exact Ej).
      pose proof (copy_ok allowed allowed_safe b (live sc) s I Hv) as H.
      destruct (v_copy b s) as [v' s'|s'| |]; cbn [bind]; try exact H.
      + destruct H as (H1 & K & LB & C). pose proof (alive_nth _ _ _ Ei) as Ni.
        assert (I1 : inv s' (v' :: a :: live (put sc i None))).
        { eapply inv_perm; [exact H1|]. constructor. apply (live_at _ _ _ Ni). }
        destruct (replace_ok allowed allowed_safe _ _ _ _ I1) as (w & s2 & E2 & I2 & K2 & LB2 & C2). rewrite E2. cbn [bind good meaning].
        rewrite !lives_abs, Ei, Ej. cbn [option_map].
        pose proof (calm_trans _ _ _ _ _ (calm_sub _ _ _ _ _ K (live_sub sc i)) K2) as KK.
        split; [|split; [|split; [apply put_length|split; [apply KK|congruence]]]].
        * eapply inv_put; [exact Ni|]. exact I2.
        * rewrite (abs_put s s2); [cbn; rewrite C2, C; reflexivity|exact KK].
      + destruct H as (H1 & K & LB). split; [exact H1|]. split; [apply calm_abs; exact K|]. split; [exact Logic.I|]. split; [apply K|exact LB].
    - (* MoveAssign *)
      destruct (alive sc i) as [a|] eqn:Ei.
      2:{ apply good_skip; [exact I|]. cbn. rewrite !lives_abs, Ei. reflexivity. }
      destruct (alive sc j) as [b|] eqn:Ej.
      2:{ apply good_skip; [exact I|]. cbn. rewrite !lives_abs, Ei, Ej. reflexivity. }
      destruct (Nat.eqb_spec i j) as [->|N].
      { apply good_skip; [exact I|]. cbn [meaning]. rewrite !lives_abs, Ei. cbn. rewrite Nat.eqb_refl. reflexivity. }
      pose proof (alive_nth _ _ _ Ei) as Ni. pose proof (alive_nth _ _ _ Ej) as Nj. assert (N' : j <> i) by congruence.
      set (rest := live (put (put sc j None) i None)).
      assert (PM : Permutation (live sc) (b :: a :: rest)) by (apply (live_at2 sc j i (Some b) (Some a) N' Nj Ni)).
      destruct (move_ok allowed allowed_safe b (a :: rest) s (inv_perm _ _ _ _ I PM)) as (new & old & s1 & E & I1 & K & LB & C1 & C2).
      rewrite E. cbn [bind].
      assert (I1' : inv s1 (new :: a :: old :: rest)) by (eapply inv_perm; [exact I1|]; constructor; apply perm_swap).
      destruct (replace_ok allowed allowed_safe _ _ _ _ I1') as (w & s2 & E2 & I2 & K2 & LB2 & C3). rewrite E2. cbn [bind good meaning].
      rewrite !lives_abs, Ei, Ej. cbn [option_map]. apply Nat.eqb_neq in N as ->.
      assert (KK : calm s s2 rest).
      { eapply calm_trans; [eapply calm_sub; [exact K|]|eapply calm_sub; [exact K2|]]; intros z Hz; right; exact Hz. }
      assert (Co : cont s2 old = None).
      { rewrite <- C2. destruct K2 as (A2 & _). eapply agree_cont; [exact A2|left; reflexivity]. }
      split; [|split; [|split; [rewrite !put_length; reflexivity|split; [apply KK|congruence]]]].
      + eapply inv_put2; [exact N'|exact Nj|exact Ni|]. cbn. eapply inv_perm; [exact I2|]. apply perm_swap.
      + rewrite (abs_put2 s s2 sc j i); [cbn; rewrite C3, C1, Co; reflexivity|exact N'|exact KK].
    - (* Assign *)
      destruct (alive sc i) as [a|] eqn:Ei.
      2:{ apply good_skip; [exact I|]. cbn. rewrite !lives_abs, Ei. reflexivity. }
      pose proof (make_ok allowed allowed_safe t x rv (live sc) s (HT t (or_introl eq_refl)) I) as H.
      destruct (v_make t x rv s) as [v' s'|s'| |]; cbn [bind]; try exact H.
      + destruct H as (H1 & K & LB & C). pose proof (alive_nth _ _ _ Ei) as Ni.
        assert (I1 : inv s' (v' :: a :: live (put sc i None))).
        { eapply inv_perm; [exact H1|]. constructor. apply (live_at _ _ _ Ni). }
        destruct (replace_ok allowed allowed_safe _ _ _ _ I1) as (w & s2 & E2 & I2 & K2 & LB2 & C2). rewrite E2. cbn [bind good meaning].
        rewrite !lives_abs, Ei. cbn [option_map].
        pose proof (calm_trans _ _ _ _ _ (calm_sub _ _ _ _ _ K (live_sub sc i)) K2) as KK.
        split; [|split; [|split; [apply put_length|split; [apply KK|congruence]]]].
        * eapply inv_put; [exact Ni|]. exact I2.
        * rewrite (abs_put s s2); [cbn; rewrite C2, C; reflexivity|exact KK].
      + destruct H as (H1 & K & LB). split; [exact H1|]. split; [apply calm_abs; exact K|]. split; [exact Logic.I|]. split; [apply K|exact LB].
    - (* AssignRef *)
      destruct (alive sc i) as [a|] eqn:Ei.
      2:{ apply good_skip; [exact I|]. cbn. rewrite !lives_abs, Ei. reflexivity. }
      destruct (e <? length (ext s)) eqn:El.
      2:{ apply good_skip; [exact I|]. cbn [meaning]. rewrite !lives_abs, Ei. cbn [option_map]. change (snd (abs s sc)) with (ext s). rewrite El. reflexivity. }
      pose proof (alive_nth _ _ _ Ei) as Ni. apply Nat.ltb_lt in El as Le.
      assert (I1 : inv s (Var (Some ref_ty) (Addr e) :: a :: live (put sc i None))).
      { pose proof (inv_at _ _ _ _ I Ei) as [W R P]. constructor; auto. constructor; [|exact W]. left. split; [reflexivity|]. exists e. auto. }
      destruct (replace_ok allowed allowed_safe _ _ _ _ I1) as (w & s2 & E2 & I2 & K2 & LB2 & C2). rewrite E2. cbn [bind good meaning].
      rewrite !lives_abs, Ei. cbn [option_map]. change (snd (abs s sc)) with (ext s). rewrite El.
      split; [|split; [|split; [apply put_length|split; [apply K2|congruence]]]].
      + eapply inv_put; [exact Ni|]. exact I2.
      + rewrite (abs_put s s2); [cbn [option_map]; rewrite C2; reflexivity|exact K2].
    - (* Swap *)
      destruct (alive sc i) as [a|] eqn:Ei.
      2:{ apply good_skip; [exact I|]. cbn. rewrite !lives_abs, Ei. reflexivity. }
      destruct (alive sc j) as [b|] eqn:Ej.
      2:{ apply good_skip; [exact I|]. cbn. rewrite !lives_abs, Ei, Ej. reflexivity. }
      destruct (Nat.eqb_spec i j) as [E|N].
      { subst j. assert (a = b) by congruence. subst b. destruct HS as [HS|HS]; [destruct (HS eq_refl)|].
        assert (Y : v_swap_self a s = Ok a s).
        { pose proof (i_wf _ _ _ (inv_at _ _ _ _ I Ei)) as W. inversion W as [|? ? Wa _]. subst. unfold wf in Wa. unfold v_swap_self.
          destruct (mgr a) as [t|]; [|reflexivity]. destruct (shape_of t) eqn:Es; try reflexivity.
          destruct Wa as [(-> & _)|[HA _]]; [discriminate Es|]. destruct (HS t HA Es) as [H1 H2].
          destruct (allowed_safe t HA) as (_ & _ & _ & H3). unfold trivial. rewrite H1, H2, (H3 Es H2). reflexivity. }
        rewrite Y. cbn [bind]. rewrite (put_id sc i (Some a) (alive_nth _ _ _ Ei)). apply good_skip; [exact I|].
        cbn [meaning]. rewrite !lives_abs, Ei. cbn [option_map]. unfold set, abs. cbn [fst snd].
        assert (Q : put (map (option_map (cont s)) sc) i (Some (cont s a)) = map (option_map (cont s)) sc).
        { apply put_id. rewrite nth_error_map, (alive_nth _ _ _ Ei). reflexivity. }
        rewrite !Q. reflexivity. }
      pose proof (alive_nth _ _ _ Ei) as Ni. pose proof (alive_nth _ _ _ Ej) as Nj.
      assert (PM : Permutation (live sc) (a :: b :: live (put (put sc i None) j None))) by (apply (live_at2 sc i j (Some a) (Some b) N Ni Nj)).
      destruct (swap_calm allowed allowed_safe _ _ _ _ (inv_perm _ _ _ _ I PM)) as (a' & b' & s' & E & I' & C1 & C2 & K & LB).
      rewrite E. cbn [bind good meaning]. rewrite !lives_abs, Ei, Ej. cbn [option_map].
      split; [|split; [|split; [rewrite !put_length; reflexivity|split; [apply K|exact LB]]]].
      + eapply inv_put2; [exact N|exact Ni|exact Nj|]. exact I'.
      + rewrite (abs_put2 s s' sc i j); [cbn; rewrite C1, C2; reflexivity|exact N|exact K].
    - (* Clear *)
      destruct (alive sc i) as [a|] eqn:Ei.
      2:{ apply good_skip; [exact I|]. cbn. rewrite !lives_abs, Ei. reflexivity. }
      destruct (clear_ok allowed a _ _ (inv_at _ _ _ _ I Ei)) as (s' & E & I' & A & X & L & LB).
      rewrite E. cbn [bind good meaning]. rewrite !lives_abs, Ei. cbn [option_map].
      split; [|split; [|split; [apply put_length|split; auto]]].
      + eapply inv_put; [apply alive_nth; exact Ei|]. cbn. apply inv_empty. exact I'.
      + rewrite (abs_put s s'); [reflexivity|]. split; auto.
    - (* Drop *)
      destruct (alive sc i) as [a|] eqn:Ei.
      2:{ apply good_skip; [exact I|]. cbn. rewrite !lives_abs, Ei. reflexivity. }
      destruct (clear_ok allowed a _ _ (inv_at _ _ _ _ I Ei)) as (s' & E & I' & A & X & L & LB).
      rewrite E. cbn [bind good meaning]. rewrite !lives_abs, Ei. cbn [option_map].
      split; [|split; [|split; [apply put_length|split; auto]]].
      + exact I'.
      + rewrite (abs_put s s'); [reflexivity|]. split; auto.
    - (* Write *)
      destruct (alive sc i) as [[m y]|] eqn:Ei.
      2:{ apply good_skip; [exact I|]. cbn. rewrite !lives_abs, Ei. reflexivity. }
      pose proof (alive_nth _ _ _ Ei) as Ni.
      pose proof (inv_at _ _ _ _ I Ei) as I1. pose proof I1 as [W R P]. inversion W as [|? ? Wa Wv]. subst. unfold wf in Wa. cbn [mgr st] in Wa.
      destruct m as [t|].
      2:{ subst y. apply good_skip; [exact I|]. cbn. rewrite !lives_abs, Ei. reflexivity. }
      destruct Wa as [(-> & e & -> & Le)|(HA & H)].
      { cbn [good meaning]. rewrite lives_abs, Ei. cbn [option_map cont mgr st].
        split; [|split; [reflexivity|auto]]. destruct I as [W0 R0 P0]. constructor; auto.
        eapply agree_wf; [|exact W0]. split; [cbn; apply put_length|]. intros; reflexivity. }
      assert (BLK : forall b o x0, y = Ptr b -> block s b = Some o -> val o = Some x0 -> res_ok t o ->
        good (Write i x) sc s (Ok sc (with_heap s (put (heap s) b (Some (Obj (Some x) (res o))))))).
      { intros b o x0 -> Hb Ex Hr. set (s' := with_heap s _).
        destruct (held_ptr allowed s _ _ b I1 eq_refl) as (Lb & NF & OTH & NL).
        assert (HB' : block s' b = Some (Obj (Some x) (res o))).
        { unfold block, s'. cbn [with_heap freed heap]. rewrite put_same by exact Lb.
          destruct (in_dec Nat.eq_dec b (freed s)); [contradiction|reflexivity]. }
        assert (AG : agree s s' (live (put sc i None))).
        { split; [reflexivity|]. intros v c Hv Ec. unfold s'. apply block_put_other. intros ->. exact (OTH v Hv Ec). }
        assert (K : calm s s' (live (put sc i None))) by (split; [exact AG|split; reflexivity]).
        assert (Wt : wf allowed s' (Var (Some t) (Ptr b))).
        { unfold wf. cbn. right. split; [exact HA|]. destruct (shape_of t).
          - destruct H as (? & ? & _). discriminate.
          - exists b. eexists. split; [reflexivity|]. split; [exact HB'|]. split; [eexists; reflexivity|exact Hr].
          - exists b. eexists. split; [reflexivity|]. split; [exact HB'|]. split; [eexists; reflexivity|exact Hr].
          - destruct H. }
        cbn [good meaning]. rewrite lives_abs, Ei. cbn [option_map]. unfold cont at 1. cbn [mgr st]. rewrite Hb, Ex.
        assert (HC : cont s' (Var (Some t) (Ptr b)) = Some (Own t x)) by (unfold cont; cbn [mgr st]; rewrite HB'; reflexivity).
        split; [|split; [|split; [reflexivity|auto]]].
        - rewrite <- (put_id _ _ _ Ni). eapply inv_put; [exact Ni|]. cbn [olist app]. constructor.
          + constructor; [exact Wt|]. eapply agree_wf; [exact AG|exact Wv].
          + intro r. specialize (R r). cbn [flat_map] in *. rewrite (agree_res _ _ _ AG). unfold res_of at 1. unfold res_of at 1 in R.
            cbn [st] in *. rewrite HB'. rewrite Hb in R. exact R.
          + intro p. specialize (P p). unfold s'. cbn [with_heap heap freed lostb]. rewrite put_length. exact P.
        - rewrite <- (put_id _ _ _ Ni) at 1. rewrite (abs_put s s' sc i _ K). cbn [option_map]. rewrite HC. reflexivity. }
      destruct (shape_of t) eqn:Es.
      + destruct H as (o & -> & (x0 & Ex) & Hr). cbn [good meaning]. rewrite lives_abs, Ei. cbn [option_map]. unfold cont at 1. cbn [mgr st]. rewrite Ex.
        split; [|split; [|split; [apply put_length|auto]]].
        * eapply inv_put; [exact Ni|]. cbn [olist app]. constructor.
          -- constructor; [|exact Wv]. right. split; [exact HA|]. cbn. rewrite Es. eexists. split; [reflexivity|]. split; [eexists; reflexivity|exact Hr].
          -- exact R.
          -- exact P.
        * rewrite (abs_put s s); [reflexivity|apply calm_same].
      + destruct H as (b & o & -> & Hb & (x0 & Ex) & Hr). rewrite Hb. apply (BLK b o x0 eq_refl Hb Ex Hr).
      + destruct H as (b & o & -> & Hb & (x0 & Ex) & Hr). rewrite Hb. apply (BLK b o x0 eq_refl Hb Ex Hr).
      + destruct H.
  Qed.

  (** Which statements may throw. *)
  Lemma run_ok p : forall sc s, inv s (live sc) -> uses allowed p -> (forall o, In o p -> no_self_swap o) \/ (forall t, allowed t -> swappable t) ->
    exists sc' thrown s', run p sc s = Ok (sc', thrown) s' /\ inv s' (live sc') /\
      abs s' sc' = meaning_all p thrown (abs s sc) /\ length thrown = length p /\ length sc' = length sc /\
      (forall k o, nth_error p k = Some o -> nth_error thrown k = Some true -> copies o) /\
      (leakless allowed -> lost s' = lost s) /\ (sure allowed -> lostb s' = lostb s) /\
      ((forall f, In f thrown -> f = false) -> lostb s' = lostb s).
  Proof.
    induction p as [|o p IH]; intros sc s I HU HS.
    - exists sc, [], s. cbn. split; [reflexivity|]. split; [exact I|]. do 3 (split; [reflexivity|]). split; [intros [|k]; discriminate|]. auto.
    - assert (G : good o sc s (exec o sc s)).
      { apply exec_ok; [exact I|intros t Ht; apply (HU o t); [left; reflexivity|exact Ht]|destruct HS as [HS|HS]; [left; apply HS; left; reflexivity|right; exact HS]]. }
      assert (HU' : uses allowed p) by (intros q t Hq; apply HU; right; exact Hq).
      assert (HS' : (forall q, In q p -> no_self_swap q) \/ (forall t, allowed t -> swappable t))
        by (destruct HS as [HS|HS]; [left; intros q Hq; apply HS; right; exact Hq|right; exact HS]).
      cbn [run]. destruct (exec o sc s) as [sc1 s1|s1| |]; cbn [good] in G; [| |destruct G|destruct G].
      + destruct G as (H & A1 & N1 & L1 & B1). destruct (IH sc1 s1 H HU' HS') as (sc' & th & s' & E & I' & A & LT & LN & T & L & B & B0).
        rewrite E. cbn [bind]. exists sc', (false :: th), s'. split; [reflexivity|]. split; [exact I'|]. cbn [meaning_all length].
        rewrite <- A1. split; [exact A|]. split; [congruence|]. split; [congruence|]. split; [|split; [|split]].
        * intros [|k] q Hq Hf; cbn in *; [discriminate|eapply T; eassumption].
        * intro LL. rewrite (L LL). apply L1; exact LL.
        * intro SS. rewrite (B SS). exact B1.
        * intro F. rewrite B0; [exact B1|]. intros f Hf. apply F. right; exact Hf.
      + destruct G as (H & A1 & C1 & L1 & B1). destruct (IH sc s1 H HU' HS') as (sc' & th & s' & E & I' & A & LT & LN & T & L & B & B0).
        rewrite E. cbn [bind]. exists sc', (true :: th), s'. split; [reflexivity|]. split; [exact I'|]. cbn [meaning_all length].
        rewrite <- A1. split; [exact A|]. split; [congruence|]. split; [congruence|]. split; [|split; [|split]].
        * intros [|k] q Hq Hf; cbn in *; [congruence|eapply T; eassumption].
        * intro LL. rewrite (L LL). apply L1; exact LL.
        * intro SS. rewrite (B SS). apply B1; exact SS.
        * intro F. discriminate (F true (or_introl eq_refl)).
  Qed.

  Lemma begin_inv n outside failures : inv (snd (begin n outside failures)) (live (fst (begin n outside failures))).
  Proof.
    unfold begin. cbn [fst snd]. assert (E : live (repeat None n) = []) by (induction n; cbn; auto). rewrite E.
    constructor; cbn; auto.
  Qed.
End Exec.

Lemma cnt_seq n r : cnt (seq 0 n) r = one (r <? n).
Proof.
  induction n as [|n IH]; [reflexivity|]. rewrite seq_S, count_occ_app, IH, ltb_S_one. cbn [count_occ Nat.add].
  destruct (Nat.eq_dec n r); lia.
Qed.

Lemma perm_seq l n : (forall r, cnt l r = one (r <? n)) -> Permutation l (seq 0 n).
Proof. intro H. apply (Permutation_count_occ Nat.eq_dec). intro r. rewrite cnt_seq. apply H. Qed.

Lemma gone_live sc : all_gone sc -> live sc = [].
Proof.
  intro H. destruct (live sc) as [|v l] eqn:E; [reflexivity|]. exfalso.
  assert (Hv : In v (live sc)) by (rewrite E; left; reflexivity). apply in_live in Hv. apply In_nth_error in Hv.
  destruct Hv as [i Hi]. exact (H i v Hi).
Qed.

(** Everything about a run from the beginning. *)
Lemma run_begin (P : ty -> Prop) p n outside failures : (forall t, P t -> safe t) -> uses P p -> (forall o, In o p -> no_self_swap o) \/ (forall t, P t -> swappable t) ->
  exists sc thrown s, run p (fst (begin n outside failures)) (snd (begin n outside failures)) = Ok (sc, thrown) s /\
    inv P s (live sc) /\ abs s sc = meaning_all p thrown (repeat None n, outside) /\ length thrown = length p /\
    (forall k o, nth_error p k = Some o -> nth_error thrown k = Some true -> copies o) /\
    (leakless P -> lost s = []) /\ (sure P -> lostb s = []) /\ ((forall f, In f thrown -> f = false) -> lostb s = []).
Proof.
  intros HP HU HS. destruct (run_ok P HP p _ _ (begin_inv P n outside failures) HU HS) as (sc & th & s & E & I & A & LT & _ & T & L & B & B0).
  exists sc, th, s. split; [exact E|]. split; [exact I|]. split; [|split; [exact LT|split; [exact T|split; [exact L|split; [exact B|exact B0]]]]].
  rewrite A. f_equal. unfold abs, begin. cbn. f_equal. clear. induction n; cbn; auto. f_equal. assumption.
Qed.

Lemma inv_nodup P s vs : inv P s vs -> NoDup (released s) /\ NoDup (freed s) /\
  (forall r, In r (released s) -> r < acquired s) /\ (forall b, In b (freed s) -> b < length (heap s)).
Proof.
  intros [_ R B]. split; [|split; [|split]].
  - apply (NoDup_count_occ Nat.eq_dec). intro r. specialize (R r). unfold one in R. destruct (r <? acquired s); lia.
  - apply (NoDup_count_occ Nat.eq_dec). intro r. specialize (B r). unfold one in B. destruct (r <? length (heap s)); lia.
  - intros r H. apply (count_occ_In Nat.eq_dec) in H. specialize (R r). unfold one in R. destruct (Nat.ltb_spec r (acquired s)); lia.
  - intros r H. apply (count_occ_In Nat.eq_dec) in H. specialize (B r). unfold one in B. destruct (Nat.ltb_spec r (length (heap s))); lia.
Qed.

Lemma inv_gone P s sc : inv P s (live sc) -> all_gone sc ->
  Permutation (released s ++ lost s) (seq 0 (acquired s)) /\ Permutation (freed s ++ lostb s) (seq 0 (length (heap s))).
Proof.
  intros [_ R B] G. rewrite (gone_live _ G) in *. split; apply perm_seq; intro r.
  - rewrite count_occ_app. specialize (R r). cbn in R. exact R.
  - rewrite count_occ_app. specialize (B r). cbn in B. exact B.
Qed.

Lemma inv_held P s sc i v : inv P s (live sc) -> nth_error sc i = Some (Some v) ->
  (forall o, st v = In_ o -> forall r, res o = Some r -> r < acquired s /\ ~ In r (released s)) /\
  (forall b, st v = Ptr b -> ~ In b (freed s) /\ exists o, block s b = Some o /\ forall r, res o = Some r -> r < acquired s /\ ~ In r (released s)) /\
  (forall j w, j <> i -> nth_error sc j = Some (Some w) -> forall b, st v = Ptr b -> st w <> Ptr b).
Proof.
  intros I Hi. assert (Ha : alive sc i = Some v) by (unfold alive; rewrite Hi; reflexivity).
  pose proof (inv_at P _ _ _ _ I Ha) as I1.
  assert (HR : forall r, In r (res_of s v) -> r < acquired s /\ ~ In r (released s)).
  { intros r Hr. split; [|eapply not_released; [exact I1|exact Hr]].
    destruct I1 as [_ R _]. specialize (R r). cbn [flat_map] in R. rewrite count_occ_app in R.
    apply (count_occ_In Nat.eq_dec) in Hr. unfold one in R. destruct (Nat.ltb_spec r (acquired s)); lia. }
  split; [|split].
  - intros o E r Hr. apply HR. unfold res_of. rewrite E. unfold ores. rewrite Hr. left; reflexivity.
  - intros b E. destruct (held_ptr P s v _ b I1 E) as (_ & NF & _ & _). split; [exact NF|].
    pose proof I1 as [W _ _]. inversion W as [|? ? Wa _]. subst. unfold wf in Wa. rewrite E in Wa.
    destruct (mgr v) as [t|]; [|discriminate]. destruct Wa as [(_ & e & K & _)|(_ & H)]; [discriminate|].
    assert (K : exists o, block s b = Some o).
    { destruct (shape_of t).
      - destruct H as (o & K & _). discriminate.
      - destruct H as (b' & o & K & Hb & _). injection K as <-. eauto.
      - destruct H as (b' & o & K & Hb & _). injection K as <-. eauto.
      - destruct H. }
    destruct K as [o Hb]. exists o. split; [exact Hb|]. intros r Hr. apply HR. unfold res_of. rewrite E, Hb. unfold ores. rewrite Hr. left; reflexivity.
  - intros j w N Hj b E. destruct (held_ptr P s v _ b I1 E) as (_ & _ & O & _). apply O. apply in_live.
    apply nth_error_In with j. rewrite put_other by congruence. exact Hj.
Qed.
