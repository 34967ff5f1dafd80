(** OBStep.v -- the order book as a state machine over requests (the public
    methods of OrderBook), and its refinement of the reference exchange. *)
From Coq Require Import ZArith List Lia Sorted Bool Permutation.
From stdpp Require Import base gmap.
From Verif Require Import Base OBTypes OBModel OBSpec OBBase OBInv OBRemove OBTrade OBRel OBSim OBSnap OBDec.
Import ListNotations.
Open Scope Z_scope.

(** One public call on the book (orderbook/mod.rs; the line ranges are cited at
    the book_* functions of OBModel.v).  [AError] is [Result::Err]; the receiver
    after an error is taken unchanged, which is exact for add (side mismatch)
    and a simplification for a snapshot that fails half-way (unreachable: needs a
    level without orders). *)
Definition step (m : build) (b : book) (r : request) : outcome (book * reply) :=
  match r with
  | QAdd o => let! x := book_add m b o in
              Ret (match x with ROk b' => (b', AUnit) | RErr => (b, AError) end)
  | QLimit o => let! (b', t) := book_limit m b o in Ret (b', ATrade t)
  | QMarket o => let! (b', t) := book_market m b o in Ret (b', ATrade t)
  | QCancel id => let! (b', ok) := book_cancel m b id in Ret (b', ABool ok)
  | QModify o => let! (b', t) := book_modify m b o in Ret (b', ATrade t)
  | QChangeQty id q => let! (b', ok) := book_change_quantity m b id q in Ret (b', ABool ok)
  | QRemove o => let! (b', x) := book_remove m b o in Ret (b', ALeft x)
  | QSnapshot asks bids =>
      let! (b', ok) := book_update_from_snapshot m b (b_id b) asks bids in
      Ret (b', if ok : bool then AUnit else AError)
  | QDecompose asks bids =>
      let! x := book_decompose m b asks bids in
      Ret (match x with ROk (b', os) => (b', AOrders os) | RErr => (b, AError) end)
  end.

(** A sequence of calls. *)
Fixpoint run (m : build) (b : book) (rs : list request) : outcome (book * list reply) :=
  match rs with
  | [] => Ret (b, [])
  | r :: t => let! (b1, a) := step m b r in
              let! (b2, az) := run m b1 t in Ret (b2, a :: az)
  end.

Record linked (b : book) (mk : market) (c : Z) : Prop := {
  lk_rel : rel b mk;
  lk_counter : b_counter b = c }.

Lemma step_sim m b mk c r : linked b mk c -> valid (mk, c) r ->
  exists b', let '(mk', c', a) := sp_step (mk, c) r in
    step m b r = Ret (b', a) /\ linked b' mk' c' /\ b_id b' = b_id b.
Proof.
  intros [Hr Hc] Hv. destruct r as [o|o|o|id|o|id q|o|asks bids|asks bids]; cbn [sp_step step valid] in *.
  - destruct (sim_add m b mk o Hr Hv) as (b' & E & Hr' & H1 & H2). exists b'. rewrite E. cbn [obind].
    split; [reflexivity|]. split; [constructor; [exact Hr'|congruence]|exact H1].
  - destruct Hv as [Hv Hne]. destruct (sim_limit m b mk o Hr Hv Hne) as (b' & H). exists b'.
    destruct (sp_limit o mk) as [mk' t]. destruct H as (E & Hr' & H1 & H2). rewrite E. cbn [obind].
    split; [reflexivity|]. split; [constructor; [exact Hr'|congruence]|exact H1].
  - destruct Hv as [Hv Hq]. unfold is_u64 in Hq. destruct (sim_market m b mk o Hr Hv ltac:(lia)) as (b' & H). exists b'.
    destruct (sp_market o mk) as [mk' t]. destruct H as (E & Hr' & H1 & H2). rewrite E. cbn [obind].
    split; [reflexivity|]. split; [constructor; [exact Hr'|congruence]|exact H1].
  - destruct (sim_cancel m b mk id Hr) as (b' & ok & E & Es & Hr' & H1 & H2). exists b'. rewrite Es, E. cbn [obind].
    split; [reflexivity|]. split; [constructor; [exact Hr'|congruence]|exact H1].
  - destruct (sim_modify m b mk o Hr Hv) as (b' & H). exists b'.
    destruct (sp_modify o mk) as [mk' t]. destruct H as (E & Hr' & H1 & H2). rewrite E. cbn [obind].
    split; [reflexivity|]. split; [constructor; [exact Hr'|congruence]|exact H1].
  - destruct (sim_change m b mk id q Hr Hv) as (b' & ok & E & Es & Hr' & H1 & H2). exists b'. rewrite Es, E. cbn [obind].
    split; [reflexivity|]. split; [constructor; [exact Hr'|congruence]|exact H1].
  - unfold is_u64 in Hv. destruct (sim_remove m b mk o Hr ltac:(lia)) as (b' & H). exists b'.
    destruct (sp_remove_any _ _ _ mk) as [mk' lo]. destruct H as (E & Hr' & H1 & H2). rewrite E. cbn [obind].
    split; [reflexivity|]. split; [constructor; [exact Hr'|congruence]|exact H1].
  - destruct Hv as (Ha & Hb & Ho & Hk). rewrite <- Hc in *.
    destruct (sim_snapshot m b mk asks bids Hr Ho Ha Hb Hk) as (b' & H). exists b'.
    destruct (sp_l2 asks bids (mk, b_counter b)) as [mk' c']. destruct H as (E & Hr' & H1 & H2 & _). rewrite E. cbn [obind].
    split; [reflexivity|]. split; [constructor; [exact Hr'|congruence]|exact H1].
  - destruct Hv as (Ha & Hb & Hk). rewrite <- Hc in *.
    destruct (sim_decompose m b mk asks bids Hr Ha Hb Hk) as (b' & H). exists b'.
    destruct (sp_dec asks bids (mk, b_counter b)) as [[mk' c'] os]. destruct H as (E & Hr' & H1 & H2 & _). rewrite E. cbn [obind].
    split; [reflexivity|]. split; [constructor; [exact Hr'|congruence]|exact H1].
Qed.

Lemma run_sim m rs : forall b mk c, linked b mk c -> valid_history (mk, c) rs ->
  exists b', let '(mk', c', az) := sp_run (mk, c) rs in
    run m b rs = Ret (b', az) /\ linked b' mk' c' /\ b_id b' = b_id b.
Proof.
  induction rs as [|r rs IH]; intros b mk c Hl Hv.
  - exists b. cbn. auto.
  - destruct Hv as [Hv Hvs]. destruct (step_sim m b mk c r Hl Hv) as (b1 & H). cbn [sp_run run].
    destruct (sp_step (mk, c) r) as [[mk1 c1] a]. cbn [fst] in Hvs.
    destruct H as (E1 & Hl1 & Hi1). destruct (IH b1 mk1 c1 Hl1 Hvs) as (b2 & H2). exists b2.
    destruct (sp_run (mk1, c1) rs) as [[mk2 c2] az]. destruct H2 as (E2 & Hl2 & Hi2).
    rewrite E1. cbn [obind]. rewrite E2. cbn [obind]. split; [reflexivity|]. split; [exact Hl2|congruence].
Qed.

Lemma linked_init id : linked (book_initialize id) [] 0.
Proof.
  constructor; [|reflexivity]. constructor; simpl.
  - constructor; [apply half_initialize_wf|reflexivity|reflexivity].
  - constructor; [apply half_initialize_wf|reflexivity|reflexivity].
  - constructor.
Qed.

(** ** What a user can read off a book linked to a market *)

Lemma linked_levels s b mk : rel b mk ->
  map (fun pl => (fst pl, l_orders (snd pl))) (h_levels (side_half b s)) =
  map (fun p => (p, qids (at_price s p mk))) (prices s mk).
Proof.
  intros Hr. pose proof (rel_side b mk s Hr) as Hs. rewrite <- (keys_prices _ _ _ Hs), map_map.
  apply map_ext_in. intros [p l] Hin. simpl. f_equal. rewrite <- (rh_queue _ _ _ Hs). unfold queue.
  now rewrite (bt_In_get _ p l (hw_sorted _ (rh_wf _ _ _ Hs)) Hin).
Qed.

Lemma linked_quantity_at s b mk p : rel b mk -> half_quantity_at (side_half b s) p = level_qty s p mk.
Proof. intros Hr. symmetry. exact (level_get_qty s _ mk p (rel_side b mk s Hr)). Qed.

Lemma linked_total s b mk : rel b mk -> half_aggregate (side_half b s) = side_qty s mk.
Proof. intros Hr. exact (rel_total s _ mk (rel_side b mk s Hr)). Qed.

Lemma sum_levels_ok m ls : forall a, Forall (fun pl : Z * level => 0 <= l_total (snd pl)) ls ->
  a + sumt ls < two64 -> sum_levels m a ls = Ret (a + sumt ls).
Proof.
  induction ls as [|[p l] t IH]; intros a Hf Hb.
  - unfold sumt, sumv. simpl. f_equal. lia.
  - inversion Hf as [|? ? H1 H2]; subst. cbn [sum_levels]. simpl in H1.
    assert (E : sumt ((p, l) :: t) = l_total l + sumt t) by reflexivity. rewrite E in *.
    pose proof (sumv_nonneg l_total t H2) as Hn. unfold sumt in *.
    rewrite uadd_ok by lia. cbn [obind]. rewrite IH by (auto; lia). f_equal. lia.
Qed.
Lemma half_check_ok m h : half_wf h -> half_check_validity m h = Ret true.
Proof.
  intros Hw. unfold half_check_validity. rewrite sum_levels_ok; [|now apply wf_level_nonneg|].
  - cbn [obind]. f_equal. rewrite (hw_total h Hw). lia.
  - rewrite <- (hw_total h Hw). pose proof (hw_bound h Hw). lia.
Qed.
Lemma linked_check m b mk : rel b mk -> book_check_validity m b = Ret true.
Proof.
  intros Hr. unfold book_check_validity.
  rewrite (half_check_ok m _ (rh_wf _ _ _ (rel_asks b mk Hr))). cbn [obind].
  apply half_check_ok, (rh_wf _ _ _ (rel_bids b mk Hr)).
Qed.

Lemma linked_best_empty s b mk : rel b mk -> on_side s mk = [] ->
  h_best (side_half b s) = match s with Ask => i64_max | Bid => i64_min end.
Proof.
  intros Hr He. pose proof (rel_side b mk s Hr) as Hs. apply (rel_empty s _ mk Hs) in He.
  rewrite (hw_best _ (rh_wf _ _ _ Hs)), (rh_side _ _ _ Hs). unfold half_is_empty in He.
  destruct (h_levels (side_half b s)); [|discriminate]. now destruct s.
Qed.
Lemma linked_best s b mk o : rel b mk -> In o mk -> r_side o = s ->
  (exists x, In x mk /\ r_side x = s /\ r_price x = h_best (side_half b s)) /\
  match s with Ask => h_best (side_half b s) <= r_price o | Bid => r_price o <= h_best (side_half b s) end.
Proof.
  intros Hr Ho Hos. pose proof (rel_side b mk s Hr) as Hs.
  pose proof (keys_of_orders s _ mk Hs) as Hk.
  assert (Ho' : In (r_price o) (keys (h_levels (side_half b s)))).
  { apply Hk. exists o. split; [|reflexivity]. apply on_side_In. auto. }
  pose proof (best_of_spec s (h_levels (side_half b s)) (hw_sorted _ (rh_wf _ _ _ Hs))) as Hb.
  assert (Eb : best_of s (h_levels (side_half b s)) = h_best (side_half b s)).
  { rewrite (hw_best _ (rh_wf _ _ _ Hs)), (rh_side _ _ _ Hs). reflexivity. }
  rewrite Eb in Hb.
  destruct Hb as [[E _]|[H1 H2]]; [rewrite E in Ho'; destruct Ho'|].
  split; [|apply H2, Ho'].
  apply Hk in H1 as (x & Hx & Ex). apply on_side_In in Hx as [Hx Hxs]. eauto.
Qed.

Lemma find_qids id l o : In o l -> r_id o = id -> NoDup (map r_id l) ->
  find (fun kq : Z * Z => fst kq =? id) (qids l) = Some (id, r_qty o).
Proof.
  unfold qids. induction l as [|x t IH]; simpl; [tauto|]. intros [->|Hi] E Hn.
  - now rewrite E, Z.eqb_refl.
  - apply NoDup_cons in Hn as [Hn1 Hn]. rewrite elem_of_list_In in Hn1.
    destruct (Z.eqb_spec (r_id x) id) as [E'|]; [|auto].
    exfalso. apply Hn1. rewrite E', <- E. now apply in_map.
Qed.

Lemma linked_get_order s b mk id : rel b mk ->
  half_get_order (side_half b s) id =
  Ret (match OBSpec.lookup id mk with
       | Some o => if side_eqb (r_side o) s then Some (LimitOrder (r_price o) (r_qty o) s id) else None
       | None => None
       end).
Proof.
  intros Hr. pose proof (rel_side b mk s Hr) as Hs. pose proof (lookup_spec id mk) as Hl.
  pose proof (rel_nodup b mk Hr) as Hnd. unfold half_get_order.
  destruct (OBSpec.lookup id mk) as [o|].
  - destruct Hl as [Hi E]. destruct (side_eqb (r_side o) s) eqn:Es.
    + apply side_eqb_eq in Es.
      assert (Hc : h_cache (side_half b s) !! id = Some (r_price o)) by (apply (rel_cache s _ mk); eauto).
      rewrite Hc. destruct (wf_cache_level _ _ _ (rh_wf _ _ _ Hs) Hc) as (l & Hg & _). rewrite Hg.
      pose proof (rh_queue _ _ _ Hs (r_price o)) as HQ. unfold queue in HQ. rewrite Hg in HQ.
      unfold level_get_order. rewrite HQ, (find_qids id _ o); auto.
      * rewrite (lw_price _ _ (wf_get _ _ _ (rh_wf _ _ _ Hs) Hg)), (rh_side _ _ _ Hs). reflexivity.
      * apply at_price_In. auto.
      * unfold at_price. now apply nodup_filter.
    + rewrite (proj2 (rel_cache_None s _ mk id Hs)); [reflexivity|]. intros x Hx Hxs Ex.
      assert (x = o) as -> by (eapply nodup_id_inj; eauto; congruence).
      rewrite Hxs, side_eqb_refl in Es. discriminate.
  - rewrite (proj2 (rel_cache_None s _ mk id Hs)); [reflexivity|]. intros x Hx Hxs Ex.
    apply Hl. rewrite <- Ex. now apply in_map.
Qed.

Lemma linked_get_price s b mk id : rel b mk ->
  half_get_price (side_half b s) id =
  match OBSpec.lookup id mk with
  | Some o => if side_eqb (r_side o) s then Some (r_price o) else None
  | None => None
  end.
Proof.
  intros Hr. pose proof (rel_side b mk s Hr) as Hs. pose proof (lookup_spec id mk) as Hl.
  pose proof (rel_nodup b mk Hr) as Hnd. unfold half_get_price.
  destruct (OBSpec.lookup id mk) as [o|].
  - destruct Hl as [Hi E]. destruct (side_eqb (r_side o) s) eqn:Es.
    + apply side_eqb_eq in Es. apply (rel_cache s _ mk); eauto.
    + apply (rel_cache_None s _ mk id Hs). intros x Hx Hxs Ex.
      assert (x = o) as -> by (eapply nodup_id_inj; eauto; congruence).
      rewrite Hxs, side_eqb_refl in Es. discriminate.
  - apply (rel_cache_None s _ mk id Hs). intros x Hx Hxs Ex.
    apply Hl. rewrite <- Ex. now apply in_map.
Qed.

Lemma linked_snapshot s b mk : rel b mk ->
  half_to_snapshot (side_half b s) =
  map (fun p => LevelSnapshot (Some (Z.of_nat (length (at_price s p mk)))) p (level_qty s p mk) None)
      (prices s mk).
Proof.
  intros Hr. pose proof (rel_side b mk s Hr) as Hs. rewrite <- (keys_prices _ _ _ Hs), map_map.
  unfold half_to_snapshot. apply map_ext_in. intros [p l] Hin. cbn [fst snd].
  pose proof (bt_In_get _ p l (hw_sorted _ (rh_wf _ _ _ Hs)) Hin) as Hg.
  unfold level_to_snapshot. rewrite (level_get_qty s _ mk p Hs), Hg.
  rewrite (lw_price _ _ (wf_get _ _ _ (rh_wf _ _ _ Hs) Hg)).
  pose proof (rh_queue _ _ _ Hs p) as HQ. unfold queue in HQ. rewrite Hg in HQ. rewrite HQ.
  unfold qids. now rewrite map_length.
Qed.

(** eq_level *)
Lemma half_eq_level_ok s ha hb ma mb : rel_half s ha ma -> rel_half s hb mb ->
  half_eq_level ha hb = true <-> forall p, level_qty s p ma = level_qty s p mb.
Proof.
  intros Ha Hb. unfold half_eq_level. rewrite andb_true_iff, Z.eqb_eq, forallb_forall.
  pose proof (level_get_qty s ha ma) as La. pose proof (level_get_qty s hb mb) as Lb.
  assert (Hpos : forall h mk p l, rel_half s h mk -> bt_get p (h_levels h) = Some l -> 0 < l_total l).
  { intros h mk p l Hr Hg. pose proof (wf_get _ _ _ (rh_wf _ _ _ Hr) Hg) as Hl. rewrite (lw_total _ _ Hl).
    pose proof (sumq_pos _ (lw_pos _ _ Hl)). destruct (Z.eq_dec (sumq (l_orders l)) 0) as [E0|]; [|lia].
    apply (sumq_zero _ (lw_pos _ _ Hl)) in E0. pose proof (lw_ne _ _ Hl). tauto. }
  split.
  - intros [Ht Hall].
    assert (Hsub : forall p l, bt_get p (h_levels ha) = Some l ->
              exists l', bt_get p (h_levels hb) = Some l' /\ l_total l = l_total l').
    { intros p l Hg. specialize (Hall _ (bt_get_In _ _ _ Hg)). cbn [fst snd] in Hall.
      destruct (bt_get p (h_levels hb)) as [l'|]; [|discriminate]. apply Z.eqb_eq in Hall. eauto. }
    (* the sum over hb of the levels missing in ha is 0 *)
    rewrite (hw_total _ (rh_wf _ _ _ Ha)), (hw_total _ (rh_wf _ _ _ Hb)) in Ht.
    assert (Hno : forall p l', bt_get p (h_levels hb) = Some l' -> bt_get p (h_levels ha) <> None).
    { assert (G : forall (la lb : list (Z * level)), sorted la -> sorted lb ->
        (forall p l, bt_get p la = Some l -> exists l', bt_get p lb = Some l' /\ l_total l = l_total l') ->
        (forall p l, bt_get p lb = Some l -> 0 < l_total l) ->
        sumt la <= sumt lb /\ (sumt la = sumt lb -> forall p l', bt_get p lb = Some l' -> bt_get p la <> None)).
      { clear. induction la as [|[p l] t IH]; intros lb Hsa Hsb Hs Hp.
        - assert (Hf : Forall (fun pl : Z * level => 0 <= l_total (snd pl)) lb).
          { apply List.Forall_forall. intros [p l] Hin. simpl. pose proof (Hp p l (bt_In_get _ _ _ Hsb Hin)). lia. }
          split; [apply (sumv_nonneg l_total); exact Hf|].
          intros E p l' Hg. exfalso. pose proof (sumv_ge l_total lb p l' Hf Hg). pose proof (Hp p l' Hg).
          unfold sumt in E. simpl in E. unfold sumv in *. simpl in E. lia.
        - destruct (Hs p l) as (l' & Hg & Ee). { simpl. now rewrite Z.eqb_refl. }
          assert (Hsa' : sorted t) by (unfold sorted in *; simpl in Hsa; now inversion Hsa).
          assert (Hpt : ~ In p (keys t)).
          { unfold sorted in Hsa. simpl in Hsa. inversion Hsa as [|? ? _ Hf]; subst. rewrite List.Forall_forall in Hf.
            intros Hi. specialize (Hf _ Hi). lia. }
          destruct (IH (bt_remove p lb)) as [I1 I2]; auto using sorted_remove.
          + intros p0 l0 Hg0. rewrite bt_get_remove by exact Hsb. destruct (Z.eqb_spec p0 p) as [->|Hne].
            * exfalso. apply Hpt. apply bt_get_In in Hg0. now apply (in_map fst) in Hg0.
            * apply Hs. simpl. destruct (Z.eqb_spec p0 p); [congruence|exact Hg0].
          + intros p0 l0. rewrite bt_get_remove by exact Hsb. destruct (p0 =? p); [discriminate|apply Hp].
          + pose proof (sumv_remove l_total lb p Hsb) as Er. unfold wget in Er. rewrite Hg in Er.
            assert (Ec : sumt ((p, l) :: t) = l_total l + sumt t) by reflexivity. unfold sumt in *.
            split; [lia|]. intros E p0 l0 Hg0. simpl. destruct (Z.eqb_spec p0 p) as [->|Hne]; [discriminate|].
            apply (I2 ltac:(lia) p0 l0). rewrite bt_get_remove by exact Hsb.
            destruct (Z.eqb_spec p0 p); [congruence|exact Hg0]. }
      apply (G (h_levels ha) (h_levels hb)); auto; try apply (rh_wf _ _ _ Ha); try apply (rh_wf _ _ _ Hb).
      intros p l Hg. eapply Hpos; eauto. }
    intros p. rewrite La, Lb by assumption.
    destruct (bt_get p (h_levels ha)) as [l|] eqn:Ea.
    + destruct (Hsub p l Ea) as (l' & -> & E). exact E.
    + destruct (bt_get p (h_levels hb)) as [l'|] eqn:Eb; [|reflexivity]. exfalso. eapply Hno; eauto.
  - intros H. split.
    + rewrite (hw_total _ (rh_wf _ _ _ Ha)), (hw_total _ (rh_wf _ _ _ Hb)).
      assert (E : map (fun pl => (fst pl, l_total (snd pl))) (h_levels ha) =
                  map (fun pl => (fst pl, l_total (snd pl))) (h_levels hb)).
      { assert (F : forall h mk, rel_half s h mk ->
           map (fun pl => (fst pl, l_total (snd pl))) (h_levels h) = map (fun p => (p, level_qty s p mk)) (prices s mk)).
        { intros h mk Hr. rewrite <- (keys_prices _ _ _ Hr), map_map. apply map_ext_in. intros [p l] Hin. simpl.
          f_equal. rewrite (level_get_qty s h mk p Hr).
          now rewrite (bt_In_get _ p l (hw_sorted _ (rh_wf _ _ _ Hr)) Hin). }
        rewrite (F ha ma Ha), (F hb mb Hb).
        assert (Ep : prices s ma = prices s mb).
        { apply sorted_lt_ext; try apply prices_sorted. intros p. rewrite !prices_In.
          rewrite <- (keys_of_orders s ha ma Ha p), <- (keys_of_orders s hb mb Hb p).
          specialize (H p). rewrite La, Lb in H by assumption.
          destruct (bt_get p (h_levels ha)) as [l|] eqn:Ea; destruct (bt_get p (h_levels hb)) as [l'|] eqn:Eb.
          - apply bt_get_In, (in_map fst) in Ea, Eb. tauto.
          - pose proof (Hpos _ _ _ _ Ha Ea). lia.
          - pose proof (Hpos _ _ _ _ Hb Eb). lia.
          - apply bt_get_None_keys in Ea, Eb. tauto. }
        rewrite Ep. apply map_ext. intros p. now rewrite H. }
      unfold sumt. revert E. generalize (h_levels ha) (h_levels hb). clear.
      induction l as [|[p x] t IH]; intros [|[p' x'] t'] E; try discriminate; [reflexivity|].
      simpl in E. injection E as -> E2 E3. apply IH in E3. unfold sumv in *. simpl. lia.
    + intros [p l] Hin. cbn [fst snd]. specialize (H p).
      rewrite La, Lb in H by assumption. rewrite (bt_In_get _ p l (hw_sorted _ (rh_wf _ _ _ Ha)) Hin) in H.
      pose proof (Hpos _ _ _ _ Ha (bt_In_get _ p l (hw_sorted _ (rh_wf _ _ _ Ha)) Hin)).
      destruct (bt_get p (h_levels hb)); [now apply Z.eqb_eq|lia].
Qed.
