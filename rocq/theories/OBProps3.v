(** OBProps3.v -- the order-book properties C16-C22. *)
From Coq Require Import ZArith List Lia Sorted Bool Permutation.
From stdpp Require Import base gmap.
From Verif Require Import Base OBTypes OBModel OBSpec OBBase OBInv OBRemove OBTrade OBRel OBSim OBSnap OBDec OBStep OBLaws OBMarketSell OBMore OBViews OBProofs OBDecide OBProps.
Import ListNotations.
Open Scope Z_scope.

(** ** C16 *)

(** What the snapshot says about a price. *)
Definition listed (rows : list level_snapshot) (p : Z) : option Z :=
  match find (fun r => sn_price r =? p) rows with Some r => Some (sn_quantity r) | None => None end.

Definition price_qty (rows : list level_snapshot) : list (Z * Z) := map (fun r => (sn_price r, sn_quantity r)) rows.

Lemma level_qty_nil s p mk : at_price s p mk = [] -> level_qty s p mk = 0.
Proof. unfold level_qty. now intros ->. Qed.

Theorem C16_snapshot_update_equals_snapshot : forall m b mk c asks bids,
  reachable m b mk c -> valid (mk, c) (QSnapshot asks bids) ->
  exists b', book_update_from_snapshot m b (b_id b) asks bids = Ret (b', true) /\
    (exists mk' c', reachable m b' mk' c') /\
    forall s, let rows := match s with Ask => asks | Bid => bids end in
      Permutation (price_qty (half_to_snapshot (side_half b' s))) (price_qty rows) /\
      forall p, match listed rows p with
        | None => orders_at b' s p = []
        | Some q => exists i, orders_at b' s p = [(i, q)] /\
                    (forall j v, In (j, v) (orders_at b s p) -> i = j) /\
                    (orders_at b s p = [] -> b_counter b <= i < b_counter b')
        end.
Proof.
  intros m b mk c asks bids Hre Hv. pose proof Hv as (Ha & Hb & H1 & Hc). pose proof (reachable_rel _ _ _ _ Hre) as Hr.
  rewrite <- (reachable_counter _ _ _ _ Hre) in Hc.
  destruct (sim_snapshot m b mk asks bids Hr H1 Ha Hb Hc) as (b' & H).
  destruct (reachable_step m b mk c _ Hre Hv) as (b2 & H2). cbn [sp_step step] in H2.
  rewrite <- (reachable_counter _ _ _ _ Hre) in H2.
  pose proof (l2_at asks bids mk (b_counter b)) as Hat.
  destruct (sp_l2 asks bids (mk, b_counter b)) as [mk' c']. destruct H as (E & Hr' & _ & Ec & _).
  destruct H2 as [E2 Hre']. rewrite E in E2. cbn [obind] in E2. injection E2 as <-.
  exists b'. split; [exact E|]. split; [eauto|]. intros s. cbn zeta.
  change (match s with Ask => asks | Bid => bids end) with (rows_of s asks bids).
  assert (Hnd : NoDup (rows_prices asks) /\ NoDup (rows_prices bids)).
  { split; apply NoDup_ListNoDup; [apply Ha|apply Hb]. }
  assert (Hnds : NoDup (rows_prices (rows_of s asks bids))) by (destruct s; tauto).
  assert (Hpos : Forall (fun r => 0 < sn_quantity r /\ is_i64 (sn_price r)) (rows_of s asks bids)) by (destruct s; [apply Ha|apply Hb]).
  assert (Hatp : forall p, match row_qty (rows_of s asks bids) p with
     | None => at_price s p mk' = []
     | Some q => match at_price s p mk with
              | [] => exists i, b_counter b <= i < c' /\ at_price s p mk' = [Rest i s p q]
              | o :: _ => at_price s p mk' = [Rest (r_id o) s p q]
              end
     end) by (intros p; apply (Hat s p (proj1 Hnd) (proj2 Hnd) H1)).
  split.
  - rewrite (linked_snapshot s b' mk' Hr'). unfold price_qty. rewrite map_map. cbn [sn_price sn_quantity].
    assert (Hq : forall p q, row_qty (rows_of s asks bids) p = Some q -> level_qty s p mk' = q).
    { intros p q Eq. specialize (Hatp p). rewrite Eq in Hatp. unfold level_qty. destruct (at_price s p mk).
      - destruct Hatp as (i & _ & ->). simpl. lia.
      - rewrite Hatp. simpl. lia. }
    assert (Hrq : forall r, In r (rows_of s asks bids) -> row_qty (rows_of s asks bids) (sn_price r) = Some (sn_quantity r)).
    { revert Hnds. generalize (rows_of s asks bids). clear. intros rows Hn r Hin. unfold row_qty. induction rows as [|x t IH]; [destruct Hin|].
      simpl in Hn. apply NoDup_cons in Hn as [Hx Hn]. simpl. destruct Hin as [->|Hin]; [now rewrite Z.eqb_refl|].
      destruct (Z.eqb_spec (sn_price x) (sn_price r)) as [Ex|_]; [|now apply IH].
      exfalso. apply Hx. apply elem_of_list_In. rewrite Ex. now apply in_map. }
    assert (Hne : forall p q, row_qty (rows_of s asks bids) p = Some q -> In p (prices s mk')).
    { intros p q Eq. specialize (Hatp p). rewrite Eq in Hatp. apply prices_In.
      assert (exists o, In o (at_price s p mk')) as (o & Ho).
      { destruct (at_price s p mk); [destruct Hatp as (i & _ & ->)|rewrite Hatp]; eexists; now left. }
      apply at_price_In in Ho as (A & B & C). exists o. split; [apply on_side_In; auto|exact C]. }
    apply Permutation.NoDup_Permutation.
    + apply (NoDup_map_inv fst). rewrite map_map. cbn [fst]. rewrite map_id. apply NoDup_ListNoDup. apply sorted_lt_nodup. apply prices_sorted.
    + apply (NoDup_map_inv fst). rewrite map_map. cbn [fst]. apply NoDup_ListNoDup. exact Hnds.
    + intros [p q]. rewrite !in_map_iff. split.
      * intros (p' & Ep & Hp). injection Ep as -> Eq. apply prices_In in Hp as (o & Ho & Eo). apply on_side_In in Ho as [Ho Hs].
        assert (Hi : In o (at_price s p mk')) by (apply at_price_In; auto).
        pose proof (row_qty_In (rows_of s asks bids) p Hnds) as Hrow. specialize (Hatp p). specialize (Hq p).
        destruct (row_qty (rows_of s asks bids) p) as [q'|]; [|rewrite Hatp in Hi; destruct Hi].
        destruct Hrow as (r & A & B & C). exists r. specialize (Hq q' eq_refl). split; [congruence|exact A].
      * intros (r & Er & Hin). injection Er as <- <-. exists (sn_price r). specialize (Hrq r Hin).
        split; [f_equal; now apply Hq|eapply Hne; eauto].
  - intros p. change (listed (rows_of s asks bids) p) with (row_qty (rows_of s asks bids) p). specialize (Hatp p).
    rewrite (orders_at_rel b' mk' s p Hr'), (orders_at_rel b mk s p Hr).
    destruct (row_qty (rows_of s asks bids) p) as [q|]; [|now rewrite Hatp].
    pose proof (H1 s p) as Hlen. destruct (at_price s p mk) as [|o t].
    + destruct Hatp as (i & Hi & ->). exists i. split; [reflexivity|]. split; [intros j v []|]. intros _. now rewrite Ec.
    + rewrite Hatp. exists (r_id o). split; [reflexivity|]. destruct t; [|simpl in Hlen; lia]. split; [|discriminate].
      intros j v [Ej|[]]. now injection Ej.
Qed.
Example C16_hypotheses_met : forall m, exists b mk c, reachable m b mk c /\
  valid (mk, c) (QSnapshot ex_rows_bid ex_rows_ask) /\ mk <> [].
Proof.
  intros m. destruct (reachable_of m 7 [QSnapshot ex_rows_ask ex_rows_bid]
    [Rest 0 Ask 102 6; Rest 1 Ask 104 9; Rest 2 Bid 100 2; Rest 3 Bid 99 5] 4 _
    ltac:(apply valid_historyb_ok; vm_compute; reflexivity) eq_refl) as (b & H & _).
  eexists _, _, _. split; [exact H|]. split; [apply validb_ok; vm_compute; reflexivity|discriminate].
Qed.
Print Assumptions C16_snapshot_update_equals_snapshot.

(** ** C17 -- false on books with several orders per level, and on padded rows *)

(** Two asks of 5 and 3 at 100, then a snapshot row (100, 6): only the youngest
    order is overwritten, so the level holds orders worth 11, reports 6, and the
    side total is 11. *)
Theorem C17_snapshot_on_multi_order_level_refuted : forall m,
  exists b b',
    run m (book_initialize 7) [QAdd (LimitOrder 100 5 Ask 1); QAdd (LimitOrder 100 3 Ask 2)] = Ret (b, [AUnit; AUnit]) /\
    valid_history ([], 0) [QAdd (LimitOrder 100 5 Ask 1); QAdd (LimitOrder 100 3 Ask 2)] /\
    book_update_from_snapshot m b 7 [LevelSnapshot None 100 6 None] [] = Ret (b', true) /\
    half_quantity_at (b_asks b') 100 = 6 /\ orders_at b' Ask 100 = [(1, 5); (2, 6)] /\
    half_aggregate (b_asks b') = 11 /\ book_check_validity m b' = Ret false.
Proof.
  intros m.
  assert (F : (let! (b, az) := run m (book_initialize 7) [QAdd (LimitOrder 100 5 Ask 1); QAdd (LimitOrder 100 3 Ask 2)] in
               let! (b', ok) := book_update_from_snapshot m b 7 [LevelSnapshot None 100 6 None] [] in
               let! v := book_check_validity m b' in
               Ret (az, ok, half_quantity_at (b_asks b') 100, orders_at b' Ask 100, half_aggregate (b_asks b'), v))
            = Ret ([AUnit; AUnit], true, 6, [(1, 5); (2, 6)], 11, false)) by (destruct m; vm_compute; reflexivity).
  destruct (run m _ _) as [[b az]| |]; try discriminate. cbn [obind] in F.
  destruct (book_update_from_snapshot m b 7 _ []) as [[b' ok]| |] eqn:E; try discriminate. cbn [obind] in F.
  destruct (book_check_validity m b') as [v| |] eqn:Ev; try discriminate. cbn [obind] in F.
  injection F as -> -> F1 F2 F3 ->. exists b, b'.
  split; [reflexivity|]. split; [apply valid_historyb_ok; vm_compute; reflexivity|]. auto 10.
Qed.
Theorem C17_snapshot_with_padding_row_refuted : forall m,
  exists b, book_update_from_snapshot m (book_initialize 7) 7
              [LevelSnapshot None 101 5 None; LevelSnapshot None 0 0 None] [] = Ret (b, true) /\
    half_to_snapshot (b_asks b) = [LevelSnapshot (Some 1) 0 0 None; LevelSnapshot (Some 1) 101 5 None] /\
    h_best (b_asks b) = 0.
Proof.
  intros m.
  assert (F : (let! (b, ok) := book_update_from_snapshot m (book_initialize 7) 7
              [LevelSnapshot None 101 5 None; LevelSnapshot None 0 0 None] [] in
               Ret (ok, half_to_snapshot (b_asks b), h_best (b_asks b)))
     = Ret (true, [LevelSnapshot (Some 1) 0 0 None; LevelSnapshot (Some 1) 101 5 None], 0)) by (destruct m; vm_compute; reflexivity).
  destruct (book_update_from_snapshot m _ 7 _ []) as [[b ok]| |]; try discriminate. cbn [obind] in F. injection F as -> F1 F2. eauto.
Qed.
Print Assumptions C17_snapshot_on_multi_order_level_refuted.
Print Assumptions C17_snapshot_with_padding_row_refuted.

(** ** C18 *)
Theorem C18_wrong_instrument_is_rejected : forall m b id asks bids,
  b_id b <> id -> book_update_from_snapshot m b id asks bids = Ret (b, false).
Proof. intros m b id asks bids H. unfold book_update_from_snapshot. destruct (Z.eqb_spec (b_id b) id); [contradiction|reflexivity]. Qed.
(** and the right one is never rejected for its id: a valid snapshot succeeds. *)
Theorem C18_right_instrument_is_accepted : forall m b mk c asks bids,
  reachable m b mk c -> valid (mk, c) (QSnapshot asks bids) ->
  exists b', book_update_from_snapshot m b (b_id b) asks bids = Ret (b', true) /\ b_id b' = b_id b.
Proof.
  intros m b mk c asks bids Hre (Ha & Hb & H1 & Hc). pose proof (reachable_rel _ _ _ _ Hre) as Hr.
  rewrite <- (reachable_counter _ _ _ _ Hre) in Hc.
  destruct (sim_snapshot m b mk asks bids Hr H1 Ha Hb Hc) as (b' & H). destruct (sp_l2 _ _ _). exists b'. tauto.
Qed.
Example C18_hypotheses_met : b_id (book_initialize 7) <> 8 /\ valid ([], 0) (QSnapshot ex_rows_ask ex_rows_bid).
Proof. split; [discriminate|apply validb_ok; vm_compute; reflexivity]. Qed.
Print Assumptions C18_wrong_instrument_is_rejected.
Print Assumptions C18_right_instrument_is_accepted.

(** ** C19 *)

(** All ids reported by decompositions over a whole history are strictly
    increasing; the counter never decreases; and every order that a snapshot or
    a decomposition creates has an id issued during that very request. *)
Theorem C19_virtual_ids_never_reused : forall m id rs b replies,
  valid_history ([], 0) rs -> run m (book_initialize id) rs = Ret (b, replies) ->
  StronglySorted Z.lt (flat_map reply_ids replies) /\
  Forall (fun i => 0 <= i < b_counter b) (flat_map reply_ids replies).
Proof.
  intros m id rs b az Hv E. destruct (sp_run ([], 0) rs) as [[mk c] az'] eqn:Es.
  destruct (reachable_of m id rs mk c az' Hv Es) as (b' & Hre & E' & _). rewrite E in E'. injection E' as <- <-.
  pose proof (run_ids rs (book_initialize id) [] 0 (linked_init id) Hv) as H.
  destruct (sp_run _ rs) as [[mk' c'] az''] eqn:Es' in H. pose proof (eq_trans (eq_sym Es') Es) as Ee. injection Ee as -> -> ->.
  rewrite (reachable_counter _ _ _ _ Hre). tauto.
Qed.
Theorem C19_new_orders_carry_new_ids : forall m b mk c r b' a,
  reachable m b mk c -> valid (mk, c) r -> step m b r = Ret (b', a) ->
  b_counter b <= b_counter b' /\
  match r with
  | QSnapshot _ _ | QDecompose _ _ =>
      forall s i, rests b' s i -> (exists s0, rests b s0 i) \/ b_counter b <= i < b_counter b'
  | _ => b_counter b' = b_counter b
  end.
Proof.
  intros m b mk c r b' a Hre Hv E. destruct (reachable_step m b mk c r Hre Hv) as (b2 & H).
  pose proof (step_ids b mk c r (reachable_linked _ _ _ _ Hre) Hv) as Hi.
  assert (Hd : match r with
     | QSnapshot asks bids | QDecompose asks bids =>
       forall x, In x (map r_id (fst (fst (sp_step (mk, c) r)))) -> In x (map r_id mk) \/ c <= x < snd (fst (sp_step (mk, c) r))
     | _ => snd (fst (sp_step (mk, c) r)) = c end).
  { destruct r; cbn [sp_step] in *; try reflexivity; try (destruct (sp_limit _ _)||destruct (sp_market _ _)||destruct (sp_cancel _ _)||
      destruct (sp_modify _ _)||destruct (sp_change_quantity _ _ _)||destruct (sp_remove_any _ _ _ _)); try reflexivity.
    - destruct Hv as (Ha & Hb & H1 & _). pose proof (l2_ids asks bids mk c) as L. destruct (sp_l2 asks bids (mk, c)).
      apply L; auto; apply NoDup_ListNoDup; [apply Ha|apply Hb].
    - pose proof (dec_ids asks bids mk c) as L. destruct (sp_dec asks bids (mk, c)) as [[mk' c'] os]. apply L. }
  destruct (sp_step (mk, c) r) as [[mk' c'] a']. destruct H as [E2 Hre']. rewrite E in E2. injection E2 as <- <-.
  rewrite (reachable_counter _ _ _ _ Hre), (reachable_counter _ _ _ _ Hre'). split; [apply Hi|]. cbn [fst snd] in Hd.
  assert (Hw : (forall x, In x (map r_id mk') -> In x (map r_id mk) \/ c <= x < c') ->
     forall s i, rests b' s i -> (exists s0, rests b s0 i) \/ c <= i < c').
  { intros G s i (p & q & Hp). apply (orders_at_In b' mk' _ _ _ _ (reachable_rel _ _ _ _ Hre')) in Hp as (o & Ho & _ & _ & Eo & _).
    destruct (G i) as [Hin|Hin]; [apply in_map_iff; eauto| |now right]. left. apply in_map_iff in Hin as (x & Ex & Hx).
    exists (r_side x), (r_price x), (r_qty x). apply (orders_at_In b mk _ _ _ _ (reachable_rel _ _ _ _ Hre)). eauto 10. }
  destruct r; first [exact Hd | exact (Hw Hd)].
Qed.
Example C19_hypotheses_met : valid_history ([], 0) ex_snap /\
  flat_map reply_ids (snd (sp_run ([], 0) ex_snap)) = [0; 1; 2; 3; 4; 5; 6; 7].
Proof. split; [exact ex_snap_valid|vm_compute; reflexivity]. Qed.
Print Assumptions C19_virtual_ids_never_reused.
Print Assumptions C19_new_orders_carry_new_ids.

(** The hypothesis that the ids to be issued are unused is needed: virtual ids
    start at 0 and are not kept apart from order ids.  A resting order with id 0
    becomes unreachable once a snapshot creates another level. *)
Theorem C19_virtual_id_collision_refuted : forall m,
  exists b b', book_add m (book_initialize 7) (LimitOrder 100 5 Ask 0) = Ret (ROk b) /\
    book_update_from_snapshot m b 7 [LevelSnapshot None 100 5 None; LevelSnapshot None 101 3 None] [] = Ret (b', true) /\
    resting b' Ask = [(100, [(0, 5)]); (101, [(0, 3)])] /\
    half_get_order (b_asks b') 0 = Ret (Some (LimitOrder 101 3 Ask 0)).
Proof.
  intros m.
  assert (F : (let! x := book_add m (book_initialize 7) (LimitOrder 100 5 Ask 0) in
               match x with
               | ROk b => let! (b', ok) := book_update_from_snapshot m b 7 [LevelSnapshot None 100 5 None; LevelSnapshot None 101 3 None] [] in
                          Ret (ok, resting b' Ask, half_get_order (b_asks b') 0)
               | RErr => Diverge end)
      = Ret (true, [(100, [(0, 5)]); (101, [(0, 3)])], Ret (Some (LimitOrder 101 3 Ask 0)))) by (destruct m; vm_compute; reflexivity).
  destruct (book_add m _ _) as [[b|]| |]; try discriminate. cbn [obind] in F.
  destruct (book_update_from_snapshot m b 7 _ []) as [[b' ok]| |] eqn:E; try discriminate. cbn [obind] in F. injection F as -> F1 F2.
  exists b, b'. auto.
Qed.
Print Assumptions C19_virtual_id_collision_refuted.

(** ** C20 *)
Theorem C20_level_snapshots_sorted_and_complete : forall m b mk c s,
  reachable m b mk c ->
  let rows := half_to_snapshot (side_half b s) in
  StronglySorted Z.lt (map sn_price rows) /\
  (forall p, In p (map sn_price rows) <-> orders_at b s p <> []) /\
  (forall r, In r rows ->
     sn_quantity r = qty_sum (orders_at b s (sn_price r)) /\
     sn_count r = Some (Z.of_nat (length (orders_at b s (sn_price r))))).
Proof.
  intros m b mk c s Hre. cbn zeta. pose proof (reachable_rel _ _ _ _ Hre) as Hr. rewrite (linked_snapshot s b mk Hr).
  rewrite map_map. cbn [sn_price]. rewrite map_id. split; [apply prices_sorted|]. split.
  - intros p. rewrite prices_In, (orders_at_rel b mk s p Hr). split.
    + intros (o & Ho & Ep) En. apply on_side_In in Ho as [Ho Hs].
      assert (G : In o (at_price s p mk)) by (apply at_price_In; auto). destruct (at_price s p mk); [destruct G|discriminate].
    + intros Hn. destruct (at_price s p mk) as [|o t] eqn:E; [now destruct Hn|]. exists o.
      assert (G : In o (at_price s p mk)) by (rewrite E; now left). apply at_price_In in G as (A & B & C).
      split; [apply on_side_In; auto|exact C].
  - intros r Hin. apply in_map_iff in Hin as (p & <- & Hp). cbn [sn_price sn_quantity sn_count].
    rewrite <- (linked_quantity_at s b mk p Hr), (quantity_at_sum b mk s p Hr). split; [reflexivity|].
    rewrite (orders_at_rel b mk s p Hr). unfold qids. now rewrite map_length.
Qed.
Example C20_hypotheses_met : forall m, exists b, reachable m b ex_mid_market 0 /\
  half_to_snapshot (side_half b Ask) = [LevelSnapshot (Some 2) 102 9 None; LevelSnapshot (Some 1) 103 5 None].
Proof.
  intros m. destruct (ex_mid_reachable m) as (b & H). exists b. split; [exact H|]. pose proof (reachable_rel _ _ _ _ H) as Hr.
  rewrite (linked_snapshot Ask b _ Hr). vm_compute. reflexivity.
Qed.
Print Assumptions C20_level_snapshots_sorted_and_complete.

(** ** C21 *)
Theorem C21_eq_level_decides_level_equality : forall m1 m2 b1 mk1 c1 b2 mk2 c2,
  reachable m1 b1 mk1 c1 -> reachable m2 b2 mk2 c2 ->
  (book_eq_level b1 b2 = true <->
   forall s p, qty_sum (orders_at b1 s p) = qty_sum (orders_at b2 s p)) /\
  book_eq_level b1 b2 = book_eq_level b2 b1.
Proof.
  assert (G : forall m1 m2 b1 mk1 c1 b2 mk2 c2, reachable m1 b1 mk1 c1 -> reachable m2 b2 mk2 c2 ->
    (book_eq_level b1 b2 = true <-> forall s p, qty_sum (orders_at b1 s p) = qty_sum (orders_at b2 s p))).
  { intros m1 m2 b1 mk1 c1 b2 mk2 c2 H1 H2. pose proof (reachable_rel _ _ _ _ H1) as R1. pose proof (reachable_rel _ _ _ _ H2) as R2.
    assert (Q : forall s p, qty_sum (orders_at b1 s p) = qty_sum (orders_at b2 s p) <-> level_qty s p mk1 = level_qty s p mk2).
    { intros s p. rewrite <- (quantity_at_sum b1 mk1 s p R1), <- (quantity_at_sum b2 mk2 s p R2),
        (linked_quantity_at s b1 mk1 p R1), (linked_quantity_at s b2 mk2 p R2). tauto. }
    unfold book_eq_level. rewrite andb_true_iff, (half_eq_level_ok Ask _ _ mk1 mk2 (rel_asks _ _ R1) (rel_asks _ _ R2)),
      (half_eq_level_ok Bid _ _ mk1 mk2 (rel_bids _ _ R1) (rel_bids _ _ R2)).
    split; [intros [A B] [] p; apply Q; auto|]. intros H. split; intros p; apply Q, H. }
  intros m1 m2 b1 mk1 c1 b2 mk2 c2 H1 H2. pose proof (G _ _ _ _ _ _ _ _ H1 H2) as A. pose proof (G _ _ _ _ _ _ _ _ H2 H1) as B.
  split; [exact A|]. apply Bool.eq_iff_eq_true. rewrite A, B. split; intros H s p; symmetry; apply H.
Qed.
Example C21_hypotheses_met : forall m, exists b, reachable m b ex_mid_market 0.
Proof. exact ex_mid_reachable. Qed.
Print Assumptions C21_eq_level_decides_level_equality.

(** With a zero-quantity level (see C13, C17) eq_level is not symmetric. *)
Theorem C21_eq_level_asymmetric_refuted : forall m,
  exists b1 b2,
    book_update_from_snapshot m (book_initialize 7) 7 [LevelSnapshot None 101 5 None] [] = Ret (b1, true) /\
    book_update_from_snapshot m (book_initialize 7) 7 [LevelSnapshot None 101 5 None; LevelSnapshot None 0 0 None] [] = Ret (b2, true) /\
    book_eq_level b1 b2 = true /\ book_eq_level b2 b1 = false.
Proof.
  intros m.
  assert (F : (let! (b1, ok1) := book_update_from_snapshot m (book_initialize 7) 7 [LevelSnapshot None 101 5 None] [] in
               let! (b2, ok2) := book_update_from_snapshot m (book_initialize 7) 7 [LevelSnapshot None 101 5 None; LevelSnapshot None 0 0 None] [] in
               Ret (ok1, ok2, book_eq_level b1 b2, book_eq_level b2 b1)) = Ret (true, true, true, false)) by (destruct m; vm_compute; reflexivity).
  destruct (book_update_from_snapshot m (book_initialize 7) 7 [LevelSnapshot None 101 5 None] []) as [[b1 ok1]| |]; try discriminate. cbn [obind] in F.
  destruct (book_update_from_snapshot m (book_initialize 7) 7 [LevelSnapshot None 101 5 None; LevelSnapshot None 0 0 None] []) as [[b2 ok2]| |]; try discriminate.
  cbn [obind] in F. injection F as -> -> F1 F2. eauto 10.
Qed.
Print Assumptions C21_eq_level_asymmetric_refuted.

(** ** C22 -- false: the derived Default has side Ask and best price 0 twice *)
Theorem C22_default_book_refuted : forall m id,
  (* a bid that finds no ask is dropped *)
  (exists b, book_limit m (book_default id) (LimitOrder 100 5 Bid 1) = Ret (b, None) /\ resting b Bid = [] /\ resting b Ask = []) /\
  (* a bid below 0 panics *)
  book_limit m (book_default id) (LimitOrder (-100) 5 Bid 1) = Panic /\
  (* adding a bid is refused *)
  book_add m (book_default id) (LimitOrder 100 5 Bid 1) = Ret RErr /\
  (* an ask rests, but the best ask stays 0 *)
  (exists b, book_limit m (book_default id) (LimitOrder 100 5 Ask 1) = Ret (b, None) /\
     resting b Ask = [(100, [(1, 5)])] /\ h_best (b_asks b) = 0).
Proof.
  intros m id. split; [|split; [|split]].
  - eexists. split; [destruct m; reflexivity|]. auto.
  - destruct m; reflexivity.
  - destruct m; reflexivity.
  - assert (F : (let! (b, t) := book_limit m (book_default id) (LimitOrder 100 5 Ask 1) in
                 Ret (resting b Ask, h_best (b_asks b), t)) = Ret ([(100, [(1, 5)])], 0, None)) by (destruct m; vm_compute; reflexivity).
    destruct (book_limit m (book_default id) _) as [[b t]| |]; try discriminate. cbn [obind] in F. injection F as F1 F2 ->. eauto.
Qed.
Print Assumptions C22_default_book_refuted.
