(** OBProps.v -- the order-book properties C01-C22.

    Vocabulary: OBSpec.v (the reference exchange and which requests are valid)
    and OBViews.v (what a user can read off a book).  [m : build] ranges over
    both binaries (overflow-checked and wrapping). *)
From Coq Require Import ZArith List Lia Sorted Bool.
From stdpp Require Import base gmap.
From Verif Require Import Base OBTypes OBModel OBSpec OBBase OBInv OBRemove OBTrade OBRel OBSim OBSnap OBDec OBStep OBLaws OBMarketSell OBMore OBViews OBProofs OBDecide.
Import ListNotations.
Open Scope Z_scope.

(** ** A concrete history, used below to show that the hypotheses are met.
    Two asks, two bids, a crossing bid, a partial cancel, a modification, a
    market buy, a remove-any, a decomposition. *)
Definition ex_rows_ask : list level_snapshot :=
  [LevelSnapshot None 102 6 None; LevelSnapshot None 104 9 None].
Definition ex_rows_bid : list level_snapshot :=
  [LevelSnapshot None 100 2 None; LevelSnapshot None 99 5 None].
Definition ex_flow : list request :=
  [QLimit (LimitOrder 101 5 Ask 1001); QLimit (LimitOrder 102 7 Ask 1002); QLimit (LimitOrder 102 2 Ask 1003);
   QLimit (LimitOrder 100 4 Bid 1004); QLimit (LimitOrder 101 8 Bid 1005);
   QModify (ModifyOrder 1004 99 6); QChangeQty 1002 8; QMarket (MarketOrder 3 Bid 1006);
   QCancel 1005; QRemove (RemoveAny 102 3 Ask)].
Definition ex_snap : list request :=
  [QDecompose ex_rows_ask ex_rows_bid; QSnapshot ex_rows_ask ex_rows_bid; QDecompose ex_rows_bid ex_rows_ask].

Example ex_flow_valid : valid_history ([], 0) ex_flow.
Proof. apply valid_historyb_ok. vm_compute. reflexivity. Qed.
Example ex_snap_valid : valid_history ([], 0) ex_snap.
Proof. apply valid_historyb_ok. vm_compute. reflexivity. Qed.

(** Every valid history gives a reachable book. *)
Lemma reachable_of m id rs mk c az : valid_history ([], 0) rs -> sp_run ([], 0) rs = (mk, c, az) ->
  exists b, reachable m b mk c /\ run m (book_initialize id) rs = Ret (b, az) /\ b_id b = id.
Proof.
  intros Hv Hs. destruct (run_sim m rs (book_initialize id) [] 0 (linked_init id) Hv) as (b' & H).
  destruct (sp_run _ rs) as [[mk' c'] az'] eqn:Es in H. pose proof (eq_trans (eq_sym Es) Hs) as Ee.
  injection Ee as -> -> ->. destruct H as (E & _ & Hi). exists b'. split; [|auto]. exists id, rs, az. auto.
Qed.

(** A book with two orders at the best ask, one ask behind, two bids. *)
Definition ex_mid_flow : list request :=
  [QLimit (LimitOrder 102 7 Ask 1002); QLimit (LimitOrder 102 2 Ask 1003); QLimit (LimitOrder 103 5 Ask 1001);
   QLimit (LimitOrder 100 4 Bid 1004); QLimit (LimitOrder 99 6 Bid 1005)].
Definition ex_mid_market : market :=
  [Rest 1002 Ask 102 7; Rest 1003 Ask 102 2; Rest 1001 Ask 103 5; Rest 1004 Bid 100 4; Rest 1005 Bid 99 6].
Example ex_mid_valid : valid_history ([], 0) ex_mid_flow.
Proof. apply valid_historyb_ok. vm_compute. reflexivity. Qed.
Example ex_mid_reachable : forall m, exists b, reachable m b ex_mid_market 0.
Proof.
  intros m. destruct (reachable_of m 7 ex_mid_flow ex_mid_market 0 _ ex_mid_valid eq_refl) as (b & H & _). eauto.
Qed.

(** ** C01 *)

(** The side [s] of the reference market as a list of queues, lowest price first. *)
Definition spec_resting (mk : market) (s : side) : list (Z * list (Z * Z)) :=
  map (fun p => (p, map (fun o => (r_id o, r_qty o)) (at_price s p mk))) (prices s mk).

Theorem C01_book_refines_exchange : forall m id rs,
  valid_history ([], 0) rs ->
  let '(mk, c, replies) := sp_run ([], 0) rs in
  exists b, run m (book_initialize id) rs = Ret (b, replies) /\
            b_id b = id /\
            forall s, resting b s = spec_resting mk s.
Proof.
  intros m id rs Hv. destruct (sp_run ([], 0) rs) as [[mk c] az] eqn:Es.
  destruct (reachable_of m id rs mk c az Hv Es) as (b & Hre & Hr & Hi). exists b. split; [exact Hr|]. split; [exact Hi|].
  intros s. exact (linked_levels s b mk (reachable_rel _ _ _ _ Hre)).
Qed.
Example C01_hypotheses_met :
  valid_history ([], 0) ex_flow /\ valid_history ([], 0) ex_snap /\
  fst (fst (sp_run ([], 0) ex_flow)) = [Rest 1002 Ask 102 4; Rest 1004 Bid 99 6].
Proof. split; [exact ex_flow_valid|]. split; [exact ex_snap_valid|]. vm_compute. reflexivity. Qed.
Print Assumptions C01_book_refines_exchange.

(** ** C02 *)
Theorem C02_totals_are_exact : forall m b mk c,
  reachable m b mk c ->
  (forall s, half_aggregate (side_half b s) = fold_right (fun x a => qty_sum (snd x) + a) 0 (resting b s)) /\
  (forall s p, half_quantity_at (side_half b s) p = qty_sum (orders_at b s p)) /\
  (forall m', book_check_validity m' b = Ret true).
Proof.
  intros m b mk c Hre. pose proof (reachable_rel _ _ _ _ Hre) as Hr. split; [intros s; now apply (resting_sum b mk)|].
  split; [intros s p; now apply (quantity_at_sum b mk)|]. intros m'. now apply (linked_check m' b mk).
Qed.
Example C02_hypotheses_met : forall m, exists b, reachable m b ex_mid_market 0 /\
  half_aggregate (side_half b Ask) = 14 /\ orders_at b Ask 102 = [(1002, 7); (1003, 2)].
Proof.
  intros m. destruct (ex_mid_reachable m) as (b & H). exists b. split; [exact H|]. pose proof (reachable_rel _ _ _ _ H) as Hr.
  split; [rewrite (linked_total Ask b _ Hr); reflexivity|rewrite (orders_at_rel b _ Ask 102 Hr); reflexivity].
Qed.
Print Assumptions C02_totals_are_exact.

(** ** C03 -- false: the market sell subtracts the traded quantity twice *)

(** A market sell of 3 against one resting bid of 4 panics in the checked
    build; in the release build it returns but the bid level then reports a
    quantity that is not the quantity of its orders. *)
Theorem C03_market_sell_refuted :
  exists rs o, valid_history ([], 0) rs /\
    mo_side o = Ask /\ 0 < mo_quantity o /\
    (forall b az, run Checked (book_initialize 7) rs = Ret (b, az) -> book_market Checked b o = Panic) /\
    (forall b az, run Wrapping (book_initialize 7) rs = Ret (b, az) ->
       exists b' t, book_market Wrapping b o = Ret (b', t) /\
         orders_at b' Bid 100 = [(1004, 1)] /\ half_quantity_at (b_bids b') 100 = 18446744073709551614 /\
         book_check_validity Wrapping b' = Ret false).
Proof.
  exists ex_mid_flow, (MarketOrder 3 Ask 1). split; [exact ex_mid_valid|]. split; [reflexivity|]. split; [reflexivity|].
  split; intros b az H.
  - assert (F : (let! (b, _) := run Checked (book_initialize 7) ex_mid_flow in
                 Ret match book_market Checked b (MarketOrder 3 Ask 1) with Panic => true | _ => false end) = Ret true)
      by (vm_compute; reflexivity).
    rewrite H in F. cbn [obind] in F. destruct (book_market _ _ _); congruence.
  - assert (F : (let! (b, _) := run Wrapping (book_initialize 7) ex_mid_flow in
                 let! (b', _) := book_market Wrapping b (MarketOrder 3 Ask 1) in
                 let! v := book_check_validity Wrapping b' in
                 Ret (orders_at b' Bid 100, half_quantity_at (b_bids b') 100, v)) = Ret ([(1004, 1)], 18446744073709551614, false))
      by (vm_compute; reflexivity).
    rewrite H in F. cbn [obind] in F. destruct (book_market _ _ _) as [[b' t]| |]; try discriminate. exists b', t. split; [reflexivity|].
    cbn [obind] in F. destruct (book_check_validity _ _) as [v| |]; try discriminate. cbn [obind] in F. injection F as -> -> ->. auto.
Qed.
Print Assumptions C03_market_sell_refuted.

(** Exactly which market sells survive the overflow-checked build. *)
Theorem C03_market_sell_checked_panics_iff : forall b mk c o,
  reachable Checked b mk c -> mo_side o = Ask -> 0 < mo_quantity o -> resting b Bid <> [] ->
  book_market Checked b o = Panic <->
  half_quantity_at (b_bids b) (h_best (b_bids b)) < 2 * mo_quantity o.
Proof.
  intros b mk c o Hre Hs Hq Hne. pose proof (reachable_rel _ _ _ _ Hre) as Hr.
  change (b_bids b) with (side_half b Bid) at 1. rewrite (linked_quantity_at Bid b mk _ Hr).
  apply (sell_checked b mk o Hr Hs Hq). intros E. apply Hne. unfold resting. 
  apply (rel_empty Bid _ mk (rel_bids _ _ Hr)) in E. unfold half_is_empty in E. simpl. now destruct (h_levels (b_bids b)).
Qed.
Example C03_hypotheses_met : exists b, reachable Checked b ex_mid_market 0 /\ resting b Bid <> [].
Proof.
  destruct (ex_mid_reachable Checked) as (b & H). exists b. split; [exact H|]. pose proof (reachable_rel _ _ _ _ H) as Hr.
  change (resting b Bid) with (map (fun pl => (fst pl, l_orders (snd pl))) (h_levels (side_half b Bid))).
  rewrite (linked_levels Bid b _ Hr). vm_compute. discriminate.
Qed.
Print Assumptions C03_market_sell_checked_panics_iff.

(** Release build: reply, queues, index, best price and side totals are those of
    the reference exchange; only the quantity field of a touched, surviving bid
    level is wrong, by exactly the quantity traded there (mod 2^64). *)
Theorem C03_market_sell_release_partial : forall b mk c o,
  reachable Wrapping b mk c -> mo_side o = Ask -> is_u64 (mo_quantity o) ->
  let '(mk', t) := sp_market o mk in
  exists b', book_market Wrapping b o = Ret (b', t) /\
    (forall s p, orders_at b' s p = map (fun o => (r_id o, r_qty o)) (at_price s p mk')) /\
    (forall s, half_aggregate (side_half b' s) = side_qty s mk') /\
    (forall s i, exists r, half_get_order (side_half b' s) i = Ret r /\
       forall p q, r = Some (LimitOrder p q s i) <-> In (i, q) (orders_at b' s p)) /\
    (forall x, In x mk' -> r_side x = Bid -> r_price x <= h_best (b_bids b')) /\
    (forall p, half_quantity_at (b_bids b') p =
       if 0 <? qty_sum (orders_at b' Bid p)
       then (qty_sum (orders_at b' Bid p) - traded_at p (match t with Some (h, _) => h | None => [] end)) mod two64
       else 0).
Proof.
  intros b mk c o Hre Hs Hq. pose proof (reachable_rel _ _ _ _ Hre) as Hr.
  pose proof (sell_release b mk o Hr Hs ltac:(unfold is_u64 in Hq; lia)) as H. destruct (sp_market o mk) as [mk' t].
  destruct H as (b' & b2 & E & Hr2 & Ea & Ea2 & Esh & Ht). exists b'. split; [exact E|].
  assert (Esh' : forall s, shape (side_half b' s) = shape (side_half b2 s)).
  { intros []; simpl; [congruence|exact Esh]. }
  assert (Eo : forall s p, orders_at b' s p = orders_at b2 s p) by (intros s p; apply (shape_queue _ _ p (Esh' s))).
  split; [intros s p; rewrite Eo; apply (orders_at_rel b2 mk' s p Hr2)|].
  split; [intros s; pose proof (Esh' s) as Es; unfold shape in Es; injection Es as _ _ _ _ Es; unfold half_aggregate;
          rewrite Es; exact (linked_total s b2 mk' Hr2)|].
  split.
  { intros s i. rewrite (get_order_strip _ _ i (Esh' s)). destruct (get_order_exact b2 mk' s i Hr2) as [[r Er] H]. exists r.
    split; [exact Er|]. intros p q. rewrite Eo, <- H, Er. split; [now intros ->|congruence]. }
  split.
  { intros x Hx Hsx. pose proof Esh as Es. unfold shape in Es. injection Es as _ _ _ Es _. rewrite Es.
    exact (proj2 (linked_best Bid b2 mk' x Hr2 Hx Hsx)). }
  intros p. unfold half_quantity_at. destruct (bt_get p (h_levels (b_bids b'))) as [l|] eqn:Eg.
  - assert (El : orders_at b' Bid p = l_orders l) by (unfold orders_at; simpl; now rewrite Eg). rewrite El.
    assert (Hp : 0 < sumq (l_orders l)).
    { rewrite <- El, Eo. unfold orders_at. pose proof (rh_wf _ _ _ (rel_bids _ _ Hr2)) as Hw.
      destruct (bt_get p (h_levels (side_half b2 Bid))) as [l2|] eqn:E2.
      - pose proof (wf_get _ _ _ Hw E2) as Hl. rewrite <- (lw_total _ _ Hl). eapply lwf_pos; eauto.
      - exfalso. clear - Esh Eg E2. unfold shape in Esh. injection Esh as _ Es _ _ _. simpl in E2. revert Es Eg E2.
        generalize (h_levels (b_bids b')) (h_levels (b_bids b2)). induction l0 as [|[k x] u IH]; intros [|[k' y] v] Es Eg E2;
          simpl in *; try discriminate. injection Es as -> _ _ Es. destruct (p =? k'); [discriminate|eauto]. }
    change (qty_sum (l_orders l)) with (sumq (l_orders l)). destruct (Z.ltb_spec 0 (sumq (l_orders l))); [|lia].
    apply Ht. now apply bt_get_In.
  - assert (El : orders_at b' Bid p = []) by (unfold orders_at; simpl; now rewrite Eg). rewrite El. reflexivity.
Qed.
Print Assumptions C03_market_sell_release_partial.

(** ** C04 *)
Theorem C04_best_price_is_best : forall m b mk c,
  reachable m b mk c ->
  ((resting b Ask = [] /\ h_best (b_asks b) = i64_max) \/
   (In (h_best (b_asks b)) (map fst (resting b Ask)) /\
    forall p, In p (map fst (resting b Ask)) -> h_best (b_asks b) <= p)) /\
  ((resting b Bid = [] /\ h_best (b_bids b) = i64_min) \/
   (In (h_best (b_bids b)) (map fst (resting b Bid)) /\
    forall p, In p (map fst (resting b Bid)) -> p <= h_best (b_bids b))).
Proof.
  intros m b mk c Hre. pose proof (reachable_rel _ _ _ _ Hre) as Hr.
  split; [exact (best_exact b mk Ask Hr)|exact (best_exact b mk Bid Hr)].
Qed.
Example C04_hypotheses_met : forall m, exists b, reachable m b ex_mid_market 0 /\
  h_best (b_asks b) = 102 /\ h_best (b_bids b) = 100.
Proof.
  intros m. destruct (reachable_of m 7 ex_mid_flow ex_mid_market 0 _ ex_mid_valid eq_refl) as (b & H & E & _).
  exists b. split; [exact H|].
  assert (F : (let! (b, _) := run m (book_initialize 7) ex_mid_flow in Ret (h_best (b_asks b), h_best (b_bids b))) = Ret (102, 100))
    by (destruct m; vm_compute; reflexivity).
  rewrite E in F. cbn [obind] in F. injection F. auto.
Qed.
Print Assumptions C04_best_price_is_best.

(** ** C05 *)
Theorem C05_index_is_coherent : forall m b mk c s i,
  reachable m b mk c ->
  (exists r, half_get_order (side_half b s) i = Ret r) /\
  (forall p q, half_get_order (side_half b s) i = Ret (Some (LimitOrder p q s i)) <-> In (i, q) (orders_at b s p)) /\
  (half_get_order (side_half b s) i = Ret None <-> ~ rests b s i) /\
  (forall p, half_get_price (side_half b s) i = Some p <-> exists q, In (i, q) (orders_at b s p)).
Proof.
  intros m b mk c s i Hre. pose proof (reachable_rel _ _ _ _ Hre) as Hr. destruct (get_order_exact b mk s i Hr) as [H1 H2].
  split; [exact H1|]. split; [exact H2|]. split; [now apply (get_order_unknown b mk)|].
  intros p. now apply (get_price_exact b mk).
Qed.
(** No id rests twice: not on both sides, not at two prices, not twice in a queue. *)
Theorem C05_ids_are_unique : forall m b mk c s s' p p' i q q',
  reachable m b mk c -> In (i, q) (orders_at b s p) -> In (i, q') (orders_at b s' p') ->
  s = s' /\ p = p' /\ q = q' /\ List.NoDup (map fst (orders_at b s p)).
Proof.
  intros m b mk c s s' p p' i q q' Hre H1 H2. pose proof (reachable_rel _ _ _ _ Hre) as Hr.
  apply (orders_at_In b mk) in H1 as (o & A1 & A2 & A3 & A4 & A5); [|exact Hr].
  apply (orders_at_In b mk) in H2 as (o' & B1 & B2 & B3 & B4 & B5); [|exact Hr].
  assert (o = o') as <- by (eapply nodup_id_inj; eauto; [apply (rel_nodup _ _ Hr)|congruence]).
  repeat (split; [congruence|]). apply NoDup_ListNoDup. exact (wf_queue_nodup _ p (rh_wf _ _ _ (rel_side b mk s Hr))).
Qed.
Example C05_hypotheses_met : forall m, exists b, reachable m b ex_mid_market 0 /\
  half_get_order (side_half b Ask) 1003 = Ret (Some (LimitOrder 102 2 Ask 1003)).
Proof.
  intros m. destruct (ex_mid_reachable m) as (b & H). exists b. split; [exact H|]. pose proof (reachable_rel _ _ _ _ H) as Hr.
  rewrite (linked_get_order Ask b _ 1003 Hr). reflexivity.
Qed.
Print Assumptions C05_index_is_coherent.
Print Assumptions C05_ids_are_unique.

(** ** C06 *)
Theorem C06_limit_price_protection : forall m b mk c o b' hist lft,
  reachable m b mk c -> valid (mk, c) (QLimit o) ->
  book_limit m b o = Ret (b', Some (hist, lft)) ->
  Forall (fun x => within_limit (lo_side o) (lo_price o) (fst x) /\ 0 < snd x) hist /\
  worsening (lo_side o) (map fst hist).
Proof.
  intros m b mk c o b' hist lft Hre Hv E. pose proof (reachable_rel _ _ _ _ Hre) as Hr.
  destruct (limit_step m b mk c o b' _ Hre Hv E) as [_ Et]. destruct Hv as [Hf _].
  pose proof (limit_laws b mk o Hr Hf) as L. cbn zeta in L. destruct (sp_limit o mk) as [mk' t]. simpl in Et. subst t.
  destruct L as (_ & _ & L3 & L4 & _). split; [|now apply sorted_worsening].
  eapply List.Forall_impl; [|exact L3]. intros x [A B]. split; [now apply taker_acceptable|exact B].
Qed.
Example C06_hypotheses_met : forall m, exists b b', reachable m b ex_mid_market 0 /\
  valid (ex_mid_market, 0) (QLimit (LimitOrder 103 20 Bid 2000)) /\
  book_limit m b (LimitOrder 103 20 Bid 2000) = Ret (b', Some ([(102, 9); (103, 5)], 6)).
Proof.
  intros m. destruct (reachable_of m 7 ex_mid_flow ex_mid_market 0 _ ex_mid_valid eq_refl) as (b & H & E & _).
  exists b. assert (Hv : valid (ex_mid_market, 0) (QLimit (LimitOrder 103 20 Bid 2000))) by (apply validb_ok; vm_compute; reflexivity).
  destruct (limit_returns m b _ _ _ H Hv) as (b' & t & E'). exists b'. split; [exact H|]. split; [exact Hv|].
  rewrite E'. destruct (limit_step m b _ _ _ b' t H Hv E') as [_ ->]. reflexivity.
Qed.
Print Assumptions C06_limit_price_protection.

(** ** C07 *)
Theorem C07_limit_conserves_quantity : forall m b mk c o,
  reachable m b mk c -> valid (mk, c) (QLimit o) ->
  exists b' t, book_limit m b o = Ret (b', t) /\
    let opp := match lo_side o with Ask => Bid | Bid => Ask end in
    match t with
    | None => half_aggregate (side_half b' opp) = half_aggregate (side_half b opp) /\
              half_aggregate (side_half b' (lo_side o)) = half_aggregate (side_half b (lo_side o)) + lo_quantity o
    | Some (hist, lft) =>
        executed_total hist + lft = lo_quantity o /\ 0 <= lft /\
        half_aggregate (side_half b' opp) = half_aggregate (side_half b opp) - executed_total hist /\
        half_aggregate (side_half b' (lo_side o)) = half_aggregate (side_half b (lo_side o)) + lft
    end.
Proof.
  intros m b mk c o Hre Hv. pose proof (reachable_rel _ _ _ _ Hre) as Hr.
  destruct (limit_returns m b mk c o Hre Hv) as (b' & t & E). exists b', t. split; [exact E|].
  destruct (limit_step m b mk c o b' t Hre Hv E) as [Hr' Et]. destruct Hv as [Hf _].
  pose proof (limit_laws b mk o Hr Hf) as L. cbn zeta in *. destruct (sp_limit o mk) as [mk' t']. simpl in Et, Hr'. subst t'.
  change (match lo_side o with Ask => Bid | Bid => Ask end) with (other (lo_side o)).
  rewrite !(linked_total _ b' mk' Hr'), !(linked_total _ b mk Hr).
  destruct t as [[hist lft]|]; [|tauto]. destruct L as (L1 & L2 & _ & _ & L5 & L6 & _). auto.
Qed.
Theorem C07_market_buy_conserves_quantity : forall m b mk c o,
  reachable m b mk c -> valid (mk, c) (QMarket o) ->
  exists b' t, book_market m b o = Ret (b', t) /\
    half_aggregate (b_bids b') = half_aggregate (b_bids b) /\
    match t with
    | None => resting b Ask = [] /\ half_aggregate (b_asks b') = half_aggregate (b_asks b)
    | Some (hist, lft) =>
        executed_total hist + lft = mo_quantity o /\ 0 <= lft /\
        half_aggregate (b_asks b') = half_aggregate (b_asks b) - executed_total hist /\
        (0 < lft -> half_aggregate (b_asks b') = 0) /\
        Forall (fun x => 0 < snd x) hist /\ worsening Bid (map fst hist)
    end.
Proof.
  intros m b mk c o Hre [Hs Hq]. pose proof (reachable_rel _ _ _ _ Hre) as Hr. unfold is_u64 in Hq.
  destruct (sim_market m b mk o Hr Hs ltac:(lia)) as (b' & H). pose proof (market_laws b mk o Hr ltac:(lia)) as L. cbn zeta in L.
  assert (Hclear : forall mk' hist lft, sp_market o mk = (mk', Some (hist, lft)) -> 0 < lft -> side_qty Ask mk' = 0).
  { intros mk' hist lft E Hlft. unfold sp_market in E. rewrite Hs in E. cbn [other] in E. destruct (on_side Ask mk) eqn:Eo; [discriminate|].
    destruct (execute Ask None (mo_quantity o) mk) as [[mk1 h1] l1] eqn:Ee. injection E as -> -> ->.
    destruct (execute_clears Ask None (mo_quantity o) mk mk' hist lft (rel_nodup b mk Hr) (rel_all_pos b mk Hr) ltac:(lia) Ee) as [_ Hc].
    unfold side_qty. assert (on_side Ask mk' = []) as ->; [|reflexivity].
    destruct (on_side Ask mk') as [|x u] eqn:Ex; [reflexivity|]. exfalso.
    assert (Hx : In x (on_side Ask mk')) by (rewrite Ex; now left). apply on_side_In in Hx as [Hx Hxs].
    pose proof (Hc Hlft x Hx Hxs) as Hd. discriminate Hd. }
  destruct (sp_market o mk) as [mk' t]. destruct H as (E & Hr' & _). exists b', t. split; [exact E|].
  change (b_bids b') with (side_half b' Bid). change (b_bids b) with (side_half b Bid).
  change (b_asks b') with (side_half b' Ask). change (b_asks b) with (side_half b Ask).
  rewrite !(linked_total _ b' mk' Hr'), !(linked_total _ b mk Hr). rewrite Hs in L. cbn [other] in L.
  destruct t as [[hist lft]|].
  - destruct L as (L1 & L2 & L3 & L4 & L5 & L6). split; [exact L6|]. split; [exact L1|]. split; [exact L2|]. split; [exact L5|].
    split; [intros Hl; eapply Hclear; eauto|]. split; [exact L3|exact (sorted_worsening Bid _ L4)].
  - destruct L as [-> Eo]. split; [reflexivity|]. split; [|reflexivity].
    apply (rel_empty Ask _ mk (rel_asks _ _ Hr)) in Eo. unfold half_is_empty in Eo. unfold resting. simpl.
    now destruct (h_levels (b_asks b)).
Qed.
Example C07_hypotheses_met : forall m, exists b, reachable m b ex_mid_market 0 /\
  valid (ex_mid_market, 0) (QLimit (LimitOrder 102 11 Bid 2000)) /\ valid (ex_mid_market, 0) (QMarket (MarketOrder 20 Bid 1)).
Proof.
  intros m. destruct (ex_mid_reachable m) as (b & H). exists b. split; [exact H|].
  split; apply validb_ok; vm_compute; reflexivity.
Qed.
Print Assumptions C07_limit_conserves_quantity.
Print Assumptions C07_market_buy_conserves_quantity.

(** ** C08 *)
Theorem C08_never_crosses : forall m id rs b replies,
  valid_history ([], 0) rs -> Forall no_blind_insert rs ->
  run m (book_initialize id) rs = Ret (b, replies) ->
  (forall p q, In p (map fst (resting b Bid)) -> In q (map fst (resting b Ask)) -> p < q) /\
  (resting b Bid <> [] -> resting b Ask <> [] -> h_best (b_bids b) < h_best (b_asks b)).
Proof.
  intros m id rs b az Hv Hf E. destruct (sp_run ([], 0) rs) as [[mk c] az'] eqn:Es.
  destruct (reachable_of m id rs mk c az' Hv Es) as (b' & Hre & E' & _). rewrite E in E'. injection E' as <- <-.
  pose proof (reachable_rel _ _ _ _ Hre) as Hr.
  assert (Hu : uncrossed mk).
  { pose proof (run_uncrossed rs (book_initialize id) [] 0 (linked_init id) Hv Hf) as H.
    destruct (sp_run _ rs) as [[mk' c'] az''] eqn:Es' in H. pose proof (eq_trans (eq_sym Es') Es) as Ee. injection Ee as -> -> ->.
    apply H. intros x y []. }
  assert (Hx : forall p q, In p (map fst (resting b Bid)) -> In q (map fst (resting b Ask)) -> p < q).
  { intros p q Hp Hq. apply (resting_price_In b mk) in Hp as (x & A1 & A2 & A3); [|exact Hr].
    apply (resting_price_In b mk) in Hq as (y & B1 & B2 & B3); [|exact Hr]. rewrite <- A3, <- B3. now apply Hu. }
  split; [exact Hx|]. intros Hb Ha. destruct (C04_best_price_is_best m b mk c Hre) as [[[E1 _]|[E1 _]] [[E2 _]|[E2 _]]]; try congruence.
  now apply Hx.
Qed.
Example C08_hypotheses_met : valid_history ([], 0) ex_mid_flow /\ Forall no_blind_insert ex_mid_flow /\
  exists b az, run Checked (book_initialize 7) ex_mid_flow = Ret (b, az) /\
    map fst (resting b Bid) = [99; 100] /\ map fst (resting b Ask) = [102; 103].
Proof.
  split; [exact ex_mid_valid|]. split; [repeat constructor|].
  assert (F : (let! (b, _) := run Checked (book_initialize 7) ex_mid_flow in
               Ret (map fst (resting b Bid), map fst (resting b Ask))) = Ret ([99; 100], [102; 103]))
    by (vm_compute; reflexivity).
  destruct (run Checked (book_initialize 7) ex_mid_flow) as [[b az]| |]; try discriminate.
  exists b, az. split; [reflexivity|]. cbn [obind] in F. injection F. auto.
Qed.
Print Assumptions C08_never_crosses.
