(** OBProps2.v -- the order-book properties C09-C22. *)
From Coq Require Import ZArith List Lia Sorted Bool.
From stdpp Require Import base gmap.
From Verif Require Import Base OBTypes OBModel OBSpec OBBase OBInv OBRemove OBTrade OBRel OBSim OBSnap OBDec OBStep OBLaws OBMarketSell OBMore OBViews OBProofs OBDecide OBProps.
Import ListNotations.
Open Scope Z_scope.

(** ** C09 *)

(** A buy at i64::MAX into a book without asks is neither executed nor rested. *)
Theorem C09_limit_order_dropped_refuted : forall m id,
  let o := LimitOrder i64_max 5 Bid 1 in
  exists b', book_limit m (book_initialize id) o = Ret (b', None) /\
    0 < lo_quantity o /\ ~ rests b' Bid 1 /\ ~ rests b' Ask 1 /\ half_aggregate (side_half b' Bid) = 0.
Proof.
  intros m id o. exists (book_initialize id).
  assert (E : forall s p, orders_at (book_initialize id) s p = []) by (intros [] p; reflexivity).
  split; [destruct m; reflexivity|]. split; [reflexivity|].
  split; [intros (p & q & H); rewrite E in H; destruct H|].
  split; [intros (p & q & H); rewrite E in H; destruct H|reflexivity].
Qed.
Print Assumptions C09_limit_order_dropped_refuted.

(** Every other limit order: the executed and the resting part add up to the order. *)
Theorem C09_trades_or_rests_partial : forall m b mk c o,
  reachable m b mk c ->
  fresh_order mk (lo_id o) (lo_side o) (lo_price o) (lo_quantity o) ->
  (resting b (other (lo_side o)) = [] -> lo_price o <> extreme_price (other (lo_side o))) ->
  exists b' t, book_limit m b o = Ret (b', t) /\
    match t with
    | None => In (lo_id o, lo_quantity o) (orders_at b' (lo_side o) (lo_price o))
    | Some (hist, lft) =>
        executed_total hist + lft = lo_quantity o /\ 0 <= lft /\
        (0 < lft -> In (lo_id o, lft) (orders_at b' (lo_side o) (lo_price o))) /\
        (lft = 0 -> ~ rests b' (lo_side o) (lo_id o))
    end.
Proof.
  intros m b mk c o Hre Hf Hx. pose proof (reachable_rel _ _ _ _ Hre) as Hr.
  assert (Hv : valid (mk, c) (QLimit o)).
  { split; [exact Hf|]. intros E. apply Hx. apply (rel_empty (other (lo_side o)) _ mk (rel_side b mk _ Hr)) in E.
    unfold half_is_empty in E. unfold resting. now destruct (h_levels _). }
  destruct (limit_returns m b mk c o Hre Hv) as (b' & t & E). exists b', t. split; [exact E|].
  destruct (limit_step m b mk c o b' t Hre Hv E) as [Hr' Et].
  pose proof (limit_laws b mk o Hr Hf) as L. cbn zeta in L.
  pose proof (execute_clears (other (lo_side o)) (Some (lo_price o)) (lo_quantity o) mk) as Hc.
  unfold sp_limit in L, Hr', Et.
  destruct (existsb _ _) eqn:Ee.
  - destruct (execute _ _ _ mk) as [[mk1 h1] l1] eqn:Ex. cbn [fst snd] in *. subst t.
    destruct L as (L1 & L2 & _ & _ & _ & _ & L7). split; [exact L1|]. split; [exact L2|].
    split.
    + intros Hl. specialize (L7 Hl). apply (orders_at_In b' _ (lo_side o) (lo_price o) (lo_id o) l1 Hr').
      eexists. split; [exact L7|]. auto.
    + intros -> (p & q & H). rewrite Z.ltb_irrefl in Hr'.
      apply (orders_at_In b' _ _ _ _ _ Hr') in H as (x & Hi & Hs & Hp & Hid & _).
      destruct (Hc mk1 h1 0 (rel_nodup b mk Hr) (rel_all_pos b mk Hr) ltac:(unfold fresh_order in Hf; lia) eq_refl) as [Hsh _].
      destruct (Hsh x Hi) as (y & Hy & Hyi & _). destruct Hf as [Hn _]. apply Hn. unfold ids.
      apply in_map_iff. exists y. split; congruence.
  - cbn [fst snd] in *. subst t. destruct L as (_ & _ & L3).
    apply (orders_at_In b' _ (lo_side o) (lo_price o) (lo_id o) (lo_quantity o) Hr').
    exists (Rest (lo_id o) (lo_side o) (lo_price o) (lo_quantity o)).
    split; [unfold sp_add; apply in_or_app; right; now left|auto].
Qed.
Example C09_hypotheses_met : forall m, exists b, reachable m b ex_mid_market 0 /\
  let o := LimitOrder i64_max 20 Bid 2000 in
  fresh_order ex_mid_market (lo_id o) (lo_side o) (lo_price o) (lo_quantity o) /\ resting b (other (lo_side o)) <> [].
Proof.
  intros m. destruct (ex_mid_reachable m) as (b & H). exists b. split; [exact H|]. pose proof (reachable_rel _ _ _ _ H) as Hr.
  cbn zeta. split.
  - assert (Hv : valid (ex_mid_market, 0) (QLimit (LimitOrder i64_max 20 Bid 2000))) by (apply validb_ok; vm_compute; reflexivity).
    exact (proj1 Hv).
  - cbn [lo_side other]. unfold resting. rewrite (linked_levels Ask b _ Hr). vm_compute. discriminate.
Qed.
Print Assumptions C09_trades_or_rests_partial.

(** ** C10 *)

(** The queue without the order [id]. *)
Definition without (id : Z) (q : list (Z * Z)) : list (Z * Z) :=
  List.filter (fun x => negb (fst x =? id)) q.

Theorem C10_cancel_removes_exactly_one : forall m b mk c id,
  reachable m b mk c ->
  exists b' ok, book_cancel m b id = Ret (b', ok) /\
    (ok = true <-> rests b Ask id \/ rests b Bid id) /\
    (forall s p, orders_at b' s p = without id (orders_at b s p)) /\
    (ok = false -> forall s, resting b' s = resting b s) /\
    b_id b' = b_id b /\ b_counter b' = b_counter b.
Proof.
  intros m b mk c id Hre. pose proof (reachable_rel _ _ _ _ Hre) as Hr.
  destruct (sim_cancel m b mk id Hr) as (b' & ok & E & Es & Hr' & Hi & Hc). exists b', ok. split; [exact E|].
  unfold sp_cancel in Es. pose proof (lookup_spec id mk) as Hl. split; [|split; [|split; [|auto]]].
  - destruct (OBSpec.lookup id mk) as [o|].
    + injection Es as _ <-. destruct Hl as [Ho Eo]. split; [intros _|reflexivity].
      destruct (r_side o) eqn:Eso; [left|right]; exists (r_price o), (r_qty o);
        apply (orders_at_In b mk _ _ _ _ Hr); eauto 10.
    + injection Es as Em <-. split; [discriminate|].
      intros [(p & q & H)|(p & q & H)]; apply (orders_at_In b mk _ _ _ _ Hr) in H as (o & Ho & _ & _ & Eo & _); exfalso; apply Hl; apply in_map_iff; eauto.
  - intros s p. rewrite (orders_at_rel b' _ s p Hr'), (orders_at_rel b mk s p Hr).
    assert (Hw : forall l, (forall o, In o l -> r_id o <> id) -> without id (qids l) = qids l).
    { induction l as [|o t IH]; intros Hn; [reflexivity|]. simpl. destruct (Z.eqb_spec (r_id o) id) as [Eo|_].
      - exfalso. apply (Hn o); [now left|exact Eo].
      - simpl. f_equal. apply IH. intros x Hx. apply Hn. now right. }
    destruct (OBSpec.lookup id mk) as [o|].
    + injection Es as Em <-. unfold dropped. rewrite at_price_drop. unfold without. rewrite qids_drop. reflexivity.
    + injection Es as Em <-. symmetry. apply Hw. intros o Ho Eo. apply at_price_In in Ho. apply Hl. apply in_map_iff. exists o. tauto.
  - intros -> s. unfold resting. rewrite (linked_levels s b' _ Hr'), (linked_levels s b mk Hr). reflexivity.
Qed.
Example C10_hypotheses_met : forall m, exists b, reachable m b ex_mid_market 0 /\ rests b Ask 1002.
Proof.
  intros m. destruct (ex_mid_reachable m) as (b & H). exists b. split; [exact H|]. pose proof (reachable_rel _ _ _ _ H) as Hr.
  exists 102, 7. rewrite (orders_at_rel b _ Ask 102 Hr). now left.
Qed.
Print Assumptions C10_cancel_removes_exactly_one.

(** ** C11 *)

(** The queue with the quantity of order [id] replaced, in place. *)
Definition requantified (id q : Z) (l : list (Z * Z)) : list (Z * Z) :=
  map (fun x => if fst x =? id then (id, q) else x) l.

Theorem C11_modify_same_price_keeps_place : forall m b mk c o s q0,
  reachable m b mk c -> valid (mk, c) (QModify o) ->
  In (mod_id o, q0) (orders_at b s (mod_price o)) ->
  exists b', book_modify m b o = Ret (b', None) /\
    (forall s' p, orders_at b' s' p = requantified (mod_id o) (mod_quantity o) (orders_at b s' p)).
Proof.
  intros m b mk c o s q0 Hre Hv Hin. pose proof (reachable_rel _ _ _ _ Hre) as Hr.
  apply (orders_at_In b mk _ _ _ _ Hr) in Hin as (x & Hx & Hs & Hp & Hi & Hq).
  destruct (sim_modify m b mk o Hr Hv) as (b' & H). unfold sp_modify in H.
  pose proof (lookup_spec (mod_id o) mk) as Hl.
  destruct (OBSpec.lookup (mod_id o) mk) as [y|]; [|exfalso; apply Hl; apply in_map_iff; eauto].
  destruct Hl as [Hy Ey]. assert (y = x) as -> by (eapply nodup_id_inj; eauto; [apply (rel_nodup _ _ Hr)|congruence]).
  rewrite Hp, Z.eqb_refl in H. destruct H as (E & Hr' & _). exists b'. split; [exact E|].
  intros s' p. rewrite (orders_at_rel b' _ s' p Hr'), (orders_at_rel b mk s' p Hr), at_price_set, qids_set.
  unfold put_qty, requantified. apply map_ext. intros [k v]. simpl. destruct (Z.eqb_spec k (mod_id o)); congruence.
Qed.
Theorem C11_modify_new_price_is_cancel_then_limit : forall m b mk c o s p0 q0,
  reachable m b mk c -> In (mod_id o, q0) (orders_at b s p0) -> p0 <> mod_price o ->
  exists b1, book_cancel m b (mod_id o) = Ret (b1, true) /\
    book_modify m b o = book_limit m b1 (LimitOrder (mod_price o) (mod_quantity o) s (mod_id o)).
Proof.
  intros m b mk c o s p0 q0 Hre Hin Hne. pose proof (reachable_rel _ _ _ _ Hre) as Hr.
  pose proof Hin as Hin0.
  apply (orders_at_In b mk _ _ _ _ Hr) in Hin as (x & Hx & Hs & Hp & Hi & Hq).
  pose proof (lookup_spec (mod_id o) mk) as Hl.
  destruct (OBSpec.lookup (mod_id o) mk) as [y|] eqn:El; [|exfalso; apply Hl; apply in_map_iff; eauto].
  destruct Hl as [Hy Ey]. assert (y = x) as -> by (eapply nodup_id_inj; eauto; [apply (rel_nodup _ _ Hr)|congruence]).
  destruct (C10_cancel_removes_exactly_one m b mk c (mod_id o) Hre) as (b1 & ok & E & Hok & _).
  assert (ok = true) as ->.
  { apply Hok. destruct s; [left|right]; eexists; eexists; exact Hin0. }
  exists b1. split; [exact E|]. rewrite (modify_new_price m b mk o x Hr El ltac:(congruence)), E, Hs. reflexivity.
Qed.
Theorem C11_modify_unknown_id_changes_nothing : forall m b mk c o,
  reachable m b mk c -> ~ rests b Ask (mod_id o) -> ~ rests b Bid (mod_id o) ->
  book_modify m b o = Ret (b, None).
Proof.
  intros m b mk c o Hre Ha Hb. pose proof (reachable_rel _ _ _ _ Hre) as Hr.
  assert (Hn : forall s, ~ rests b s (mod_id o) -> h_cache (side_half b s) !! mod_id o = None).
  { intros s Hns. destruct (h_cache (side_half b s) !! mod_id o) as [p|] eqn:E; [|reflexivity].
    exfalso. apply Hns. pose proof (get_price_exact b mk s (mod_id o) p Hr) as [H _]. destruct (H E) as [q Hq]. exists p, q. exact Hq. }
  unfold book_modify. rewrite (Hn Ask Ha : h_cache (b_asks b) !! mod_id o = None), (Hn Bid Hb : h_cache (b_bids b) !! mod_id o = None). reflexivity.
Qed.
Example C11_hypotheses_met : forall m, exists b, reachable m b ex_mid_market 0 /\
  valid (ex_mid_market, 0) (QModify (ModifyOrder 1003 102 11)) /\ In (1003, 2) (orders_at b Ask 102) /\
  ~ rests b Ask 55 /\ ~ rests b Bid 55.
Proof.
  intros m. destruct (ex_mid_reachable m) as (b & H). exists b. split; [exact H|]. pose proof (reachable_rel _ _ _ _ H) as Hr.
  split; [apply validb_ok; vm_compute; reflexivity|]. split; [rewrite (orders_at_rel b _ Ask 102 Hr); vm_compute; auto|].
  split; apply (get_order_unknown b ex_mid_market _ 55 Hr); rewrite (linked_get_order _ b _ 55 Hr); reflexivity.
Qed.
Print Assumptions C11_modify_same_price_keeps_place.
Print Assumptions C11_modify_new_price_is_cancel_then_limit.
Print Assumptions C11_modify_unknown_id_changes_nothing.

(** ** C12 *)
Theorem C12_remove_any_takes_the_youngest : forall m b mk c o,
  reachable m b mk c -> 0 <= ra_quantity o ->
  let s := ra_side o in let p := ra_price o in let have := qty_sum (orders_at b s p) in
  exists b', book_remove m b o = Ret (b', Some (ra_quantity o - Z.min (ra_quantity o) have)) /\
    orders_at b' s p = oldest (have - ra_quantity o) (orders_at b s p) /\
    (In p (map fst (resting b' s)) <-> ra_quantity o < have) /\
    (forall s' p', (s', p') <> (s, p) -> orders_at b' s' p' = orders_at b s' p').
Proof.
  intros m b mk c o Hre Hq. cbn zeta. pose proof (reachable_rel _ _ _ _ Hre) as Hr.
  destruct (remove_exact m b mk o Hr Hq) as (b' & E & Ho & Hf). exists b'. split; [exact E|]. split; [exact Ho|].
  split; [|exact Hf].
  destruct (sim_remove m b mk o Hr Hq) as (b2 & H2). destruct (sp_remove_any _ _ _ mk) as [mk' lo].
  destruct H2 as (E2 & Hr2 & _). rewrite E in E2. injection E2 as <- _.
  assert (Hpos : posq (orders_at b (ra_side o) (ra_price o))).
  { pose proof (rh_wf _ _ _ (rel_side b mk (ra_side o) Hr)) as Hw. unfold orders_at.
    destruct (bt_get _ _) as [l|] eqn:Eg; [|constructor]. apply (lw_pos _ _ (wf_get _ _ _ Hw Eg)). }
  assert (Hlast : In (ra_price o) (map fst (resting b' (ra_side o))) <-> orders_at b' (ra_side o) (ra_price o) <> []).
  { rewrite (resting_price_In b' mk' _ _ Hr2). split.
    - intros (x & A & B & C) E0. assert (G : In (r_id x, r_qty x) (orders_at b' (ra_side o) (ra_price o))).
      { apply (orders_at_In b' mk' _ _ _ _ Hr2). eauto 10. } rewrite E0 in G. destruct G.
    - intros G. destruct (orders_at b' (ra_side o) (ra_price o)) as [|[i q] t] eqn:Eo; [congruence|].
      assert (Hi : In (i, q) (orders_at b' (ra_side o) (ra_price o))) by (rewrite Eo; now left).
      apply (orders_at_In b' mk' _ _ _ _ Hr2) in Hi as (x & A & B & C & _). eauto. }
  rewrite Hlast, Ho. revert Hpos. generalize (orders_at b (ra_side o) (ra_price o)) as l. intros [|[i v] t] Hpos; simpl.
  - split; [congruence|lia].
  - inversion Hpos as [|? ? Hv Ht]; subst. simpl in Hv.
    assert (0 <= qty_sum t). { clear - Ht. induction Ht as [|[? ?] ? ? ? ?]; simpl in *; lia. }
    destruct (Z.leb_spec (v + qty_sum t - ra_quantity o) 0); [split; [congruence|lia]|].
    destruct (_ <=? _); split; try lia; intros; discriminate.
Qed.
Example C12_hypotheses_met : forall m, exists b, reachable m b ex_mid_market 0 /\
  qty_sum (orders_at b Ask 102) = 9 /\ oldest (9 - 4) (orders_at b Ask 102) = [(1002, 5)].
Proof.
  intros m. destruct (ex_mid_reachable m) as (b & H). exists b. split; [exact H|]. pose proof (reachable_rel _ _ _ _ H) as Hr.
  rewrite (orders_at_rel b _ Ask 102 Hr). vm_compute. auto.
Qed.
Print Assumptions C12_remove_any_takes_the_youngest.

(** ** C13 -- false: zero-quantity orders *)

(** change_quantity to 0 on the only order of a level drops the level but keeps
    the id in the index: get_order then panics (unwrap on None). *)
Theorem C13_zero_quantity_stale_index_refuted : forall m,
  exists b b', book_change_quantity m b 1 0 = Ret (b', true) /\
    book_add m (book_initialize 7) (LimitOrder 100 5 Ask 1) = Ret (ROk b) /\
    orders_at b' Ask 100 = [] /\ half_get_price (b_asks b') 1 = Some 100 /\ half_get_order (b_asks b') 1 = Panic.
Proof.
  intros m.
  assert (F : (let! x := book_add m (book_initialize 7) (LimitOrder 100 5 Ask 1) in
               match x with
               | ROk b => let! (b', ok) := book_change_quantity m b 1 0 in
                          Ret (ok, orders_at b' Ask 100, half_get_price (b_asks b') 1,
                               match half_get_order (b_asks b') 1 with Panic => true | _ => false end)
               | RErr => Diverge end) = Ret (true, [], Some 100, true)) by (destruct m; vm_compute; reflexivity).
  destruct (book_add m (book_initialize 7) (LimitOrder 100 5 Ask 1)) as [[b|]| |]; try discriminate. cbn [obind] in F.
  destruct (book_change_quantity m b 1 0) as [[b' ok]| |] eqn:E; try discriminate. cbn [obind] in F.
  exists b, b'. destruct (half_get_order (b_asks b') 1); try discriminate. injection F as -> -> ->. auto.
Qed.
(** A zero-quantity order at the back of a queue makes remove_order spin forever. *)
Theorem C13_zero_quantity_spins_refuted : forall m,
  exists b b', book_add m (book_initialize 7) (LimitOrder 100 5 Ask 1) = Ret (ROk b) /\
    book_add m b (LimitOrder 100 0 Ask 2) = Ret (ROk b') /\
    book_remove m b' (RemoveAny 100 3 Ask) = Diverge /\
    forall fuel, remove_loop m fuel (rev (orders_at b' Ask 100)) (half_quantity_at (b_asks b') 100)
                   (half_aggregate (b_asks b')) (h_cache (b_asks b')) 3 = Diverge.
Proof.
  intros m.
  assert (F : (let! x := book_add m (book_initialize 7) (LimitOrder 100 5 Ask 1) in
               match x with
               | ROk b => let! y := book_add m b (LimitOrder 100 0 Ask 2) in
                  match y with
                  | ROk b' => Ret (orders_at b' Ask 100, half_quantity_at (b_asks b') 100, half_aggregate (b_asks b'),
                                   match book_remove m b' (RemoveAny 100 3 Ask) with Diverge => true | _ => false end)
                  | RErr => Diverge end
               | RErr => Diverge end) = Ret ([(1, 5); (2, 0)], 5, 5, true)) by (destruct m; vm_compute; reflexivity).
  destruct (book_add m (book_initialize 7) (LimitOrder 100 5 Ask 1)) as [[b|]| |]; try discriminate. cbn [obind] in F.
  destruct (book_add m b (LimitOrder 100 0 Ask 2)) as [[b'|]| |] eqn:E; try discriminate. cbn [obind] in F.
  exists b, b'. destruct (book_remove m b' (RemoveAny 100 3 Ask)); try discriminate. injection F as F1 F2 F3.
  split; [reflexivity|]. split; [exact E|]. split; [reflexivity|]. intros fuel. rewrite F1, F2, F3. apply remove_loop_spins; lia.
Qed.
(** Zero-quantity snapshot rows (the padding of the exchange feed) create a
    level without quantity, which a later decomposition can never remove. *)
Theorem C13_phantom_level_refuted : forall m,
  let rows := [LevelSnapshot None 101 5 None; LevelSnapshot None 0 0 None] in
  exists b b' os, book_update_from_snapshot m (book_initialize 7) 7 rows [] = Ret (b, true) /\
    map fst (resting b Ask) = [0; 101] /\ h_best (b_asks b) = 0 /\
    book_decompose m b [LevelSnapshot None 101 5 None] [] = Ret (ROk (b', os)) /\
    map fst (resting b' Ask) = [0; 101].
Proof.
  intros m rows.
  assert (F : (let! (b, ok) := book_update_from_snapshot m (book_initialize 7) 7 rows [] in
               match ok with
               | true => let! y := book_decompose m b [LevelSnapshot None 101 5 None] [] in
                  match y with
                  | ROk (b', os) => Ret (map fst (resting b Ask), h_best (b_asks b), map fst (resting b' Ask))
                  | RErr => Diverge end
               | false => Diverge end) = Ret ([0; 101], 0, [0; 101])) by (destruct m; vm_compute; reflexivity).
  destruct (book_update_from_snapshot m (book_initialize 7) 7 rows []) as [[b []]| |]; try discriminate. cbn [obind] in F.
  destruct (book_decompose m b _ []) as [[[b' os]|]| |] eqn:E; try discriminate. cbn [obind] in F. injection F as F1 F2 F3.
  exists b, b', os. auto 10.
Qed.
Print Assumptions C13_zero_quantity_stale_index_refuted.
Print Assumptions C13_zero_quantity_spins_refuted.
Print Assumptions C13_phantom_level_refuted.

(** ** C14 *)

(** The one order that closes a quantity difference [d] at a price. *)
Definition closes_gap (s : side) (p d : Z) (os : list order_enum) : Prop :=
  (0 < d /\ exists i, os = [OLimit (LimitOrder p d s i)]) \/
  (d < 0 /\ os = [ORemove (RemoveAny p (- d) s)]) \/
  (d = 0 /\ os = []).

Theorem C14_decomposition_reaches_the_snapshot : forall m b mk c asks bids,
  reachable m b mk c -> valid (mk, c) (QDecompose asks bids) ->
  exists b' os, book_decompose m b asks bids = Ret (ROk (b', os)) /\
    forall s p,
      let rows := match s with Ask => asks | Bid => bids end in
      qty_sum (orders_at b' s p) = wanted rows p /\
      half_quantity_at (side_half b' s) p = wanted rows p /\
      closes_gap s p (wanted rows p - qty_sum (orders_at b s p)) (List.filter (concerns s p) os).
Proof.
  intros m b mk c asks bids Hre (Ha & Hb & Hc). pose proof (reachable_rel _ _ _ _ Hre) as Hr.
  rewrite <- (reachable_counter _ _ _ _ Hre) in Hc.
  destruct (sim_decompose m b mk asks bids Hr Ha Hb Hc) as (b' & H).
  pose proof (sp_dec_about b mk asks bids) as Hab.
  destruct (sp_dec asks bids (mk, b_counter b)) as [[mk' c'] os]. cbn [fst snd] in Hab.
  destruct H as (E & Hr' & _ & _ & _ & _ & Qa & Qb). exists b', os. split; [exact E|]. intros s p. cbn zeta.
  change (match s with Ask => asks | Bid => bids end) with (rows_of s asks bids).
  assert (Hq : level_qty s p mk' = wanted (rows_of s asks bids) p).
  { rewrite <- target_wanted. unfold target. destruct s; [apply Qa|apply Qb]. }
  rewrite <- (quantity_at_sum b' mk' s p Hr'), <- (quantity_at_sum b mk s p Hr).
  rewrite (linked_quantity_at s b' mk' p Hr'), (linked_quantity_at s b mk p Hr). split; [exact Hq|]. split; [exact Hq|].
  specialize (Hab s p Hr Ha Hb Hc). rewrite target_wanted in Hab. unfold diff_order in Hab. unfold closes_gap.
  change (List.filter (concerns s p) os) with (List.filter (about s p) os).
  destruct (Z.ltb_spec 0 (wanted (rows_of s asks bids) p - level_qty s p mk)).
  - left. split; [assumption|]. destruct Hab as (i & _ & Hab). eauto.
  - destruct (Z.ltb_spec (wanted (rows_of s asks bids) p - level_qty s p mk) 0); [right; left; auto|right; right; split; [lia|auto]].
Qed.
Example C14_hypotheses_met : forall m, exists b mk c, reachable m b mk c /\
  valid (mk, c) (QDecompose ex_rows_bid ex_rows_ask) /\ mk <> [].
Proof.
  intros m. destruct (reachable_of m 7 [QDecompose ex_rows_ask ex_rows_bid]
    [Rest 0 Ask 102 6; Rest 1 Ask 104 9; Rest 2 Bid 100 2; Rest 3 Bid 99 5] 4 _
    ltac:(apply valid_historyb_ok; vm_compute; reflexivity) eq_refl) as (b & H & _).
  eexists _, _, _. split; [exact H|]. split; [apply validb_ok; vm_compute; reflexivity|discriminate].
Qed.
Print Assumptions C14_decomposition_reaches_the_snapshot.

(** ** C15 *)
Theorem C15_decomposed_orders_replay : forall m b1 mk1 c1 b2 mk2 c2 asks bids b1' os,
  reachable m b1 mk1 c1 -> valid (mk1, c1) (QDecompose asks bids) ->
  reachable m b2 mk2 c2 ->
  (forall s p, half_quantity_at (side_half b2 s) p = half_quantity_at (side_half b1 s) p) ->
  (forall s i, rests b2 s i -> i < b_counter b1) ->
  book_decompose m b1 asks bids = Ret (ROk (b1', os)) ->
  exists b2' replies, run m b2 (map submit os) = Ret (b2', replies) /\
    forall s p, half_quantity_at (side_half b2' s) p = wanted (match s with Ask => asks | Bid => bids end) p.
Proof.
  intros m b1 mk1 c1 b2 mk2 c2 asks bids b1' os H1 (Ha & Hb & Hc) H2 Hq Hid E.
  pose proof (reachable_rel _ _ _ _ H1) as R1. pose proof (reachable_rel _ _ _ _ H2) as R2.
  rewrite <- (reachable_counter _ _ _ _ H1) in Hc.
  destruct (sim_decompose m b1 mk1 asks bids R1 Ha Hb Hc) as (b' & H).
  pose proof (sim_replay m b1 mk1 b2 mk2 asks bids R1 Ha Hb Hc R2) as Hs.
  destruct (sp_dec asks bids (mk1, b_counter b1)) as [[mk' c'] os']. destruct H as (E' & _). rewrite E in E'. injection E' as <- <-.
  cbn [snd] in Hs. destruct Hs as (b2' & az & mk2' & Er & Hr2 & Ht).
  - intros s p. rewrite <- (linked_quantity_at s b2 mk2 p R2), <- (linked_quantity_at s b1 mk1 p R1). apply Hq.
  - apply List.Forall_forall. intros o Ho. apply (Hid (r_side o)). exists (r_price o), (r_qty o).
    apply (orders_at_In b2 mk2 _ _ _ _ R2). eauto 10.
  - exists b2', az. split; [exact Er|]. intros s p. rewrite (linked_quantity_at s b2' mk2' p Hr2), Ht. apply target_wanted.
Qed.
Example C15_hypotheses_met : forall m, exists b1 mk1 c1, reachable m b1 mk1 c1 /\
  valid (mk1, c1) (QDecompose ex_rows_bid ex_rows_ask) /\ mk1 <> [] /\ (forall s i, rests b1 s i -> i < b_counter b1).
Proof.
  intros m. destruct (reachable_of m 7 [QDecompose ex_rows_ask ex_rows_bid]
    [Rest 0 Ask 102 6; Rest 1 Ask 104 9; Rest 2 Bid 100 2; Rest 3 Bid 99 5] 4 _
    ltac:(apply valid_historyb_ok; vm_compute; reflexivity) eq_refl) as (b & H & _).
  eexists _, _, _. split; [exact H|]. split; [apply validb_ok; vm_compute; reflexivity|]. split; [discriminate|].
  intros s i (p & q & Hi). apply (orders_at_In b _ _ _ _ _ (reachable_rel _ _ _ _ H)) in Hi as (o & Ho & _ & _ & Ei & _).
  rewrite (reachable_counter _ _ _ _ H). destruct Ho as [<-|[<-|[<-|[<-|[]]]]]; simpl in Ei; lia.
Qed.
Print Assumptions C15_decomposed_orders_replay.
