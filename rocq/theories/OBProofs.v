(** OBProofs.v -- proofs used by OBProps.v. *)
From Coq Require Import ZArith List Lia Sorted Bool Permutation.
From stdpp Require Import base gmap.
From Verif Require Import Base OBTypes OBModel OBSpec OBBase OBInv OBRemove OBTrade OBRel OBSim OBSnap OBDec OBStep OBLaws OBMarketSell OBMore OBViews.
Import ListNotations.
Open Scope Z_scope.

Lemma reachable_linked m b mk c : reachable m b mk c -> linked b mk c.
Proof.
  intros (id & rs & az & Hv & Hr & Hs). destruct (run_sim m rs (book_initialize id) [] 0 (linked_init id) Hv) as (b' & H).
  destruct (sp_run _ rs) as [[mk' c'] az'] eqn:Es in H. pose proof (eq_trans (eq_sym Es) Hs) as Ee.
  injection Ee as -> -> ->. destruct H as (E & Hl & _). rewrite Hr in E. injection E as ->. exact Hl.
Qed.
Lemma reachable_rel m b mk c : reachable m b mk c -> rel b mk.
Proof. intros H. apply lk_rel with c. eapply reachable_linked; eauto. Qed.
Lemma reachable_counter m b mk c : reachable m b mk c -> b_counter b = c.
Proof. intros H. exact (lk_counter _ _ _ (reachable_linked _ _ _ _ H)). Qed.

Lemma orders_at_rel b mk s p : rel b mk -> orders_at b s p = qids (at_price s p mk).
Proof. intros Hr. exact (rh_queue _ _ _ (rel_side b mk s Hr) p). Qed.

Lemma resting_at b s p q : sorted (h_levels (side_half b s)) -> In (p, q) (resting b s) -> orders_at b s p = q.
Proof.
  unfold resting, orders_at. intros Hs Hi. apply in_map_iff in Hi as ([k l] & E & Hi). simpl in E. injection E as <- <-.
  now rewrite (bt_In_get _ k l Hs Hi).
Qed.

Lemma resting_sum b mk s : rel b mk ->
  half_aggregate (side_half b s) = fold_right (fun x a => qty_sum (snd x) + a) 0 (resting b s).
Proof.
  intros Hr. pose proof (rh_wf _ _ _ (rel_side b mk s Hr)) as Hw. unfold half_aggregate. rewrite (hw_total _ Hw).
  pose proof (hw_levels _ Hw) as Hl. unfold resting, sumt, sumv. revert Hl. generalize (h_levels (side_half b s)). clear.
  induction l as [|[p l] t IH]; intros Hl; simpl; [reflexivity|]. apply Forall_cons in Hl as [H1 H2]. rewrite IH by exact H2.
  simpl in H1. rewrite (lw_total _ _ H1). reflexivity.
Qed.

Lemma quantity_at_sum b mk s p : rel b mk -> half_quantity_at (side_half b s) p = qty_sum (orders_at b s p).
Proof.
  intros Hr. rewrite (linked_quantity_at s b mk p Hr), (orders_at_rel b mk s p Hr). unfold level_qty.
  rewrite <- qids_sum. reflexivity.
Qed.

Lemma orders_at_In b mk s p i q : rel b mk ->
  In (i, q) (orders_at b s p) <-> exists o, In o mk /\ r_side o = s /\ r_price o = p /\ r_id o = i /\ r_qty o = q.
Proof.
  intros Hr. rewrite (orders_at_rel b mk s p Hr). unfold qids. rewrite in_map_iff. split.
  - intros (o & E & Hi). injection E as <- <-. apply at_price_In in Hi as (A & B & C). eauto 10.
  - intros (o & A & B & C & <- & <-). exists o. split; [reflexivity|]. apply at_price_In. auto.
Qed.

Lemma get_order_exact b mk s i : rel b mk ->
  (exists r, half_get_order (side_half b s) i = Ret r) /\
  forall p q, half_get_order (side_half b s) i = Ret (Some (LimitOrder p q s i)) <-> In (i, q) (orders_at b s p).
Proof.
  intros Hr. rewrite (linked_get_order s b mk i Hr). split; [eauto|]. intros p q.
  rewrite (orders_at_In b mk s p i q Hr). pose proof (lookup_spec i mk) as Hl. pose proof (rel_nodup b mk Hr) as Hnd.
  destruct (OBSpec.lookup i mk) as [o|].
  - destruct Hl as [Hi E]. destruct (side_eqb (r_side o) s) eqn:Es.
    + apply side_eqb_eq in Es. split.
      * intros H. injection H as <- <-. eauto 10.
      * intros (x & Hx & Hs & Hp & Hid & Hq). assert (x = o) as -> by (eapply nodup_id_inj; eauto; congruence). now rewrite Hp, Hq.
    + split; [discriminate|]. intros (x & Hx & Hs & Hp & Hid & Hq).
      assert (x = o) as -> by (eapply nodup_id_inj; eauto; congruence). rewrite Hs, side_eqb_refl in Es. discriminate.
  - split; [discriminate|]. intros (x & Hx & Hs & Hp & Hid & Hq). exfalso. apply Hl. rewrite <- Hid. now apply in_map.
Qed.

Lemma get_order_unknown b mk s i : rel b mk ->
  half_get_order (side_half b s) i = Ret None <-> ~ rests b s i.
Proof.
  intros Hr. destruct (get_order_exact b mk s i Hr) as [[r E] H]. rewrite E. split.
  - intros E0 (p & q & Hi). apply H in Hi. congruence.
  - intros Hn. destruct r as [o|]; [|reflexivity]. exfalso. apply Hn. pose proof (linked_get_order s b mk i Hr) as G.
    rewrite E in G. injection G as G. destruct (OBSpec.lookup i mk) as [x|]; [|discriminate].
    destruct (side_eqb (r_side x) s); [|discriminate]. injection G as ->. exists (r_price x), (r_qty x). now apply H.
Qed.

Lemma get_price_exact b mk s i p : rel b mk ->
  half_get_price (side_half b s) i = Some p <-> exists q, In (i, q) (orders_at b s p).
Proof.
  intros Hr. unfold half_get_price. rewrite (rel_cache s _ mk i p (rel_side b mk s Hr)). split.
  - intros (o & A & B & C & D). exists (r_qty o). apply (orders_at_In b mk); eauto 10.
  - intros (q & Hi). apply (orders_at_In b mk) in Hi as (o & A & B & C & D & E); [|exact Hr]. eauto 10.
Qed.

Lemma resting_keys b s : map fst (resting b s) = map fst (h_levels (side_half b s)).
Proof. unfold resting. rewrite map_map. reflexivity. Qed.
Lemma resting_price_In b mk s p : rel b mk -> In p (map fst (resting b s)) <-> exists o, In o mk /\ r_side o = s /\ r_price o = p.
Proof.
  intros Hr. rewrite resting_keys, (keys_prices s _ mk (rel_side b mk s Hr)), prices_In. split.
  - intros (o & Ho & E). apply on_side_In in Ho as [A B]. eauto.
  - intros (o & A & B & E). exists o. split; [apply on_side_In; auto|exact E].
Qed.

Lemma best_exact b mk s : rel b mk ->
  let best := h_best (side_half b s) in
  match s with
  | Ask => (resting b s = [] /\ best = i64_max) \/
           (In best (map fst (resting b s)) /\ forall p, In p (map fst (resting b s)) -> best <= p)
  | Bid => (resting b s = [] /\ best = i64_min) \/
           (In best (map fst (resting b s)) /\ forall p, In p (map fst (resting b s)) -> p <= best)
  end.
Proof.
  intros Hr. cbn zeta. pose proof (rel_side b mk s Hr) as Hs.
  pose proof (best_of_spec s (h_levels (side_half b s)) (hw_sorted _ (rh_wf _ _ _ Hs))) as H.
  assert (Eb : best_of s (h_levels (side_half b s)) = h_best (side_half b s)).
  { rewrite (hw_best _ (rh_wf _ _ _ Hs)), (rh_side _ _ _ Hs). reflexivity. }
  rewrite Eb in H. rewrite resting_keys. unfold is_best, keys, sentinel in H. unfold resting.
  destruct s; (destruct H as [[H1 H2]|[H1 H2]]; [left; split; [|exact H2]|right; split; [exact H1|exact H2]]);
    apply map_eq_nil in H1; now rewrite H1.
Qed.

Lemma taker_acceptable s lim p : acceptable (other s) (Some lim) p = true <-> within_limit s lim p.
Proof. destruct s; simpl; lia. Qed.
Lemma taker_better s p q : better_p (other s) p q <-> better_for s p q.
Proof. unfold better_p. destruct s; simpl; lia. Qed.
Lemma sorted_worsening s l : StronglySorted (better_p (other s)) l -> worsening s l.
Proof.
  induction 1 as [|p ps Hs IH Hf]; constructor; auto. rewrite List.Forall_forall in Hf. intros q Hq. now apply taker_better, Hf.
Qed.

Lemma limit_step m b mk c o b' t : reachable m b mk c -> valid (mk, c) (QLimit o) ->
  book_limit m b o = Ret (b', t) ->
  rel b' (fst (sp_limit o mk)) /\ t = snd (sp_limit o mk).
Proof.
  intros Hr [Hf Hne] E. destruct (sim_limit m b mk o (reachable_rel _ _ _ _ Hr) Hf Hne) as (b2 & H).
  destruct (sp_limit o mk) as [mk' t']. destruct H as (E2 & H2 & _). rewrite E in E2. injection E2 as <- <-. auto.
Qed.
Lemma limit_returns m b mk c o : reachable m b mk c -> valid (mk, c) (QLimit o) ->
  exists b' t, book_limit m b o = Ret (b', t).
Proof.
  intros Hr [Hf Hne]. destruct (sim_limit m b mk o (reachable_rel _ _ _ _ Hr) Hf Hne) as (b2 & H).
  destruct (sp_limit o mk) as [mk' t']. destruct H as (E2 & _). eauto.
Qed.

Lemma reachable_step m b mk c r : reachable m b mk c -> valid (mk, c) r ->
  exists b', let '(mk', c', a) := sp_step (mk, c) r in step m b r = Ret (b', a) /\ reachable m b' mk' c'.
Proof.
  intros Hre Hv. destruct (step_sim m b mk c r (reachable_linked _ _ _ _ Hre) Hv) as (b' & H). exists b'.
  destruct (sp_step (mk, c) r) as [[mk' c'] a] eqn:Es. destruct H as (E & _ & _). split; [exact E|].
  destruct Hre as (id & rs & az & Hvh & Hr & Hs). exists id, (rs ++ [r]), (az ++ [a]).
  split; [|split].
  - clear Hr. revert Hvh Hs. generalize ((@nil rest, 0) : market * Z) as st. revert az.
    induction rs as [|x t IH]; intros az st Hvh Hs; cbn [app valid_history sp_run] in *.
    + destruct st as [mk0 c0]. simpl in Hs. injection Hs as -> -> <-. auto.
    + destruct Hvh as [H1 H2]. split; [exact H1|]. destruct (sp_step st x) as [[m1 c1] a1]. simpl in *.
      destruct (sp_run (m1, c1) t) as [[m2 c2] az2] eqn:Er. injection Hs as -> -> <-. eapply IH; [exact H2|exact Er].
  - rewrite (run_app m rs _ [r] _ _ Hr). cbn [run]. rewrite E. reflexivity.
  - clear Hr Hvh. revert Hs. generalize ((@nil rest, 0) : market * Z) as st. revert az.
    induction rs as [|x t IH]; intros az st Hs; cbn [app sp_run] in *.
    + destruct st as [mk0 c0]. simpl in Hs. injection Hs as -> -> <-. unfold market in *. rewrite Es. reflexivity.
    + destruct (sp_step st x) as [[m1 c1] a1]. simpl in *.
      destruct (sp_run (m1, c1) t) as [[m2 c2] az2] eqn:Er. injection Hs as -> -> <-. rewrite (IH _ _ Er). reflexivity.
Qed.

(** uncrossed along a history *)
Lemma run_uncrossed rs : forall b mk c, linked b mk c -> valid_history (mk, c) rs ->
  Forall no_blind_insert rs -> uncrossed mk -> uncrossed (fst (fst (sp_run (mk, c) rs))).
Proof.
  induction rs as [|r rs IH]; intros b mk c Hl Hv Hf Hu; [exact Hu|].
  destruct Hv as [Hv Hvs]. apply Forall_cons in Hf as [Hm Hf].
  destruct (step_sim Checked b mk c r Hl Hv) as (b1 & H). cbn [sp_run].
  assert (Hu1 : uncrossed (fst (fst (sp_step (mk, c) r)))).
  { apply (step_uncrossed b mk c r (lk_rel _ _ _ Hl) Hv); [|exact Hu]. destruct r; simpl in *; auto. }
  destruct (sp_step (mk, c) r) as [[mk1 c1] a]. cbn [fst] in *. destruct H as (_ & Hl1 & _).
  specialize (IH b1 mk1 c1 Hl1 Hvs Hf Hu1). destruct (sp_run (mk1, c1) rs) as [[mk2 c2] az]. exact IH.
Qed.

(** ids issued along a history *)
Lemma sorted_app (a b : list Z) k : StronglySorted Z.lt a -> StronglySorted Z.lt b ->
  Forall (fun x => x < k) a -> Forall (fun x => k <= x) b -> StronglySorted Z.lt (a ++ b).
Proof.
  intros Ha Hb Fa Fb. induction Ha as [|x t Hs IH Hf]; simpl; [exact Hb|].
  apply Forall_cons in Fa as [H1 H2]. constructor; [auto|]. apply List.Forall_app. split; [exact Hf|].
  eapply List.Forall_impl; [|exact Fb]. simpl. lia.
Qed.
Lemma zrange_sorted a b : StronglySorted Z.lt (zrange a b).
Proof.
  unfold zrange. generalize 0%nat as k. induction (Z.to_nat (b - a)) as [|n IH]; intros k; simpl; constructor; [apply IH|].
  apply List.Forall_forall. intros x Hx. apply in_map_iff in Hx as (i & <- & Hi). apply in_seq in Hi. lia.
Qed.
Lemma step_ids b mk c r : linked b mk c -> valid (mk, c) r ->
  let '(mk', c', a) := sp_step (mk, c) r in
  c <= c' /\ (reply_ids a = [] \/ reply_ids a = zrange c c').
Proof.
  intros [Hr Hc] Hv. destruct r; cbn [sp_step valid] in *.
  - simpl. split; [lia|auto].
  - destruct (sp_limit o mk). simpl. split; [lia|auto].
  - destruct (sp_market o mk). simpl. split; [lia|auto].
  - destruct (sp_cancel id mk). simpl. split; [lia|auto].
  - destruct (sp_modify o mk). simpl. split; [lia|auto].
  - destruct (sp_change_quantity id q mk). simpl. split; [lia|auto].
  - destruct (sp_remove_any _ _ _ mk). simpl. split; [lia|auto].
  - destruct Hv as (Ha & Hb & Ho & Hk). rewrite <- Hc in *.
    destruct (sim_snapshot Checked b mk asks bids Hr Ho Ha Hb Hk) as (b' & H).
    destruct (sp_l2 asks bids (mk, b_counter b)). destruct H as (_ & _ & _ & _ & Hle & _). auto.
  - destruct Hv as (Ha & Hb & Hk). rewrite <- Hc in *.
    pose proof (limit_ids_sp_dec b mk asks bids Hr Ha Hb Hk) as Hi.
    destruct (sim_decompose Checked b mk asks bids Hr Ha Hb Hk) as (b' & H).
    destruct (sp_dec asks bids (mk, b_counter b)) as [[mk' c'] os]. destruct H as (_ & _ & _ & _ & Hle & _).
    split; [exact Hle|]. right. exact Hi.
Qed.
Lemma run_ids rs : forall b mk c, linked b mk c -> valid_history (mk, c) rs ->
  let '(mk', c', az) := sp_run (mk, c) rs in
  c <= c' /\ StronglySorted Z.lt (flat_map reply_ids az) /\ Forall (fun i => c <= i < c') (flat_map reply_ids az).
Proof.
  induction rs as [|r rs IH]; intros b mk c Hl Hv.
  - simpl. split; [lia|]. split; constructor.
  - destruct Hv as [Hv Hvs]. destruct (step_sim Checked b mk c r Hl Hv) as (b1 & H).
    pose proof (step_ids b mk c r Hl Hv) as Hi. cbn [sp_run].
    destruct (sp_step (mk, c) r) as [[mk1 c1] a]. cbn [fst] in *. destruct H as (_ & Hl1 & _). destruct Hi as [Hc Hi].
    specialize (IH b1 mk1 c1 Hl1 Hvs). destruct (sp_run (mk1, c1) rs) as [[mk2 c2] az]. destruct IH as (I1 & I2 & I3).
    split; [lia|]. cbn [flat_map].
    assert (Hi2 : StronglySorted Z.lt (reply_ids a) /\ Forall (fun i => c <= i < c1) (reply_ids a)).
    { destruct Hi as [-> | ->]; [split; constructor|]. split; [apply zrange_sorted|].
      apply List.Forall_forall. intros x Hx. now apply zrange_In in Hx. }
    destruct Hi2 as [J1 J2]. split.
    + apply (sorted_app _ _ c1); auto; [eapply List.Forall_impl; [|exact J2]|eapply List.Forall_impl; [|exact I3]]; simpl; lia.
    + apply List.Forall_app. split; [eapply List.Forall_impl; [|exact J2]|eapply List.Forall_impl; [|exact I3]]; simpl; lia.
Qed.

(** ids resting after a snapshot or decomposition *)
Lemma dec_row_ids s row mk c os x : In x (map r_id (fst (fst (sp_dec_row s row (mk, c, os))))) ->
  In x (map r_id mk) \/ c <= x < snd (fst (sp_dec_row s row (mk, c, os))).
Proof.
  unfold sp_dec_row. destruct (0 <? _); [|destruct (_ <? 0)]; simpl.
  - unfold sp_add. rewrite map_app, in_app_iff. simpl. intros [H|[H|[]]]; [auto|right; lia].
  - intros H. left. eapply settle_ids, H.
  - auto.
Qed.
Lemma dec_row_counter s row mk c os : c <= snd (fst (sp_dec_row s row (mk, c, os))).
Proof. unfold sp_dec_row. destruct (0 <? _); [|destruct (_ <? 0)]; simpl; lia. Qed.
Lemma dec_rows_ids s rows : forall mk c os,
  let '(mk', c', _) := fold_left (fun st r => sp_dec_row s r st) rows (mk, c, os) in
  c <= c' /\ forall x, In x (map r_id mk') -> In x (map r_id mk) \/ c <= x < c'.
Proof.
  induction rows as [|r t IH]; intros mk c os; cbn [fold_left]; [split; [lia|auto]|].
  pose proof (dec_row_ids s r mk c os) as H1. pose proof (dec_row_counter s r mk c os) as H2.
  destruct (sp_dec_row s r (mk, c, os)) as [[mk1 c1] os1]. simpl in *.
  specialize (IH mk1 c1 os1). destruct (fold_left _ t _) as [[mk2 c2] os2]. destruct IH as [I1 I2].
  split; [lia|]. intros x Hx. destruct (I2 x Hx) as [Hi|Hi]; [|right; lia]. destruct (H1 x Hi); [auto|right; lia].
Qed.
Lemma dec_ids asks bids mk c :
  let '(mk', c', _) := sp_dec asks bids (mk, c) in
  c <= c' /\ forall x, In x (map r_id mk') -> In x (map r_id mk) \/ c <= x < c'.
Proof.
  unfold sp_dec, sp_dec_side. pose proof (dec_rows_ids Ask asks mk c []) as H1.
  destruct (fold_left _ asks _) as [[mk1 c1] o1]. destruct H1 as [A1 A2].
  pose proof (dec_rows_ids Bid bids (sp_keep_prices Ask (rows_prices asks) mk1) c1 []) as H2.
  destruct (fold_left _ bids _) as [[mk2 c2] o2]. destruct H2 as [B1 B2].
  split; [lia|]. intros x Hx. apply keep_ids, B2 in Hx as [Hx|Hx]; [|right; lia].
  apply keep_ids, A2 in Hx as [Hx|Hx]; [auto|right; lia].
Qed.
Lemma l2_ids asks bids mk c : NoDup (rows_prices asks) -> NoDup (rows_prices bids) -> one_per_level mk ->
  let '(mk', c') := sp_l2 asks bids (mk, c) in
  c <= c' /\ forall x, In x (map r_id mk') -> In x (map r_id mk) \/ c <= x < c'.
Proof.
  intros Ha Hb Ho. pose proof (l2_at asks bids mk c) as H. destruct (sp_l2 asks bids (mk, c)) as [mk' c'].
  split; [apply (H Ask 0 Ha Hb Ho)|]. intros x Hx. apply in_map_iff in Hx as (o & <- & Hi).
  destruct (H (r_side o) (r_price o) Ha Hb Ho) as [Hc Hp].
  assert (Hat : In o (at_price (r_side o) (r_price o) mk')) by (apply at_price_In; auto).
  destruct (row_qty _ _) as [q|]; [|rewrite Hp in Hat; destruct Hat].
  destruct (at_price (r_side o) (r_price o) mk) as [|y t] eqn:Ey.
  - destruct Hp as (i & Hi' & E). rewrite E in Hat. destruct Hat as [<-|[]]. right. exact Hi'.
  - rewrite Hp in Hat. destruct Hat as [<-|[]]. left. simpl. apply in_map.
    assert (In y (at_price (r_side o) (r_price o) mk)) by (rewrite Ey; now left). apply at_price_In in H0. tauto.
Qed.

(** modify *)
Lemma modify_new_price m b mk o x : rel b mk -> OBSpec.lookup (mod_id o) mk = Some x -> r_price x <> mod_price o ->
  book_modify m b o =
  (let! (b1, _) := book_cancel m b (mod_id o) in
   book_limit m b1 (LimitOrder (mod_price o) (mod_quantity o) (r_side x) (mod_id o))).
Proof.
  intros Hr Hl Hp. apply lookup_Some in Hl as [Hi Hid]; [|apply (rel_nodup _ _ Hr)].
  unfold book_modify, book_cancel. destruct (r_side x) eqn:Es.
  - assert (Hc : h_cache (b_asks b) !! mod_id o = Some (r_price x)) by (apply (rel_cache Ask _ mk); [apply Hr|eauto]).
    rewrite Hc. destruct (Z.eqb_spec (r_price x) (mod_price o)); [congruence|].
    destruct (sim_cancel_found m Ask (b_asks b) mk x (rel_asks _ _ Hr) Hi Es) as (h' & E & _).
    rewrite Hid in E. rewrite E. reflexivity.
  - assert (Hc : h_cache (b_asks b) !! mod_id o = None).
    { apply (rel_cache_None Ask _ mk); [apply Hr|]. intros y Hy Ys Yi.
      assert (y = x) as -> by (eapply nodup_id_inj; eauto; [apply (rel_nodup _ _ Hr)|congruence]). congruence. }
    rewrite Hc. assert (Hc2 : h_cache (b_bids b) !! mod_id o = Some (r_price x)) by (apply (rel_cache Bid _ mk); [apply Hr|eauto]).
    rewrite Hc2. destruct (Z.eqb_spec (r_price x) (mod_price o)); [congruence|].
    rewrite (half_cancel_none m (b_asks b) (mod_id o) Hc). cbn [obind]. assert (Eb : set_asks b (b_asks b) = b) by (destruct b; reflexivity). rewrite Eb.
    destruct (sim_cancel_found m Bid (b_bids b) mk x (rel_bids _ _ Hr) Hi Es) as (h' & E & _).
    rewrite Hid in E. rewrite E. reflexivity.
Qed.

Lemma oldest_eq k l : oldest k l = keep_oldest k l.
Proof. revert k. induction l as [|[i v] t IH]; intros k; simpl; [reflexivity|]. now rewrite IH. Qed.

Lemma target_wanted rows p : target rows p = wanted rows p.
Proof. unfold target, row_qty, wanted. now destruct (find _ rows). Qed.

Lemma remove_exact m b mk o : rel b mk -> 0 <= ra_quantity o ->
  let have := qty_sum (orders_at b (ra_side o) (ra_price o)) in
  exists b', book_remove m b o = Ret (b', Some (ra_quantity o - Z.min (ra_quantity o) have)) /\
    orders_at b' (ra_side o) (ra_price o) = oldest (have - ra_quantity o) (orders_at b (ra_side o) (ra_price o)) /\
    forall s p, (s, p) <> (ra_side o, ra_price o) -> orders_at b' s p = orders_at b s p.
Proof.
  intros Hr Hq. cbn zeta. pose proof (rel_side b mk (ra_side o) Hr) as Hs. assert (Hw := rh_wf _ _ _ Hs).
  destruct (half_remove_order_ok m (side_half b (ra_side o)) o Hw ltac:(symmetry; apply (rh_side _ _ _ Hs)) Hq)
    as (h' & E1 & Hw' & Hside & _ & _ & HQ).
  unfold book_remove. rewrite E1. cbn [obind]. exists (set_side b (ra_side o) h').
  change (queue (h_levels (side_half b (ra_side o))) (ra_price o)) with (orders_at b (ra_side o) (ra_price o)) in *.
  change (sumq (orders_at b (ra_side o) (ra_price o))) with (qty_sum (orders_at b (ra_side o) (ra_price o))).
  assert (Hpos : posq (orders_at b (ra_side o) (ra_price o))) by apply (wf_queue_pos _ _ Hw).
  split; [do 3 f_equal; pose proof (sumq_pos _ Hpos) as Hn; unfold sumq, qty_sum in *; lia|]. split.
  - unfold orders_at at 1. rewrite side_set. change (queue (h_levels h') (ra_price o) = oldest (qty_sum (orders_at b (ra_side o) (ra_price o)) - ra_quantity o) (orders_at b (ra_side o) (ra_price o))).
    rewrite HQ, Z.eqb_refl, oldest_eq. apply (eat_rev_keep _ Hpos _ Hq).
  - intros s p Hne. destruct (side_eqb s (ra_side o)) eqn:Es.
    + apply side_eqb_eq in Es. subst s. unfold orders_at at 1. rewrite side_set.
      change (queue (h_levels h') p = queue (h_levels (side_half b (ra_side o))) p). rewrite HQ.
      destruct (Z.eqb_spec p (ra_price o)) as [->|]; [congruence|reflexivity].
    + unfold orders_at. f_equal. destruct b, s, (ra_side o); simpl in *; try discriminate; reflexivity.
Qed.
