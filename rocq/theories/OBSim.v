(** OBSim.v -- every order-flow request of the model matches the reference exchange. *)
From Coq Require Import ZArith List Lia Sorted Bool Permutation.
From stdpp Require Import base gmap.
From Verif Require Import Base OBTypes OBModel OBSpec OBBase OBInv OBRemove OBTrade OBRel.
Import ListNotations.
Open Scope Z_scope.

Lemma rel_half_ext s h mk mk' : rel_half s h mk ->
  (forall p, qids (at_price s p mk') = qids (at_price s p mk)) -> rel_half s h mk'.
Proof. intros [Hw Hs HQ] H. constructor; auto. intros p. now rewrite H. Qed.

Lemma side_neq a b : a <> b -> side_eqb a b = false.
Proof. destruct a, b; simpl; congruence. Qed.

Lemma at_price_app s p a b : at_price s p (a ++ b) = at_price s p a ++ at_price s p b.
Proof. unfold at_price. apply List.filter_app. Qed.

Lemma nodup_app_one (l : list Z) x : NoDup l -> ~ In x l -> NoDup (l ++ [x]).
Proof.
  intros H Hn. apply NoDup_app. split; [exact H|]. split; [|apply NoDup_singleton].
  intros y Hy Hy'. apply elem_of_list_singleton in Hy'. subst. apply Hn. now apply elem_of_list_In.
Qed.

(** add *)
Lemma sim_add_half m s h mk o :
  rel_half s h mk -> lo_side o = s -> ~ In (lo_id o) (map r_id mk) -> 0 < lo_quantity o ->
  is_i64 (lo_price o) -> side_qty s mk + lo_quantity o < two64 ->
  exists h', half_add m h o = Ret (ROk h') /\ rel_half s h' (sp_add o mk).
Proof.
  intros Hr Hs Hni Hq Hp Hb. pose proof (rel_total s h mk Hr) as Ht. destruct Hr as [Hw Hside HQ] eqn:E. clear E.
  destruct (half_add_ok m h o Hw) as (h' & E & Hw' & Hs' & _ & _ & HQ'); auto; try congruence; try lia.
  - apply (rel_cache_None s h mk); [constructor; auto|]. intros x Hx _ Ex. apply Hni. rewrite <- Ex. now apply in_map.
  - exists h'. split; [exact E|]. constructor; [exact Hw'|congruence|]. intros p. rewrite HQ', HQ.
    unfold sp_add. rewrite at_price_app. unfold at_price at 3. simpl. rewrite Hs, side_eqb_refl. simpl.
    rewrite (Z.eqb_sym (lo_price o) p). destruct (Z.eqb_spec p (lo_price o)).
    + subst p. unfold qids. now rewrite map_app.
    + now rewrite app_nil_r.
Qed.

Lemma sim_add_other s h mk o : rel_half s h mk -> lo_side o <> s -> rel_half s h (sp_add o mk).
Proof.
  intros Hr Hs. apply (rel_half_ext _ _ _ _ Hr). intros p. unfold sp_add. rewrite at_price_app.
  unfold at_price at 2. simpl. rewrite side_neq by congruence. simpl. now rewrite app_nil_r.
Qed.

Lemma nodup_add o mk : NoDup (map r_id mk) -> ~ In (lo_id o) (map r_id mk) -> NoDup (map r_id (sp_add o mk)).
Proof. intros. unfold sp_add. rewrite map_app. simpl. now apply nodup_app_one. Qed.

Definition bset (b : book) (s : side) (h : half) := set_side b s h.

Lemma rel_of_sides b mk : NoDup (map r_id mk) -> (forall s, rel_half s (side_half b s) mk) -> rel b mk.
Proof. intros Hn H. constructor; [exact (H Ask)|exact (H Bid)|exact Hn]. Qed.
Lemma rel_side b mk s : rel b mk -> rel_half s (side_half b s) mk.
Proof. intros []. destruct s; assumption. Qed.

Lemma sim_add m b mk o :
  rel b mk -> fresh_order mk (lo_id o) (lo_side o) (lo_price o) (lo_quantity o) ->
  exists b', book_add m b o = Ret (ROk b') /\ rel b' (sp_add o mk) /\ b_id b' = b_id b /\ b_counter b' = b_counter b.
Proof.
  intros Hr (Hni & Hq & Hp & Hb).
  destruct (sim_add_half m (lo_side o) (side_half b (lo_side o)) mk o) as (h' & E & Hr'); auto using rel_side.
  unfold book_add. rewrite E. simpl. eexists. split; [reflexivity|]. split; [|destruct (lo_side o); auto].
  apply rel_of_sides; [apply nodup_add; auto; apply Hr|].
  intros s. destruct (lo_side o) eqn:Es, s; simpl; try exact Hr'.
  - apply sim_add_other; [apply Hr|congruence].
  - apply sim_add_other; [apply Hr|congruence].
Qed.

(** cancel *)
Lemma at_price_drop s p id mk :
  at_price s p (List.filter (fun o => negb (r_id o =? id)) mk) =
  List.filter (fun o => negb (r_id o =? id)) (at_price s p mk).
Proof.
  unfold at_price. induction mk as [|o t IH]; simpl; [reflexivity|].
  destruct (negb (r_id o =? id)) eqn:E; simpl;
    destruct (side_eqb (r_side o) s && (r_price o =? p)); simpl; rewrite ?E, IH; reflexivity.
Qed.
Lemma qids_drop id mk : qids (List.filter (fun o => negb (r_id o =? id)) mk) = drop_id id (qids mk).
Proof.
  unfold qids, drop_id. induction mk as [|o t IH]; simpl; [reflexivity|].
  destruct (r_id o =? id); simpl; now rewrite IH.
Qed.
Lemma nodup_drop id mk : NoDup (map r_id mk) -> NoDup (map r_id (List.filter (fun o => negb (r_id o =? id)) mk)).
Proof.
  intros H. rewrite <- qids_ids, qids_drop. apply NoDup_map_filter. now rewrite qids_ids.
Qed.

Definition dropped (id : Z) (mk : market) : market := List.filter (fun o => negb (r_id o =? id)) mk.

Lemma sim_cancel_half m s h mk id :
  rel_half s h mk ->
  (forall o, In o mk -> r_id o = id -> r_side o = s -> False) ->
  half_cancel m h id = Ret (h, false).
Proof.
  intros Hr H. apply half_cancel_none. apply (rel_cache_None s h mk id Hr). intros o Hi Hs E. eauto.
Qed.

Lemma rel_drop_other s h mk id : rel_half s h mk ->
  (forall o, In o mk -> r_id o = id -> r_side o = s -> False) -> rel_half s h (dropped id mk).
Proof.
  intros Hr H. apply (rel_half_ext _ _ _ _ Hr). intros p. unfold dropped. rewrite at_price_drop.
  rewrite qids_drop. apply drop_id_notin. rewrite qids_ids, in_map_iff. intros (o & E & Ho).
  apply at_price_In in Ho as (Hi & Hs & _). eauto.
Qed.

Lemma sim_cancel_found m s h mk o :
  rel_half s h mk -> In o mk -> r_side o = s ->
  exists h', half_cancel m h (r_id o) = Ret (h', true) /\ rel_half s h' (dropped (r_id o) mk).
Proof.
  intros Hr Hi Hs. destruct Hr as [Hw Hside HQ] eqn:E; clear E.
  assert (Hc : h_cache h !! r_id o = Some (r_price o)) by (apply (rel_cache s h mk); eauto).
  destruct (half_cancel_ok m h (r_id o) (r_price o) Hw Hc) as (h' & v & E & Hw' & Hs' & _ & _ & _ & HQ').
  exists h'. split; [exact E|]. constructor; [exact Hw'|congruence|]. intros p.
  rewrite HQ', HQ. unfold dropped. now rewrite at_price_drop, qids_drop.
Qed.

Lemma sim_cancel m b mk id :
  rel b mk ->
  exists b' ok, book_cancel m b id = Ret (b', ok) /\ sp_cancel id mk = (if ok then dropped id mk else mk, ok) /\
    rel b' (if ok then dropped id mk else mk) /\ b_id b' = b_id b /\ b_counter b' = b_counter b.
Proof.
  intros Hr. unfold sp_cancel. pose proof (lookup_spec id mk) as Hl.
  pose proof (rel_nodup b mk Hr) as Hnd.
  destruct (OBSpec.lookup id mk) as [o|].
  - destruct Hl as [Hi <-]. unfold book_cancel. destruct (r_side o) eqn:Es.
    + destruct (sim_cancel_found m Ask (b_asks b) mk o) as (h' & E & Hr'); auto; [apply Hr|].
      rewrite E. simpl. eexists _, true. split; [reflexivity|]. split; [reflexivity|]. split; [|auto].
      constructor; simpl; [exact Hr'| |now apply nodup_drop].
      apply rel_drop_other; [apply Hr|]. intros o' Hi' E' Hs'.
      assert (o' = o) as -> by (eapply nodup_id_inj; eauto). congruence.
    + rewrite (sim_cancel_half m Ask (b_asks b) mk); [|apply Hr|].
      2:{ intros o' Hi' E' Hs'. assert (o' = o) as -> by (eapply nodup_id_inj; eauto). congruence. }
      cbn [obind]. destruct (sim_cancel_found m Bid (b_bids b) mk o) as (h' & E & Hr'); auto; [apply Hr|].
      simpl. rewrite E. simpl. eexists _, true. split; [reflexivity|]. split; [reflexivity|]. split; [|auto].
      constructor; simpl; [|exact Hr'|now apply nodup_drop].
      apply rel_drop_other; [apply Hr|]. intros o' Hi' E' Hs'.
      assert (o' = o) as -> by (eapply nodup_id_inj; eauto). congruence.
  - unfold book_cancel. rewrite (sim_cancel_half m Ask (b_asks b) mk); [|apply Hr|].
    2:{ intros o' Hi' E' Hs'. apply Hl. rewrite <- E'. now apply in_map. }
    cbn [obind]. simpl. rewrite (sim_cancel_half m Bid (b_bids b) mk); [|apply Hr|].
    2:{ intros o' Hi' E' Hs'. apply Hl. rewrite <- E'. now apply in_map. }
    simpl. eexists _, false. split; [reflexivity|]. split; [reflexivity|]. split; [|auto].
    destruct Hr. constructor; auto.
Qed.

(** change quantity *)
Lemma at_price_set s p id q mk : at_price s p (sp_set_qty id q mk) = sp_set_qty id q (at_price s p mk).
Proof.
  unfold at_price, sp_set_qty. induction mk as [|o t IH]; simpl; [reflexivity|].
  destruct (r_id o =? id) eqn:E; simpl;
    destruct (side_eqb (r_side o) s && (r_price o =? p)); simpl; rewrite ?E, IH; reflexivity.
Qed.
Lemma qids_set id q mk : qids (sp_set_qty id q mk) = put_qty id q (qids mk).
Proof.
  unfold qids, sp_set_qty, put_qty. induction mk as [|o t IH]; simpl; [reflexivity|].
  rewrite IH. destruct (r_id o =? id); reflexivity.
Qed.
Lemma set_ids id q mk : map r_id (sp_set_qty id q mk) = map r_id mk.
Proof. rewrite <- !qids_ids, qids_set. apply put_qty_ids. Qed.

Lemma sim_change_none m s h mk id q :
  rel_half s h mk -> (forall o, In o mk -> r_id o = id -> r_side o = s -> False) ->
  half_change_quantity m h id q = Ret (h, false).
Proof.
  intros Hr H. apply half_change_quantity_none. apply (rel_cache_None s h mk id Hr). intros o Hi Hs E. eauto.
Qed.
Lemma rel_set_other s h mk id q : rel_half s h mk ->
  (forall o, In o mk -> r_id o = id -> r_side o = s -> False) -> rel_half s h (sp_set_qty id q mk).
Proof.
  intros Hr H. apply (rel_half_ext _ _ _ _ Hr). intros p. rewrite at_price_set, qids_set.
  apply put_qty_notin. rewrite qids_ids, in_map_iff. intros (o & E & Ho).
  apply at_price_In in Ho as (Hi & Hs & _). eauto.
Qed.
Lemma sim_change_found m s h mk o q :
  rel_half s h mk -> In o mk -> r_side o = s -> 0 < q -> side_qty s mk + q < two64 ->
  exists h', half_change_quantity m h (r_id o) q = Ret (h', true) /\ rel_half s h' (sp_set_qty (r_id o) q mk).
Proof.
  intros Hr Hi Hs Hq Hb. pose proof (rel_total s h mk Hr) as Ht. destruct Hr as [Hw Hside HQ] eqn:E; clear E.
  assert (Hc : h_cache h !! r_id o = Some (r_price o)) by (apply (rel_cache s h mk); eauto).
  destruct (half_change_quantity_ok m h (r_id o) q (r_price o) Hw Hc) as (h' & v & E & Hw' & Hs' & _ & _ & _ & HQ'); auto; [lia|].
  exists h'. split; [exact E|]. constructor; [exact Hw'|congruence|]. intros p.
  rewrite HQ', HQ. now rewrite at_price_set, qids_set.
Qed.

Lemma sim_change m b mk id q :
  rel b mk ->
  (forall x, OBSpec.lookup id mk = Some x -> 0 < q /\ side_qty (r_side x) mk + q < two64) ->
  exists b' ok, book_change_quantity m b id q = Ret (b', ok) /\
    sp_change_quantity id q mk = (if ok then sp_set_qty id q mk else mk, ok) /\
    rel b' (if ok then sp_set_qty id q mk else mk) /\ b_id b' = b_id b /\ b_counter b' = b_counter b.
Proof.
  intros Hr Hv. unfold sp_change_quantity. pose proof (lookup_spec id mk) as Hl.
  pose proof (rel_nodup b mk Hr) as Hnd.
  destruct (OBSpec.lookup id mk) as [o|].
  - destruct (Hv o eq_refl) as [Hq Hb]. destruct Hl as [Hi <-]. unfold book_change_quantity. destruct (r_side o) eqn:Es.
    + destruct (sim_change_found m Ask (b_asks b) mk o q) as (h' & E & Hr'); auto; [apply Hr|].
      rewrite E. simpl. eexists _, true. split; [reflexivity|]. split; [reflexivity|]. split; [|auto].
      constructor; simpl; [exact Hr'| |now rewrite set_ids].
      apply rel_set_other; [apply Hr|]. intros o' Hi' E' Hs'.
      assert (o' = o) as -> by (eapply nodup_id_inj; eauto). congruence.
    + rewrite (sim_change_none m Ask (b_asks b) mk); [|apply Hr|].
      2:{ intros o' Hi' E' Hs'. assert (o' = o) as -> by (eapply nodup_id_inj; eauto). congruence. }
      cbn [obind]. destruct (sim_change_found m Bid (b_bids b) mk o q) as (h' & E & Hr'); auto; [apply Hr|].
      simpl. rewrite E. simpl. eexists _, true. split; [reflexivity|]. split; [reflexivity|]. split; [|auto].
      constructor; simpl; [|exact Hr'|now rewrite set_ids].
      apply rel_set_other; [apply Hr|]. intros o' Hi' E' Hs'.
      assert (o' = o) as -> by (eapply nodup_id_inj; eauto). congruence.
  - unfold book_change_quantity. rewrite (sim_change_none m Ask (b_asks b) mk); [|apply Hr|].
    2:{ intros o' Hi' E' Hs'. apply Hl. rewrite <- E'. now apply in_map. }
    cbn [obind]. simpl. rewrite (sim_change_none m Bid (b_bids b) mk); [|apply Hr|].
    2:{ intros o' Hi' E' Hs'. apply Hl. rewrite <- E'. now apply in_map. }
    simpl. eexists _, false. split; [reflexivity|]. split; [reflexivity|]. split; [|auto].
    destruct Hr. constructor; auto.
Qed.

(** remove any *)
Lemma rev_filter {A} (f : A -> bool) l : rev (List.filter f l) = List.filter f (rev l).
Proof.
  induction l as [|x t IH]; simpl; [reflexivity|]. rewrite List.filter_app. simpl.
  destruct (f x); simpl; rewrite IH; [reflexivity|now rewrite app_nil_r].
Qed.

Lemma fill_amounts_In l i f : forall r, In (i, f) (amounts r (qids l)) -> exists o, In (o, f) (fill r l) /\ r_id o = i.
Proof.
  induction l as [|o t IH]; intros r; simpl; [tauto|]. intros [E|Hi].
  - injection E as <- <-. exists o. auto.
  - destruct (IH _ Hi) as (o' & H & E). exists o'. auto.
Qed.

Lemma sim_remove_half m s h mk p r :
  rel_half s h mk -> NoDup (map r_id mk) -> 0 <= r ->
  let '(mk', lo) := sp_remove_any s p r mk in
  exists h', half_remove_order m h (RemoveAny p r s) = Ret (h', Some lo) /\
    rel_half s h' mk' /\ NoDup (map r_id mk') /\
    (forall s' h', s' <> s -> rel_half s' h' mk -> rel_half s' h' mk') /\
    (forall id, In id (map r_id mk') -> In id (map r_id mk)) /\
    (forall p', p' <> p -> at_price s p' mk' = at_price s p' mk) /\
    level_qty s p mk' = Z.max 0 (level_qty s p mk - r).
Proof.
  intros Hr Hnd Hr0. unfold sp_remove_any. set (ex := fill r (rev (at_price s p mk))).
  destruct Hr as [Hw Hside HQ] eqn:E0; clear E0.
  assert (Hposl : Forall (fun o => 0 < r_qty o) (rev (at_price s p mk))).
  { apply List.Forall_forall. intros o Ho. apply in_rev, at_price_In in Ho as (Ho & Hs & _).
    eapply rel_pos; eauto. }
  destruct (fill_total r _ Hposl Hr0) as [Eft Hnn].
  assert (Etot : total_qty (rev (at_price s p mk)) = sumq (queue (h_levels h) p)).
  { rewrite HQ, qids_sum. apply total_qty_perm. symmetry. apply Permutation_rev. }
  destruct (half_remove_order_ok m h (RemoveAny p r s) Hw) as (h' & E & Hw' & Hs' & Ht' & _ & HQ'); auto.
  cbn [ra_price ra_quantity] in *.
  exists h'. split.
  { rewrite E. do 3 f_equal. unfold ex. rewrite Eft, Etot. lia. }
  assert (Hexnd : NoDup (map (fun x => r_id (fst x)) ex)).
  { unfold ex. rewrite fill_ids, map_rev. apply NoDup_ListNoDup, NoDup_rev, NoDup_ListNoDup.
    rewrite <- qids_ids, <- HQ. now apply wf_queue_nodup. }
  assert (Hnotin : forall o, In o mk -> (r_side o <> s \/ r_price o <> p) -> filled_of (r_id o) ex = 0).
  { intros o Ho Hc. apply filled_of_notin. unfold ex. rewrite fill_ids. intros Hi.
    apply in_map_iff in Hi as (o' & E' & Hi). apply in_rev, at_price_In in Hi as (Hi & Ho1 & Ho2).
    assert (o' = o) as -> by (eapply nodup_id_inj; eauto). destruct Hc; congruence. }
  assert (Hframe : forall s' p', (s' <> s \/ p' <> p) ->
     (forall o, In o (at_price s' p' mk) -> 0 < r_qty o) -> at_price s' p' (settle ex mk) = at_price s' p' mk).
  { intros s' p' Hne Hpos. rewrite at_price_settle. unfold settle.
    assert (A : forall o, In o (at_price s' p' mk) -> filled_of (r_id o) ex = 0 /\ 0 < r_qty o).
    { intros o Ho. split; [|auto]. apply at_price_In in Ho as (Ho & Hos & Hop). apply Hnotin; [exact Ho|].
      destruct Hne; [left|right]; congruence. }
    clear Hpos. revert A. induction (at_price s' p' mk) as [|o t IH]; intros A; simpl; [reflexivity|].
    destruct (A o) as [A1 A2]; [now left|]. rewrite A1, Z.sub_0_r.
    destruct (Z.ltb_spec 0 (r_qty o)); [|lia]. rewrite IH by (intros; apply A; now right).
    now destruct o. }
  assert (Hp : qids (at_price s p (settle ex mk)) = rev (eat r (rev (queue (h_levels h) p)))).
  { rewrite at_price_settle, qids_settle. rewrite <- HQ.
    rewrite <- (rev_involutive (List.filter _ _)). f_equal. rewrite rev_filter, <- map_rev.
    apply (eat_settle (fun i => filled_of i ex)); [|exact Hr0|].
    - unfold posq. apply List.Forall_forall. intros x Hx. apply in_rev in Hx.
      pose proof (wf_queue_pos h p Hw) as P. unfold posq in P. rewrite List.Forall_forall in P. auto.
    - intros i f Hi. rewrite HQ in Hi. replace (rev (qids (at_price s p mk))) with (qids (rev (at_price s p mk))) in Hi
        by (unfold qids; now rewrite map_rev).
      apply fill_amounts_In in Hi as (o & Hi & <-). fold ex in Hi. now apply filled_of_In. }
  assert (Hrel' : rel_half s h' (settle ex mk)).
  { constructor; [exact Hw'|congruence|]. intros p'. rewrite HQ'. destruct (Z.eqb_spec p' p) as [->|Hne].
    - now rewrite Hp.
    - rewrite Hframe; auto. intros o Ho. apply at_price_In in Ho as (? & ? & ?). eapply (rel_pos s h mk); eauto. }
  split; [exact Hrel'|]. split; [now apply settle_nodup|]. split; [|split; [|split]].
  - intros s' h0 Hne Hr''. apply (rel_half_ext _ _ _ _ Hr''). intros p'. rewrite Hframe; auto.
    intros o Ho. apply at_price_In in Ho as (? & ? & ?). eapply (rel_pos s' h0 mk); eauto.
  - intros id. apply settle_ids.
  - intros p' Hne. apply Hframe; auto. intros o Ho. apply at_price_In in Ho as (? & ? & ?). eapply (rel_pos s h mk); eauto.
  - unfold level_qty. rewrite <- qids_sum, Hp, sumq_rev. rewrite eat_sum; [|..|exact Hr0].
    + rewrite sumq_rev, HQ, qids_sum. reflexivity.
    + unfold posq. apply List.Forall_forall. intros x Hx. apply in_rev in Hx.
      pose proof (wf_queue_pos h p Hw) as P. unfold posq in P. rewrite List.Forall_forall in P. auto.
Qed.

Lemma sim_remove m b mk o :
  rel b mk -> 0 <= ra_quantity o ->
  exists b', let '(mk', lo) := sp_remove_any (ra_side o) (ra_price o) (ra_quantity o) mk in
    book_remove m b o = Ret (b', Some lo) /\ rel b' mk' /\ b_id b' = b_id b /\ b_counter b' = b_counter b.
Proof.
  intros Hr Hq. destruct o as [p q s]. cbn [ra_side ra_price ra_quantity] in *.
  pose proof (sim_remove_half m s (side_half b s) mk p q (rel_side _ _ _ Hr) (rel_nodup _ _ Hr) Hq) as H.
  destruct (sp_remove_any s p q mk) as [mk' lo]. destruct H as (h' & E & Hr' & Hnd' & Hoth & _).
  unfold book_remove. cbn [ra_side]. rewrite E. simpl. eexists. split; [reflexivity|].
  split; [|destruct s; auto]. apply rel_of_sides; [exact Hnd'|]. intros s'. destruct s, s'; simpl; auto.
  - apply Hoth; [congruence|apply Hr].
  - apply Hoth; [congruence|apply Hr].
Qed.

(** limit orders *)
Lemma sentinel_extreme s : sentinel s = extreme_price s.
Proof. now destruct s. Qed.

Lemma best_takes s h mk lim : rel_half s h mk -> is_i64 lim ->
  (on_side s mk = [] -> lim <> extreme_price s) ->
  takes s lim (h_best h) = existsb (fun x => acceptable s (Some lim) (r_price x)) (on_side s mk).
Proof.
  intros Hr Hl Hne. pose proof (keys_of_orders s h mk Hr) as Hk.
  destruct Hr as [Hw Hs HQ]. rewrite (hw_best h Hw), Hs.
  destruct (best_of_spec s (h_levels h) (hw_sorted h Hw)) as [[E1 E2]|[H1 H2]].
  - assert (Eo : on_side s mk = []).
    { destruct (on_side s mk) as [|o t] eqn:Eo; [reflexivity|]. exfalso.
      assert (In (r_price o) (keys (h_levels h))) as A by (apply Hk; exists o; split; [now left|reflexivity]).
      rewrite E1 in A. destruct A. }
    rewrite E2, Eo. simpl. specialize (Hne Eo). unfold is_i64 in Hl. destruct s; simpl in *; unfold sentinel; lia.
  - destruct (existsb _ (on_side s mk)) eqn:Ex.
    + apply existsb_exists in Ex as (o & Ho & Ha).
      assert (A : In (r_price o) (keys (h_levels h))) by (apply Hk; eauto).
      specialize (H2 _ A). destruct s; simpl in *; lia.
    + apply Hk in H1 as (o & Ho & Ep). rewrite <- Ep.
      destruct (takes s lim (r_price o)) eqn:Et; [|reflexivity].
      assert (existsb (fun x => acceptable s (Some lim) (r_price x)) (on_side s mk) = true).
      { apply existsb_exists. exists o. split; [exact Ho|]. now rewrite acceptable_takes. }
      congruence.
Qed.

Lemma side_qty_perm_le s h mk mk' h' : rel_half s h mk -> rel_half s h' mk' -> h_total h' <= h_total h ->
  side_qty s mk' <= side_qty s mk.
Proof. intros H1 H2 H. now rewrite <- (rel_total _ _ _ H1), <- (rel_total _ _ _ H2). Qed.

Lemma sim_limit m b mk o :
  rel b mk -> fresh_order mk (lo_id o) (lo_side o) (lo_price o) (lo_quantity o) ->
  not_extreme mk (lo_side o) (lo_price o) ->
  exists b', let '(mk', t) := sp_limit o mk in
    book_limit m b o = Ret (b', t) /\ rel b' mk' /\ b_id b' = b_id b /\ b_counter b' = b_counter b.
Proof.
  intros Hr (Hni & Hq & Hp & Hb) Hne. unfold sp_limit. cbn zeta.
  set (s := other (lo_side o)) in *.
  assert (Hso : lo_side o <> s) by (unfold s; destruct (lo_side o); discriminate).
  pose proof (rel_side b mk s Hr) as Hrs. pose proof (rel_nodup _ _ Hr) as Hnd.
  assert (Hbt := best_takes s (side_half b s) mk (lo_price o) Hrs Hp Hne).
  destruct (existsb _ (on_side s mk)) eqn:Ex.
  - (* crosses *)
    assert (Hnem : half_is_empty (side_half b s) = false).
    { destruct (half_is_empty (side_half b s)) eqn:E; [|reflexivity].
      apply (rel_empty s _ mk Hrs) in E. rewrite E in Ex. discriminate. }
    destruct (execute_sweep s (side_half b s) mk (Some (lo_price o)) (takes s (lo_price o)) (lo_quantity o))
      as (mk' & Ee & Hnd' & Hr' & Hoth & Hsub); auto; try lia; try apply takes_mono; try (intros; apply acceptable_takes).
    rewrite Ee. set (lf := sweep_left (takes s (lo_price o)) (lo_quantity o) (plevels (side_half b s))) in *.
    set (hs := sweep_hist _ _ _) in *.
    pose proof (half_trade_limit_ok m (side_half b s) o (rh_wf _ _ _ Hrs)) as Hth.
    rewrite (rh_side _ _ _ Hrs), Hnem, Hbt in Hth. cbn [orb negb] in Hth. cbn zeta in Hth.
    specialize (Hth ltac:(unfold s; destruct (lo_side o); reflexivity) ltac:(lia)).
    fold lf in Hth. fold hs in Hth.
    assert (Hlf : 0 <= lf <= lo_quantity o).
    { unfold lf. apply sweep_left_bounds; [|lia]. apply plevels_lwf, Hrs. }
    assert (Hown : rel_half (lo_side o) (side_half b (lo_side o)) mk') by (apply Hoth; [exact Hso|now apply rel_side]).
    assert (Hsq : side_qty (lo_side o) mk' = side_qty (lo_side o) mk).
    { rewrite <- (rel_total _ _ _ Hown). apply rel_total. now apply rel_side. }
    assert (Hni' : ~ In (lo_id o) (map r_id mk')) by (intros Hi; apply Hni; unfold ids; auto).
    unfold book_limit. unfold s in *. destruct (lo_side o) eqn:Es; cbn [other side_half] in *.
    + (* ask order against bids *)
      unfold takes in Hbt. destruct (Z.ltb_spec (h_best (b_bids b)) (lo_price o)); [exfalso; apply Z.leb_le in Hbt; lia|].
      rewrite Hth. cbn [obind].
      destruct (Z.ltb_spec 0 lf).
      * destruct (sim_add_half m Ask (b_asks b) mk' (LimitOrder (lo_price o) lf Ask (lo_id o))) as (h2 & E2 & Hr2); auto;
          cbn [lo_quantity lo_price lo_id lo_side]; auto; try lia.
        cbn [b_asks set_bids]. rewrite E2. simpl. eexists. split; [reflexivity|]. split; [|auto].
        apply rel_of_sides; [now apply nodup_add|]. intros s'. destruct s'; simpl; [exact Hr2|].
        apply sim_add_other; [exact Hr'|discriminate].
      * eexists. split; [reflexivity|]. split; [|auto].
        apply rel_of_sides; [exact Hnd'|]. intros s'. destruct s'; simpl; [exact Hown|exact Hr'].
    + unfold takes in Hbt. destruct (Z.ltb_spec (lo_price o) (h_best (b_asks b))); [exfalso; apply Z.leb_le in Hbt; lia|].
      rewrite Hth. cbn [obind].
      destruct (Z.ltb_spec 0 lf).
      * destruct (sim_add_half m Bid (b_bids b) mk' (LimitOrder (lo_price o) lf Bid (lo_id o))) as (h2 & E2 & Hr2); auto;
          cbn [lo_quantity lo_price lo_id lo_side]; auto; try lia.
        cbn [b_bids set_asks]. rewrite E2. simpl. eexists. split; [reflexivity|]. split; [|auto].
        apply rel_of_sides; [now apply nodup_add|]. intros s'. destruct s'; simpl; [|exact Hr2].
        apply sim_add_other; [exact Hr'|discriminate].
      * eexists. split; [reflexivity|]. split; [|auto].
        apply rel_of_sides; [exact Hnd'|]. intros s'. destruct s'; simpl; [exact Hr'|exact Hown].
  - (* rests *)
    destruct (sim_add_half m (lo_side o) (side_half b (lo_side o)) mk o) as (h2 & E2 & Hr2); auto using rel_side.
    unfold book_limit. unfold s in *. destruct (lo_side o) eqn:Es; cbn [other side_half] in *.
    + unfold takes in Hbt. destruct (Z.ltb_spec (h_best (b_bids b)) (lo_price o)); [|exfalso; apply Z.leb_gt in Hbt; lia].
      rewrite E2. simpl. eexists. split; [reflexivity|]. split; [|auto].
      apply rel_of_sides; [now apply nodup_add|]. intros s'. destruct s'; simpl; [exact Hr2|].
      apply sim_add_other; [apply Hr|congruence].
    + unfold takes in Hbt. destruct (Z.ltb_spec (lo_price o) (h_best (b_asks b))); [|exfalso; apply Z.leb_gt in Hbt; lia].
      rewrite E2. simpl. eexists. split; [reflexivity|]. split; [|auto].
      apply rel_of_sides; [now apply nodup_add|]. intros s'. destruct s'; simpl; [|exact Hr2].
      apply sim_add_other; [apply Hr|congruence].
Qed.

(** market orders (buy side) *)
Lemma sim_market m b mk o :
  rel b mk -> mo_side o = Bid -> 0 <= mo_quantity o ->
  exists b', let '(mk', t) := sp_market o mk in
    book_market m b o = Ret (b', t) /\ rel b' mk' /\ b_id b' = b_id b /\ b_counter b' = b_counter b.
Proof.
  intros Hr Hs Hq. unfold sp_market, book_market. rewrite Hs. cbn [other]. cbn zeta.
  pose proof (rel_asks b mk Hr) as Hra. pose proof (rel_nodup _ _ Hr) as Hnd.
  rewrite half_trade_market_ok; auto; try apply Hra.
  pose proof (rel_empty Ask _ mk Hra) as He.
  destruct (half_is_empty (b_asks b)) eqn:Ee.
  - assert (on_side Ask mk = []) as -> by (apply He; reflexivity).
    simpl. eexists. split; [reflexivity|]. split; [|auto]. destruct Hr; constructor; auto.
  - destruct (on_side Ask mk) as [|x t] eqn:Eo; [destruct He as [_ He]; discriminate (He eq_refl)|].
    destruct (execute_sweep Ask (b_asks b) mk None any_price (mo_quantity o))
      as (mk' & Ex & Hnd' & Hr' & Hoth & Hsub); auto; [apply any_mono|].
    rewrite Ex. simpl. eexists. split; [reflexivity|]. split; [|auto].
    constructor; simpl; [exact Hr'| |exact Hnd']. apply Hoth; [discriminate|apply Hr].
Qed.

(** modify *)
Lemma sim_modify m b mk o :
  rel b mk ->
  (forall x, OBSpec.lookup (mod_id o) mk = Some x ->
        0 < mod_quantity o /\ is_i64 (mod_price o) /\
        side_qty (r_side x) mk + mod_quantity o < two64 /\
        not_extreme mk (r_side x) (mod_price o)) ->
  exists b', let '(mk', t) := sp_modify o mk in
    book_modify m b o = Ret (b', t) /\ rel b' mk' /\ b_id b' = b_id b /\ b_counter b' = b_counter b.
Proof.
  intros Hr Hv. unfold sp_modify. pose proof (lookup_spec (mod_id o) mk) as Hl.
  pose proof (rel_nodup b mk Hr) as Hnd. unfold book_modify.
  destruct (OBSpec.lookup (mod_id o) mk) as [x|] eqn:Elk.
  - destruct (Hv x eq_refl) as (Hq & Hp & Hb & Hne). destruct Hl as [Hi Eid].
    assert (Hc : h_cache (side_half b (r_side x)) !! mod_id o = Some (r_price x)).
    { apply (rel_cache (r_side x) _ mk); [now apply rel_side|]. exists x. auto. }
    assert (Hc' : forall s, s <> r_side x -> h_cache (side_half b s) !! mod_id o = None).
    { intros s Hne'. apply (rel_cache_None s _ mk); [now apply rel_side|]. intros y Hy Hys Ey.
      assert (y = x) as -> by (eapply nodup_id_inj; eauto; congruence). congruence. }
    assert (Hother : forall y, In y mk -> r_id y = mod_id o -> r_side y = r_side x).
    { intros y Hy Ey. assert (y = x) as -> by (eapply nodup_id_inj; eauto; congruence). reflexivity. }
    destruct (Z.eqb_spec (r_price x) (mod_price o)) as [Ep|Ep].
    + (* same price *)
      destruct (sim_change_found m (r_side x) (side_half b (r_side x)) mk x (mod_quantity o)) as (h' & E & Hr'); auto using rel_side.
      rewrite Eid in *. destruct (r_side x) eqn:Es; cbn [side_half] in *.
      * rewrite Hc. rewrite Ep, Z.eqb_refl, E. simpl. eexists. split; [reflexivity|]. split; [|auto].
        constructor; simpl; [exact Hr'| |now rewrite set_ids].
        apply rel_set_other; [apply Hr|]. intros y Hy Ey Hs. rewrite (Hother y Hy Ey) in Hs. discriminate.
      * pose proof (Hc' Ask ltac:(discriminate)) as HcA; cbn [side_half] in HcA; rewrite HcA, Hc. rewrite Ep, Z.eqb_refl, E. simpl. eexists. split; [reflexivity|]. split; [|auto].
        constructor; simpl; [|exact Hr'|now rewrite set_ids].
        apply rel_set_other; [apply Hr|]. intros y Hy Ey Hs. rewrite (Hother y Hy Ey) in Hs. discriminate.
    + (* new price: cancel, then a fresh limit order *)
      unfold sp_cancel. rewrite Elk. cbn [fst].
      destruct (sim_cancel_found m (r_side x) (side_half b (r_side x)) mk x) as (h' & E & Hr'); auto using rel_side.
      rewrite Eid in *. fold (dropped (mod_id o) mk).
      set (b1 := set_side b (r_side x) h').
      assert (Hr1 : rel b1 (dropped (mod_id o) mk)).
      { apply rel_of_sides; [now apply nodup_drop|]. intros s'. unfold b1.
        destruct (r_side x) eqn:Es, s'; simpl; try exact Hr'.
        - apply rel_drop_other; [apply Hr|]. intros y Hy Ey Hs. rewrite (Hother y Hy Ey) in Hs. discriminate.
        - apply rel_drop_other; [apply Hr|]. intros y Hy Ey Hs. rewrite (Hother y Hy Ey) in Hs. discriminate. }
      assert (Hle : side_qty (r_side x) (dropped (mod_id o) mk) <= side_qty (r_side x) mk).
      { rewrite <- (rel_total _ _ _ Hr'). rewrite <- (rel_total _ _ _ (rel_side _ _ (r_side x) Hr)).
        destruct (half_cancel_ok m (side_half b (r_side x)) (mod_id o) (r_price x)) as (h2 & v & E2 & _ & _ & Hv2 & Ht2 & _); auto.
        { apply (rel_side _ _ _ Hr). }
        rewrite E in E2. injection E2 as <-. rewrite Ht2.
        pose proof (posq_In _ _ _ (wf_queue_pos _ (r_price x) (rh_wf _ _ _ (rel_side _ _ (r_side x) Hr))) Hv2). lia. }
      destruct (sim_limit m b1 (dropped (mod_id o) mk)
                  (LimitOrder (mod_price o) (mod_quantity o) (r_side x) (mod_id o))) as (b' & H); auto.
      { split; [|split; [exact Hq|split; [exact Hp|]]]; cbn [lo_id lo_quantity lo_side].
        - unfold ids, dropped. intros Hin. apply in_map_iff in Hin as (y & Ey & Hy). apply filter_In in Hy as [_ Hy].
          rewrite Ey, Z.eqb_refl in Hy. discriminate.
        - lia. }
      { cbn [lo_side lo_price]. unfold not_extreme in *. intros Hem. apply Hne.
        destruct (on_side (other (r_side x)) mk) as [|y t] eqn:Ey; [reflexivity|]. exfalso.
        assert (Hy : In y (on_side (other (r_side x)) mk)) by (rewrite Ey; now left).
        apply on_side_In in Hy as [Hy Hys].
        assert (In y (on_side (other (r_side x)) (dropped (mod_id o) mk))) as A.
        { apply on_side_In. split; [|exact Hys]. unfold dropped. apply filter_In. split; [exact Hy|].
          destruct (Z.eqb_spec (r_id y) (mod_id o)) as [E'|]; [|reflexivity].
          rewrite (Hother y Hy E') in Hys. destruct (r_side x); discriminate. }
        rewrite Hem in A. destruct A. }
      exists b'. destruct (sp_limit _ _) as [mk' t]. destruct H as (H1 & H2 & H3 & H4).
      assert (Hb1 : b_id b1 = b_id b /\ b_counter b1 = b_counter b) by (unfold b1; destruct (r_side x); auto).
      destruct Hb1 as [Hb1 Hb2]. rewrite Hb1 in H3. rewrite Hb2 in H4.
      split; [|auto]. unfold b1 in H1. destruct (r_side x) eqn:Es; cbn [side_half] in *.
      * rewrite Hc. destruct (Z.eqb_spec (r_price x) (mod_price o)); [congruence|]. rewrite E. simpl. exact H1.
      * pose proof (Hc' Ask ltac:(discriminate)) as HcA; cbn [side_half] in HcA; rewrite HcA, Hc. destruct (Z.eqb_spec (r_price x) (mod_price o)); [congruence|].
        rewrite E. simpl. exact H1.
  - assert (Hn : forall s, h_cache (side_half b s) !! mod_id o = None).
    { intros s. apply (rel_cache_None s _ mk); [now apply rel_side|]. intros y Hy Hys Ey.
      apply Hl. rewrite <- Ey. now apply in_map. }
    pose proof (Hn Ask) as H1. pose proof (Hn Bid) as H2. simpl in H1, H2. rewrite H1, H2.
    exists b. auto.
Qed.
