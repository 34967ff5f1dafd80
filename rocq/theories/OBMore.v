(** OBMore.v -- further facts for OBProps.v: orders emitted per price, ids
    issued, replaying decomposed orders, what an L2 snapshot leaves at each
    price, and market sells at book level. *)
From Coq Require Import ZArith List Lia Sorted Bool Permutation.
From stdpp Require Import base gmap.
From Verif Require Import Base OBTypes OBModel OBSpec OBBase OBInv OBRemove OBTrade OBRel OBSim OBSnap OBDec OBStep OBLaws OBMarketSell.
Import ListNotations.
Open Scope Z_scope.

(** ** Orders emitted by a decomposition, price by price *)
Definition about (s : side) (p : Z) (o : order_enum) : bool :=
  match o with
  | OLimit l => side_eqb (lo_side l) s && (lo_price l =? p)
  | ORemove r => side_eqb (ra_side r) s && (ra_price r =? p)
  end.

(** The one order that moves a price by [d]. *)
Definition diff_order (s : side) (p d : Z) (lo hi : Z) (os : list order_enum) : Prop :=
  if 0 <? d then exists i, lo <= i < hi /\ os = [OLimit (LimitOrder p d s i)]
  else if d <? 0 then os = [ORemove (RemoveAny p (- d) s)]
  else os = [].

Definition target (rows : list level_snapshot) (p : Z) : Z :=
  match row_qty rows p with Some q => q | None => 0 end.

Lemma dec_one_counter s mk r c : c <= snd (dec_one s mk r c).
Proof. unfold dec_one. destruct (0 <? _); [simpl; lia|]. destruct (_ <? 0); simpl; lia. Qed.
Lemma dec_orders_counter s mk rows : forall c, c <= snd (dec_orders s mk rows c).
Proof.
  induction rows as [|r t IH]; intros c; simpl; [lia|]. pose proof (dec_one_counter s mk r c).
  destruct (dec_one s mk r c) as [a c1]. specialize (IH c1). destruct (dec_orders s mk t c1). simpl in *. lia.
Qed.

Lemma dec_one_about s mk r c p : List.filter (about s p) (fst (dec_one s mk r c)) =
  if sn_price r =? p then fst (dec_one s mk r c) else [].
Proof.
  unfold dec_one. destruct (0 <? _); [|destruct (_ <? 0)]; simpl; rewrite ?side_eqb_refl; simpl;
    destruct (sn_price r =? p); reflexivity.
Qed.
Lemma dec_orders_about_none s mk rows p : ~ In p (rows_prices rows) -> forall c,
  List.filter (about s p) (fst (dec_orders s mk rows c)) = [].
Proof.
  induction rows as [|r t IH]; intros Hn c; simpl; [reflexivity|].
  pose proof (dec_one_about s mk r c p) as H. destruct (dec_one s mk r c) as [a c1]. simpl in H.
  pose proof (IH ltac:(intros Hi; apply Hn; now right) c1) as I. destruct (dec_orders s mk t c1) as [b c2].
  simpl in *. rewrite List.filter_app, H, I. destruct (Z.eqb_spec (sn_price r) p); [|reflexivity].
  exfalso. apply Hn. now left.
Qed.
Lemma dec_orders_about s mk rows p q : NoDup (rows_prices rows) -> row_qty rows p = Some q -> forall c,
  diff_order s p (q - level_qty s p mk) c (snd (dec_orders s mk rows c))
    (List.filter (about s p) (fst (dec_orders s mk rows c))).
Proof.
  unfold row_qty. induction rows as [|r t IH]; intros Hnd Hf c; simpl in *; [discriminate|].
  unfold rows_prices in Hnd. simpl in Hnd. apply NoDup_cons in Hnd as [Hni Hnd]. rewrite elem_of_list_In in Hni.
  pose proof (dec_one_about s mk r c p) as H. pose proof (dec_one_counter s mk r c) as Hc.
  destruct (dec_one s mk r c) as [a c1] eqn:Ed. simpl in H, Hc.
  pose proof (dec_orders_counter s mk t c1) as Hc2.
  destruct (Z.eqb_spec (sn_price r) p) as [E|E].
  - injection Hf as <-. pose proof (dec_orders_about_none s mk t p ltac:(now rewrite <- E) c1) as I.
    destruct (dec_orders s mk t c1) as [b c2]. simpl in *. rewrite List.filter_app, H, I, app_nil_r.
    unfold diff_order. rewrite <- E. unfold dec_one in Ed.
    destruct (0 <? _); [|destruct (_ <? 0)]; injection Ed as <- <-; try reflexivity.
    exists c. split; [lia|reflexivity].
  - specialize (IH Hnd Hf c1). destruct (dec_orders s mk t c1) as [b c2]. simpl in *.
    rewrite List.filter_app, H. simpl. unfold diff_order in *. destruct (0 <? _); [|exact IH].
    destruct IH as (i & Hi & E'). exists i. split; [lia|exact E'].
Qed.

Lemma dec_orders_other s s' mk rows p : s' <> s -> forall c,
  List.filter (about s' p) (fst (dec_orders s mk rows c)) = [].
Proof.
  intros Hne. induction rows as [|r t IH]; intros c; simpl; [reflexivity|].
  assert (H : List.filter (about s' p) (fst (dec_one s mk r c)) = []).
  { unfold dec_one. destruct (0 <? _); [|destruct (_ <? 0)]; simpl; rewrite ?(side_neq s s') by congruence; reflexivity. }
  destruct (dec_one s mk r c) as [a c1]. specialize (IH c1). destruct (dec_orders s mk t c1). simpl in *.
  now rewrite List.filter_app, H, IH.
Qed.

Lemma gone_about s s' (f : Z -> Z) p ps : NoDup ps ->
  List.filter (about s' p) (map (fun p => ORemove (RemoveAny p (f p) s)) ps) =
  if side_eqb s s' && price_in p ps then [ORemove (RemoveAny p (f p) s)] else [].
Proof.
  induction ps as [|k t IH]; intros Hnd; simpl; [now rewrite andb_false_r|].
  apply NoDup_cons in Hnd as [Hni Hnd]. rewrite elem_of_list_In in Hni. rewrite IH by exact Hnd.
  destruct (side_eqb s s') eqn:Es; simpl; [|reflexivity].
  destruct (Z.eqb_spec k p) as [->|Hne]; simpl; [|reflexivity].
  destruct (price_in p t) eqn:Ep; [|reflexivity]. apply price_in_In in Ep. tauto.
Qed.

Definition emitted_side (s : side) (mk : market) (rows : list level_snapshot) (c : Z) : list order_enum :=
  fst (dec_orders s mk rows c) ++
  map (fun p => ORemove (RemoveAny p (level_qty s p mk) s))
      (List.filter (fun p => negb (price_in p (rows_prices rows))) (prices s mk)).

Lemma emitted_about s h mk rows c p : rel_half s h mk -> NoDup (rows_prices rows) ->
  diff_order s p (target rows p - level_qty s p mk) c (snd (dec_orders s mk rows c))
    (List.filter (about s p) (emitted_side s mk rows c)).
Proof.
  intros Hr Hnd. unfold emitted_side, target. rewrite List.filter_app, gone_about by
    (apply NoDup_filterZ, sorted_lt_nodup, prices_sorted).
  rewrite side_eqb_refl, price_in_filter. cbn [andb]. pose proof (row_qty_In rows p Hnd) as Hrq.
  destruct (row_qty rows p) as [q|] eqn:Eq.
  - destruct Hrq as (r & Hin & Ep & _). assert (price_in p (rows_prices rows) = true) as ->.
    { apply price_in_In. unfold rows_prices. apply in_map_iff. eauto. }
    cbn [negb]. rewrite andb_false_r, app_nil_r. now apply dec_orders_about.
  - rewrite dec_orders_about_none; [|intros Hi; apply price_in_In in Hi; congruence].
    rewrite Hrq. cbn [negb app]. rewrite andb_true_r. pose proof (level_qty_nonneg s h mk p Hr) as Hn.
    unfold diff_order. destruct (Z.ltb_spec 0 (0 - level_qty s p mk)); [lia|].
    destruct (price_in p (prices s mk)) eqn:Epr.
    + destruct (Z.ltb_spec (0 - level_qty s p mk) 0).
      * do 3 f_equal. lia.
      * exfalso. assert (E0 : level_qty s p mk = 0) by lia. apply (level_qty_zero s h mk p Hr) in E0.
        apply price_in_In, prices_In in Epr as (o & Ho & Eo). apply on_side_In in Ho as [Ho Hs].
        assert (In o (at_price s p mk)) by (apply at_price_In; auto). rewrite E0 in H1. destruct H1.
    + destruct (Z.ltb_spec (0 - level_qty s p mk) 0); [|reflexivity]. exfalso.
      assert (at_price s p mk = []) as E0.
      { destruct (at_price s p mk) as [|o t] eqn:Ea; [reflexivity|]. exfalso.
        assert (Ho : In o (at_price s p mk)) by (rewrite Ea; now left). apply at_price_In in Ho as (Ho & Hs & Hp).
        assert (price_in p (prices s mk) = true); [|congruence]. apply price_in_In, prices_In. exists o.
        split; [apply on_side_In; auto|exact Hp]. }
      unfold level_qty in H0. rewrite E0 in H0. simpl in H0. lia.
Qed.
Lemma emitted_other s s' mk rows c p : s' <> s -> List.filter (about s' p) (emitted_side s mk rows c) = [].
Proof.
  intros Hne. unfold emitted_side. rewrite List.filter_app, dec_orders_other, gone_about by
    (try exact Hne; apply NoDup_filterZ, sorted_lt_nodup, prices_sorted).
  now rewrite (side_neq s s') by congruence.
Qed.

(** What [sp_dec_side]/[sp_dec] emit, in closed form. *)
Lemma sp_dec_side_emits s h mk c rows : rel_half s h mk -> NoDup (map r_id mk) -> rows_ok s rows mk ->
  Forall (fun o => r_id o < c) mk -> 0 <= c ->
  snd (sp_dec_side s rows (mk, c)) = emitted_side s mk rows c /\
  snd (fst (sp_dec_side s rows (mk, c))) = snd (dec_orders s mk rows c).
Proof.
  intros Hr Hnd Hrows Hlt Hc.
  pose proof (sim_dec_apply Checked s h mk mk c rows Hr Hnd Hrows ltac:(auto) Hlt Hc ltac:(eauto)) as H. cbn zeta in H.
  destruct (sp_dec_side s rows (mk, c)) as [[mk' c'] os]. destruct H as (-> & -> & _). auto.
Qed.

Lemma level_qty_ext s mk mk' p : at_price s p mk' = at_price s p mk -> level_qty s p mk' = level_qty s p mk.
Proof. unfold level_qty. now intros ->. Qed.

Lemma emitted_side_ext s h mk mk' rows c : rel_half s h mk -> rel_half s h mk' ->
  emitted_side s mk' rows c = emitted_side s mk rows c /\ dec_orders s mk' rows c = dec_orders s mk rows c.
Proof.
  intros H1 H2. assert (El : forall p, level_qty s p mk' = level_qty s p mk) by (intros p; now apply (level_qty_other s h)).
  assert (Ed : forall c, dec_orders s mk' rows c = dec_orders s mk rows c).
  { induction rows as [|r t IH]; intros c0; simpl; [reflexivity|]. unfold dec_one. rewrite El.
    destruct (0 <? _); [|destruct (_ <? 0)]; now rewrite IH. }
  split; [|apply Ed]. unfold emitted_side. rewrite Ed. f_equal.
  rewrite <- (keys_prices s h mk H1), <- (keys_prices s h mk' H2). apply map_ext. intros p. now rewrite El.
Qed.

Lemma sp_dec_emits b mk asks bids :
  rel b mk -> rows_ok Ask asks mk -> rows_ok Bid bids mk ->
  counter_ok (b_counter b) (length asks + length bids) mk ->
  let c := b_counter b in
  let c1 := snd (dec_orders Ask mk asks c) in
  snd (sp_dec asks bids (mk, c)) = emitted_side Ask mk asks c ++ emitted_side Bid mk bids c1 /\
  snd (fst (sp_dec asks bids (mk, c))) = snd (dec_orders Bid mk bids c1).
Proof.
  intros Hr Ha Hb (Hlt & Hc0 & Hc1). cbn zeta. unfold sp_dec.
  pose proof (sim_dec_half Checked Ask (b_asks b) mk (b_counter b) asks (rel_asks _ _ Hr) (rel_nodup _ _ Hr) Ha Hlt Hc0 ltac:(lia)) as H.
  destruct (sp_dec_side_emits Ask (b_asks b) mk (b_counter b) asks (rel_asks _ _ Hr) (rel_nodup _ _ Hr) Ha Hlt Hc0) as [E1 E2].
  destruct (sp_dec_side Ask asks (mk, b_counter b)) as [[mk1 c1] oa]. simpl in E1, E2.
  destruct H as (h1 & _ & Hr1 & Hnd1 & Hlt1 & Hcc1 & Hoth1 & Hlv1).
  assert (Hrb : rel_half Bid (b_bids b) mk1) by (apply Hoth1; [discriminate|apply Hr]).
  assert (Hb1 : rows_ok Bid bids mk1) by (eapply rows_ok_other; [apply Hr|exact Hrb|exact Hb]).
  destruct (sp_dec_side_emits Bid (b_bids b) mk1 c1 bids Hrb Hnd1 Hb1 Hlt1 ltac:(lia)) as [E3 E4].
  destruct (emitted_side_ext Bid (b_bids b) mk mk1 bids c1 (rel_bids _ _ Hr) Hrb) as [E5 E6].
  destruct (sp_dec_side Bid bids (mk1, c1)) as [[mk2 c2] ob]. simpl in *.
  rewrite E1, E3, E5, <- E2. split; [reflexivity|]. now rewrite E4, E6.
Qed.

Definition rows_of (s : side) (asks bids : list level_snapshot) := match s with Ask => asks | Bid => bids end.

Lemma sp_dec_about b mk asks bids s p :
  rel b mk -> rows_ok Ask asks mk -> rows_ok Bid bids mk ->
  counter_ok (b_counter b) (length asks + length bids) mk ->
  diff_order s p (target (rows_of s asks bids) p - level_qty s p mk)
    (b_counter b) (snd (fst (sp_dec asks bids (mk, b_counter b))))
    (List.filter (about s p) (snd (sp_dec asks bids (mk, b_counter b)))).
Proof.
  intros Hr Ha Hb Hk. destruct (sp_dec_emits b mk asks bids Hr Ha Hb Hk) as [E1 E2]. cbn zeta in *.
  rewrite E1, E2, List.filter_app. pose proof (dec_orders_counter Ask mk asks (b_counter b)) as C1.
  pose proof (dec_orders_counter Bid mk bids (snd (dec_orders Ask mk asks (b_counter b)))) as C2.
  assert (Hmono : forall lo hi lo' hi' d os, lo' <= lo -> hi <= hi' -> diff_order s p d lo hi os -> diff_order s p d lo' hi' os).
  { intros lo hi lo' hi' d os H1 H2. unfold diff_order. destruct (0 <? d); [|auto]. intros (i & Hi & E). exists i. split; [lia|exact E]. }
  destruct s; cbn [rows_of].
  - rewrite (emitted_other Bid Ask) by discriminate. rewrite app_nil_r.
    eapply Hmono; [| |apply (emitted_about Ask (b_asks b)); [apply Hr|apply NoDup_ListNoDup, Ha]]; lia.
  - rewrite (emitted_other Ask Bid) by discriminate. cbn [app].
    eapply Hmono; [| |apply (emitted_about Bid (b_bids b)); [apply Hr|apply NoDup_ListNoDup, Hb]]; lia.
Qed.

(** ** Ids of the emitted limit orders are consecutive *)
Definition limit_ids (os : list order_enum) : list Z :=
  flat_map (fun o => match o with OLimit l => [lo_id l] | ORemove _ => [] end) os.
Definition zrange (a b : Z) : list Z := map (fun i => a + Z.of_nat i) (seq 0 (Z.to_nat (b - a))).

Lemma zrange_app a b c : a <= b <= c -> zrange a c = zrange a b ++ zrange b c.
Proof.
  intros H. unfold zrange. replace (Z.to_nat (c - a)) with (Z.to_nat (b - a) + Z.to_nat (c - b))%nat by lia.
  rewrite seq_app, map_app. f_equal. cbn [Nat.add].
  rewrite <- (Nat.add_0_r (Z.to_nat (b - a))) at 1. generalize 0%nat as k.
  induction (Z.to_nat (c - b)) as [|n IH]; intros k; simpl; [reflexivity|].
  f_equal; [lia|]. rewrite <- Nat.add_succ_r. apply IH.
Qed.
Lemma zrange_nil a : zrange a a = [].
Proof. unfold zrange. now rewrite Z.sub_diag. Qed.
Lemma zrange_one a : zrange a (a + 1) = [a].
Proof. unfold zrange. replace (a + 1 - a) with 1 by lia. simpl. f_equal. lia. Qed.
Lemma zrange_In a b x : In x (zrange a b) <-> a <= x < b.
Proof.
  unfold zrange. rewrite in_map_iff. split.
  - intros (i & E & Hi). apply in_seq in Hi. lia.
  - intros H. exists (Z.to_nat (x - a)). split; [lia|]. apply in_seq. lia.
Qed.

Lemma limit_ids_app a b : limit_ids (a ++ b) = limit_ids a ++ limit_ids b.
Proof. unfold limit_ids. now rewrite flat_map_app. Qed.
Lemma limit_ids_dec s mk rows : forall c, limit_ids (fst (dec_orders s mk rows c)) = zrange c (snd (dec_orders s mk rows c)).
Proof.
  induction rows as [|r t IH]; intros c; simpl; [now rewrite zrange_nil|].
  assert (H : limit_ids (fst (dec_one s mk r c)) = zrange c (snd (dec_one s mk r c))).
  { unfold dec_one. destruct (0 <? _); [|destruct (_ <? 0)]; simpl; now rewrite ?zrange_nil, ?zrange_one. }
  pose proof (dec_one_counter s mk r c) as Hc.
  destruct (dec_one s mk r c) as [a c1]. simpl in *. pose proof (dec_orders_counter s mk t c1) as Hc2.
  specialize (IH c1). destruct (dec_orders s mk t c1) as [b c2]. simpl in *.
  rewrite limit_ids_app, H, IH. symmetry. apply zrange_app. lia.
Qed.
Lemma limit_ids_gone (f : Z -> Z) s ps : limit_ids (map (fun p => ORemove (RemoveAny p (f p) s)) ps) = [].
Proof. induction ps; simpl; auto. Qed.
Lemma limit_ids_sp_dec b mk asks bids :
  rel b mk -> rows_ok Ask asks mk -> rows_ok Bid bids mk ->
  counter_ok (b_counter b) (length asks + length bids) mk ->
  limit_ids (snd (sp_dec asks bids (mk, b_counter b))) =
  zrange (b_counter b) (snd (fst (sp_dec asks bids (mk, b_counter b)))).
Proof.
  intros Hr Ha Hb Hk. destruct (sp_dec_emits b mk asks bids Hr Ha Hb Hk) as [E1 E2]. cbn zeta in *.
  rewrite E1, E2. unfold emitted_side. rewrite !limit_ids_app, !limit_ids_gone, !app_nil_r, !limit_ids_dec.
  symmetry. apply zrange_app. split; apply dec_orders_counter.
Qed.

(** ** Replay *)
Definition as_request (o : order_enum) : request :=
  match o with OLimit l => QAdd l | ORemove r => QRemove r end.

Lemma set_side_same b s : set_side b s (side_half b s) = b.
Proof. destruct b, s; reflexivity. Qed.
Lemma set_side_set b s h h' : set_side (set_side b s h) s h' = set_side b s h'.
Proof. destruct b, s; reflexivity. Qed.
Lemma side_set b s h : side_half (set_side b s h) s = h.
Proof. destruct b, s; reflexivity. Qed.

Definition order_side (o : order_enum) : side := match o with OLimit l => lo_side l | ORemove r => ra_side r end.

Lemma run_apply m s os : forall b h', Forall (fun o => order_side o = s) os ->
  apply_orders m (side_half b s) os = Ret (ROk h') ->
  exists az, run m b (map as_request os) = Ret (set_side b s h', az).
Proof.
  induction os as [|o os IH]; intros b h' Hs E; cbn [map run] in *.
  - cbn [apply_orders] in E. injection E as <-. exists []. now rewrite set_side_same.
  - apply Forall_cons in Hs as [Ho Hs]. cbn [apply_orders] in E.
    destruct o as [l|r]; cbn [as_request apply_order order_side step] in *; subst s.
    + unfold book_add. destruct (half_add m (side_half b (lo_side l)) l) as [[h1|]| |]; cbn [obind] in *; try discriminate.
      destruct (IH (set_side b (lo_side l) h1) h' Hs) as (az & E2); [now rewrite side_set|].
      rewrite E2. cbn [obind]. rewrite set_side_set. eauto.
    + unfold book_remove. destruct (half_remove_order m (side_half b (ra_side r)) r) as [[h1 x]| |]; cbn [obind] in *; try discriminate.
      destruct (IH (set_side b (ra_side r) h1) h' Hs) as (az & E2); [now rewrite side_set|].
      rewrite E2. cbn [obind]. rewrite set_side_set. eauto.
Qed.
Lemma run_app m a : forall b c b1 a1, run m b a = Ret (b1, a1) ->
  run m b (a ++ c) = (let! (b2, a2) := run m b1 c in Ret (b2, a1 ++ a2)).
Proof.
  induction a as [|r t IH]; intros b c b1 a1 E; cbn [app run] in *.
  - injection E as <- <-. destruct (run m b c) as [[b2 a2]| |]; reflexivity.
  - destruct (step m b r) as [[b' x]| |]; cbn [obind] in *; try discriminate.
    destruct (run m b' t) as [[b'' y]| |] eqn:Et; cbn [obind] in *; try discriminate. injection E as <- <-.
    rewrite (IH _ c _ _ Et). destruct (run m b'' c) as [[b2 a2]| |]; reflexivity.
Qed.

Lemma emitted_sides s mk rows c : Forall (fun o => order_side o = s) (emitted_side s mk rows c).
Proof.
  unfold emitted_side. apply List.Forall_app. split.
  - revert c. induction rows as [|r t IH]; intros c; simpl; [constructor|]. 
    assert (H : Forall (fun o => order_side o = s) (fst (dec_one s mk r c))).
    { unfold dec_one. destruct (0 <? _); [|destruct (_ <? 0)]; simpl; repeat constructor. }
    destruct (dec_one s mk r c) as [a c1]. specialize (IH c1). destruct (dec_orders s mk t c1). simpl in *.
    now apply List.Forall_app.
  - apply List.Forall_forall. intros o Ho. apply in_map_iff in Ho as (p & <- & _). reflexivity.
Qed.

Lemma side_qty_levels s h1 h2 mk1 mk2 : rel_half s h1 mk1 -> rel_half s h2 mk2 ->
  (forall p, level_qty s p mk1 = level_qty s p mk2) -> side_qty s mk1 = side_qty s mk2.
Proof.
  intros H1 H2 He. pose proof (proj2 (half_eq_level_ok s h1 h2 mk1 mk2 H1 H2) He) as H.
  unfold half_eq_level in H. apply andb_true_iff in H as [H _]. apply Z.eqb_eq in H.
  rewrite <- (rel_total _ _ _ H1), <- (rel_total _ _ _ H2). exact H.
Qed.

Lemma sim_replay m b1 mk1 b2 mk2 asks bids :
  rel b1 mk1 -> rows_ok Ask asks mk1 -> rows_ok Bid bids mk1 ->
  counter_ok (b_counter b1) (length asks + length bids) mk1 ->
  rel b2 mk2 -> (forall s p, level_qty s p mk2 = level_qty s p mk1) ->
  Forall (fun o => r_id o < b_counter b1) mk2 ->
  exists b2' az mk2', run m b2 (map as_request (snd (sp_dec asks bids (mk1, b_counter b1)))) = Ret (b2', az) /\
    rel b2' mk2' /\ forall s p, level_qty s p mk2' = target (rows_of s asks bids) p.
Proof.
  intros Hr1 Ha Hb Hk Hr2 Hlev Hlt2. pose proof Hk as (Hlt & Hc0 & Hc1).
  destruct (sp_dec_emits b1 mk1 asks bids Hr1 Ha Hb Hk) as [E1 _]. cbn zeta in E1. rewrite E1, map_app.
  assert (Hra : rows_ok Ask asks mk2).
  { destruct Ha as (A & B & C). split; [exact A|]. split; [exact B|].
    now rewrite (side_qty_levels Ask (b_asks b2) (b_asks b1) mk2 mk1 (rel_asks _ _ Hr2) (rel_asks _ _ Hr1) (Hlev Ask)). }
  pose proof (sim_dec_apply m Ask (b_asks b2) mk2 mk1 (b_counter b1) asks (rel_asks _ _ Hr2) (rel_nodup _ _ Hr2)
     Hra (Hlev Ask) Hlt2 Hc0 ltac:(exists (b_asks b1); apply Hr1)) as H. cbn zeta in H.
  destruct (sp_dec_side Ask asks (mk2, b_counter b1)) as [[mk3 c3] os3].
  destruct H as (_ & -> & h3 & E3 & Hr3 & Hnd3 & Hlt3 & Hcc3 & Hoth3 & Hlv3).
  destruct (run_apply m Ask _ b2 h3 (emitted_sides Ask mk1 asks (b_counter b1)) E3) as (az1 & R1).
  assert (Hrb3 : rel_half Bid (b_bids b2) mk3) by (apply Hoth3; [discriminate|apply Hr2]).
  assert (Hlb : forall p, level_qty Bid p mk3 = level_qty Bid p mk1).
  { intros p. rewrite (level_qty_other Bid (b_bids b2) mk2 mk3 p (rel_bids _ _ Hr2) Hrb3). apply Hlev. }
  assert (Hrb : rows_ok Bid bids mk3).
  { destruct Hb as (A & B & C). split; [exact A|]. split; [exact B|].
    now rewrite (side_qty_levels Bid (b_bids b2) (b_bids b1) mk3 mk1 Hrb3 (rel_bids _ _ Hr1) Hlb). }
  pose proof (sim_dec_apply m Bid (b_bids b2) mk3 mk1 (snd (dec_orders Ask mk1 asks (b_counter b1))) bids Hrb3 Hnd3
     Hrb Hlb Hlt3 ltac:(lia) ltac:(exists (b_bids b1); apply Hr1)) as H. cbn zeta in H.
  destruct (sp_dec_side Bid bids (mk3, _)) as [[mk4 c4] os4].
  destruct H as (_ & -> & h4 & E4 & Hr4 & Hnd4 & Hlt4 & Hcc4 & Hoth4 & Hlv4).
  destruct (run_apply m Bid _ (set_side b2 Ask h3) h4 (emitted_sides Bid mk1 bids (snd (dec_orders Ask mk1 asks (b_counter b1)))) E4) as (az2 & R2).
  exists (set_side (set_side b2 Ask h3) Bid h4), (az1 ++ az2), mk4.
  rewrite (run_app m _ _ _ _ _ R1), R2. cbn [obind]. split; [reflexivity|].
  assert (Hra4 : rel_half Ask h3 mk4) by (apply Hoth4; [discriminate|exact Hr3]).
  split; [constructor; simpl; auto|]. intros [] p; cbn [rows_of]; unfold target.
  - rewrite (level_qty_other Ask h3 mk3 mk4 p Hr3 Hra4). apply Hlv3.
  - apply Hlv4.
Qed.

(** ** What an L2 snapshot leaves at each price *)
Lemma l2_rows_at s rows : forall mk c,
  NoDup (rows_prices rows) -> one_per_level mk ->
  let '(mk', c') := fold_left (fun st r => sp_l2_row s r st) rows (mk, c) in
  c <= c' /\
  (forall p, at_price (other s) p mk' = at_price (other s) p mk) /\
  forall p, match row_qty rows p with
            | None => at_price s p mk' = at_price s p mk
            | Some q => match at_price s p mk with
                        | [] => exists i, c <= i < c' /\ at_price s p mk' = [Rest i s p q]
                        | o :: _ => at_price s p mk' = [Rest (r_id o) s p q]
                        end
            end.
Proof.
  induction rows as [|r rows IH]; intros mk c Hnd Hone.
  - simpl. split; [lia|]. auto.
  - unfold rows_prices in Hnd. cbn [map] in Hnd. apply NoDup_cons in Hnd as [Hni Hnd]. rewrite elem_of_list_In in Hni.
    cbn [fold_left].
    assert (Hstep : let '(mk1, c1) := sp_l2_row s r (mk, c) in c <= c1 /\ one_per_level mk1 /\
       (forall p, at_price (other s) p mk1 = at_price (other s) p mk) /\
       (forall p, p <> sn_price r -> at_price s p mk1 = at_price s p mk) /\
       match at_price s (sn_price r) mk with
       | [] => exists i, c <= i < c1 /\ at_price s (sn_price r) mk1 = [Rest i s (sn_price r) (sn_quantity r)]
       | o :: _ => at_price s (sn_price r) mk1 = [Rest (r_id o) s (sn_price r) (sn_quantity r)]
       end).
    { unfold sp_l2_row. destruct (at_price s (sn_price r) mk) as [|o rst] eqn:Ea.
      - split; [lia|]. split.
        + intros s' p'. rewrite at_price_app, app_length. unfold at_price at 2. simpl.
          destruct (side_eqb s s' && (sn_price r =? p')) eqn:E; simpl; [|rewrite Nat.add_0_r; apply Hone].
          apply andb_true_iff in E as [E1 E3]. apply side_eqb_eq in E1. apply Z.eqb_eq in E3. subst. rewrite Ea. simpl. lia.
        + split; [|split].
          * intros p. rewrite at_price_app. unfold at_price at 2. simpl.
            rewrite (side_neq s (other s)) by (destruct s; discriminate). simpl. now rewrite app_nil_r.
          * intros p Hp. rewrite at_price_app. unfold at_price at 2. simpl. rewrite side_eqb_refl. simpl.
            destruct (Z.eqb_spec (sn_price r) p); [congruence|]. now rewrite app_nil_r.
          * exists c. split; [lia|]. rewrite at_price_app, Ea. unfold at_price. simpl.
            now rewrite side_eqb_refl, Z.eqb_refl.
      - assert (rst = []) as ->.
        { specialize (Hone s (sn_price r)). rewrite Ea in Hone. destruct rst; [reflexivity|simpl in Hone; lia]. }
        assert (Ho : In o (at_price s (sn_price r) mk)) by (rewrite Ea; now left). apply at_price_In in Ho as (_ & Hos & Hop).
        split; [lia|]. split; [intros s' p'; rewrite at_price_l2_set, map_length; apply Hone|].
        split; [|split].
        + intros p. rewrite at_price_l2_set. rewrite <- (map_id (at_price (other s) p mk)) at 2. apply map_ext_in.
          intros x Hx. apply at_price_In in Hx as (_ & E & _). rewrite E, (side_neq (other s) s) by (destruct s; discriminate). reflexivity.
        + intros p Hp. rewrite at_price_l2_set. rewrite <- (map_id (at_price s p mk)) at 2. apply map_ext_in.
          intros x Hx. apply at_price_In in Hx as (_ & _ & E). rewrite E. destruct (Z.eqb_spec p (sn_price r)); [congruence|].
          now rewrite andb_false_r.
        + rewrite at_price_l2_set, Ea. simpl. now rewrite Hos, Hop, side_eqb_refl, Z.eqb_refl. }
    destruct (sp_l2_row s r (mk, c)) as [mk1 c1]. destruct Hstep as (Hc1 & Hone1 & Ho1 & Hf1 & Hp1).
    specialize (IH mk1 c1 Hnd Hone1). destruct (fold_left _ rows (mk1, c1)) as [mk2 c2].
    destruct IH as (Hc2 & Ho2 & Hp2). split; [lia|]. split; [intros p; now rewrite Ho2, Ho1|].
    intros p. specialize (Hp2 p). unfold row_qty in *. cbn [find]. destruct (Z.eqb_spec (sn_price r) p) as [E|E].
    + assert (Hnone : find (fun r0 => sn_price r0 =? p) rows = None).
      { destruct (find _ rows) as [x|] eqn:Ef; [|reflexivity]. apply find_some in Ef as [Hx Ex]. apply Z.eqb_eq in Ex.
        exfalso. apply Hni. rewrite E, <- Ex. now apply in_map. }
      rewrite Hnone in Hp2. rewrite E in Hp1. destruct (at_price s p mk) as [|o rst].
      * destruct Hp1 as (i & Hi & Ei). exists i. split; [lia|]. now rewrite Hp2.
      * now rewrite Hp2.
    + rewrite (Hf1 p ltac:(congruence)) in Hp2. destruct (find _ rows) as [x|]; [|exact Hp2].
      destruct (at_price s p mk) as [|o rst]; [|exact Hp2].
      destruct Hp2 as (i & Hi & Ei). exists i. split; [lia|exact Ei].
Qed.

Lemma l2_side_at s rows mk c : NoDup (rows_prices rows) -> one_per_level mk ->
  let '(mk', c') := sp_l2_side s rows (mk, c) in
  c <= c' /\ (forall p, at_price (other s) p mk' = at_price (other s) p mk) /\
  forall p, match row_qty rows p with
            | None => at_price s p mk' = []
            | Some q => match at_price s p mk with
                        | [] => exists i, c <= i < c' /\ at_price s p mk' = [Rest i s p q]
                        | o :: _ => at_price s p mk' = [Rest (r_id o) s p q]
                        end
            end.
Proof.
  intros Hnd Hone. unfold sp_l2_side. cbn [fst snd].
  assert (Hone1 : one_per_level (sp_keep_prices s (rows_prices rows) mk)).
  { intros s' p'. rewrite at_price_keep. destruct (_ || _); [apply Hone|simpl; lia]. }
  pose proof (l2_rows_at s rows (sp_keep_prices s (rows_prices rows) mk) c Hnd Hone1) as H.
  destruct (fold_left _ rows _) as [mk' c']. destruct H as (Hc & Ho & Hp). split; [exact Hc|]. split.
  - intros p. rewrite Ho, at_price_keep. rewrite (side_neq (other s) s) by (destruct s; discriminate). reflexivity.
  - intros p. specialize (Hp p). rewrite at_price_keep, side_eqb_refl in Hp. cbn [negb orb] in Hp.
    pose proof (row_qty_In rows p Hnd) as Hrq. destruct (row_qty rows p) as [q|].
    + destruct Hrq as (r & Hin & Ep & _). assert (Ei : price_in p (rows_prices rows) = true).
      { apply price_in_In. unfold rows_prices. apply in_map_iff. eauto. }
      rewrite Ei in Hp. exact Hp.
    + rewrite Hrq in Hp. exact Hp.
Qed.

Lemma l2_at asks bids mk c s p :
  NoDup (rows_prices asks) -> NoDup (rows_prices bids) -> one_per_level mk ->
  let '(mk', c') := sp_l2 asks bids (mk, c) in
  c <= c' /\
  match row_qty (rows_of s asks bids) p with
  | None => at_price s p mk' = []
  | Some q => match at_price s p mk with
              | [] => exists i, c <= i < c' /\ at_price s p mk' = [Rest i s p q]
              | o :: _ => at_price s p mk' = [Rest (r_id o) s p q]
              end
  end.
Proof.
  intros Ha Hb Hone. unfold sp_l2. pose proof (l2_side_at Ask asks mk c Ha Hone) as H1.
  destruct (sp_l2_side Ask asks (mk, c)) as [mk1 c1]. destruct H1 as (Hc1 & Ho1 & Hp1). cbn [other] in Ho1.
  assert (Hone1 : one_per_level mk1).
  { intros [] p'; [|rewrite Ho1; apply Hone]. specialize (Hp1 p'). destruct (row_qty asks p') as [q|]; [|rewrite Hp1; simpl; lia].
    destruct (at_price Ask p' mk) as [|o t]; [destruct Hp1 as (i & _ & ->)|rewrite Hp1]; simpl; lia. }
  pose proof (l2_side_at Bid bids mk1 c1 Hb Hone1) as H2.
  destruct (sp_l2_side Bid bids (mk1, c1)) as [mk2 c2]. destruct H2 as (Hc2 & Ho2 & Hp2). cbn [other] in Ho2.
  split; [lia|]. destruct s; cbn [rows_of].
  - specialize (Hp1 p). rewrite Ho2. destruct (row_qty asks p) as [q|]; [|exact Hp1].
    destruct (at_price Ask p mk); [|exact Hp1]. destruct Hp1 as (i & Hi & E). exists i. split; [lia|exact E].
  - specialize (Hp2 p). rewrite Ho1 in Hp2. destruct (row_qty bids p) as [q|]; [|exact Hp2].
    destruct (at_price Bid p mk); [|exact Hp2]. destruct Hp2 as (i & Hi & E). exists i. split; [lia|exact E].
Qed.

(** ** Market sells at book level *)
Lemma queue_strip a p : queue a p = match find (fun x => fst (fst x) =? p) (map strip a) with Some x => snd x | None => [] end.
Proof.
  unfold queue. induction a as [|[k l] t IH]; simpl; [reflexivity|].
  rewrite (Z.eqb_sym k p). destruct (p =? k); [reflexivity|exact IH].
Qed.
Lemma shape_queue a b p : shape a = shape b -> queue (h_levels a) p = queue (h_levels b) p.
Proof. unfold shape. intros E. injection E as _ E _ _ _. now rewrite !queue_strip, E. Qed.
Lemma get_order_strip a b i : shape a = shape b -> half_get_order a i = half_get_order b i.
Proof.
  unfold shape, half_get_order. intros E. injection E as E1 E2 E3 _ _. rewrite E3. destruct (h_cache b !! i) as [p|]; [|reflexivity].
  assert (Hg : match bt_get p (h_levels a), bt_get p (h_levels b) with
               | Some x, Some y => l_price x = l_price y /\ l_orders x = l_orders y
               | None, None => True | _, _ => False end).
  { revert E2. generalize (h_levels a) (h_levels b). clear. induction l as [|[k x] t IH]; intros [|[k' y] u] E; simpl in *; try discriminate; [exact I|].
    injection E as -> Ep Eo Et. destruct (p =? k'); [auto|now apply IH]. }
  destruct (bt_get p (h_levels a)) as [x|], (bt_get p (h_levels b)) as [y|]; try tauto.
  destruct Hg as [Hp Ho]. unfold level_get_order. now rewrite Ho, Hp, E1.
Qed.

Lemma sell_release b mk o : rel b mk -> mo_side o = Ask -> 0 <= mo_quantity o ->
  let '(mk', t) := sp_market o mk in
  exists b' b2, book_market Wrapping b o = Ret (b', t) /\ rel b2 mk' /\
    b_asks b' = b_asks b /\ b_asks b2 = b_asks b /\ shape (b_bids b') = shape (b_bids b2) /\
    forall p l, In (p, l) (h_levels (b_bids b')) ->
      l_total l = (sumq (l_orders l) - traded_at p (match t with Some (h, _) => h | None => [] end)) mod two64.
Proof.
  intros Hr Hs Hq. unfold sp_market, book_market. rewrite Hs. cbn [other]. cbn zeta.
  pose proof (rel_bids b mk Hr) as Hra. pose proof (rel_nodup _ _ Hr) as Hnd.
  pose proof (rel_empty Bid _ mk Hra) as He.
  destruct (half_is_empty (b_bids b)) eqn:Ee.
  - assert (on_side Bid mk = []) as -> by (apply He; reflexivity).
    unfold half_trade_market. rewrite Ee. cbn [orb obind]. exists b, b.
    assert (Eb : set_bids b (b_bids b) = b) by (destruct b; reflexivity). rewrite Eb.
    split; [reflexivity|]. split; [exact Hr|]. split; [reflexivity|]. split; [reflexivity|]. split; [reflexivity|].
    unfold half_is_empty in Ee. destruct (h_levels (b_bids b)); [|discriminate]. simpl. tauto.
  - destruct (on_side Bid mk) as [|x t] eqn:Eo; [destruct He as [_ He]; discriminate (He eq_refl)|].
    destruct (execute_sweep Bid (b_bids b) mk None any_price (mo_quantity o))
      as (mk' & Ex & Hnd' & Hr' & Hoth & Hsub); auto; [apply any_mono|].
    rewrite Ex. destruct (half_sell_wrap (b_bids b) o (rh_wf _ _ _ Hra) (rh_side _ _ _ Hra) Hs Hq Ee) as (h' & E & Hsh & Ht).
    rewrite E. cbn [obind]. exists (set_bids b h'), (set_bids b (swept any_price (mo_quantity o) (b_bids b))).
    split; [reflexivity|]. split.
    + constructor; simpl; [|exact Hr'|exact Hnd']. apply Hoth; [discriminate|apply Hr].
    + split; [reflexivity|]. split; [reflexivity|]. split; [exact Hsh|exact Ht].
Qed.

Lemma sell_checked b mk o : rel b mk -> mo_side o = Ask -> 0 < mo_quantity o -> on_side Bid mk <> [] ->
  let p := h_best (b_bids b) in
  book_market Checked b o = Panic <-> level_qty Bid p mk < 2 * mo_quantity o.
Proof.
  intros Hr Hs Hq Hne. cbn zeta. pose proof (rel_bids b mk Hr) as Hrb. unfold book_market. rewrite Hs.
  pose proof (rel_empty Bid _ mk Hrb) as He.
  assert (Hlv : h_levels (b_bids b) <> []).
  { intros E. apply Hne, He. unfold half_is_empty. now rewrite E. }
  destruct (plevels (b_bids b)) as [|[p l] rest] eqn:Ep.
  { exfalso. apply Hlv. unfold plevels in Ep. rewrite (rh_side _ _ _ Hrb) in Ep.
    apply (f_equal (@rev _)) in Ep. now rewrite rev_involutive in Ep. }
  rewrite (half_sell_checked (b_bids b) o p l rest (rh_wf _ _ _ Hrb) (rh_side _ _ _ Hrb) Hs Hq Ep).
  assert (Eb : h_best (b_bids b) = p).
  { rewrite (hw_best _ (rh_wf _ _ _ Hrb)), (rh_side _ _ _ Hrb). unfold best_of, bt_last_key.
    unfold plevels in Ep. rewrite (rh_side _ _ _ Hrb) in Ep. rewrite Ep. reflexivity. }
  rewrite Eb, (level_get_qty Bid _ mk p Hrb).
  assert (Hg : bt_get p (h_levels (b_bids b)) = Some l).
  { apply bt_In_get; [apply (hw_sorted _ (rh_wf _ _ _ Hrb))|]. apply plevels_In. rewrite Ep. now left. }
  rewrite Hg. destruct (Z.ltb_spec (l_total l) (2 * mo_quantity o)); cbn [obind]; split; intros; auto; try discriminate. lia.
Qed.
