(** OBDec.v -- snapshot decomposition matches the reference exchange, and the
    emitted orders can be replayed on any level-equal book. *)
From Coq Require Import ZArith List Lia Sorted Bool Permutation.
From stdpp Require Import base gmap.
From Verif Require Import Base OBTypes OBModel OBSpec OBBase OBInv OBRemove OBTrade OBRel OBSim OBSnap.
Import ListNotations.
Open Scope Z_scope.

Definition dec_one (s : side) (mk0 : market) (row : level_snapshot) (c : Z) : list order_enum * Z :=
  let p := sn_price row in
  let d := sn_quantity row - level_qty s p mk0 in
  if 0 <? d then ([OLimit (LimitOrder p d s c)], c + 1)
  else if d <? 0 then ([ORemove (RemoveAny p (- d) s)], c)
  else ([], c).
Fixpoint dec_orders (s : side) (mk0 : market) (rows : list level_snapshot) (c : Z) : list order_enum * Z :=
  match rows with
  | [] => ([], c)
  | r :: t => let '(a, c1) := dec_one s mk0 r c in
              let '(b, c2) := dec_orders s mk0 t c1 in (a ++ b, c2)
  end.

Lemma level_get_qty s h mk p : rel_half s h mk ->
  level_qty s p mk = match bt_get p (h_levels h) with Some l => l_total l | None => 0 end.
Proof.
  intros [Hw Hs HQ]. unfold level_qty. rewrite <- qids_sum, <- HQ. unfold queue.
  destruct (bt_get p (h_levels h)) as [l|] eqn:E; [|reflexivity].
  symmetry. exact (lw_total _ _ (wf_get h p l Hw E)).
Qed.
Lemma level_qty_nonneg s h mk p : rel_half s h mk -> 0 <= level_qty s p mk.
Proof.
  intros Hr. rewrite (level_get_qty s h mk p Hr). destruct (bt_get p (h_levels h)) as [l|] eqn:E; [|lia].
  apply (wf_level_le h p l (rh_wf _ _ _ Hr) E).
Qed.
Lemma level_qty_zero s h mk p : rel_half s h mk -> level_qty s p mk = 0 -> at_price s p mk = [].
Proof.
  intros Hr E. unfold level_qty in E. rewrite <- qids_sum in E.
  assert (Hq : qids (at_price s p mk) = []).
  { apply sumq_zero; [|exact E]. rewrite <- (rh_queue _ _ _ Hr). apply wf_queue_pos, Hr. }
  destruct (at_price s p mk); [reflexivity|discriminate].
Qed.
Lemma level_qty_le s h mk p : rel_half s h mk -> level_qty s p mk <= side_qty s mk.
Proof.
  intros Hr. rewrite (level_get_qty s h mk p Hr), <- (rel_total s h mk Hr).
  destruct (bt_get p (h_levels h)) as [l|] eqn:E.
  - apply (wf_level_le h p l (rh_wf _ _ _ Hr) E).
  - apply wf_total_nonneg, Hr.
Qed.

Lemma decompose_rows_ok m s h mk0 rows : forall c,
  rel_half s h mk0 -> Forall (fun r => 0 < sn_quantity r /\ is_i64 (sn_price r)) rows ->
  0 <= c -> c + Z.of_nat (length rows) < two64 ->
  decompose_rows m h c rows = Ret (dec_orders s mk0 rows c) /\
  c <= snd (dec_orders s mk0 rows c) <= c + Z.of_nat (length rows).
Proof.
  induction rows as [|r rows IH]; intros c Hr Hrows Hc0 Hc1.
  - simpl. split; [reflexivity|lia].
  - inversion Hrows as [|? ? [Hq _] Hrows']; subst. cbn [length] in *. rewrite Nat2Z.inj_succ in *.
    cbn [decompose_rows dec_orders]. unfold dec_one. pose proof (level_get_qty s h mk0 (sn_price r) Hr) as El.
    pose proof (level_qty_nonneg s h mk0 (sn_price r) Hr) as Hnn.
    rewrite (rh_side _ _ _ Hr).
    destruct (bt_get (sn_price r) (h_levels h)) as [l|] eqn:Eg.
    + rewrite El in *.
      destruct (Z.ltb_spec (sn_quantity r) (l_total l)).
      * destruct (Z.ltb_spec 0 (sn_quantity r - l_total l)); [lia|].
        destruct (Z.ltb_spec (sn_quantity r - l_total l) 0); [|lia].
        rewrite usub_ok by lia. cbn [obind].
        destruct (IH c Hr Hrows' ltac:(lia) ltac:(lia)) as [E1 E2]. rewrite E1. cbn [obind].
        destruct (dec_orders s mk0 rows c) as [b c2]. simpl in *.
        split; [|lia]. do 5 f_equal. f_equal. lia.
      * destruct (Z.ltb_spec (l_total l) (sn_quantity r)).
        -- destruct (Z.ltb_spec 0 (sn_quantity r - l_total l)); [|lia].
           rewrite usub_ok by lia. cbn [obind]. unfold next_id. rewrite uadd_ok by lia. cbn [obind].
           destruct (IH (c + 1) Hr Hrows' ltac:(lia) ltac:(lia)) as [E1 E2]. rewrite E1. cbn [obind].
           destruct (dec_orders s mk0 rows (c + 1)) as [b c2]. simpl in *. split; [reflexivity|lia].
        -- destruct (Z.ltb_spec 0 (sn_quantity r - l_total l)); [lia|].
           destruct (Z.ltb_spec (sn_quantity r - l_total l) 0); [lia|]. cbn [obind].
           destruct (IH c Hr Hrows' ltac:(lia) ltac:(lia)) as [E1 E2]. rewrite E1. cbn [obind].
           destruct (dec_orders s mk0 rows c) as [b c2]. simpl in *. split; [reflexivity|lia].
    + rewrite El in *. rewrite Z.sub_0_r. destruct (Z.ltb_spec 0 (sn_quantity r)); [|lia].
      unfold next_id. rewrite uadd_ok by lia. cbn [obind].
      destruct (IH (c + 1) Hr Hrows' ltac:(lia) ltac:(lia)) as [E1 E2]. rewrite E1. cbn [obind].
      destruct (dec_orders s mk0 rows (c + 1)) as [b c2]. simpl in *. split; [reflexivity|lia].
Qed.

Lemma apply_orders_app m a : forall h b,
  apply_orders m h (a ++ b) =
  (let! r := apply_orders m h a in match r with ROk h' => apply_orders m h' b | RErr => Ret RErr end).
Proof.
  induction a as [|o a IH]; intros h b; [reflexivity|]. cbn [app apply_orders].
  destruct (apply_order m h o) as [[h'|]| |]; cbn [obind]; auto.
Qed.

Lemma remove_qty s h mk p q mk' lo m : rel_half s h mk -> NoDup (map r_id mk) -> 0 <= q ->
  sp_remove_any s p q mk = (mk', lo) ->
  exists h', half_remove_order m h (RemoveAny p q s) = Ret (h', Some lo) /\
    rel_half s h' mk' /\ NoDup (map r_id mk') /\
    (forall s' h', s' <> s -> rel_half s' h' mk -> rel_half s' h' mk') /\
    (forall id, In id (map r_id mk') -> In id (map r_id mk)) /\
    (forall p', p' <> p -> at_price s p' mk' = at_price s p' mk) /\
    level_qty s p mk' = Z.max 0 (level_qty s p mk - q).
Proof.
  intros Hr Hnd Hq E. pose proof (sim_remove_half m s h mk p q Hr Hnd Hq) as H. rewrite E in H. exact H.
Qed.

Definition row_qty (rows : list level_snapshot) (p : Z) : option Z :=
  match find (fun r => sn_price r =? p) rows with Some r => Some (sn_quantity r) | None => None end.

Lemma ids_lt (c : Z) mk mk' : (forall id, In id (map r_id mk') -> In id (map r_id mk)) ->
  Forall (fun o => r_id o < c) mk -> Forall (fun o => r_id o < c) mk'.
Proof.
  rewrite !List.Forall_forall. intros H Hl o Ho. apply (in_map r_id) in Ho. apply H in Ho.
  apply in_map_iff in Ho as (x & E & Hx). specialize (Hl _ Hx). lia.
Qed.

(** Applying the orders computed against [mk0] to any level-equal half. *)
Lemma sim_dec_rows m s mk0 rows : forall h mk c os,
  rel_half s h mk -> NoDup (map r_id mk) -> NoDup (rows_prices rows) ->
  Forall (fun r => 0 < sn_quantity r /\ is_i64 (sn_price r)) rows ->
  (forall p, In p (rows_prices rows) -> level_qty s p mk = level_qty s p mk0) ->
  side_qty s mk + rows_total rows < two64 ->
  Forall (fun o => r_id o < c) mk -> 0 <= c ->
  let '(mk', c', os') := fold_left (fun st r => sp_dec_row s r st) rows (mk, c, os) in
  os' = os ++ fst (dec_orders s mk0 rows c) /\ c' = snd (dec_orders s mk0 rows c) /\
  exists h', apply_orders m h (fst (dec_orders s mk0 rows c)) = Ret (ROk h') /\
    rel_half s h' mk' /\ NoDup (map r_id mk') /\ Forall (fun o => r_id o < c') mk' /\
    c <= c' /\
    (forall s' h0, s' <> s -> rel_half s' h0 mk -> rel_half s' h0 mk') /\
    (forall p, level_qty s p mk' = match row_qty rows p with Some q => q | None => level_qty s p mk end) /\
    (forall p, row_qty rows p = None -> at_price s p mk' = at_price s p mk).
Proof.
  induction rows as [|r rows IH]; intros h mk c os Hr Hnd Hnp Hrows Hlev Hb Hlt Hc0.
  - simpl. rewrite app_nil_r. split; [reflexivity|]. split; [reflexivity|]. exists h.
    repeat (split; [auto; lia|]). auto.
  - inversion Hrows as [|? ? [Hq Hp] Hrows']; subst.
    unfold rows_prices in Hnp. cbn [map] in Hnp. apply NoDup_cons in Hnp as [Hni Hnp].
    fold (rows_prices rows) in *. rewrite elem_of_list_In in Hni.
    cbn [fold_left]. cbn [rows_total fold_right] in Hb.
    change (fold_right _ 0 rows) with (rows_total rows) in Hb.
    assert (Hnn : 0 <= rows_total rows).
    { clear - Hrows'. unfold rows_total. induction Hrows' as [|x t [Hx _] _ IHr]; simpl; lia. }
    set (p := sn_price r) in *.
    assert (Hlp : level_qty s p mk = level_qty s p mk0) by (apply Hlev; now left).
    pose proof (level_qty_nonneg s h mk p Hr) as Hln. pose proof (level_qty_le s h mk p Hr) as Hll.
    (* one row *)
    assert (Hone : exists mk1 h1,
      let '(a, c1) := dec_one s mk0 r c in
      sp_dec_row s r (mk, c, os) = (mk1, c1, os ++ a) /\
      apply_orders m h a = Ret (ROk h1) /\
      rel_half s h1 mk1 /\ NoDup (map r_id mk1) /\ Forall (fun o => r_id o < c1) mk1 /\ c <= c1 /\
      (forall s' h0, s' <> s -> rel_half s' h0 mk -> rel_half s' h0 mk1) /\
      level_qty s p mk1 = sn_quantity r /\ side_qty s mk1 <= side_qty s mk + sn_quantity r /\
      (forall p', p' <> p -> at_price s p' mk1 = at_price s p' mk)).
    { unfold dec_one, sp_dec_row. fold p. rewrite <- Hlp.
      destruct (Z.ltb_spec 0 (sn_quantity r - level_qty s p mk)) as [Hd|Hd].
      - set (d := sn_quantity r - level_qty s p mk) in *.
        assert (Hnew : ~ In c (map r_id mk)).
        { intros Hi. apply in_map_iff in Hi as (x & Ex & Hx). rewrite List.Forall_forall in Hlt. specialize (Hlt _ Hx). simpl in *. lia. }
        destruct (sim_add_half m s h mk (LimitOrder p d s c)) as (h1 & E1 & Hr1); auto; cbn [lo_quantity]; try lia.
        exists (sp_add (LimitOrder p d s c) mk), h1.
        split; [reflexivity|]. cbn [apply_orders apply_order]. rewrite E1. cbn [obind]. split; [reflexivity|].
        split; [exact Hr1|]. split; [now apply nodup_add|]. split.
        { unfold sp_add. apply List.Forall_app. split; [|repeat constructor; simpl; lia].
          eapply List.Forall_impl; [|exact Hlt]. simpl. lia. }
        split; [lia|]. split; [intros s' h0 Hne Hr0; apply sim_add_other; [exact Hr0|simpl; congruence]|].
        unfold sp_add. cbn [lo_id lo_side lo_price lo_quantity].
        split; [|split].
        + unfold level_qty. rewrite at_price_app, total_qty_app. unfold at_price at 2. simpl.
          rewrite side_eqb_refl, Z.eqb_refl. simpl. fold (level_qty s p mk). lia.
        + unfold side_qty, on_side. rewrite List.filter_app, total_qty_app. simpl. rewrite side_eqb_refl. simpl. lia.
        + intros p' Hne. rewrite at_price_app. unfold at_price at 2. simpl. rewrite side_eqb_refl.
          destruct (Z.eqb_spec p p'); [congruence|]. simpl. apply app_nil_r.
      - destruct (Z.ltb_spec (sn_quantity r - level_qty s p mk) 0) as [Hd'|Hd'].
        + set (d := - (sn_quantity r - level_qty s p mk)) in *.
          destruct (sp_remove_any s p d mk) as [mk1 lo] eqn:Esp.
          destruct (remove_qty s h mk p d mk1 lo m Hr Hnd ltac:(lia) Esp) as (h1 & E1 & Hr1 & Hnd1 & Hoth & Hids & Hfr & Hlv).
          exists mk1, h1. cbn [fst]. split; [reflexivity|]. cbn [apply_orders apply_order]. rewrite E1. cbn [obind].
          split; [reflexivity|]. split; [exact Hr1|]. split; [exact Hnd1|].
          split; [eapply ids_lt; eauto|]. split; [lia|]. split; [exact Hoth|]. split; [lia|]. split; [|exact Hfr].
          destruct (half_remove_order_ok m h (RemoveAny p d s) (rh_wf _ _ _ Hr)) as (h2 & E2 & _ & _ & Ht2 & _); auto;
            [simpl; symmetry; exact (rh_side _ _ _ Hr) | simpl; lia|].
          rewrite E1 in E2. injection E2 as E2 _. subst h2.
          rewrite <- (rel_total _ _ _ Hr1), Ht2, (rel_total _ _ _ Hr). cbn [ra_price ra_quantity].
          pose proof (sumq_pos _ (wf_queue_pos h p (rh_wf _ _ _ Hr))). lia.
        + exists mk, h. rewrite app_nil_r. split; [reflexivity|]. split; [reflexivity|].
          repeat (split; [auto; lia|]). auto. }
    destruct Hone as (mk1 & h1 & H). cbn [dec_orders].
    destruct (dec_one s mk0 r c) as [a c1].
    destruct H as (Erow & Eap & Hr1 & Hnd1 & Hlt1 & Hc1 & Hoth1 & Hlv1 & Hsq1 & Hfr1). rewrite Erow.
    assert (Hlev1 : forall p', In p' (rows_prices rows) -> level_qty s p' mk1 = level_qty s p' mk0).
    { intros p' Hp'. unfold level_qty. rewrite Hfr1 by (intros ->; tauto). apply Hlev. now right. }
    specialize (IH h1 mk1 c1 (os ++ a) Hr1 Hnd1 Hnp Hrows' Hlev1 ltac:(lia) Hlt1 ltac:(lia)).
    destruct (fold_left _ rows (mk1, c1, os ++ a)) as [[mk2 c2] os2].
    destruct (dec_orders s mk0 rows c1) as [b c3]. cbn [fst snd] in *.
    destruct IH as (-> & -> & h2 & Eap2 & Hr2 & Hnd2 & Hlt2 & Hc2 & Hoth2 & Hlv2 & Hfr2).
    split; [now rewrite app_assoc|]. split; [reflexivity|]. exists h2.
    split; [rewrite apply_orders_app, Eap; cbn [obind]; exact Eap2|].
    repeat (split; [auto; lia|]).
    assert (Hnone : row_qty rows p = None).
    { unfold row_qty. destruct (find _ rows) as [x|] eqn:Ef; [|reflexivity]. exfalso.
      apply find_some in Ef as [Hx Ex]. apply Z.eqb_eq in Ex. apply Hni. unfold rows_prices.
      apply in_map_iff. eauto. }
    split.
    + intros p'. rewrite Hlv2. unfold row_qty. cbn [find]. fold p. destruct (Z.eqb_spec p p') as [<-|Hne].
      * fold (row_qty rows p). rewrite Hnone. exact Hlv1.
      * fold (row_qty rows p'). destruct (row_qty rows p'); [reflexivity|].
        unfold level_qty. now rewrite Hfr1 by congruence.
    + intros p'. unfold row_qty. cbn [find]. fold p. destruct (Z.eqb_spec p p') as [<-|Hne]; [discriminate|].
      fold (row_qty rows p'). intros E. rewrite Hfr2 by exact E. apply Hfr1. congruence.
Qed.

(** the vanished prices *)
Lemma sim_gone m s f ps : forall h mk,
  rel_half s h mk -> NoDup (map r_id mk) -> NoDup ps ->
  (forall p, In p ps -> f p = level_qty s p mk) ->
  exists h' mk', apply_orders m h (map (fun p => ORemove (RemoveAny p (f p) s)) ps) = Ret (ROk h') /\
    rel_half s h' mk' /\
    (forall p, at_price s p mk' = if price_in p ps then [] else at_price s p mk).
Proof.
  induction ps as [|p ps IH]; intros h mk Hr Hnd Hnp Hf.
  - exists h, mk. simpl. auto.
  - apply NoDup_cons in Hnp as [Hni Hnp]. rewrite elem_of_list_In in Hni.
    assert (Hfp := Hf p ltac:(now left)). pose proof (level_qty_nonneg s h mk p Hr) as Hln.
    destruct (sp_remove_any s p (f p) mk) as [mk1 lo] eqn:Esp.
    destruct (remove_qty s h mk p (f p) mk1 lo m Hr Hnd ltac:(lia) Esp) as (h1 & E1 & Hr1 & Hnd1 & Hoth & Hids & Hfr & Hlv).
    destruct (IH h1 mk1 Hr1 Hnd1 Hnp) as (h2 & mk2 & E2 & Hr2 & Ha2).
    { intros p' Hp'. unfold level_qty. rewrite Hfr by (intros ->; tauto). apply Hf. now right. }
    exists h2, mk2. cbn [map apply_orders apply_order]. rewrite E1. cbn [obind]. split; [exact E2|].
    split; [exact Hr2|]. intros p'. rewrite Ha2. unfold price_in. cbn [existsb].
    destruct (Z.eqb_spec p p') as [<-|Hne]; cbn [orb].
    + destruct (existsb _ ps); [reflexivity|]. apply (level_qty_zero s h1 mk1 p Hr1). lia.
    + destruct (existsb _ ps); [reflexivity|]. apply Hfr. congruence.
Qed.

(** ** the prices of a side *)
Lemma insert_price_In p l x : In x (insert_price p l) <-> x = p \/ In x l.
Proof.
  induction l as [|y t IH]; simpl; [intuition congruence|].
  destruct (Z.ltb_spec p y); simpl; [intuition congruence|].
  destruct (Z.eqb_spec p y); simpl; [subst; intuition congruence|]. rewrite IH. intuition congruence.
Qed.
Lemma insert_price_sorted p l : StronglySorted Z.lt l -> StronglySorted Z.lt (insert_price p l).
Proof.
  induction 1 as [|y t Hs IH Hf]; simpl; [repeat constructor|].
  destruct (Z.ltb_spec p y).
  - constructor; [now constructor|]. constructor; [assumption|]. eapply List.Forall_impl; [|exact Hf]. simpl. lia.
  - destruct (Z.eqb_spec p y); [now constructor|]. constructor; [exact IH|].
    rewrite List.Forall_forall in *. intros x Hx. apply insert_price_In in Hx as [->|Hx]; [lia|auto].
Qed.
Lemma prices_sorted s mk : StronglySorted Z.lt (prices s mk).
Proof. unfold prices. induction (map r_price (on_side s mk)); simpl; [constructor|now apply insert_price_sorted]. Qed.
Lemma prices_In s mk p : In p (prices s mk) <-> exists o, In o (on_side s mk) /\ r_price o = p.
Proof.
  unfold prices. induction (on_side s mk) as [|o t IH]; simpl.
  - split; [tauto|intros (? & [] & _)].
  - rewrite insert_price_In, IH. split.
    + intros [->|(x & Hx & E)]; eauto.
    + intros (x & [<-|Hx] & E); [now left|right; eauto].
Qed.
Lemma sorted_lt_ext (a : list Z) : forall b, StronglySorted Z.lt a -> StronglySorted Z.lt b ->
  (forall x, In x a <-> In x b) -> a = b.
Proof.
  induction a as [|x a IH]; intros b Ha Hb H.
  - destruct b as [|y b]; [reflexivity|]. exfalso. apply (H y). now left.
  - destruct b as [|y b]; [exfalso; apply (H x); now left|].
    inversion Ha as [|? ? Ha' Hfa]; inversion Hb as [|? ? Hb' Hfb]; subst.
    rewrite List.Forall_forall in Hfa, Hfb.
    assert (x = y) as ->.
    { destruct (proj1 (H x) ltac:(now left)) as [->|Hx]; [reflexivity|].
      destruct (proj2 (H y) ltac:(now left)) as [->|Hy]; [reflexivity|].
      specialize (Hfa _ Hy). specialize (Hfb _ Hx). lia. }
    f_equal. apply IH; auto. intros z. split; intros Hz.
    + destruct (proj1 (H z) ltac:(now right)) as [<-|]; [|assumption]. specialize (Hfa _ Hz). lia.
    + destruct (proj2 (H z) ltac:(now right)) as [<-|]; [|assumption]. specialize (Hfb _ Hz). lia.
Qed.
Lemma keys_prices s h mk : rel_half s h mk -> map fst (h_levels h) = prices s mk.
Proof.
  intros Hr. apply sorted_lt_ext; [apply (hw_sorted h (rh_wf _ _ _ Hr))|apply prices_sorted|].
  intros x. rewrite prices_In. apply (keys_of_orders s h mk Hr).
Qed.

Lemma decompose_gone_eq s h mk rows : rel_half s h mk ->
  decompose_gone h rows =
  map (fun p => ORemove (RemoveAny p (level_qty s p mk) s))
      (List.filter (fun p => negb (price_in p (rows_prices rows))) (prices s mk)).
Proof.
  intros Hr. rewrite <- (keys_prices s h mk Hr). unfold decompose_gone. rewrite (rh_side _ _ _ Hr).
  fold (rows_prices rows).
  assert (Hget : forall pl, In pl (h_levels h) -> l_total (snd pl) = level_qty s (fst pl) mk).
  { intros [p l] Hin. cbn [fst snd]. rewrite (level_get_qty s h mk p Hr).
    rewrite (bt_In_get (h_levels h) p l (hw_sorted h (rh_wf _ _ _ Hr)) Hin). reflexivity. }
  revert Hget. generalize (h_levels h). intros ls Hget. induction ls as [|[p l] t IH]; simpl; [reflexivity|].
  rewrite contains_price_in. destruct (price_in p (rows_prices rows)); simpl.
  - apply IH. intros. apply Hget. now right.
  - f_equal; [|apply IH; intros; apply Hget; now right]. do 2 f_equal. apply (Hget (p, l)). now left.
Qed.

Lemma NoDup_filterZ (f : Z -> bool) l : NoDup l -> NoDup (List.filter f l).
Proof.
  induction l as [|x t IH]; simpl; [auto|]. intros H. apply NoDup_cons in H as [Hn H].
  destruct (f x); simpl; auto. apply NoDup_cons. split; [|auto]. rewrite elem_of_list_In in *.
  intros Hi. apply filter_In in Hi. tauto.
Qed.
Lemma sorted_lt_nodup l : StronglySorted Z.lt l -> NoDup l.
Proof.
  induction 1 as [|x t Hs IH Hf]; [constructor|]. apply NoDup_cons. split; [|exact IH].
  rewrite elem_of_list_In. rewrite List.Forall_forall in Hf. intros Hi. specialize (Hf _ Hi). lia.
Qed.

Lemma row_qty_In rows p : NoDup (rows_prices rows) ->
  match row_qty rows p with
  | Some q => exists r, In r rows /\ sn_price r = p /\ sn_quantity r = q
  | None => price_in p (rows_prices rows) = false
  end.
Proof.
  intros _. unfold row_qty. destruct (find _ rows) as [x|] eqn:Ef.
  - apply find_some in Ef as [Hx Ex]. apply Z.eqb_eq in Ex. eauto.
  - destruct (price_in p (rows_prices rows)) eqn:Ep; [|reflexivity]. exfalso.
    apply price_in_In in Ep. unfold rows_prices in Ep. apply in_map_iff in Ep as (r & Er & Hr).
    pose proof (find_none _ _ Ef _ Hr) as H. simpl in H. lia.
Qed.

(** One side: orders computed on [mk0], applied to a level-equal half. *)
Lemma sim_dec_apply m s h mk mk0 c rows :
  rel_half s h mk -> NoDup (map r_id mk) -> rows_ok s rows mk ->
  (forall p, level_qty s p mk = level_qty s p mk0) ->
  Forall (fun o => r_id o < c) mk -> 0 <= c ->
  (exists h0, rel_half s h0 mk0) ->
  let os := fst (dec_orders s mk0 rows c) ++
            map (fun p => ORemove (RemoveAny p (level_qty s p mk0) s))
              (List.filter (fun p => negb (price_in p (rows_prices rows))) (prices s mk0)) in
  let '(mk', c', os') := sp_dec_side s rows (mk, c) in
  os' = os /\ c' = snd (dec_orders s mk0 rows c) /\
  exists h', apply_orders m h os = Ret (ROk h') /\ rel_half s h' mk' /\
    NoDup (map r_id mk') /\ Forall (fun o => r_id o < c') mk' /\ c <= c' /\
    (forall s' h0, s' <> s -> rel_half s' h0 mk -> rel_half s' h0 mk') /\
    (forall p, level_qty s p mk' = match row_qty rows p with Some q => q | None => 0 end).
Proof.
  intros Hr Hnd (Hnp & Hrows & Hb) Hlev Hlt Hc0 (h0 & Hr0). cbn zeta. unfold sp_dec_side.
  apply NoDup_ListNoDup in Hnp.
  fold (rows_total rows) in Hb.
  assert (Hprices : prices s mk = prices s mk0).
  { apply sorted_lt_ext; try apply prices_sorted. intros p. rewrite !prices_In.
    rewrite <- (keys_of_orders s h mk Hr p), <- (keys_of_orders s h0 mk0 Hr0 p).
    pose proof (Hlev p) as E. rewrite (level_get_qty s h mk p Hr), (level_get_qty s h0 mk0 p Hr0) in E.
    assert (Hpos : forall hh, half_wf hh -> forall l, bt_get p (h_levels hh) = Some l -> 0 < l_total l).
    { intros hh Hw l Hg. pose proof (wf_get hh p l Hw Hg) as Hl. rewrite (lw_total _ _ Hl).
      pose proof (lw_ne _ _ Hl). pose proof (sumq_pos _ (lw_pos _ _ Hl)).
      destruct (Z.eq_dec (sumq (l_orders l)) 0) as [E0|]; [|lia]. exfalso.
      apply (sumq_zero _ (lw_pos _ _ Hl)) in E0. tauto. }
    split; intros Hin.
    - destruct (bt_get p (h_levels h0)) eqn:E2.
      + apply bt_get_In in E2. now apply (in_map fst) in E2.
      + destruct (bt_get p (h_levels h)) as [l|] eqn:E1.
        * pose proof (Hpos h (rh_wf _ _ _ Hr) l E1). lia.
        * apply bt_get_None_keys in E1. tauto.
    - destruct (bt_get p (h_levels h)) eqn:E1.
      + apply bt_get_In in E1. now apply (in_map fst) in E1.
      + destruct (bt_get p (h_levels h0)) as [l|] eqn:E2.
        * pose proof (Hpos h0 (rh_wf _ _ _ Hr0) l E2). lia.
        * apply bt_get_None_keys in E2. tauto. }
  rewrite Hprices.
  pose proof (sim_dec_rows m s mk0 rows h mk c [] Hr Hnd Hnp Hrows ltac:(auto) ltac:(lia) Hlt Hc0) as H.
  destruct (fold_left _ rows (mk, c, [])) as [[mk1 c1] os1]. simpl in H.
  destruct H as (-> & -> & h1 & E1 & Hr1 & Hnd1 & Hlt1 & Hc1 & Hoth1 & Hlv1 & Hfr1).
  split; [|split; [reflexivity|]].
  { f_equal. apply map_ext. intros p. now rewrite Hlev. }
  set (gone := List.filter (fun p => negb (price_in p (rows_prices rows))) (prices s mk0)).
  assert (Hgone : forall p, price_in p gone = true -> price_in p (rows_prices rows) = false).
  { intros p. unfold gone. rewrite price_in_filter. rewrite andb_true_iff, negb_true_iff. tauto. }
  destruct (sim_gone m s (fun p => level_qty s p mk0) gone h1 mk1 Hr1 Hnd1) as (h2 & mk2 & E2 & Hr2 & Ha2).
  { apply NoDup_filterZ, sorted_lt_nodup, prices_sorted. }
  { intros p Hp. apply price_in_In, Hgone in Hp. rewrite Hlv1. pose proof (row_qty_In rows p Hnp) as Hrq.
    destruct (row_qty rows p) as [q|]; [|now rewrite Hlev].
    exfalso. destruct Hrq as (r & Hr' & E' & _). assert (price_in p (rows_prices rows) = true); [|congruence].
    apply price_in_In. unfold rows_prices. apply in_map_iff. eauto. }
  exists h2. rewrite apply_orders_app, E1. cbn [obind]. split; [exact E2|].
  assert (Hkeep : forall p, at_price s p (sp_keep_prices s (rows_prices rows) mk1) = at_price s p mk2).
  { intros p. rewrite at_price_keep, side_eqb_refl, Ha2. simpl.
    destruct (price_in p (rows_prices rows)) eqn:Ep.
    - destruct (price_in p gone) eqn:Eg; [|reflexivity]. apply Hgone in Eg. congruence.
    - destruct (price_in p gone) eqn:Eg; [reflexivity|].
      unfold gone in Eg. rewrite price_in_filter, Ep in Eg. cbn [negb] in Eg. rewrite andb_true_r in Eg.
      assert (Hno : ~ In p (prices s mk)).
      { rewrite Hprices. intros Hi. apply price_in_In in Hi. congruence. }
      symmetry. rewrite Hfr1.
      + destruct (at_price s p mk) as [|o t] eqn:Ea; [reflexivity|]. exfalso. apply Hno. apply prices_In.
        assert (Ho : In o (at_price s p mk)) by (rewrite Ea; now left). apply at_price_In in Ho as (Ho & Hs & Hp).
        exists o. split; [|exact Hp]. apply on_side_In. auto.
      + pose proof (row_qty_In rows p Hnp) as Hrq. destruct (row_qty rows p) as [q|]; [|reflexivity].
        exfalso. destruct Hrq as (r & Hr' & E' & _). assert (price_in p (rows_prices rows) = true); [|congruence].
        apply price_in_In. unfold rows_prices. apply in_map_iff. eauto. }
  split; [apply (rel_half_ext _ _ _ _ Hr2); intros p; now rewrite Hkeep|].
  split; [now apply nodup_filter|]. split; [eapply ids_lt; [apply keep_ids|exact Hlt1]|].
  split; [exact Hc1|]. split; [intros s' h' Hne Hr'; apply rel_keep_other; auto|].
  intros p. unfold level_qty. rewrite at_price_keep, side_eqb_refl. simpl.
  pose proof (row_qty_In rows p Hnp) as Hrq. specialize (Hlv1 p). unfold level_qty in Hlv1.
  destruct (row_qty rows p) as [q|].
  - destruct Hrq as (r & Hr' & E' & _).
    assert (price_in p (rows_prices rows) = true) as ->; [|exact Hlv1].
    apply price_in_In. unfold rows_prices. apply in_map_iff. eauto.
  - now rewrite Hrq.
Qed.

Lemma sim_dec_half m s h mk c rows :
  rel_half s h mk -> NoDup (map r_id mk) -> rows_ok s rows mk ->
  Forall (fun o => r_id o < c) mk -> 0 <= c -> c + Z.of_nat (length rows) < two64 ->
  let '(mk', c', os) := sp_dec_side s rows (mk, c) in
  exists h', half_decompose m h rows c = Ret (ROk (h', c', os)) /\ rel_half s h' mk' /\
    NoDup (map r_id mk') /\ Forall (fun o => r_id o < c') mk' /\ c <= c' <= c + Z.of_nat (length rows) /\
    (forall s' h0, s' <> s -> rel_half s' h0 mk -> rel_half s' h0 mk') /\
    (forall p, level_qty s p mk' = match row_qty rows p with Some q => q | None => 0 end).
Proof.
  intros Hr Hnd Hrows Hlt Hc0 Hc1.
  pose proof (sim_dec_apply m s h mk mk c rows Hr Hnd Hrows ltac:(auto) Hlt Hc0 ltac:(eauto)) as H. cbn zeta in H.
  destruct (sp_dec_side s rows (mk, c)) as [[mk' c'] os].
  destruct H as (-> & -> & h' & E & Hr' & Hnd' & Hlt' & Hc' & Hoth & Hlv).
  destruct (decompose_rows_ok m s h mk rows c Hr (proj1 (proj2 Hrows)) Hc0 Hc1) as [E1 E2].
  exists h'. unfold half_decompose. rewrite E1.
  destruct (dec_orders s mk rows c) as [os1 c1] eqn:Ed. cbn [obind fst snd] in *.
  rewrite (decompose_gone_eq s h mk rows Hr), E. cbn [obind].
  split; [reflexivity|]. repeat (split; [auto; lia|]). auto.
Qed.

Lemma level_qty_other s h mk mk' p : rel_half s h mk -> rel_half s h mk' -> level_qty s p mk' = level_qty s p mk.
Proof. intros H1 H2. now rewrite (level_get_qty s h mk' p H2), (level_get_qty s h mk p H1). Qed.

Lemma sim_decompose m b mk asks bids :
  rel b mk -> rows_ok Ask asks mk -> rows_ok Bid bids mk ->
  counter_ok (b_counter b) (length asks + length bids) mk ->
  exists b', let '(mk', c', os) := sp_dec asks bids (mk, b_counter b) in
    book_decompose m b asks bids = Ret (ROk (b', os)) /\
    rel b' mk' /\ b_id b' = b_id b /\ b_counter b' = c' /\ b_counter b <= c' /\
    Forall (fun o => r_id o < c') mk' /\
    (forall p, level_qty Ask p mk' = match row_qty asks p with Some q => q | None => 0 end) /\
    (forall p, level_qty Bid p mk' = match row_qty bids p with Some q => q | None => 0 end).
Proof.
  intros Hr Ha Hb (Hlt & Hc0 & Hc1). unfold sp_dec.
  pose proof (sim_dec_half m Ask (b_asks b) mk (b_counter b) asks (rel_asks _ _ Hr) (rel_nodup _ _ Hr) Ha Hlt Hc0 ltac:(lia)) as H.
  destruct (sp_dec_side Ask asks (mk, b_counter b)) as [[mk1 c1] oa].
  destruct H as (h1 & E1 & Hr1 & Hnd1 & Hlt1 & Hcc1 & Hoth1 & Hlv1).
  assert (Hrb : rel_half Bid (b_bids b) mk1) by (apply Hoth1; [discriminate|apply Hr]).
  assert (Hb1 : rows_ok Bid bids mk1) by (eapply rows_ok_other; [apply Hr|exact Hrb|exact Hb]).
  pose proof (sim_dec_half m Bid (b_bids b) mk1 c1 bids Hrb Hnd1 Hb1 Hlt1 ltac:(lia) ltac:(lia)) as H.
  destruct (sp_dec_side Bid bids (mk1, c1)) as [[mk2 c2] ob].
  destruct H as (h2 & E2 & Hr2 & Hnd2 & Hlt2 & Hcc2 & Hoth2 & Hlv2).
  assert (Hra : rel_half Ask h1 mk2) by (apply Hoth2; [discriminate|exact Hr1]).
  unfold book_decompose. rewrite E1. cbn [obind]. rewrite E2. cbn [obind].
  eexists. split; [reflexivity|]. simpl. split; [constructor; simpl; auto|].
  split; [reflexivity|]. split; [reflexivity|]. split; [lia|]. split; [exact Hlt2|]. split; [|exact Hlv2].
  intros p. rewrite (level_qty_other Ask h1 mk1 mk2 p Hr1 Hra). apply Hlv1.
Qed.
