(** OBSnap.v -- level-2 snapshot update and snapshot decomposition match the
    reference exchange. *)
From Coq Require Import ZArith List Lia Sorted Bool Permutation.
From stdpp Require Import base gmap.
From Verif Require Import Base OBTypes OBModel OBSpec OBBase OBInv OBRemove OBTrade OBRel OBSim.
Import ListNotations.
Open Scope Z_scope.

Lemma reinit_wf h : half_wf h -> half_reinit_best h = h.
Proof. intros Hw. unfold half_reinit_best. rewrite <- (hw_best h Hw). now destruct h. Qed.
Lemma reinit_reinit h : half_reinit_best (half_reinit_best h) = half_reinit_best h.
Proof. reflexivity. Qed.

(** ** removing whole levels *)
Lemma fold_delete_map (q : list (Z * Z)) : forall c : gmap Z Z,
  fold_left (fun c (o : Z * Z) => delete (fst o) c) q c = fold_left (fun c i => delete i c) (map fst q) c.
Proof. induction q as [|x t IH]; intros c; simpl; [reflexivity|apply IH]. Qed.

Lemma half_remove_level_ok m h p :
  half_wf h ->
  exists h', half_remove_level m h p = Ret h' /\ half_wf h' /\ h_side h' = h_side h /\
    forall p', queue (h_levels h') p' = if p' =? p then [] else queue (h_levels h) p'.
Proof.
  intros Hw. unfold half_remove_level.
  destruct (bt_get p (h_levels h)) as [l|] eqn:Hg.
  - pose proof (wf_get h _ _ Hw Hg) as Hl. pose proof (wf_level_le h _ _ Hw Hg) as Hle.
    rewrite usub_ok by lia. cbn [obind].
    assert (HQp : queue (h_levels h) p = l_orders l) by (unfold queue; now rewrite Hg).
    set (c' := fold_left _ _ _).
    set (h1 := Half (h_side h) (bt_remove p (h_levels h)) c' (best_of (h_side h) (bt_remove p (h_levels h))) (h_total h - l_total l)).
    assert (HQ : forall p', queue (bt_remove p (h_levels h)) p' = if p' =? p then [] else queue (h_levels h) p').
    { intros p'. now rewrite queue_remove by apply Hw. }
    assert (Hw1 : half_wf h1).
    { constructor; simpl.
      - apply sorted_remove, Hw.
      - apply Forall_remove, Hw.
      - unfold sumt. rewrite sumv_remove by apply Hw. unfold wget. rewrite Hg.
        pose proof (hw_total h Hw). unfold sumt in *. lia.
      - pose proof (hw_bound h Hw). lia.
      - reflexivity.
      - intros id p'. rewrite HQ. unfold c'.
        assert (Ec : fold_left (fun c (o : Z * Z) => delete (fst o) c) (l_orders l) (h_cache h)
                     = fold_left (fun c i => delete i c) (map fst (l_orders l)) (h_cache h)).
        { apply fold_delete_map. }
        rewrite Ec, fold_delete_Some. rewrite (hw_cache h Hw id p').
        destruct (Z.eqb_spec p' p) as [->|Hne]; simpl.
        + rewrite HQp. tauto.
        + split; [tauto|]. intros Hi. split; [|exact Hi]. intros Hi'. rewrite <- HQp in Hi'.
          apply (hw_cache h Hw) in Hi, Hi'. congruence. }
    exists h1. split; [|split; [exact Hw1|split; [reflexivity|exact HQ]]].
    f_equal. destruct (Z.eqb_spec p (h_best h)); [reflexivity|]. unfold h1. f_equal.
    rewrite (hw_best h Hw). symmetry. apply best_of_remove_other; [apply Hw|].
    now rewrite <- (hw_best h Hw).
  - rewrite usub_ok by (pose proof (wf_total_nonneg h Hw); lia). cbn [obind].
    assert (E : bt_remove p (h_levels h) = h_levels h).
    { apply bt_get_None_keys in Hg. revert Hg. generalize (h_levels h). intros ls. induction ls as [|[k v] t IH]; simpl; [reflexivity|].
      intros Hn. destruct (Z.eqb_spec p k); [exfalso; apply Hn; now left|]. rewrite IH; auto. }
    rewrite E, Z.sub_0_r.
    assert (Eh : Half (h_side h) (h_levels h) (h_cache h) (h_best h) (h_total h) = h) by now destruct h.
    rewrite Eh. exists h. split; [|split; [exact Hw|split; [reflexivity|]]].
    + destruct (p =? h_best h); [now rewrite reinit_wf|reflexivity].
    + intros p'. destruct (Z.eqb_spec p' p) as [->|]; [|reflexivity]. unfold queue. now rewrite Hg.
Qed.

Lemma l2_remove_missing_ok m ps : forall h, half_wf h ->
  exists h', l2_remove_missing m h ps = Ret h' /\ half_wf h' /\ h_side h' = h_side h /\
    forall p', queue (h_levels h') p' = if price_in p' ps then [] else queue (h_levels h) p'.
Proof.
  induction ps as [|p ps IH]; intros h Hw; simpl.
  - exists h. auto.
  - destruct (half_remove_level_ok m h p Hw) as (h1 & E1 & Hw1 & Hs1 & HQ1). rewrite E1. cbn [obind].
    destruct (IH h1 Hw1) as (h2 & E2 & Hw2 & Hs2 & HQ2). exists h2.
    split; [exact E2|]. split; [exact Hw2|]. split; [congruence|]. intros p'. rewrite HQ2, HQ1.
    rewrite (Z.eqb_sym p p'). unfold price_in. destruct (p' =? p), (existsb _ ps); reflexivity.
Qed.

Lemma price_in_In p ps : price_in p ps = true <-> In p ps.
Proof.
  unfold price_in. rewrite existsb_exists. split.
  - intros (x & Hx & E). apply Z.eqb_eq in E. now subst.
  - intros H. exists p. split; [exact H|apply Z.eqb_refl].
Qed.
Lemma contains_price_in ps p : contains_price ps p = price_in p ps.
Proof.
  unfold contains_price, price_in. induction ps as [|x t IH]; simpl; [reflexivity|]. now rewrite (Z.eqb_sym p x), IH.
Qed.
Lemma price_in_filter p (f : Z -> bool) ps : price_in p (List.filter f ps) = price_in p ps && f p.
Proof.
  unfold price_in. induction ps as [|x t IH]; simpl; [reflexivity|].
  destruct (f x) eqn:E; simpl; rewrite IH; destruct (Z.eqb_spec x p); subst; rewrite ?E; simpl; auto.
  - now rewrite andb_false_r.
Qed.

Lemma at_price_keep s ps mk s' p :
  at_price s' p (sp_keep_prices s ps mk) =
  if negb (side_eqb s' s) || price_in p ps then at_price s' p mk else [].
Proof.
  unfold at_price, sp_keep_prices. induction mk as [|o t IH]; simpl.
  - now destruct (negb (side_eqb s' s) || price_in p ps).
  - destruct (side_eqb (r_side o) s' && (r_price o =? p)) eqn:E.
    + apply andb_true_iff in E as [E1 E2]. apply side_eqb_eq in E1. apply Z.eqb_eq in E2. subst s' p.
      destruct (negb (side_eqb (r_side o) s) || price_in (r_price o) ps) eqn:Ek; simpl.
      * now rewrite side_eqb_refl, Z.eqb_refl, IH.
      * exact IH.
    + destruct (negb (side_eqb (r_side o) s) || price_in (r_price o) ps); simpl; rewrite ?E; exact IH.
Qed.

Lemma keep_ids s ps mk id : In id (map r_id (sp_keep_prices s ps mk)) -> In id (map r_id mk).
Proof.
  unfold sp_keep_prices. rewrite !in_map_iff. intros (o & E & H). apply filter_In in H. exists o. tauto.
Qed.
Lemma nodup_filter (f : rest -> bool) mk : NoDup (map r_id mk) -> NoDup (map r_id (List.filter f mk)).
Proof.
  induction mk as [|o t IH]; simpl; [auto|]. intros H. apply NoDup_cons in H as [Hn H].
  destruct (f o); simpl; auto. apply NoDup_cons. split; [|auto]. rewrite elem_of_list_In in *.
  intros Hi. apply Hn. rewrite in_map_iff in *. destruct Hi as (x & E & Hx). apply filter_In in Hx. exists x. tauto.
Qed.

Lemma rel_keep_other s ps mk s' h : s' <> s -> rel_half s' h mk -> rel_half s' h (sp_keep_prices s ps mk).
Proof.
  intros Hne Hr. apply (rel_half_ext _ _ _ _ Hr). intros p. rewrite at_price_keep.
  rewrite side_neq by exact Hne. reflexivity.
Qed.

Lemma sim_keep m s h mk ps : rel_half s h mk ->
  exists h', l2_remove_missing m h (List.filter (fun p => negb (contains_price ps p)) (map fst (h_levels h))) = Ret h' /\
    rel_half s h' (sp_keep_prices s ps mk).
Proof.
  intros [Hw Hs HQ]. destruct (l2_remove_missing_ok m (List.filter (fun p => negb (contains_price ps p)) (map fst (h_levels h))) h Hw)
    as (h' & E & Hw' & Hs' & HQ').
  exists h'. split; [exact E|]. constructor; [exact Hw'|congruence|]. intros p.
  rewrite HQ', price_in_filter, contains_price_in, at_price_keep, side_eqb_refl. simpl.
  destruct (price_in p ps) eqn:Ep; simpl.
  - rewrite andb_false_r. apply HQ.
  - rewrite andb_true_r. destruct (price_in p (map fst (h_levels h))) eqn:Ek; [reflexivity|].
    unfold queue. destruct (bt_get p (h_levels h)) eqn:Eg; [|reflexivity]. exfalso.
    apply bt_get_In, (in_map fst) in Eg. apply price_in_In in Eg. simpl in Eg. congruence.
Qed.

(** ** one snapshot row *)
Lemma one_length {A} (l : list A) : (length l <= 1)%nat -> l <> [] -> exists x, l = [x].
Proof. destruct l as [|x [|y t]]; simpl; intros; [congruence|eauto|lia]. Qed.

Lemma at_price_l2_set s p q mk s' p' :
  at_price s' p' (map (fun o => if side_eqb (r_side o) s && (r_price o =? p) then Rest (r_id o) (r_side o) (r_price o) q else o) mk)
  = map (fun o => if side_eqb (r_side o) s && (r_price o =? p) then Rest (r_id o) (r_side o) (r_price o) q else o) (at_price s' p' mk).
Proof.
  unfold at_price. induction mk as [|o t IH]; simpl; [reflexivity|].
  destruct (side_eqb (r_side o) s && (r_price o =? p)) eqn:E; simpl;
    destruct (side_eqb (r_side o) s' && (r_price o =? p')); simpl; rewrite ?E, IH; reflexivity.
Qed.

Lemma sim_l2_row m s h mk c row :
  rel_half s (half_reinit_best h) mk -> NoDup (map r_id mk) -> one_per_level mk ->
  0 < sn_quantity row -> is_i64 (sn_price row) -> side_qty s mk + sn_quantity row < two64 ->
  Forall (fun o => r_id o < c) mk -> 0 <= c -> c + 1 < two64 ->
  let '(mk', c') := sp_l2_row s row (mk, c) in
  exists h', l2_apply_one m h c row = Ret (h', c', true) /\
    rel_half s (half_reinit_best h') mk' /\ NoDup (map r_id mk') /\ one_per_level mk' /\
    Forall (fun o => r_id o < c') mk' /\ c <= c' <= c + 1 /\
    side_qty s mk' <= side_qty s mk + sn_quantity row /\
    (forall s' h0, s' <> s -> rel_half s' h0 mk -> rel_half s' h0 mk').
Proof.
  intros Hr Hnd Hone Hq Hp Hb Hlt Hc0 Hc1. unfold sp_l2_row.
  set (p := sn_price row) in *. set (q := sn_quantity row) in *.
  pose proof (rel_total _ _ _ Hr) as Htot. cbn [h_total half_reinit_best] in Htot.
  pose proof (rh_side _ _ _ Hr) as Hside. cbn [h_side half_reinit_best] in Hside.
  pose proof (rh_queue _ _ _ Hr p) as HQ. cbn [h_levels half_reinit_best] in HQ.
  destruct (at_price s p mk) as [|o rst] eqn:Ea.
  - (* new level *)
    assert (Eg : bt_get p (h_levels h) = None).
    { destruct (bt_get p (h_levels h)) as [l|] eqn:Eg; [|reflexivity]. exfalso.
      pose proof (wf_get _ _ _ (rh_wf _ _ _ Hr) Eg) as Hl. unfold queue in HQ. rewrite Eg in HQ. simpl in HQ.
      now apply (lw_ne _ _ Hl). }
    destruct (sim_add_half m s (half_reinit_best h) mk (LimitOrder p q s c)) as (h2 & E2 & Hr2); auto.
    { intros Hi. apply in_map_iff in Hi as (x & Ex & Hx). rewrite List.Forall_forall in Hlt. specialize (Hlt _ Hx). simpl in Ex. lia. }
    unfold half_add in E2. cbn [lo_side lo_price lo_quantity lo_id h_side h_best h_cache h_total h_levels half_reinit_best] in E2.
    rewrite Hside, side_eqb_refl in E2. cbn [negb] in E2.
    rewrite uadd_ok in E2 by lia. cbn [obind] in E2. rewrite Eg in E2. injection E2 as E2.
    unfold l2_apply_one. fold p q. rewrite Eg. unfold next_id. rewrite uadd_ok by lia. cbn [obind].
    rewrite uadd_ok by lia. cbn [obind]. eexists. split; [reflexivity|].
    rewrite <- (reinit_wf _ (rh_wf _ _ _ Hr2)) in Hr2.
    split; [|split; [|split; [|split; [|split; [|split]]]]].
    + rewrite <- E2 in Hr2. rewrite Hside in *. exact Hr2.
    + apply (nodup_add (LimitOrder p q s c)); [exact Hnd|].
      intros Hi. apply in_map_iff in Hi as (x & Ex & Hx). rewrite List.Forall_forall in Hlt. specialize (Hlt _ Hx). simpl in Ex. lia.
    + intros s' p'. rewrite at_price_app, app_length. unfold at_price at 2. simpl.
      destruct (side_eqb s s' && (p =? p')) eqn:E; simpl; [|rewrite Nat.add_0_r; apply Hone].
      apply andb_true_iff in E as [E1 E3]. apply side_eqb_eq in E1. apply Z.eqb_eq in E3. subst s' p'. rewrite Ea. simpl. lia.
    + apply List.Forall_app. split; [|repeat constructor; simpl; lia].
      eapply List.Forall_impl; [|exact Hlt]. simpl. lia.
    + lia.
    + unfold side_qty, on_side. rewrite List.filter_app, total_qty_app. simpl. rewrite side_eqb_refl. simpl. lia.
    + intros s' h0 Hne Hr0. apply (sim_add_other s' h0 mk (LimitOrder p q s c)); [exact Hr0|]. simpl. congruence.
  - (* existing level: one order *)
    assert (rst = []) as ->.
    { specialize (Hone s p). rewrite Ea in Hone. destruct rst; [reflexivity|simpl in Hone; lia]. }
    assert (Ho : In o mk /\ r_side o = s /\ r_price o = p) by (apply at_price_In; rewrite Ea; now left).
    destruct Ho as (Ho & Hos & Hop).
    unfold queue in HQ. destruct (bt_get p (h_levels h)) as [l|] eqn:Eg; [|discriminate].
    pose proof (wf_get _ _ _ (rh_wf _ _ _ Hr) Eg) as Hl.
    pose proof (lw_total _ _ Hl) as Hlt'. rewrite HQ in Hlt'. unfold sumq in Hlt'. simpl in Hlt'.
    pose proof (rel_pos _ _ _ _ Hr Ho Hos) as Hpos.
    pose proof (wf_level_le _ _ _ (rh_wf _ _ _ Hr) Eg) as Hle. cbn [h_total half_reinit_best] in Hle.
    destruct (sim_change_found m s (half_reinit_best h) mk o q) as (h2 & E2 & Hr2); auto.
    assert (Hc : h_cache h !! r_id o = Some p).
    { apply (rel_cache s (half_reinit_best h) mk (r_id o) p Hr). eauto. }
    unfold half_change_quantity in E2. cbn [h_side h_best h_cache h_total h_levels half_reinit_best] in E2.
    rewrite Hc, Eg in E2. unfold level_change_quantity in E2. rewrite HQ in E2. unfold qids, set_qty in E2. simpl in E2.
    rewrite Z.eqb_refl in E2. rewrite uadd_ok in E2 by lia. cbn [obind] in E2.
    rewrite usub_ok in E2 by lia. cbn [obind] in E2. rewrite usub_ok in E2 by lia. cbn [obind] in E2.
    rewrite uadd_ok in E2 by lia. cbn [obind l_total] in E2.
    destruct (Z.eqb_spec (l_total l + q - r_qty o) 0); [lia|].
    assert (E2' : Half (h_side h) (bt_insert p (Level (l_price l) [(r_id o, q)] q) (h_levels h)) (h_cache h)
                    (best_of (h_side h) (h_levels h)) (h_total h - r_qty o + q) = h2).
    { injection E2 as E2. rewrite <- E2. do 3 f_equal. lia. }
    assert (Hmap : map (fun o0 => if side_eqb (r_side o0) s && (r_price o0 =? p)
                        then Rest (r_id o0) (r_side o0) (r_price o0) q else o0) mk = sp_set_qty (r_id o) q mk).
    { unfold sp_set_qty. apply map_ext_in. intros x Hx.
      destruct (side_eqb (r_side x) s && (r_price x =? p)) eqn:E.
      - apply andb_true_iff in E as [E1 E3]. apply side_eqb_eq in E1. apply Z.eqb_eq in E3.
        assert (In x (at_price s p mk)) as Hi by (apply at_price_In; auto). rewrite Ea in Hi.
        destruct Hi as [<-|[]]. now rewrite Z.eqb_refl.
      - destruct (Z.eqb_spec (r_id x) (r_id o)) as [Ei|]; [|reflexivity].
        assert (x = o) as -> by (eapply nodup_id_inj; eauto). exfalso. rewrite Hos, Hop, side_eqb_refl, Z.eqb_refl in E. discriminate. }
    rewrite Hmap.
    unfold l2_apply_one. fold p q. rewrite Eg, HQ. unfold set_back, qids. cbn [map rev app].
    rewrite uadd_ok by lia. cbn [obind]. rewrite usub_ok by lia. cbn [obind].
    eexists. split; [reflexivity|].
    assert (Eh2 : half_reinit_best (Half (h_side h) (bt_insert p (Level (l_price l) [(r_id o, q)] q) (h_levels h)) (h_cache h)
                 (h_best h) (h_total h + q - r_qty o)) = h2).
    { rewrite <- (reinit_wf h2 (rh_wf _ _ _ Hr2)), <- E2'. unfold half_reinit_best. simpl. f_equal. lia. }
    split; [rewrite Eh2; exact Hr2|]. split; [now rewrite set_ids|].
    split; [|split; [|split; [lia|split]]].
    + intros s' p'. rewrite at_price_set. unfold sp_set_qty. rewrite map_length. apply Hone.
    + rewrite List.Forall_forall in *. unfold sp_set_qty. intros x Hx. apply in_map_iff in Hx as (y & <- & Hy).
      specialize (Hlt _ Hy). destruct (r_id y =? r_id o); simpl; lia.
    + rewrite <- (rel_total _ _ _ Hr2), <- E2'. simpl. lia.
    + intros s' h0 Hne Hr0. apply rel_set_other; [exact Hr0|]. intros y Hy Ey Hs.
      assert (y = o) as -> by (eapply nodup_id_inj; eauto). congruence.
Qed.

Definition rows_total (rows : list level_snapshot) : Z := fold_right (fun r a => sn_quantity r + a) 0 rows.

Lemma sim_l2_rows m s rows : forall h mk c,
  rel_half s (half_reinit_best h) mk -> NoDup (map r_id mk) -> one_per_level mk ->
  Forall (fun r => 0 < sn_quantity r /\ is_i64 (sn_price r)) rows ->
  side_qty s mk + rows_total rows < two64 ->
  Forall (fun o => r_id o < c) mk -> 0 <= c -> c + Z.of_nat (length rows) < two64 ->
  let '(mk', c') := fold_left (fun st r => sp_l2_row s r st) rows (mk, c) in
  exists h', l2_apply m h c rows = Ret (h', c', true) /\
    rel_half s (half_reinit_best h') mk' /\ NoDup (map r_id mk') /\ one_per_level mk' /\
    Forall (fun o => r_id o < c') mk' /\ c <= c' <= c + Z.of_nat (length rows) /\
    (forall s' h0, s' <> s -> rel_half s' h0 mk -> rel_half s' h0 mk').
Proof.
  induction rows as [|r rows IH]; intros h mk c Hr Hnd Hone Hrows Hb Hlt Hc0 Hc1.
  - simpl. exists h. repeat (split; [auto; lia|]). auto.
  - inversion Hrows as [|? ? [Hq Hp] Hrows']; subst. cbn [fold_left]. cbn [rows_total fold_right] in Hb.
    change (fold_right _ 0 rows) with (rows_total rows) in Hb.
    assert (Hnn : 0 <= rows_total rows).
    { clear - Hrows'. unfold rows_total. induction Hrows' as [|x t [Hx _] _ IHr]; simpl; lia. }
    pose proof (sim_l2_row m s h mk c r Hr Hnd Hone Hq Hp) as H.
    cbn [length] in Hc1. rewrite Nat2Z.inj_succ in Hc1.
    specialize (H ltac:(lia) Hlt Hc0 ltac:(lia)).
    destruct (sp_l2_row s r (mk, c)) as [mk1 c1]. destruct H as (h1 & E1 & Hr1 & Hnd1 & Hone1 & Hlt1 & Hcc & Hsq & Hoth).
    specialize (IH h1 mk1 c1 Hr1 Hnd1 Hone1 Hrows' ltac:(lia) Hlt1 ltac:(lia) ltac:(lia)).
    destruct (fold_left _ rows (mk1, c1)) as [mk2 c2]. destruct IH as (h2 & E2 & Hr2 & Hnd2 & Hone2 & Hlt2 & Hcc2 & Hoth2).
    exists h2. simpl. rewrite E1. cbn [obind]. split; [exact E2|]. repeat (split; [auto; lia|]). auto.
Qed.

Lemma keep_qty s ps mk s' : Forall (fun o => r_side o = s' -> 0 < r_qty o) mk ->
  side_qty s' (sp_keep_prices s ps mk) <= side_qty s' mk.
Proof.
  unfold side_qty, on_side, sp_keep_prices. induction 1 as [|o t Ho Ht IH]; simpl; [lia|].
  destruct (negb _ || _); simpl; destruct (side_eqb (r_side o) s') eqn:E; simpl; try lia.
  apply side_eqb_eq in E. specialize (Ho E). lia.
Qed.

Lemma sim_l2_half m s h mk c rows :
  rel_half s h mk -> NoDup (map r_id mk) -> one_per_level mk -> rows_ok s rows mk ->
  Forall (fun o => r_id o < c) mk -> 0 <= c -> c + Z.of_nat (length rows) < two64 ->
  let '(mk', c') := sp_l2_side s rows (mk, c) in
  exists h', half_update_l2 m h rows c = Ret (h', c', true) /\
    rel_half s h' mk' /\ NoDup (map r_id mk') /\ one_per_level mk' /\
    Forall (fun o => r_id o < c') mk' /\ c <= c' <= c + Z.of_nat (length rows) /\
    (forall s' h0, s' <> s -> rel_half s' h0 mk -> rel_half s' h0 mk').
Proof.
  intros Hr Hnd Hone (Hnp & Hrows & Hb) Hlt Hc0 Hc1. unfold sp_l2_side. cbn [fst snd].
  destruct (sim_keep m s h mk (rows_prices rows) Hr) as (h1 & E1 & Hr1).
  assert (Hr1' : rel_half s (half_reinit_best h1) (sp_keep_prices s (rows_prices rows) mk))
    by (rewrite reinit_wf; [exact Hr1|apply Hr1]).
  pose proof (sim_l2_rows m s rows h1 _ c Hr1') as H.
  assert (Hsq : side_qty s (sp_keep_prices s (rows_prices rows) mk) <= side_qty s mk).
  { apply keep_qty. apply List.Forall_forall. intros o Ho Hs. eapply (rel_pos s h mk); eauto. }
  fold (rows_total rows) in Hb.
  specialize (H ltac:(now apply nodup_filter)).
  assert (Hone1 : one_per_level (sp_keep_prices s (rows_prices rows) mk)).
  { intros s' p'. rewrite at_price_keep. destruct (_ || _); [apply Hone|simpl; lia]. }
  assert (Hlt1 : Forall (fun o => r_id o < c) (sp_keep_prices s (rows_prices rows) mk)).
  { rewrite List.Forall_forall in *. intros o Ho. apply filter_In in Ho. apply Hlt, Ho. }
  specialize (H Hone1 Hrows ltac:(lia) Hlt1 Hc0 Hc1).
  destruct (fold_left _ rows _) as [mk' c']. destruct H as (h' & E2 & Hr2 & Hnd2 & Hone2 & Hlt2 & Hcc & Hoth).
  exists (half_reinit_best h'). unfold half_update_l2. unfold rows_prices in E1. rewrite E1. cbn [obind]. rewrite E2. cbn [obind].
  split; [reflexivity|]. repeat (split; [auto|]). intros s' h0 Hne Hr0. apply Hoth; [exact Hne|].
  now apply rel_keep_other.
Qed.

Lemma rows_ok_other s h rows mk mk' : rel_half s h mk -> rel_half s h mk' -> rows_ok s rows mk -> rows_ok s rows mk'.
Proof.
  intros H1 H2 (A & B & C). split; [exact A|]. split; [exact B|].
  rewrite <- (rel_total _ _ _ H2), (rel_total _ _ _ H1). exact C.
Qed.

Lemma sim_snapshot m b mk asks bids :
  rel b mk -> one_per_level mk -> rows_ok Ask asks mk -> rows_ok Bid bids mk ->
  counter_ok (b_counter b) (length asks + length bids) mk ->
  exists b', let '(mk', c') := sp_l2 asks bids (mk, b_counter b) in
    book_update_from_snapshot m b (b_id b) asks bids = Ret (b', true) /\
    rel b' mk' /\ b_id b' = b_id b /\ b_counter b' = c' /\ b_counter b <= c' /\
    one_per_level mk' /\ Forall (fun o => r_id o < c') mk'.
Proof.
  intros Hr Hone Ha Hb (Hlt & Hc0 & Hc1). unfold sp_l2.
  pose proof (sim_l2_half m Ask (b_asks b) mk (b_counter b) asks (rel_asks _ _ Hr) (rel_nodup _ _ Hr) Hone Ha Hlt Hc0 ltac:(lia)) as H.
  destruct (sp_l2_side Ask asks (mk, b_counter b)) as [mk1 c1].
  destruct H as (h1 & E1 & Hr1 & Hnd1 & Hone1 & Hlt1 & Hcc1 & Hoth1).
  assert (Hrb : rel_half Bid (b_bids b) mk1) by (apply Hoth1; [discriminate|apply Hr]).
  assert (Hb1 : rows_ok Bid bids mk1) by (eapply rows_ok_other; [apply Hr|exact Hrb|exact Hb]).
  pose proof (sim_l2_half m Bid (b_bids b) mk1 c1 bids Hrb Hnd1 Hone1 Hb1 Hlt1 ltac:(lia) ltac:(lia)) as H.
  destruct (sp_l2_side Bid bids (mk1, c1)) as [mk2 c2].
  destruct H as (h2 & E2 & Hr2 & Hnd2 & Hone2 & Hlt2 & Hcc2 & Hoth2).
  unfold book_update_from_snapshot. rewrite Z.eqb_refl. cbn [negb]. rewrite E1. cbn [obind]. rewrite E2. cbn [obind].
  eexists. split; [reflexivity|]. simpl. split; [|repeat (split; [auto; lia|]); auto].
  constructor; simpl; [|exact Hr2|exact Hnd2]. apply Hoth2; [discriminate|exact Hr1].
Qed.
