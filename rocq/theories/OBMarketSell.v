(** OBMarketSell.v -- market orders against the bids (half_book.rs 627-652),
    where line 641 subtracts the traded quantity from the level a second time. *)
From Coq Require Import ZArith List Lia Sorted Bool Permutation.
From stdpp Require Import base gmap.
From Verif Require Import Base OBTypes OBModel OBSpec OBBase OBInv OBRemove OBTrade OBRel OBSim OBSnap OBDec OBStep.
Import ListNotations.
Open Scope Z_scope.

(** Quantity a report executes at one price. *)
Definition traded_at (p : Z) (h : trade_history) : Z :=
  fold_right (fun x a => (if fst x =? p then snd x else 0) + a) 0 h.

Lemma traded_at_notin p h : ~ In p (map fst h) -> traded_at p h = 0.
Proof.
  induction h as [|[k q] t IH]; simpl; intros Hn; [reflexivity|].
  destruct (Z.eqb_spec k p); [exfalso; apply Hn; now left|]. rewrite IH; tauto.
Qed.

Fixpoint bsweep (r : Z) (pls : list (Z * level)) : list (Z * level) :=
  match pls with
  | [] => []
  | (p, l) :: t =>
      if r <=? 0 then pls
      else (p, Level (l_price l) (eat r (l_orders l)) ((l_total l - 2 * Z.min r (l_total l)) mod two64))
           :: bsweep (r - Z.min r (l_total l)) t
  end.

Lemma bsweep_0 r pls : r <= 0 -> bsweep r pls = pls.
Proof. destruct pls as [|[p l] t]; simpl; [reflexivity|]. intros H. destruct (Z.leb_spec r 0); [reflexivity|lia]. Qed.

Lemma usub_wrap a b : is_u64 a -> is_u64 b -> usub Wrapping a b = Ret ((a - b) mod two64).
Proof.
  unfold is_u64, usub. intros Ha Hb. destruct (Z.leb_spec b a).
  - rewrite Z.mod_small by lia. reflexivity.
  - f_equal. replace (a - b) with ((a - b + two64) + (-1) * two64) by lia.
    rewrite Z_mod_plus_full, Z.mod_small by lia. lia.
Qed.

Lemma bid_market_loop_wrap : forall pls hist rmp rmi ht r,
  lwf pls -> 0 <= r -> sumt pls <= ht < two64 ->
  bid_market_loop Wrapping pls hist rmp rmi ht r =
  let ok := any_price in
  Ret (bsweep r pls, hist ++ sweep_hist ok r pls, rmp ++ sweep_rmp ok r pls,
       rmi ++ sweep_ids ok r pls, ht - (r - sweep_left ok r pls), sweep_left ok r pls).
Proof.
  induction pls as [|[p l] t IH]; intros hist rmp rmi ht r Hw Hr Hht; cbn zeta in *.
  - simpl. rewrite !app_nil_r. tup.
  - apply Forall_cons in Hw as [H1 H2]. cbn [fst snd] in H1. pose proof (lwf_pos _ _ H1) as Hpos.
    assert (Hs : sumt ((p, l) :: t) = l_total l + sumt t) by reflexivity. pose proof (lwf_sum t H2).
    cbn [bid_market_loop bsweep sweep_hist sweep_rmp sweep_ids sweep_left].
    unfold any_price at 1 3 5 7 9. cbn [negb orb].
    rewrite (level_trade_spec Wrapping l p r H1 Hr). cbn [obind]. unfold usat_sub.
    destruct (Z.leb_spec r 0) as [Hr0|Hr0].
    + assert (r = 0) as -> by lia. rewrite Z.min_l by lia. simpl.
      destruct (Z.eqb_spec (l_total l - 0) 0); [lia|]. rewrite eat_le0, eaten_le0 by lia.
      rewrite !app_nil_r, !Z.sub_0_r. destruct l; reflexivity.
    + destruct (Z.ltb_spec 0 (Z.max 0 (r - (r - Z.min r (l_total l))))); [|lia].
      rewrite usub_ok by lia. cbn [obind l_total l_price l_orders].
      replace (Z.max 0 (r - (r - Z.min r (l_total l)))) with (Z.min r (l_total l)) by lia.
      rewrite usub_wrap by (unfold is_u64; lia). cbn [obind].
      replace (l_total l - Z.min r (l_total l) - Z.min r (l_total l)) with (l_total l - 2 * Z.min r (l_total l)) by lia.
      replace (if l_total l - Z.min r (l_total l) =? 0 then rmp ++ [p] else rmp)
        with (rmp ++ (if l_total l <=? r then [p] else [])).
      2:{ destruct (Z.eqb_spec (l_total l - Z.min r (l_total l)) 0), (Z.leb_spec (l_total l) r);
            try lia; now rewrite ?app_nil_r. }
      destruct (Z.eqb_spec (r - Z.min r (l_total l)) 0) as [E0|E0].
      * rewrite E0. rewrite bsweep_0, sweep_hist_0, sweep_rmp_0, sweep_ids_0, sweep_left_0 by lia.
        rewrite !app_nil_r. tup.
      * rewrite IH by (auto; lia). cbn [obind]. rewrite <- !app_assoc. tup.
Qed.

(** Everything of a level except its quantity field. *)
Definition strip (pl : Z * level) : Z * Z * list (Z * Z) := (fst pl, l_price (snd pl), l_orders (snd pl)).

Lemma bsweep_strip pls : forall r, map strip (bsweep r pls) = map strip (sweep any_price r pls).
Proof.
  induction pls as [|[p l] t IH]; intros r; simpl; [reflexivity|].
  destruct (r <=? 0); simpl; [reflexivity|]. now rewrite IH.
Qed.

Lemma bsweep_total pls : forall r, lwf pls -> NoDup (keys pls) -> 0 <= r ->
  Forall (fun pl => l_total (snd pl) < two64) pls ->
  forall p l, In (p, l) (bsweep r pls) ->
  l_total l = (sumq (l_orders l) - traded_at p (sweep_hist any_price r pls)) mod two64.
Proof.
  induction pls as [|[k x] t IH]; intros r Hw Hnd Hr Hb p l Hin; simpl in Hin; [tauto|].
  apply Forall_cons in Hw as [H1 H2]. simpl in H1. apply Forall_cons in Hb as [Hb1 Hb2]. simpl in Hb1.
  unfold keys in Hnd. simpl in Hnd. apply NoDup_cons in Hnd as [Hn Hnd]. rewrite elem_of_list_In in Hn.
  pose proof (lwf_pos _ _ H1) as Hpos.
  assert (Hall : forall q y, level_wf q y -> l_total y < two64 -> l_total y = (sumq (l_orders y) - 0) mod two64).
  { intros q y Hy Hyb. rewrite (lw_total _ _ Hy) in *. pose proof (sumq_pos _ (lw_pos _ _ Hy)). rewrite Z.mod_small; lia. }
  assert (Hk : forall q y, In q (map fst (sweep_hist any_price y t)) -> In q (keys t)).
  { clear. intros q. induction t as [|[k x] u IHu]; intros y; simpl; [tauto|].
    destruct (y <=? 0); simpl; [tauto|]. intros [->|Hi]; [now left|right; eauto]. }
  destruct (Z.leb_spec r 0) as [Hr0|Hr0].
  - cbn [sweep_hist]. rewrite (proj2 (Z.leb_le r 0) Hr0). rewrite orb_true_r. simpl. destruct Hin as [E|Hin].
    + injection E as <- <-. eapply Hall; eauto.
    + rewrite List.Forall_forall in H2, Hb2. specialize (H2 _ Hin). specialize (Hb2 _ Hin). simpl in *. eapply Hall; eauto.
  - cbn [sweep_hist]. rewrite (proj2 (Z.leb_gt r 0) Hr0). cbn [any_price negb orb traded_at fold_right fst snd].
    fold (traded_at p (sweep_hist any_price (r - Z.min r (l_total x)) t)).
    destruct Hin as [E|Hin].
    + injection E as <- <-. cbn [l_total l_orders]. rewrite Z.eqb_refl.
      rewrite traded_at_notin by (intros Hi; apply Hn; eapply Hk; eauto).
      rewrite eat_sum by (try apply (lw_pos _ _ H1); lia). rewrite <- (lw_total _ _ H1). f_equal. lia.
    + assert (Hkp : In p (keys t)).
      { assert (E : keys (bsweep (r - Z.min r (l_total x)) t) = keys t).
        { transitivity (map (fun y => fst (fst y)) (map strip (bsweep (r - Z.min r (l_total x)) t))).
          - unfold keys. rewrite map_map. apply map_ext. reflexivity.
          - rewrite bsweep_strip, map_map. transitivity (keys (sweep any_price (r - Z.min r (l_total x)) t)); [|apply keys_sweep].
            unfold keys. apply map_ext. reflexivity. }
        rewrite <- E. unfold keys. apply in_map_iff. exists (p, l). auto. }
      destruct (Z.eqb_spec k p) as [->|Hne]; [tauto|]. simpl Z.add.
      apply IH; auto; lia.
Qed.

(** Everything of a half book except the levels' quantity fields. *)
Definition shape (h : half) := (h_side h, map strip (h_levels h), h_cache h, h_best h, h_total h).

Lemma strip_remove p a b : map strip a = map strip b -> map strip (bt_remove p a) = map strip (bt_remove p b).
Proof.
  revert b. induction a as [|[k x] t IH]; intros [|[k' x'] t'] E; simpl in *; try discriminate; [reflexivity|].
  injection E as -> Ep Eo Et. destruct (p =? k'); [exact Et|]. simpl. unfold strip at 1 3. simpl. now rewrite Ep, Eo, (IH _ Et).
Qed.
Lemma strip_remove_all ps : forall a b, map strip a = map strip b ->
  map strip (fold_left (fun ls p => bt_remove p ls) ps a) = map strip (fold_left (fun ls p => bt_remove p ls) ps b).
Proof. induction ps as [|p ps IH]; intros a b E; cbn [fold_left]; [exact E|]. apply IH. now apply strip_remove. Qed.
Lemma first_key_strip (a b : list (Z * level)) : map strip a = map strip b -> bt_first_key a = bt_first_key b.
Proof. destruct a as [|[k x] t], b as [|[k' x'] t']; simpl; intros E; try discriminate; [reflexivity|]. now injection E as -> _ _ _. Qed.
Lemma best_of_strip s a b : map strip a = map strip b -> best_of s a = best_of s b.
Proof.
  intros E. unfold best_of, bt_last_key. destruct s.
  - now rewrite (first_key_strip _ _ E).
  - rewrite (first_key_strip (rev a) (rev b)); [reflexivity|]. now rewrite !map_rev, E.
Qed.
Lemma cleanup_shape a b rmp rmi : shape a = shape b -> shape (half_cleanup a rmp rmi) = shape (half_cleanup b rmp rmi).
Proof.
  unfold shape, half_cleanup, half_reinit_best. cbn [h_side h_levels h_cache h_best h_total]. intros E.
  injection E as E1 E2 E3 E4 E5. rewrite E1, E3, E5.
  rewrite (strip_remove_all rmp _ _ E2). now rewrite (best_of_strip (h_side b) _ _ (strip_remove_all rmp _ _ E2)).
Qed.
Lemma bt_remove_In {V} p (m : list (Z * V)) x : In x (bt_remove p m) -> In x m.
Proof. induction m as [|[k v] t IH]; simpl; [tauto|]. destruct (p =? k); simpl; [auto|]. intros [H|H]; auto. Qed.
Lemma fold_remove_In ps : forall (m : list (Z * level)) x, In x (fold_left (fun ls p => bt_remove p ls) ps m) -> In x m.
Proof. induction ps as [|p ps IH]; intros m x; cbn [fold_left]; [tauto|]. intros H. eapply bt_remove_In, IH, H. Qed.

Lemma half_sell_wrap h o :
  half_wf h -> h_side h = Bid -> mo_side o = Ask -> 0 <= mo_quantity o ->
  half_is_empty h = false ->
  exists h', half_trade_market Wrapping h o =
      Ret (h', Some (sweep_hist any_price (mo_quantity o) (plevels h),
                     sweep_left any_price (mo_quantity o) (plevels h))) /\
    shape h' = shape (swept any_price (mo_quantity o) h) /\
    forall p l, In (p, l) (h_levels h') ->
      l_total l = (sumq (l_orders l) - traded_at p (sweep_hist any_price (mo_quantity o) (plevels h))) mod two64.
Proof.
  intros Hw Hs Ho Hq He. unfold half_trade_market. rewrite Ho, Hs, He. cbn [side_eqb orb].
  pose proof (plevels_lwf h Hw) as Hlw. pose proof (plevels_sum h) as Hsum. pose proof (hw_total h Hw) as Ht.
  pose proof (plevels_nodup h Hw) as Hnd. pose proof (hw_bound h Hw) as Hb.
  assert (Hbound : Forall (fun pl : Z * level => l_total (snd pl) < two64) (plevels h)).
  { apply List.Forall_forall. intros [p l] Hin. apply plevels_In in Hin. apply bt_In_get in Hin; [|apply Hw].
    simpl. pose proof (wf_level_le h p l Hw Hin). lia. }
  unfold swept. unfold plevels in *. rewrite Hs in *.
  rewrite bid_market_loop_wrap by (auto; lia). cbn zeta. cbn [obind app].
  eexists. split; [reflexivity|]. split.
  - apply cleanup_shape. unfold shape. cbn [h_side h_levels h_cache h_best h_total].
    now rewrite !map_rev, bsweep_strip.
  - unfold half_cleanup, half_reinit_best. cbn [h_levels]. intros p l Hin. apply fold_remove_In, in_rev in Hin.
    eapply bsweep_total; eauto.
Qed.

(** Overflow-checked build: the call survives only if twice the quantity fits
    into the best level. *)
Lemma half_sell_checked h o p l rest :
  half_wf h -> h_side h = Bid -> mo_side o = Ask -> 0 < mo_quantity o ->
  plevels h = (p, l) :: rest ->
  half_trade_market Checked h o =
  if l_total l <? 2 * mo_quantity o then Panic
  else Ret (half_cleanup (Half Bid (rev ((p, Level (l_price l) (eat (mo_quantity o) (l_orders l)) (l_total l - 2 * mo_quantity o)) :: rest))
                               (h_cache h) (h_best h) (h_total h - mo_quantity o)) [] (eaten (mo_quantity o) (l_orders l)),
            Some ([(p, mo_quantity o)], 0)).
Proof.
  intros Hw Hs Ho Hq Hp. unfold half_trade_market. rewrite Ho, Hs.
  assert (half_is_empty h = false) as ->.
  { unfold half_is_empty. destruct (h_levels h) eqn:E; [|reflexivity]. unfold plevels in Hp. rewrite Hs, E in Hp. discriminate. }
  cbn [side_eqb orb]. pose proof (plevels_lwf h Hw) as Hlw. rewrite Hp in Hlw.
  assert (El : rev (h_levels h) = (p, l) :: rest) by (unfold plevels in Hp; now rewrite Hs in Hp). rewrite El.
  apply Forall_cons in Hlw as [H1 H2]. cbn [fst snd] in H1. pose proof (lwf_pos _ _ H1) as Hpos.
  assert (Hle : l_total l <= h_total h).
  { assert (Hin : In (p, l) (plevels h)) by (rewrite Hp; now left). apply plevels_In in Hin.
    apply bt_In_get in Hin; [|apply Hw]. pose proof (wf_level_le h p l Hw Hin). lia. }
  cbn [bid_market_loop]. rewrite (level_trade_spec Checked l p _ H1) by lia. cbn [obind]. unfold usat_sub.
  destruct (Z.ltb_spec 0 (Z.max 0 (mo_quantity o - (mo_quantity o - Z.min (mo_quantity o) (l_total l))))); [|lia].
  rewrite usub_ok by lia. cbn [obind l_total l_price l_orders]. unfold usub.
  destruct (Z.ltb_spec (l_total l) (2 * mo_quantity o)).
  - destruct (Z.leb_spec (Z.max 0 (mo_quantity o - (mo_quantity o - Z.min (mo_quantity o) (l_total l))))
                (l_total l - Z.min (mo_quantity o) (l_total l))); [lia|reflexivity].
  - rewrite !Z.min_l by lia.
    destruct (Z.leb_spec (Z.max 0 (mo_quantity o - (mo_quantity o - mo_quantity o))) (l_total l - mo_quantity o)); [|lia].
    cbn [obind]. destruct (Z.eqb_spec (l_total l - mo_quantity o) 0); [lia|].
    destruct (Z.eqb_spec (mo_quantity o - mo_quantity o) 0); [|lia]. cbn [obind app].
    replace (Z.max 0 (mo_quantity o - (mo_quantity o - mo_quantity o))) with (mo_quantity o) by lia.
    replace (l_total l - mo_quantity o - mo_quantity o) with (l_total l - 2 * mo_quantity o) by lia.
    replace (mo_quantity o - mo_quantity o) with 0 by lia. reflexivity.
Qed.
