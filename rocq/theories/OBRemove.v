(** OBRemove.v -- removal of an arbitrary quantity at one price. *)
From Coq Require Import ZArith List Lia Sorted Bool.
From stdpp Require Import base gmap.
From Verif Require Import Base OBTypes OBModel OBBase OBInv.
Import ListNotations.
Open Scope Z_scope.

(** Take [r] from the front of a queue: what is left / which ids are used up. *)
Fixpoint eat (r : Z) (q : list (Z * Z)) : list (Z * Z) :=
  match q with
  | [] => []
  | (id, x) :: t => if r <=? 0 then q else if r <? x then (id, x - r) :: t else eat (r - x) t
  end.
Fixpoint eaten (r : Z) (q : list (Z * Z)) : list Z :=
  match q with
  | [] => []
  | (id, x) :: t => if r <=? 0 then [] else if r <? x then [] else id :: eaten (r - x) t
  end.

Lemma eat_le0 r q : r <= 0 -> eat r q = q.
Proof. intros H. destruct q as [|[i x] t]; simpl; [reflexivity|]. destruct (Z.leb_spec r 0); [reflexivity|lia]. Qed.
Lemma eaten_le0 r q : r <= 0 -> eaten r q = [].
Proof. intros H. destruct q as [|[i x] t]; simpl; [reflexivity|]. destruct (Z.leb_spec r 0); [reflexivity|lia]. Qed.

Lemma eat_sum r q : posq q -> 0 <= r -> sumq (eat r q) = Z.max 0 (sumq q - r).
Proof.
  intros Hp. revert r. induction Hp as [|[i x] t Hx Ht IH]; intros r Hr; simpl in *.
  - unfold sumq. simpl. lia.
  - pose proof (sumq_pos t Ht). unfold sumq in *. simpl.
    destruct (Z.leb_spec r 0); simpl; [lia|]. destruct (Z.ltb_spec r x); simpl; [lia|].
    rewrite IH by lia. lia.
Qed.

Lemma eat_pos r q : posq q -> posq (eat r q).
Proof.
  intros Hp. revert r. induction Hp as [|[i x] t Hx Ht IH]; intros r; simpl in *; [constructor|].
  destruct (r <=? 0); [now constructor|]. destruct (Z.ltb_spec r x); [|apply IH].
  constructor; simpl; [lia|exact Ht].
Qed.

Lemma eat_ids r q : map fst q = eaten r q ++ map fst (eat r q).
Proof.
  revert r. induction q as [|[i x] t IH]; intros r; simpl; [reflexivity|].
  destruct (r <=? 0); [reflexivity|]. destruct (r <? x); [reflexivity|]. simpl. now rewrite <- IH.
Qed.

Lemma remove_loop_spec m : forall q fuel lt ht c r,
  posq q -> 0 <= r -> sumq q <= lt -> lt <= ht -> (length q < fuel)%nat ->
  remove_loop m fuel q lt ht c r =
  Ret (eat r q, lt - Z.min r (sumq q), ht - Z.min r (sumq q),
       fold_left (fun c i => delete i c) (eaten r q) c, Z.max 0 (r - sumq q)).
Proof.
  induction q as [|[i x] t IH]; intros fuel lt ht c r Hp Hr Hlt Hht Hf; simpl in Hf.
  - destruct fuel as [|fuel]; [lia|]. simpl. unfold sumq. simpl.
    destruct (Z.ltb_spec 0 r).
    + do 2 f_equal; [do 2 f_equal; [f_equal; lia|lia]|lia].
    + do 2 f_equal; [do 2 f_equal; [f_equal; lia|lia]|lia].
  - destruct fuel as [|fuel]; [lia|]. apply Forall_cons in Hp as [Hx Hp]. simpl in Hx.
    pose proof (sumq_pos t Hp) as Hs.
    assert (Hsum : sumq ((i, x) :: t) = x + sumq t) by reflexivity. rewrite Hsum in *.
    cbn [remove_loop eat eaten].
    destruct (Z.ltb_spec 0 r).
    + destruct (Z.leb_spec r 0); [lia|]. destruct (Z.leb_spec x r).
      * destruct (Z.ltb_spec r x); [lia|].
        rewrite !usub_ok by lia. cbn [obind]. destruct (Z.ltb_spec 0 x); [|lia].
        rewrite IH by (auto; lia). simpl.
        do 2 f_equal; [do 2 f_equal; [f_equal; lia|lia]|lia].
      * destruct (Z.ltb_spec r x); [|lia].
        rewrite !usub_ok by lia. cbn [obind]. destruct fuel; simpl;
        (do 2 f_equal; [do 2 f_equal; [f_equal; lia|lia]|lia]).
    + destruct (Z.leb_spec r 0); [|lia]. simpl.
      do 2 f_equal; [do 2 f_equal; [f_equal; lia|lia]|lia].
Qed.

Lemma fold_delete_lookup (ids : list Z) (c : gmap Z Z) i :
  fold_left (fun c i => delete i c) ids c !! i = if in_dec Z.eq_dec i ids then None else c !! i.
Proof.
  revert c. induction ids as [|x t IH]; intros c; cbn [fold_left]; [reflexivity|]. rewrite IH.
  destruct (in_dec Z.eq_dec i t) as [H1|H1]; destruct (in_dec Z.eq_dec i (x :: t)) as [H2|H2];
    try reflexivity.
  - exfalso. apply H2. now right.
  - destruct H2 as [->|H2]; [apply lookup_delete|tauto].
  - apply lookup_delete_ne. intros ->. apply H2. now left.
Qed.

Lemma fold_delete_Some (ids : list Z) (c : gmap Z Z) i p :
  fold_left (fun c i => delete i c) ids c !! i = Some p <-> ~ In i ids /\ c !! i = Some p.
Proof.
  rewrite fold_delete_lookup. destruct (in_dec Z.eq_dec i ids); split; try tauto; try discriminate.
Qed.

Lemma half_remove_order_ok m h o :
  half_wf h -> ra_side o = h_side h -> 0 <= ra_quantity o ->
  exists h', half_remove_order m h o =
      Ret (h', Some (Z.max 0 (ra_quantity o - sumq (queue (h_levels h) (ra_price o))))) /\
    half_wf h' /\ h_side h' = h_side h /\
    h_total h' = h_total h - Z.min (ra_quantity o) (sumq (queue (h_levels h) (ra_price o))) /\
    (forall i p, h_cache h' !! i = Some p -> h_cache h !! i = Some p) /\
    forall p, queue (h_levels h') p =
      if p =? ra_price o then rev (eat (ra_quantity o) (rev (queue (h_levels h) p)))
      else queue (h_levels h) p.
Proof.
  intros Hw Hs Hr. unfold half_remove_order. rewrite Hs.
  destruct (negb (side_eqb (h_side h) (h_side h))) eqn:E; [destruct (h_side h); discriminate|clear E].
  set (r := ra_quantity o) in *. set (p0 := ra_price o) in *.
  destruct (bt_get p0 (h_levels h)) as [l|] eqn:Hg.
  2:{ assert (HQ : queue (h_levels h) p0 = []) by (unfold queue; now rewrite Hg).
      exists h. rewrite HQ. unfold sumq. simpl. split; [repeat f_equal; lia|].
      split; [exact Hw|]. split; [reflexivity|]. split; [lia|]. split; [auto|].
      intros p. destruct (Z.eqb_spec p p0); [subst; now rewrite HQ|reflexivity]. }
  assert (HQp : queue (h_levels h) p0 = l_orders l) by (unfold queue; now rewrite Hg).
  pose proof (wf_get h _ _ Hw Hg) as Hl. pose proof (wf_level_le h _ _ Hw Hg) as Hle.
  assert (Hpr : posq (rev (l_orders l))).
  { unfold posq. apply List.Forall_forall. intros x Hx. apply in_rev in Hx.
    pose proof (lw_pos _ _ Hl) as P. unfold posq in P. rewrite List.Forall_forall in P. auto. }
  rewrite remove_loop_spec; auto; try lia.
  2:{ rewrite sumq_rev, (lw_total _ _ Hl). lia. }
  2:{ rewrite rev_length. lia. }
  cbn [obind]. rewrite sumq_rev, HQp.
  set (q' := eat r (rev (l_orders l))).
  set (cache' := fold_left _ _ _).
  assert (Hq'pos : posq q') by now apply eat_pos.
  assert (Hsum' : sumq q' = Z.max 0 (sumq (l_orders l) - r)).
  { unfold q'. rewrite eat_sum by auto. now rewrite sumq_rev. }
  pose proof (lw_total _ _ Hl) as Hlt. pose proof (sumq_pos _ (lw_pos _ _ Hl)) as Hsp.
  assert (Hids : forall i, In i (map fst (l_orders l)) <->
      In i (eaten r (rev (l_orders l))) \/ In i (map fst q')).
  { intros i. pose proof (eat_ids r (rev (l_orders l))) as E.
    rewrite map_rev in E. rewrite (in_rev (map fst (l_orders l))), E. apply in_app_iff. }
  assert (Hnd : NoDup (eaten r (rev (l_orders l)) ++ map fst q')).
  { unfold q'. rewrite <- eat_ids, map_rev. apply NoDup_ListNoDup. apply NoDup_rev.
    apply NoDup_ListNoDup, Hl. }
  apply NoDup_app in Hnd as (Hnd1 & Hdis & Hnd2).
  assert (Hcmono : forall i p, cache' !! i = Some p -> h_cache h !! i = Some p).
  { unfold cache'. intros i p H. apply fold_delete_Some in H. tauto. }
  assert (Hcache : forall levels', (forall p, queue levels' p = if p =? p0 then rev q' else queue (h_levels h) p) ->
     cache_ok cache' levels').
  { intros levels' HQ i p. rewrite HQ. unfold cache'. rewrite fold_delete_Some, (hw_cache h Hw i p).
    destruct (Z.eqb_spec p p0) as [->|Hne].
    - rewrite HQp, Hids, map_rev, <- in_rev. split; [tauto|].
      intros Hi. split; [|auto]. intros He. apply (Hdis i); now apply elem_of_list_In.
    - split; [tauto|]. intros Hi. split; [|auto]. intros He.
      assert (In i (map fst (queue (h_levels h) p0))) by (rewrite HQp; apply Hids; auto).
      apply (hw_cache h Hw) in Hi. apply (hw_cache h Hw) in H. congruence. }
  eexists. split; [reflexivity|].
  assert (Hmatch : forall p, (if p =? p0 then rev (eat r (rev (queue (h_levels h) p))) else queue (h_levels h) p)
                         = if p =? p0 then rev q' else queue (h_levels h) p).
  { intros p. destruct (Z.eqb_spec p p0); [subst; now rewrite HQp|reflexivity]. }
  unfold level_is_empty. cbn [l_orders].
  destruct (rev q') as [|y ys] eqn:Erev.
  - assert (Hnil : q' = []).
    { apply (f_equal (@rev _)) in Erev. rewrite rev_involutive in Erev. exact Erev. }
    assert (Hz : sumq (l_orders l) <= r).
    { rewrite Hnil in Hsum'. unfold sumq at 1 in Hsum'. simpl in Hsum'. lia. }
    cbn [h_levels]. rewrite remove_insert by (rewrite ?Hg; auto; apply Hw).
    assert (HQ : forall p, queue (bt_remove p0 (h_levels h)) p = if p =? p0 then rev q' else queue (h_levels h) p).
    { intros p. rewrite queue_remove by apply Hw. now rewrite Hnil. }
    simpl. split; [|split; [reflexivity|split; [reflexivity|split; [exact Hcmono|]]]].
    2:{ intros p. rewrite Hmatch, HQ. now rewrite Erev. }
    constructor; simpl.
    + apply sorted_remove, Hw.
    + apply Forall_remove, Hw.
    + unfold sumt. rewrite sumv_remove by apply Hw. unfold wget. rewrite Hg.
      pose proof (hw_total h Hw). unfold sumt in *. lia.
    + pose proof (hw_bound h Hw). lia.
    + reflexivity.
    + apply Hcache. intros p. now rewrite HQ, Erev.
  - set (nl := Level _ _ _).
    assert (HQ : forall p, queue (bt_insert p0 nl (h_levels h)) p = if p =? p0 then rev q' else queue (h_levels h) p).
    { intros p. rewrite queue_insert. unfold nl. cbn [l_orders]. rewrite Erev. reflexivity. }
    simpl. split; [|split; [reflexivity|split; [reflexivity|split; [exact Hcmono|]]]].
    2:{ intros p. rewrite Hmatch, HQ. now rewrite Erev. }
    constructor; simpl.
    + apply sorted_insert, Hw.
    + apply Forall_insert; [|apply Hw]. unfold nl. destruct Hl. constructor; simpl; auto.
      * rewrite <- Erev. unfold posq. apply List.Forall_forall. intros x Hx. apply in_rev in Hx.
        unfold posq in Hq'pos. rewrite List.Forall_forall in Hq'pos. auto.
      * change (NoDup (map fst (y :: ys))). rewrite <- Erev, map_rev. apply NoDup_ListNoDup, NoDup_rev, NoDup_ListNoDup, Hnd2.
      * change (l_total l - Z.min r (sumq (l_orders l)) = sumq (y :: ys)). rewrite <- Erev, sumq_rev, Hsum'. lia.
    + unfold sumt. rewrite sumv_insert by apply Hw. unfold wget. rewrite Hg. unfold nl. simpl.
      pose proof (hw_total h Hw). unfold sumt in *. lia.
    + pose proof (hw_bound h Hw). lia.
    + rewrite best_of_insert_same with (l0 := l) by (auto; apply Hw). apply Hw.
    + apply Hcache. intros p. now rewrite HQ, Erev.
Qed.

(** The loop never stops on a zero-quantity order: whatever the fuel. *)
Lemma remove_loop_spins m id rest : forall fuel lt ht c r,
  0 < r -> 0 <= lt -> 0 <= ht ->
  remove_loop m fuel ((id, 0) :: rest) lt ht c r = Diverge.
Proof.
  induction fuel as [|fuel IH]; intros lt ht c r Hr Hlt Hht; simpl.
  - destruct (Z.ltb_spec 0 r); [reflexivity|lia].
  - destruct (Z.ltb_spec 0 r); [|lia]. destruct (Z.leb_spec 0 r); [|lia].
    rewrite !usub_ok by lia. cbn [obind]. rewrite !Z.sub_0_r. apply IH; lia.
Qed.
