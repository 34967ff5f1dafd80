(** OBRel.v -- relation between the implementation's half-books and the flat
    market of OBSpec.v, and the facts that make matching agree. *)
From Coq Require Import ZArith List Lia Sorted Bool Permutation.
From stdpp Require Import base gmap.
From Verif Require Import Base OBTypes OBModel OBSpec OBBase OBInv OBRemove OBTrade.
Import ListNotations.
Open Scope Z_scope.

Definition qids (mk : market) : list (Z * Z) := map (fun o => (r_id o, r_qty o)) mk.

Record rel_half (s : side) (h : half) (mk : market) : Prop := {
  rh_wf : half_wf h;
  rh_side : h_side h = s;
  rh_queue : forall p, queue (h_levels h) p = qids (at_price s p mk) }.

Record rel (b : book) (mk : market) : Prop := {
  rel_asks : rel_half Ask (b_asks b) mk;
  rel_bids : rel_half Bid (b_bids b) mk;
  rel_nodup : NoDup (map r_id mk) }.

Lemma side_eqb_eq a b : side_eqb a b = true <-> a = b.
Proof. destruct a, b; simpl; split; congruence. Qed.
Lemma side_eqb_refl a : side_eqb a a = true.
Proof. now destruct a. Qed.

Lemma at_price_In s p mk o : In o (at_price s p mk) <-> In o mk /\ r_side o = s /\ r_price o = p.
Proof.
  unfold at_price. rewrite filter_In, andb_true_iff, side_eqb_eq, Z.eqb_eq. tauto.
Qed.
Lemma on_side_In s mk o : In o (on_side s mk) <-> In o mk /\ r_side o = s.
Proof. unfold on_side. rewrite filter_In, side_eqb_eq. tauto. Qed.

Lemma qids_ids mk : map fst (qids mk) = map r_id mk.
Proof. unfold qids. rewrite map_map. reflexivity. Qed.
Lemma qids_sum mk : sumq (qids mk) = total_qty mk.
Proof. unfold qids, sumq, total_qty. induction mk as [|o t IH]; simpl; [reflexivity|]. now rewrite IH. Qed.

(** ** ids *)
Lemma nodup_id_inj mk a b : NoDup (map r_id mk) -> In a mk -> In b mk -> r_id a = r_id b -> a = b.
Proof.
  induction mk as [|o t IH]; simpl; [tauto|]. intros Hnd. apply NoDup_cons in Hnd as [Hni Hnd].
  rewrite elem_of_list_In in Hni. intros [->|Ha] [->|Hb] E; auto.
  - exfalso. apply Hni. rewrite E. now apply in_map.
  - exfalso. apply Hni. rewrite <- E. now apply in_map.
Qed.

Lemma lookup_spec id mk : match lookup id mk with
  | Some o => In o mk /\ r_id o = id
  | None => ~ In id (map r_id mk)
  end.
Proof.
  unfold lookup. induction mk as [|o t IH]; simpl; [tauto|].
  destruct (Z.eqb_spec (r_id o) id); [auto|]. destruct (find _ t); [tauto|]. tauto.
Qed.
Lemma lookup_Some id mk o : NoDup (map r_id mk) -> lookup id mk = Some o <-> In o mk /\ r_id o = id.
Proof.
  intros Hnd. pose proof (lookup_spec id mk) as H. destruct (lookup id mk) as [o'|].
  - split; [intros E; injection E as <-; exact H|]. intros [Hi E]. f_equal.
    eapply nodup_id_inj; eauto; try apply H. now rewrite E.
  - split; [discriminate|]. intros [Hi <-]. exfalso. apply H. now apply in_map.
Qed.
Lemma lookup_None id mk : lookup id mk = None <-> ~ In id (map r_id mk).
Proof.
  pose proof (lookup_spec id mk) as H. destruct (lookup id mk) as [o'|]; [|tauto].
  split; [discriminate|]. intros Hn. exfalso. apply Hn. destruct H as [H <-]. now apply in_map.
Qed.

Lemma rel_cache s h mk id p : rel_half s h mk ->
  h_cache h !! id = Some p <-> exists o, In o mk /\ r_id o = id /\ r_side o = s /\ r_price o = p.
Proof.
  intros [Hw Hs HQ]. rewrite (hw_cache h Hw id p), HQ, qids_ids, in_map_iff. split.
  - intros (o & <- & Hin). apply at_price_In in Hin. exists o. tauto.
  - intros (o & Hi & E & ? & ?). exists o. split; [exact E|]. apply at_price_In. auto.
Qed.
Lemma rel_cache_None s h mk id : rel_half s h mk ->
  h_cache h !! id = None <-> forall o, In o mk -> r_side o = s -> r_id o <> id.
Proof.
  intros Hr. split.
  - intros Hn o Hi Hs E. assert (h_cache h !! id = Some (r_price o)); [|congruence].
    apply (rel_cache s h mk); eauto.
  - intros H. destruct (h_cache h !! id) as [p|] eqn:E; [|reflexivity].
    apply (rel_cache s h mk) in E as (o & Hi & Ei & Hs & _); auto. exfalso. eapply H; eauto.
Qed.

(** ** priority list *)
Definition prio_le (s : side) (a b : rest) : Prop := better s (r_price b) (r_price a) = false.

Lemma filter_prio_insert s o l p :
  List.filter (fun x => r_price x =? p) (prio_insert s o l) =
  if r_price o =? p then o :: List.filter (fun x => r_price x =? p) l
  else List.filter (fun x => r_price x =? p) l.
Proof.
  induction l as [|x t IH]; simpl; [destruct (r_price o =? p); reflexivity|].
  destruct (better s (r_price x) (r_price o)) eqn:E; simpl.
  - rewrite IH. destruct (Z.eqb_spec (r_price x) p), (Z.eqb_spec (r_price o) p); try reflexivity.
    exfalso. rewrite e, e0 in E. destruct s; simpl in E; lia.
  - destruct (r_price o =? p); reflexivity.
Qed.

Lemma filter_by_priority s l p :
  List.filter (fun x => r_price x =? p) (by_priority s l) = List.filter (fun x => r_price x =? p) l.
Proof.
  unfold by_priority. induction l as [|o t IH]; simpl; [reflexivity|].
  rewrite filter_prio_insert, IH. reflexivity.
Qed.

Lemma perm_prio_insert s o l : Permutation (prio_insert s o l) (o :: l).
Proof.
  induction l as [|x t IH]; simpl; [reflexivity|].
  destruct (better s (r_price x) (r_price o)); [|reflexivity].
  rewrite IH. apply perm_swap.
Qed.
Lemma perm_by_priority s l : Permutation (by_priority s l) l.
Proof.
  unfold by_priority. induction l as [|o t IH]; simpl; [reflexivity|].
  rewrite perm_prio_insert. now constructor.
Qed.

Lemma sorted_prio_insert s o l : StronglySorted (prio_le s) l -> StronglySorted (prio_le s) (prio_insert s o l).
Proof.
  induction 1 as [|x t Hs IH Hf]; simpl; [repeat constructor|].
  destruct (better s (r_price x) (r_price o)) eqn:E.
  - constructor; [exact IH|]. rewrite List.Forall_forall in *. intros y Hy.
    apply (Permutation_in _ (perm_prio_insert s o t)) in Hy as [<-|Hy]; [|auto].
    unfold prio_le. destruct s; simpl in *; lia.
  - constructor; [now constructor|]. constructor; [exact E|].
    rewrite List.Forall_forall in *. intros y Hy. specialize (Hf _ Hy).
    unfold prio_le in *. destruct s; simpl in *; lia.
Qed.
Lemma sorted_by_priority s l : StronglySorted (prio_le s) (by_priority s l).
Proof. unfold by_priority. induction l as [|o t IH]; simpl; [constructor|]. now apply sorted_prio_insert. Qed.

Lemma prio_unique s a : forall b, StronglySorted (prio_le s) a -> StronglySorted (prio_le s) b ->
  (forall p, List.filter (fun x => r_price x =? p) a = List.filter (fun x => r_price x =? p) b) -> a = b.
Proof.
  induction a as [|x a IH]; intros b Ha Hb H.
  - destruct b as [|y b]; [reflexivity|]. specialize (H (r_price y)). simpl in H.
    rewrite Z.eqb_refl in H. discriminate.
  - destruct b as [|y b].
    { specialize (H (r_price x)). simpl in H. rewrite Z.eqb_refl in H. discriminate. }
    assert (E : r_price x = r_price y).
    { assert (Hx : In x (y :: b)).
      { pose proof (H (r_price x)) as G.
        assert (In x (List.filter (fun z => r_price z =? r_price x) (x :: a))) as I.
        { apply filter_In. split; [now left|apply Z.eqb_refl]. }
        rewrite G in I. apply filter_In in I. tauto. }
      assert (Hy : In y (x :: a)).
      { pose proof (H (r_price y)) as G.
        assert (In y (List.filter (fun z => r_price z =? r_price y) (y :: b))) as I.
        { apply filter_In. split; [now left|apply Z.eqb_refl]. }
        rewrite <- G in I. apply filter_In in I. tauto. }
      inversion Ha as [|? ? Ha' Hfa]; inversion Hb as [|? ? Hb' Hfb]; subst.
      rewrite List.Forall_forall in Hfa, Hfb.
      destruct Hx as [->|Hx]; [reflexivity|]. destruct Hy as [->|Hy]; [reflexivity|].
      specialize (Hfa _ Hy). specialize (Hfb _ Hx). unfold prio_le in *. destruct s; simpl in *; lia. }
    pose proof (H (r_price x)) as G. simpl in G. rewrite E, Z.eqb_refl in G. injection G as -> G.
    f_equal. inversion Ha; inversion Hb; subst. apply IH; auto.
    intros p. specialize (H p). simpl in H. destruct (r_price y =? p); [now injection H|exact H].
Qed.

Definition flat (s : side) (pls : list (Z * level)) : market :=
  flat_map (fun pl => map (fun x => Rest (fst x) s (fst pl) (snd x)) (l_orders (snd pl))) pls.

Lemma flat_price_In s pls o : In o (flat s pls) -> In (r_price o) (keys pls).
Proof.
  unfold flat. rewrite in_flat_map. intros (pl & Hin & Ho). apply in_map_iff in Ho as (x & <- & _).
  simpl. now apply (in_map fst).
Qed.

Lemma filter_flat s pls p : NoDup (keys pls) ->
  List.filter (fun x => r_price x =? p) (flat s pls) =
  match bt_get p pls with
  | Some l => map (fun x => Rest (fst x) s p (snd x)) (l_orders l)
  | None => []
  end.
Proof.
  induction pls as [|[k l] t IH]; simpl; [reflexivity|]. intros Hnd.
  apply NoDup_cons in Hnd as [Hni Hnd]. rewrite elem_of_list_In in Hni.
  rewrite List.filter_app, IH by exact Hnd. destruct (Z.eqb_spec p k) as [->|Hne].
  - replace (bt_get k t) with (@None level) by (symmetry; now apply bt_get_None_keys).
    rewrite app_nil_r. clear. induction (l_orders l) as [|x q IH]; simpl; [reflexivity|].
    rewrite Z.eqb_refl. now rewrite IH.
  - replace (List.filter _ (map _ (l_orders l))) with (@nil rest); [reflexivity|].
    clear -Hne. induction (l_orders l) as [|x q IH]; simpl; [reflexivity|].
    destruct (Z.eqb_spec k p); [congruence|]. exact IH.
Qed.

Definition prio_keys (s : side) (pls : list (Z * level)) : Prop :=
  StronglySorted (fun a b => better s a b = true) (keys pls).

Lemma flat_sorted s pls : prio_keys s pls -> StronglySorted (prio_le s) (flat s pls).
Proof.
  unfold prio_keys. induction pls as [|[k l] t IH]; simpl; intros Hs; [constructor|].
  inversion Hs as [|? ? Hs' Hf]; subst. specialize (IH Hs').
  induction (l_orders l) as [|x q IHq]; simpl; [exact IH|].
  constructor; [exact IHq|]. apply List.Forall_forall. intros y Hy. unfold prio_le. simpl.
  apply in_app_or in Hy as [Hy|Hy].
  - apply in_map_iff in Hy as (z & <- & _). simpl. destruct s; simpl; lia.
  - apply flat_price_In in Hy. rewrite List.Forall_forall in Hf. specialize (Hf _ Hy).
    destruct s; simpl in *; lia.
Qed.

Lemma plevels_prio h : half_wf h -> prio_keys (h_side h) (plevels h).
Proof.
  intros Hw. pose proof (hw_sorted h Hw) as Hs. unfold sorted, prio_keys, plevels in *.
  destruct (h_side h).
  - induction Hs as [|x t Hs IH Hf]; [constructor|]. constructor; [exact IH|].
    eapply List.Forall_impl; [|exact Hf]. simpl. intros. now apply Z.ltb_lt.
  - unfold keys in *. rewrite map_rev. induction Hs as [|x t Hs IH Hf]; simpl; [constructor|].
    clear Hs. rewrite List.Forall_forall in Hf.
    assert (forall y, In y (rev t) -> x < y) as Hf' by (intros y Hy; apply in_rev in Hy; auto).
    clear Hf. revert IH Hf'. generalize (rev t). intros l IH Hf.
    induction IH as [|y l Hl IHl Hfl]; simpl; [repeat constructor|].
    constructor; [apply IHl; intros; apply Hf; now right|].
    apply List.Forall_forall. intros z Hz. rewrite List.Forall_forall in Hfl.
    apply in_app_or in Hz as [Hz|[<-|[]]]; [exact (Hfl _ Hz)|]. apply Z.ltb_lt. apply Hf. now left.
Qed.

Lemma bt_get_rev h p : half_wf h -> bt_get p (plevels h) = bt_get p (h_levels h).
Proof.
  intros Hw. unfold plevels. destruct (h_side h) eqn:E; [reflexivity|].
  pose proof (plevels_nodup h Hw) as Hnd. unfold plevels in Hnd. rewrite E in Hnd.
  assert (G : forall (m : list (Z * level)) k v, NoDup (keys m) -> In (k, v) m -> bt_get k m = Some v).
  { clear. intros m k v. induction m as [|[a b] t IH]; simpl; [tauto|]. intros Hnd.
    apply NoDup_cons in Hnd as [Hni Hnd]. rewrite elem_of_list_In in Hni.
    intros [Eq|Hin]; [injection Eq as -> ->; now rewrite Z.eqb_refl|].
    destruct (Z.eqb_spec k a) as [->|]; [|auto]. exfalso. apply Hni. now apply (in_map fst) in Hin. }
  destruct (bt_get p (h_levels h)) as [l|] eqn:Hg.
  - apply G; [exact Hnd|]. apply in_rev. rewrite rev_involutive. now apply bt_get_In.
  - destruct (bt_get p (rev (h_levels h))) as [l|] eqn:Hg2; [|reflexivity].
    apply bt_get_In in Hg2. apply in_rev in Hg2. apply bt_In_get in Hg2; [congruence|apply Hw].
Qed.

Lemma at_price_on_side s p mk :
  at_price s p mk = List.filter (fun x => r_price x =? p) (on_side s mk).
Proof.
  unfold at_price, on_side. induction mk as [|o t IH]; simpl; [reflexivity|].
  destruct (side_eqb (r_side o) s); simpl; [|exact IH]. destruct (r_price o =? p); simpl; now rewrite IH.
Qed.

Lemma at_price_unqids s p mk :
  at_price s p mk = map (fun x => Rest (fst x) s p (snd x)) (qids (at_price s p mk)).
Proof.
  unfold qids. rewrite map_map. rewrite <- (map_id (at_price s p mk)) at 1.
  apply map_ext_in. intros o Ho. apply at_price_In in Ho as (_ & <- & <-). destruct o; reflexivity.
Qed.

Theorem priority_is_flat s h mk : rel_half s h mk ->
  by_priority s (on_side s mk) = flat s (plevels h).
Proof.
  intros [Hw <- HQ]. apply (prio_unique (h_side h)).
  - apply sorted_by_priority.
  - apply flat_sorted, plevels_prio, Hw.
  - intros p. rewrite filter_by_priority, <- at_price_on_side.
    rewrite filter_flat by now apply plevels_nodup. rewrite bt_get_rev by exact Hw.
    rewrite at_price_unqids, <- HQ. unfold queue. destruct (bt_get p (h_levels h)); reflexivity.
Qed.

Lemma total_qty_perm a b : Permutation a b -> total_qty a = total_qty b.
Proof. unfold total_qty. induction 1; simpl; lia. Qed.
Lemma total_qty_app a b : total_qty (a ++ b) = total_qty a + total_qty b.
Proof. unfold total_qty. induction a as [|o t IH]; simpl; lia. Qed.

Lemma flat_level_total s p (q : list (Z * Z)) : total_qty (map (fun x => Rest (fst x) s p (snd x)) q) = sumq q.
Proof. unfold total_qty, sumq. induction q as [|x t IH]; simpl; lia. Qed.
Lemma flat_total s pls : lwf pls -> total_qty (flat s pls) = sumt pls.
Proof.
  induction 1 as [|[p l] t H1 H2 IH]; simpl; [reflexivity|]. rewrite total_qty_app, IH, flat_level_total.
  destruct H1. cbn [snd] in *. unfold sumt, sumv. simpl. lia.
Qed.

Lemma rel_total s h mk : rel_half s h mk -> h_total h = side_qty s mk.
Proof.
  intros Hr. unfold side_qty. rewrite <- (total_qty_perm _ _ (perm_by_priority s (on_side s mk))).
  rewrite (priority_is_flat s h mk Hr). destruct Hr as [Hw Hs HQ].
  rewrite flat_total by now apply plevels_lwf. rewrite plevels_sum. apply Hw.
Qed.

Lemma rel_pos s h mk o : rel_half s h mk -> In o mk -> r_side o = s -> 0 < r_qty o.
Proof.
  intros [Hw Hs HQ] Hi Ho. pose proof (wf_queue_pos h (r_price o) Hw) as Hp.
  rewrite HQ in Hp. unfold posq, qids in Hp. rewrite List.Forall_forall in Hp.
  specialize (Hp (r_id o, r_qty o)). apply Hp. apply in_map_iff. exists o. split; [reflexivity|].
  apply at_price_In. auto.
Qed.
Lemma rel_i64 s h mk o : rel_half s h mk -> In o mk -> r_side o = s -> is_i64 (r_price o).
Proof.
  intros [Hw Hs HQ] Hi Ho. assert (Hin : In (r_id o, r_qty o) (queue (h_levels h) (r_price o))).
  { rewrite HQ. unfold qids. apply in_map_iff. exists o. split; [reflexivity|]. apply at_price_In. auto. }
  unfold queue in Hin. destruct (bt_get (r_price o) (h_levels h)) as [l|] eqn:E; [|destruct Hin].
  apply (lw_i64 _ l), (wf_get h); auto.
Qed.

Lemma rel_empty s h mk : rel_half s h mk -> half_is_empty h = true <-> on_side s mk = [].
Proof.
  intros [Hw Hs HQ]. unfold half_is_empty. split.
  - destruct (h_levels h) as [|pl t] eqn:E; [|discriminate]. intros _.
    destruct (on_side s mk) as [|o l] eqn:Eo; [reflexivity|]. exfalso.
    assert (Hi : In o (on_side s mk)) by (rewrite Eo; now left).
    apply on_side_In in Hi as [Hi Ho]. specialize (HQ (r_price o)). unfold queue in HQ. simpl in HQ.
    assert (In o (at_price s (r_price o) mk)) as A by (apply at_price_In; auto).
    destruct (at_price s (r_price o) mk); [destruct A|discriminate].
  - intros Eo. destruct (h_levels h) as [|[p l] t] eqn:E; [reflexivity|]. exfalso.
    specialize (HQ p). rewrite at_price_on_side, Eo in HQ. unfold queue in HQ. simpl in HQ.
    rewrite Z.eqb_refl in HQ. pose proof (wf_get h p l Hw) as Hl. rewrite E in Hl. simpl in Hl.
    rewrite Z.eqb_refl in Hl. specialize (Hl eq_refl). destruct Hl. auto.
Qed.

Lemma keys_of_orders s h mk : rel_half s h mk ->
  forall p, In p (keys (h_levels h)) <-> exists o, In o (on_side s mk) /\ r_price o = p.
Proof.
  intros [Hw Hs HQ] p. split.
  - intros Hk. destruct (bt_get p (h_levels h)) as [l|] eqn:Hg.
    + pose proof (wf_get h p l Hw Hg) as [].
      pose proof (HQ p) as G. unfold queue in G. rewrite Hg in G.
      destruct (at_price s p mk) as [|o t] eqn:Ea; [rewrite G in *; exfalso; auto|].
      assert (In o (at_price s p mk)) as A by (rewrite Ea; now left).
      apply at_price_In in A as (? & ? & ?). exists o. split; [apply on_side_In|]; auto.
    + apply bt_get_None_keys in Hg. tauto.
  - intros (o & Hi & <-). apply on_side_In in Hi as [Hi Ho].
    destruct (bt_get (r_price o) (h_levels h)) as [l|] eqn:Hg; [apply bt_get_In, (in_map fst) in Hg; exact Hg|].
    exfalso. specialize (HQ (r_price o)). unfold queue in HQ. rewrite Hg in HQ.
    assert (In o (at_price s (r_price o) mk)) as A by (apply at_price_In; auto).
    destruct (at_price s (r_price o) mk); [destruct A|discriminate].
Qed.

(** ** fills *)
Definition okmono (s : side) (ok : Z -> bool) : Prop :=
  forall a b, better s a b = true -> ok b = true -> ok a = true.

Fixpoint amounts (r : Z) (q : list (Z * Z)) : list (Z * Z) :=
  match q with
  | [] => []
  | (i, x) :: t => let f := Z.min x r in (i, f) :: amounts (r - f) t
  end.

Lemma amounts_ids r q : map fst (amounts r q) = map fst q.
Proof. revert r. induction q as [|[i x] t IH]; intros r; simpl; [reflexivity|]. now rewrite IH. Qed.

Lemma amounts_0 q i f : posq q -> In (i, f) (amounts 0 q) -> f = 0.
Proof.
  induction 1 as [|[j x] t Hx Ht IH]; simpl in *; [tauto|].
  replace (Z.min x 0) with 0 by lia. simpl. intros [E|Hi]; [congruence|auto].
Qed.

Lemma eat_settle (F : Z -> Z) q : forall r, posq q -> 0 <= r ->
  (forall i f, In (i, f) (amounts r q) -> F i = f) ->
  List.filter (fun x => 0 <? snd x) (map (fun x => (fst x, snd x - F (fst x))) q) = eat r q.
Proof.
  induction q as [|[i x] t IH]; intros r Hp Hr HF; simpl; [reflexivity|].
  apply Forall_cons in Hp as [Hx Hp]. simpl in Hx, HF.
  assert (E : F i = Z.min x r) by (apply HF; now left). rewrite E.
  assert (HF' : forall i f, In (i, f) (amounts (r - Z.min x r) t) -> F i = f) by (intros; apply HF; now right).
  specialize (IH (r - Z.min x r) Hp). rewrite IH by (auto; lia).
  destruct (Z.leb_spec r 0).
  - replace (Z.min x r) with 0 by lia. assert (r = 0) as -> by lia.
    rewrite !Z.sub_0_r. destruct (Z.ltb_spec 0 x); [|lia]. now rewrite eat_le0.
  - destruct (Z.ltb_spec r x).
    + rewrite Z.min_r by lia. destruct (Z.ltb_spec 0 (x - r)); [|lia]. rewrite eat_le0 by lia. reflexivity.
    + rewrite Z.min_l by lia. destruct (Z.ltb_spec 0 (x - x)); [lia|]. reflexivity.
Qed.

Lemma fills_total_app a b : fills_total (a ++ b) = fills_total a + fills_total b.
Proof. unfold fills_total. induction a as [|x t IH]; simpl; lia. Qed.

Lemma fill_app r a b : fill r (a ++ b) = fill r a ++ fill (r - fills_total (fill r a)) b.
Proof.
  revert r. induction a as [|o t IH]; intros r; simpl.
  - unfold fills_total. simpl. now rewrite Z.sub_0_r.
  - rewrite IH. unfold fills_total. simpl. do 2 f_equal. f_equal. lia.
Qed.

Lemma fill_total r l : Forall (fun o => 0 < r_qty o) l -> 0 <= r ->
  fills_total (fill r l) = Z.min r (total_qty l) /\ 0 <= total_qty l.
Proof.
  intros H. revert r. induction H as [|o t Ho Ht IH]; intros r Hr; simpl.
  - unfold fills_total, total_qty. simpl. lia.
  - destruct (IH (r - Z.min (r_qty o) r)) as [E1 E2]; [lia|].
    unfold fills_total, total_qty in *. simpl. rewrite E1. lia.
Qed.

Lemma fill_fst r l : map fst (fill r l) = l.
Proof. revert r. induction l as [|o t IH]; intros r; simpl; [reflexivity|]. now rewrite IH. Qed.

Lemma filled_of_notin id ex : ~ In id (map (fun x => r_id (fst x)) ex) -> filled_of id ex = 0.
Proof.
  unfold filled_of. induction ex as [|x t IH]; simpl; [reflexivity|]. intros H.
  destruct (Z.eqb_spec (r_id (fst x)) id); [tauto|]. rewrite IH by tauto. lia.
Qed.
Lemma filled_of_In ex o f : NoDup (map (fun x => r_id (fst x)) ex) -> In (o, f) ex ->
  filled_of (r_id o) ex = f.
Proof.
  induction ex as [|x t IH]; simpl; [tauto|]. intros Hnd.
  apply NoDup_cons in Hnd as [Hni Hnd]. rewrite elem_of_list_In in Hni.
  intros [->|Hi].
  - simpl. rewrite Z.eqb_refl. fold (filled_of (r_id o) t). rewrite filled_of_notin by exact Hni. lia.
  - fold (filled_of (r_id o) t). rewrite IH by auto.
    destruct (Z.eqb_spec (r_id (fst x)) (r_id o)) as [E|]; [|lia].
    exfalso. apply Hni. rewrite E. apply in_map_iff. exists (o, f). auto.
Qed.

Lemma fill_ids r l : map (fun x => r_id (fst x)) (fill r l) = map r_id l.
Proof. rewrite <- (fill_fst r l) at 2. now rewrite map_map. Qed.

Lemma at_price_settle s p ex mk : at_price s p (settle ex mk) = settle ex (at_price s p mk).
Proof.
  unfold at_price, settle. induction mk as [|o t IH]; simpl; [reflexivity|].
  destruct (0 <? r_qty o - filled_of (r_id o) ex) eqn:E; simpl;
    destruct (side_eqb (r_side o) s && (r_price o =? p)); simpl; rewrite ?E, IH; reflexivity.
Qed.

Lemma qids_settle ex mk : qids (settle ex mk) =
  List.filter (fun x => 0 <? snd x) (map (fun x => (fst x, snd x - filled_of (fst x) ex)) (qids mk)).
Proof.
  unfold qids, settle. induction mk as [|o t IH]; simpl; [reflexivity|].
  destruct (0 <? r_qty o - filled_of (r_id o) ex); simpl; now rewrite IH.
Qed.

Lemma settle_ids ex mk id : In id (map r_id (settle ex mk)) -> In id (map r_id mk).
Proof.
  unfold settle. rewrite in_map_iff. intros (o & <- & Hi). apply filter_In in Hi as [Hi _].
  apply in_map_iff in Hi as (o' & <- & Hi). simpl. now apply in_map.
Qed.
Lemma settle_nodup ex mk : NoDup (map r_id mk) -> NoDup (map r_id (settle ex mk)).
Proof.
  induction mk as [|o t IH]; simpl; intros Hnd; [constructor|].
  apply NoDup_cons in Hnd as [Hni Hnd]. rewrite elem_of_list_In in Hni.
  unfold settle in *. simpl. destruct (0 <? r_qty o - filled_of (r_id o) ex); simpl; [|auto].
  apply NoDup_cons. split; [|auto]. rewrite elem_of_list_In. intros Hi. apply Hni.
  eapply settle_ids. exact Hi.
Qed.

Lemma filter_flat_ok s ok pls : List.filter (fun o => ok (r_price o)) (flat s pls) =
  flat s (List.filter (fun pl => ok (fst pl)) pls).
Proof.
  induction pls as [|[p l] t IH]; simpl; [reflexivity|]. rewrite List.filter_app, IH.
  destruct (ok p) eqn:E; simpl; [|].
  - f_equal. induction (l_orders l) as [|x q IHq]; simpl; [reflexivity|]. rewrite E. now rewrite IHq.
  - replace (List.filter _ (map _ (l_orders l))) with (@nil rest); [reflexivity|].
    induction (l_orders l) as [|x q IHq]; simpl; [reflexivity|]. now rewrite E.
Qed.

Lemma no_ok_tail s ok p (t : list (Z * level)) : okmono s ok ->
  Forall (fun b => better s p b = true) (keys t) -> ok p = false ->
  List.filter (fun pl => ok (fst pl)) t = [].
Proof.
  intros Hm Hf Hp. induction t as [|[q l] t IH]; simpl in *; [reflexivity|].
  apply Forall_cons in Hf as [Hq Hf]. destruct (ok q) eqn:E; [|now apply IH].
  rewrite (Hm _ _ Hq E) in Hp. discriminate.
Qed.

Lemma flat_pos s pls : lwf pls -> Forall (fun o => 0 < r_qty o) (flat s pls).
Proof.
  intros H. apply List.Forall_forall. intros o Ho. unfold flat in Ho. apply in_flat_map in Ho as ([p l] & Hin & Ho).
  apply in_map_iff in Ho as ([i x] & <- & Hx). simpl in *.
  unfold lwf in H. rewrite List.Forall_forall in H. specialize (H _ Hin). destruct H.
  cbn [snd] in *. unfold posq in lw_pos. rewrite List.Forall_forall in lw_pos. exact (lw_pos _ Hx).
Qed.

Lemma report_prices ex p q : In (p, q) (report ex) -> In p (map (fun x => r_price (fst x)) ex).
Proof.
  revert q. induction ex as [|[o f] t IH]; intros q; simpl; [tauto|].
  destruct (f <=? 0); [intros H; right; eapply IH; eauto|].
  destruct (report t) as [|[p' q'] h] eqn:E.
  - intros [H|[]]. injection H as <- <-. now left.
  - destruct (Z.eqb_spec p' (r_price o)).
    + intros [H|H]; [injection H as <- <-; left; congruence|]. right. eapply IH. right. exact H.
    + intros [H|H]; [injection H as <- <-; now left|]. right. eapply IH. exact H.
Qed.

Lemma report_segment s p q : forall r rest, posq q -> 0 <= r ->
  (forall p' x, In (p', x) (report rest) -> p' <> p) ->
  report (fill r (map (fun x => Rest (fst x) s p (snd x)) q) ++ rest) =
  (if 0 <? Z.min r (sumq q) then [(p, Z.min r (sumq q))] else []) ++ report rest.
Proof.
  induction q as [|[i x] t IH]; intros r rest Hp Hr Hne.
  - simpl. unfold sumq. simpl. destruct (Z.ltb_spec 0 (Z.min r 0)); [lia|reflexivity].
  - apply Forall_cons in Hp as [Hx Hp]. simpl in Hx. pose proof (sumq_pos t Hp).
    assert (Hsum : sumq ((i, x) :: t) = x + sumq t) by reflexivity. rewrite Hsum.
    simpl. rewrite IH by (auto; lia).
    destruct (Z.leb_spec (Z.min x r) 0).
    + destruct (Z.ltb_spec 0 (Z.min r (x + sumq t))); [lia|].
      destruct (Z.ltb_spec 0 (Z.min (r - Z.min x r) (sumq t))); [lia|reflexivity].
    + destruct (Z.ltb_spec 0 (Z.min r (x + sumq t))); [|lia].
      destruct (Z.ltb_spec 0 (Z.min (r - Z.min x r) (sumq t))); simpl.
      * rewrite Z.eqb_refl. do 2 f_equal. lia.
      * destruct (report rest) as [|[p' y] h] eqn:Er; simpl.
        -- do 2 f_equal. lia.
        -- destruct (Z.eqb_spec p' p); [exfalso; eapply Hne; [now left|assumption]|]. do 2 f_equal. lia.
Qed.

Lemma fills_segment s p q r : posq q -> 0 <= r ->
  fills_total (fill r (map (fun x => Rest (fst x) s p (snd x)) q)) = Z.min r (sumq q).
Proof.
  intros Hp Hr. destruct (fill_total r (map (fun x => Rest (fst x) s p (snd x)) q)) as [E _]; auto.
  - apply List.Forall_forall. intros o Ho. apply in_map_iff in Ho as (x & <- & Hx). simpl.
    unfold posq in Hp. rewrite List.Forall_forall in Hp. auto.
  - rewrite E. now rewrite flat_level_total.
Qed.

Lemma fill_segment_In s p q i f : forall r,
  In (i, f) (amounts r q) ->
  exists x, In (Rest i s p x, f) (fill r (map (fun x => Rest (fst x) s p (snd x)) q)).
Proof.
  induction q as [|[j x] t IH]; intros r; simpl; [tauto|].
  intros [E|Hi].
  - injection E as <- <-. exists x. now left.
  - destruct (IH _ Hi) as (y & Hy). exists y. now right.
Qed.

Section matching.
  Variables (s : side) (ok : Z -> bool).
  Hypothesis Hmono : okmono s ok.

  Definition cands (pls : list (Z * level)) : market := List.filter (fun o => ok (r_price o)) (flat s pls).

  Lemma cands_cons p l t : prio_keys s ((p, l) :: t) ->
    cands ((p, l) :: t) = if ok p then map (fun x => Rest (fst x) s p (snd x)) (l_orders l) ++ cands t else [].
  Proof.
    intros Hs. unfold cands. rewrite !filter_flat_ok. simpl. destruct (ok p) eqn:E; [reflexivity|].
    inversion Hs as [|? ? Hs' Hf]; subst. now rewrite (no_ok_tail s ok p t).
  Qed.

  Lemma match_left pls : forall r, lwf pls -> prio_keys s pls -> 0 <= r ->
    r - fills_total (fill r (cands pls)) = sweep_left ok r pls.
  Proof.
    induction pls as [|[p l] t IH]; intros r Hw Hs Hr.
    - simpl. unfold fills_total. simpl. lia.
    - rewrite cands_cons by exact Hs. apply Forall_cons in Hw as [H1 H2]. cbn [fst snd] in H1.
      assert (Hs' : prio_keys s t) by (inversion Hs; assumption).
      pose proof (lwf_pos _ _ H1) as Hpos. destruct H1 as [_ _ _ Hp _ Ht]. simpl. destruct (ok p) eqn:E; simpl.
      + rewrite fill_app, fills_total_app, fills_segment by auto. rewrite <- Ht.
        destruct (Z.leb_spec r 0).
        * assert (r = 0) as -> by lia. rewrite Z.min_l by lia. specialize (IH 0 H2 Hs').
          rewrite sweep_left_0 in IH by lia. rewrite Z.sub_0_r. lia.
        * rewrite <- IH by (auto; lia). lia.
      + unfold fills_total. simpl. lia.
  Qed.

  Lemma match_report pls : forall r, lwf pls -> prio_keys s pls -> 0 <= r ->
    report (fill r (cands pls)) = sweep_hist ok r pls.
  Proof.
    induction pls as [|[p l] t IH]; intros r Hw Hs Hr; [reflexivity|].
    rewrite cands_cons by exact Hs. apply Forall_cons in Hw as [H1 H2]. cbn [fst snd] in H1.
    assert (Hs' : prio_keys s t) by (inversion Hs; assumption).
    assert (Hf : Forall (fun b => better s p b = true) (keys t)) by (inversion Hs; assumption).
    pose proof (lwf_pos _ _ H1) as Hpos. destruct H1 as [_ _ _ Hp _ Ht].
    simpl. destruct (ok p) eqn:E; simpl; [|reflexivity].
    rewrite fill_app, fills_segment, report_segment; auto.
    - rewrite <- Ht. destruct (Z.leb_spec r 0).
      + assert (r = 0) as -> by lia. rewrite Z.min_l by lia. simpl. rewrite IH by (auto; lia).
        apply sweep_hist_0. lia.
      + destruct (Z.ltb_spec 0 (Z.min r (l_total l))); [|lia]. simpl. rewrite IH by (auto; lia). reflexivity.
    - intros p' x Hin. apply report_prices in Hin. rewrite <- (map_map fst r_price), fill_fst in Hin.
      apply in_map_iff in Hin as (o & <- & Ho). unfold cands in Ho. apply filter_In in Ho as [Ho _].
      apply flat_price_In in Ho. rewrite List.Forall_forall in Hf. specialize (Hf _ Ho).
      intros E'. rewrite E' in Hf. destruct s; simpl in Hf; lia.
  Qed.

  Lemma match_amounts pls : forall r p l i f, lwf pls -> prio_keys s pls -> 0 <= r ->
    In (p, l) pls -> ok p = true -> In (i, f) (amounts (reach ok r pls p) (l_orders l)) ->
    exists x, In (Rest i s p x, f) (fill r (cands pls)).
  Proof.
    induction pls as [|[p' l'] t IH]; intros r p l i f Hw Hs Hr Hin Hok Hi; [destruct Hin|].
    pose proof Hw as Hw0.
    rewrite cands_cons by exact Hs. apply Forall_cons in Hw as [H1 H2]. cbn [fst snd] in H1.
    assert (Hs' : prio_keys s t) by (inversion Hs; assumption).
    assert (Hf : Forall (fun b => better s p' b = true) (keys t)) by (inversion Hs; assumption).
    pose proof (lwf_pos _ _ H1) as Hpos. destruct H1 as [_ _ _ Hp _ Ht].
    assert (Hok' : ok p' = true).
    { destruct Hin as [E|Hin]; [injection E as <- <-; exact Hok|].
      apply (in_map fst) in Hin. rewrite List.Forall_forall in Hf. eapply Hmono; [apply Hf; exact Hin|exact Hok]. }
    simpl in Hi. rewrite Hok' in Hi |- *. simpl in Hi.
    rewrite fill_app, fills_segment by auto. rewrite <- Ht.
    destruct Hin as [E|Hin].
    - injection E as <- <-. rewrite Z.eqb_refl in Hi.
      replace (if r <=? 0 then 0 else r) with r in Hi by (destruct (Z.leb_spec r 0); lia).
      destruct (fill_segment_In s p' (l_orders l') i f r Hi) as (x & Hx).
      exists x. apply in_or_app. now left.
    - assert (Hne : p <> p').
      { intros ->. apply (in_map fst) in Hin. rewrite List.Forall_forall in Hf. specialize (Hf _ Hin).
        simpl in Hf. destruct s; simpl in Hf; lia. }
      destruct (Z.eqb_spec p p'); [congruence|].
      destruct (IH (r - Z.min r (l_total l')) p l i f) as (x & Hx); auto; [lia| |].
      + destruct (Z.leb_spec r 0); [|exact Hi].
        assert (r = 0) as -> by lia. rewrite Z.min_l by lia. rewrite reach_0 by lia. exact Hi.
      + exists x. apply in_or_app. now right.
  Qed.
End matching.

Lemma takes_mono s lim : okmono s (takes s lim).
Proof. intros a b. destruct s; simpl; lia. Qed.
Lemma any_mono s : okmono s any_price.
Proof. intros a b _ _. reflexivity. Qed.

Lemma acceptable_takes s lim p : acceptable s (Some lim) p = takes s lim p.
Proof. destruct s; reflexivity. Qed.

(** Matching: the reference's [execute] is the implementation's sweep. *)
Lemma execute_sweep s h mk lim ok r :
  rel_half s h mk -> NoDup (map r_id mk) -> 0 <= r ->
  okmono s ok -> (forall p, acceptable s lim p = ok p) ->
  exists mk', execute s lim r mk = (mk', sweep_hist ok r (plevels h), sweep_left ok r (plevels h)) /\
    NoDup (map r_id mk') /\ rel_half s (swept ok r h) mk' /\
    (forall s' h', s' <> s -> rel_half s' h' mk -> rel_half s' h' mk') /\
    (forall id, In id (map r_id mk') -> In id (map r_id mk)).
Proof.
  intros Hr Hnd Hr0 Hm Hok. unfold execute.
  set (cs := List.filter _ _).
  assert (Ecs : cs = cands s ok (plevels h)).
  { unfold cs, cands. rewrite (priority_is_flat s h mk Hr). apply List.filter_ext. intros. apply Hok. }
  rewrite Ecs. destruct Hr as [Hw Hs HQ]. pose proof (plevels_lwf h Hw) as Hlw.
  pose proof (plevels_prio h Hw) as Hpk. rewrite Hs in Hpk.
  rewrite match_report, match_left by auto.
  set (ex := fill r (cands s ok (plevels h))).
  exists (settle ex mk). split; [reflexivity|]. split; [now apply settle_nodup|].
  assert (Hcin : forall o, In o (cands s ok (plevels h)) -> In o mk /\ r_side o = s /\ ok (r_price o) = true).
  { intros o Ho. unfold cands in Ho. rewrite <- (priority_is_flat s h mk) in Ho by now constructor.
    apply filter_In in Ho as [Ho Hk]. apply (Permutation_in _ (perm_by_priority _ _)) in Ho.
    apply on_side_In in Ho. tauto. }
  assert (Hexnd : NoDup (map (fun x => r_id (fst x)) ex)).
  { unfold ex. rewrite fill_ids. unfold cands. rewrite <- (priority_is_flat s h mk) by now constructor.
    assert (N : NoDup (map r_id (by_priority s (on_side s mk)))).
    { apply NoDup_ListNoDup. eapply Permutation_NoDup; [apply Permutation_map, Permutation_sym, perm_by_priority|].
      unfold on_side. apply NoDup_ListNoDup in Hnd. clear -Hnd.
      induction mk as [|o t IH]; simpl in *; [constructor|]. inversion Hnd; subst.
      destruct (side_eqb (r_side o) s); simpl; [|auto]. constructor; [|auto].
      intros Hi. apply H1. apply in_map_iff in Hi as (o' & E & Hi). apply filter_In in Hi as [Hi _].
      rewrite <- E. now apply in_map. }
    revert N. generalize (by_priority s (on_side s mk)). clear. intros l N. induction l as [|o t IH]; simpl in *; [constructor|].
    apply NoDup_cons in N as [N1 N2]. rewrite elem_of_list_In in N1. destruct (ok (r_price o)); simpl; [|auto].
    apply NoDup_cons. split; [|auto]. rewrite elem_of_list_In. intros Hi. apply N1.
    apply in_map_iff in Hi as (o' & E & Hi). apply filter_In in Hi as [Hi _]. rewrite <- E. now apply in_map. }
  assert (Hnotin : forall o, In o mk -> (r_side o <> s \/ ok (r_price o) = false) -> filled_of (r_id o) ex = 0).
  { intros o Ho Hc. apply filled_of_notin. unfold ex. rewrite fill_ids. intros Hi.
    apply in_map_iff in Hi as (o' & E & Hi). apply Hcin in Hi as (Hi & Hs' & Hk).
    assert (o' = o) as -> by (eapply nodup_id_inj; eauto). destruct Hc; congruence. }
  destruct (swept_ok ok r h Hw Hr0) as (Hw' & Hs' & Ht' & Hc' & HQ').
  split; [|split].
  - constructor; [exact Hw'|now rewrite Hs'|]. intros p. rewrite HQ', at_price_settle, qids_settle, <- HQ.
    symmetry. apply (eat_settle (fun i => filled_of i ex)).
    + now apply wf_queue_pos.
    + now apply reach_bounds.
    + intros i f Hi. destruct (ok p) eqn:Ek.
      * unfold queue in Hi. destruct (bt_get p (h_levels h)) as [l|] eqn:Hg; [|destruct Hi].
        destruct (match_amounts s ok Hm (plevels h) r p l i f) as (x & Hx); auto.
        { apply plevels_In. now apply bt_get_In. }
        fold ex in Hx. apply (filled_of_In _ _ _ Hexnd) in Hx. exact Hx.
      * assert (Hz : reach ok r (plevels h) p = 0).
        { clear -Ek. revert r. induction (plevels h) as [|[p' l] t IH]; intros r; simpl; [reflexivity|].
          destruct (negb (ok p') || (r <=? 0)) eqn:E; [reflexivity|]. apply orb_false_iff in E as [E _].
          destruct (Z.eqb_spec p p') as [->|]; [rewrite Ek in E; discriminate|apply IH]. }
        rewrite Hz in Hi. assert (Hin : In i (map fst (queue (h_levels h) p))).
        { rewrite <- (amounts_ids 0). apply (in_map fst) in Hi. exact Hi. }
        apply amounts_0 in Hi; [|now apply wf_queue_pos]. subst f.
        rewrite HQ, qids_ids in Hin. apply in_map_iff in Hin as (o & <- & Ho).
        apply at_price_In in Ho as (Ho & _ & Hp). apply Hnotin; [exact Ho|]. right. now rewrite Hp.
  - intros s' h' Hne [Hw'' Hs'' HQ'']. constructor; auto. intros p. rewrite HQ''.
    rewrite at_price_settle. f_equal. unfold settle. symmetry.
    assert (A : forall o, In o (at_price s' p mk) -> filled_of (r_id o) ex = 0 /\ 0 < r_qty o).
    { intros o Ho. apply at_price_In in Ho as (Ho & Hos & Hop). split.
      - apply Hnotin; [exact Ho|]. left. congruence.
      - eapply (rel_pos s' h' mk); eauto. constructor; auto. }
    revert A. induction (at_price s' p mk) as [|o t IH]; intros A; simpl; [reflexivity|].
    destruct (A o) as [A1 A2]; [now left|]. rewrite A1, Z.sub_0_r.
    destruct (Z.ltb_spec 0 (r_qty o)); [|lia]. rewrite IH by (intros; apply A; now right).
    now destruct o.
  - intros id. apply settle_ids.
Qed.
