(** OBInv.v -- the half-book invariant and its preservation by add, cancel and
    change_quantity. *)
From Coq Require Import ZArith List Lia Sorted Bool.
From stdpp Require Import base gmap.
From Verif Require Import Base OBTypes OBModel OBBase.
Import ListNotations.
Open Scope Z_scope.

Definition queue (levels : list (Z * level)) (p : Z) : list (Z * Z) :=
  match bt_get p levels with Some l => l_orders l | None => [] end.

Record level_wf (p : Z) (l : level) : Prop := {
  lw_price : l_price l = p;
  lw_i64 : is_i64 p;
  lw_ne : l_orders l <> [];
  lw_pos : posq (l_orders l);
  lw_nodup : NoDup (map fst (l_orders l));
  lw_total : l_total l = sumq (l_orders l) }.

Definition cache_ok (cache : gmap Z Z) (levels : list (Z * level)) : Prop :=
  forall id p, cache !! id = Some p <-> In id (map fst (queue levels p)).

Definition sumt (levels : list (Z * level)) : Z := sumv l_total levels.

Record half_wf (h : half) : Prop := {
  hw_sorted : sorted (h_levels h);
  hw_levels : Forall (fun pl => level_wf (fst pl) (snd pl)) (h_levels h);
  hw_total : h_total h = sumt (h_levels h);
  hw_bound : h_total h < two64;
  hw_best : h_best h = best_of (h_side h) (h_levels h);
  hw_cache : cache_ok (h_cache h) (h_levels h) }.

(** ** best price *)
Definition is_best (s : side) (ks : list Z) (b : Z) : Prop :=
  (ks = [] /\ b = sentinel s) \/
  (In b ks /\ forall x, In x ks -> match s with Ask => b <= x | Bid => x <= b end).

Lemma first_key_spec {V} (m : list (Z * V)) : sorted m ->
  match bt_first_key m with
  | None => m = []
  | Some k => In k (keys m) /\ forall x, In x (keys m) -> k <= x
  end.
Proof.
  destruct m as [|[k v] t]; simpl; [reflexivity|]. intros Hs.
  inversion Hs as [|? ? Hs' Hf]; subst. split; [now left|].
  intros x [->|Hx]; [lia|]. rewrite List.Forall_forall in Hf. specialize (Hf _ Hx). lia.
Qed.

Lemma last_key_spec {V} (m : list (Z * V)) : sorted m ->
  match bt_last_key m with
  | None => m = []
  | Some k => In k (keys m) /\ forall x, In x (keys m) -> x <= k
  end.
Proof.
  unfold bt_last_key. induction m as [|[k v] t IH] using rev_ind; [reflexivity|].
  intros Hs. rewrite rev_app_distr. simpl. unfold sorted, keys in *. rewrite map_app in *. simpl in *.
  split; [apply in_or_app; right; now left|].
  intros x Hx. apply in_app_or in Hx as [Hx|[->|[]]]; [|lia].
  clear IH. induction (map fst t) as [|y l IHl]; simpl in *; [tauto|].
  inversion Hs as [|? ? Hs' Hf]; subst. destruct Hx as [->|Hx]; [|auto].
  rewrite List.Forall_forall in Hf. specialize (Hf k).
  assert (x < k); [|lia]. apply Hf. apply in_or_app. right. now left.
Qed.

Lemma best_of_spec s levels : sorted levels -> is_best s (keys levels) (best_of s levels).
Proof.
  intros Hs. unfold best_of, is_best. destruct s.
  - pose proof (first_key_spec levels Hs) as H. destruct (bt_first_key levels); [right; exact H|].
    left. subst. auto.
  - pose proof (last_key_spec levels Hs) as H. destruct (bt_last_key levels); [right; exact H|].
    left. subst. auto.
Qed.

Lemma is_best_unique s ks a b : is_best s ks a -> is_best s ks b -> a = b.
Proof.
  unfold is_best. intros [[-> ->]|[H1 H2]] [[E ->]|[H3 H4]]; subst; try tauto; try (simpl in *; tauto).
  specialize (H2 _ H3). specialize (H4 _ H1). destruct s; lia.
Qed.

Lemma is_best_insert s ks ks' b p : is_i64 p ->
  (forall x, In x ks' <-> x = p \/ In x ks) -> is_best s ks b -> is_best s ks' (upd_best s b p).
Proof.
  unfold is_i64, is_best. intros Hp Hks [[-> ->]|[H1 H2]]; right.
  - split; [apply Hks; left; destruct s; unfold sentinel, upd_best; lia|].
    intros x Hx. apply Hks in Hx as [->|[]]. destruct s; unfold sentinel, upd_best; lia.
  - split.
    + apply Hks. destruct s; unfold upd_best.
      * destruct (Z.min_spec b p) as [[_ ->]|[_ ->]]; auto.
      * destruct (Z.max_spec b p) as [[_ ->]|[_ ->]]; auto.
    + intros x Hx. apply Hks in Hx as [->|Hx]; [destruct s; unfold upd_best; lia|].
      specialize (H2 _ Hx). destruct s; unfold upd_best; lia.
Qed.

Lemma best_of_insert s levels p l : sorted levels -> is_i64 p ->
  best_of s (bt_insert p l levels) = upd_best s (best_of s levels) p.
Proof.
  intros Hs Hp. apply (is_best_unique s (keys (bt_insert p l levels))).
  - apply best_of_spec, sorted_insert, Hs.
  - apply (is_best_insert s (keys levels)); auto using best_of_spec. intros; apply keys_insert_In.
Qed.

Lemma best_of_keys s a b : sorted a -> sorted b -> (forall x, In x (keys a) <-> In x (keys b)) ->
  best_of s a = best_of s b.
Proof.
  intros Ha Hb Hk. apply (is_best_unique s (keys a)); [now apply best_of_spec|].
  destruct (best_of_spec s b Hb) as [[E1 E2]|[H1 H2]].
  - left. split; [|exact E2]. destruct (keys a) as [|x t]; [reflexivity|].
    exfalso. specialize (Hk x). rewrite E1 in Hk. apply Hk. now left.
  - right. split; [now apply Hk|]. intros x Hx. apply H2. now apply Hk.
Qed.

Lemma best_of_insert_same s levels p l l0 : sorted levels -> bt_get p levels = Some l0 ->
  best_of s (bt_insert p l levels) = best_of s levels.
Proof.
  intros Hs Hg. apply best_of_keys; auto using sorted_insert. intros x. rewrite keys_insert_In.
  apply bt_get_In, (in_map fst) in Hg. simpl in Hg. split; [intros [->|?]; auto|auto].
Qed.

Lemma best_of_remove_other s levels p : sorted levels -> p <> best_of s levels ->
  best_of s (bt_remove p levels) = best_of s levels.
Proof.
  intros Hs Hne. apply (is_best_unique s (keys (bt_remove p levels))).
  - apply best_of_spec, sorted_remove, Hs.
  - destruct (best_of_spec s levels Hs) as [[E1 E2]|[H1 H2]].
    + left. split; [|exact E2]. destruct levels; [reflexivity|discriminate].
    + right. split; [apply keys_remove_In; auto|].
      intros x Hx. apply keys_remove_In in Hx as [_ Hx]; [exact (H2 x Hx)|exact Hs].
Qed.

(** ** queues *)
Lemma queue_insert levels p l p' :
  queue (bt_insert p l levels) p' = if p' =? p then l_orders l else queue levels p'.
Proof. unfold queue. rewrite bt_get_insert. destruct (p' =? p); reflexivity. Qed.

Lemma queue_remove levels p p' : sorted levels ->
  queue (bt_remove p levels) p' = if p' =? p then [] else queue levels p'.
Proof. intros Hs. unfold queue. rewrite bt_get_remove by exact Hs. destruct (p' =? p); reflexivity. Qed.

Lemma wf_get h p l : half_wf h -> bt_get p (h_levels h) = Some l -> level_wf p l.
Proof.
  intros [] Hg. apply bt_get_In in Hg. rewrite List.Forall_forall in hw_levels0.
  apply (hw_levels0 _ Hg).
Qed.

Lemma wf_cache_level h id p : half_wf h -> h_cache h !! id = Some p ->
  exists l, bt_get p (h_levels h) = Some l /\ In id (map fst (l_orders l)).
Proof.
  intros [] Hc. apply hw_cache0 in Hc. unfold queue in Hc.
  destruct (bt_get p (h_levels h)) as [l|]; [eauto|destruct Hc].
Qed.

Lemma wf_cache_none h id p : half_wf h -> h_cache h !! id = None ->
  ~ In id (map fst (queue (h_levels h) p)).
Proof. intros [] Hc Hin. apply hw_cache0 in Hin. congruence. Qed.

Lemma wf_queue_nodup h p : half_wf h -> NoDup (map fst (queue (h_levels h) p)).
Proof.
  intros Hw. unfold queue. destruct (bt_get p (h_levels h)) as [l|] eqn:E; [|constructor].
  apply (lw_nodup p l), (wf_get h); auto.
Qed.
Lemma wf_queue_pos h p : half_wf h -> posq (queue (h_levels h) p).
Proof.
  intros Hw. unfold queue. destruct (bt_get p (h_levels h)) as [l|] eqn:E; [|constructor].
  apply (lw_pos p l), (wf_get h); auto.
Qed.

Lemma wf_level_nonneg h : half_wf h -> Forall (fun pl : Z * level => 0 <= l_total (snd pl)) (h_levels h).
Proof.
  intros []. eapply List.Forall_impl; [|exact hw_levels0]. intros [p l] []. simpl in *.
  rewrite lw_total0. now apply sumq_pos.
Qed.

Lemma wf_level_le h p l : half_wf h -> bt_get p (h_levels h) = Some l -> 0 <= l_total l <= h_total h.
Proof.
  intros Hw Hg. pose proof (wf_level_nonneg h Hw) as Hn. pose proof (wf_get h p l Hw Hg) as [].
  rewrite (hw_total h Hw). unfold sumt. split.
  - rewrite lw_total0. now apply sumq_pos.
  - exact (sumv_ge l_total (h_levels h) p l Hn Hg).
Qed.

Lemma wf_total_nonneg h : half_wf h -> 0 <= h_total h.
Proof. intros Hw. rewrite (hw_total h Hw). apply sumv_nonneg, wf_level_nonneg, Hw. Qed.

(** ** initial state *)
Lemma half_initialize_wf s : half_wf (half_initialize s).
Proof.
  constructor; simpl; try reflexivity.
  - constructor.
  - constructor.
  - destruct s; reflexivity.
  - intros id p. rewrite lookup_empty. unfold queue. simpl. split; [discriminate|tauto].
Qed.

(** ** add *)
Lemma half_add_ok m h o :
  half_wf h -> lo_side o = h_side h -> h_cache h !! lo_id o = None ->
  0 < lo_quantity o -> is_i64 (lo_price o) -> h_total h + lo_quantity o < two64 ->
  exists h', half_add m h o = Ret (ROk h') /\ half_wf h' /\ h_side h' = h_side h /\
    h_total h' = h_total h + lo_quantity o /\
    h_cache h' = <[lo_id o := lo_price o]> (h_cache h) /\
    forall p, queue (h_levels h') p =
      if p =? lo_price o then queue (h_levels h) p ++ [(lo_id o, lo_quantity o)]
      else queue (h_levels h) p.
Proof.
  intros Hw Hs Hc Hq Hp Hb. unfold half_add. rewrite Hs.
  destruct (negb (side_eqb (h_side h) (h_side h))) eqn:E; [destruct (h_side h); discriminate|clear E].
  rewrite (uadd_ok m _ _ Hb). simpl.
  assert (Hcache : forall levels', (forall p, queue levels' p =
      if p =? lo_price o then queue (h_levels h) p ++ [(lo_id o, lo_quantity o)]
      else queue (h_levels h) p) ->
      cache_ok (<[lo_id o := lo_price o]> (h_cache h)) levels').
  { intros levels' HQ id p. rewrite HQ.
    destruct (Z.eq_dec id (lo_id o)) as [->|Hne].
    - rewrite lookup_insert. split.
      + intros E. injection E as <-. rewrite Z.eqb_refl, map_app. apply in_or_app. right. now left.
      + destruct (Z.eqb_spec p (lo_price o)) as [->|]; [reflexivity|].
        intros Hin. exfalso. eapply (wf_cache_none h _ _ Hw Hc). exact Hin.
    - rewrite lookup_insert_ne by congruence. rewrite (hw_cache h Hw id p).
      destruct (p =? lo_price o); [|reflexivity]. rewrite map_app, in_app_iff. simpl.
      split; [auto|]. intros [?|[?|[]]]; [auto|congruence]. }
  destruct (bt_get (lo_price o) (h_levels h)) as [l|] eqn:Hg.
  - pose proof (wf_get h _ _ Hw Hg) as Hl. pose proof (wf_level_le h _ _ Hw Hg) as Hle.
    unfold level_add. rewrite (lw_price _ _ Hl), Z.eqb_refl.
    rewrite uadd_ok by lia. simpl. eexists. split; [reflexivity|]. simpl.
    assert (HQ : forall p, queue (bt_insert (lo_price o)
       (Level (lo_price o) (l_orders l ++ [(lo_id o, lo_quantity o)]) (l_total l + lo_quantity o))
       (h_levels h)) p =
       if p =? lo_price o then queue (h_levels h) p ++ [(lo_id o, lo_quantity o)]
       else queue (h_levels h) p).
    { intros p. rewrite queue_insert. simpl. destruct (Z.eqb_spec p (lo_price o)); [|reflexivity].
      subst p. unfold queue. now rewrite Hg. }
    assert (HQl : queue (h_levels h) (lo_price o) = l_orders l) by (unfold queue; now rewrite Hg).
    split; [|split; [reflexivity|split; [reflexivity|split; [reflexivity|exact HQ]]]].
    destruct Hl. constructor; simpl.
    + apply sorted_insert, Hw.
    + apply Forall_insert; [|apply Hw]. constructor; simpl; auto.
      * destruct (l_orders l); discriminate.
      * apply posq_app. split; auto. repeat constructor. exact Hq.
      * rewrite map_app. apply NoDup_app. split; [auto|]. split; [|repeat constructor; set_solver].
        intros x Hx Hx'. simpl in Hx'. apply elem_of_list_singleton in Hx'. subst x.
        apply elem_of_list_In in Hx. eapply (wf_cache_none h _ (lo_price o) Hw Hc). now rewrite HQl.
      * rewrite sumq_app, lw_total0. unfold sumq. simpl. lia.
    + unfold sumt. rewrite sumv_insert by apply Hw. unfold wget. rewrite Hg. simpl.
      pose proof (hw_total h Hw). unfold sumt in *. lia.
    + lia.
    + rewrite best_of_insert by (auto; apply Hw). now rewrite (hw_best h Hw).
    + apply Hcache, HQ.
  - eexists. split; [reflexivity|]. simpl.
    assert (HQ : forall p, queue (bt_insert (lo_price o) (level_initialize_with_order o) (h_levels h)) p =
       if p =? lo_price o then queue (h_levels h) p ++ [(lo_id o, lo_quantity o)]
       else queue (h_levels h) p).
    { intros p. rewrite queue_insert. simpl. destruct (Z.eqb_spec p (lo_price o)); [|reflexivity].
      subst p. unfold queue. now rewrite Hg. }
    split; [|split; [reflexivity|split; [reflexivity|split; [reflexivity|exact HQ]]]].
    constructor; simpl.
    + apply sorted_insert, Hw.
    + apply Forall_insert; [|apply Hw]. constructor; simpl; auto.
      * repeat constructor. exact Hq.
      * repeat constructor. set_solver.
      * unfold sumq. simpl. lia.
    + unfold sumt. rewrite sumv_insert by apply Hw. unfold wget. rewrite Hg. simpl.
      pose proof (hw_total h Hw). unfold sumt in *. lia.
    + lia.
    + rewrite best_of_insert by (auto; apply Hw). now rewrite (hw_best h Hw).
    + apply Hcache, HQ.
Qed.

(** ** cancel *)
Definition drop_id (id : Z) (q : list (Z * Z)) : list (Z * Z) :=
  List.filter (fun x => negb (fst x =? id)) q.

Lemma drop_id_notin id q : ~ In id (map fst q) -> drop_id id q = q.
Proof.
  unfold drop_id. induction q as [|[k v] t IH]; simpl; [reflexivity|]. intros H.
  destruct (Z.eqb_spec k id); [tauto|]. simpl. rewrite IH; auto.
Qed.

Lemma extract_id_spec id q : NoDup (map fst q) -> In id (map fst q) ->
  exists v, extract_id id q = Some (v, drop_id id q) /\ In (id, v) q /\ sumq (drop_id id q) = sumq q - v.
Proof.
  induction q as [|[k v] t IH]; simpl; [tauto|]. intros Hnd Hin.
  apply NoDup_cons in Hnd as [Hni Hnd]. rewrite elem_of_list_In in Hni.
  destruct (Z.eqb_spec k id) as [->|Hne].
  - exists v. simpl. rewrite drop_id_notin by exact Hni.
    split; [reflexivity|]. split; [now left|]. unfold sumq. simpl. lia.
  - destruct Hin as [?|Hin]; [congruence|]. destruct (IH Hnd Hin) as (v' & E & Hi & Hs).
    rewrite E. exists v'. simpl. split; [reflexivity|]. split; [now right|].
    unfold sumq in *. simpl. lia.
Qed.

Lemma drop_id_In id q x : In x (map fst (drop_id id q)) <-> In x (map fst q) /\ x <> id.
Proof.
  unfold drop_id. induction q as [|[k v] t IH]; simpl; [tauto|].
  destruct (Z.eqb_spec k id); simpl; rewrite IH; intuition congruence.
Qed.

Lemma posq_filter f q : posq q -> posq (List.filter f q).
Proof.
  unfold posq. rewrite !List.Forall_forall. intros H x Hx. apply filter_In in Hx as [Hx _]. auto.
Qed.
Lemma NoDup_map_filter f (q : list (Z * Z)) : NoDup (map fst q) -> NoDup (map fst (List.filter f q)).
Proof.
  induction q as [|[k v] t IH]; simpl; [auto|]. intros H. apply NoDup_cons in H as [H1 H2].
  rewrite elem_of_list_In in H1.
  destruct (f (k, v)); simpl; [|auto]. apply NoDup_cons. split; [|auto].
  rewrite elem_of_list_In. intros Hin. apply H1. apply in_map_iff in Hin as ([a b] & E & Hin).
  apply filter_In in Hin as [Hin _]. apply in_map_iff. eauto.
Qed.

Lemma posq_In q id v : posq q -> In (id, v) q -> 0 < v <= sumq q.
Proof.
  unfold posq, sumq. induction 1 as [|[a b] t H1 H2 IH]; simpl; [tauto|].
  pose proof (sumq_pos t H2). unfold sumq in *. simpl in *.
  intros [E|E]; [injection E as -> ->; lia|]. specialize (IH E). lia.
Qed.

Lemma half_cancel_ok m h id p :
  half_wf h -> h_cache h !! id = Some p ->
  exists h' v, half_cancel m h id = Ret (h', true) /\ half_wf h' /\ h_side h' = h_side h /\
    In (id, v) (queue (h_levels h) p) /\
    h_total h' = h_total h - v /\ h_cache h' = delete id (h_cache h) /\
    forall p', queue (h_levels h') p' = drop_id id (queue (h_levels h) p').
Proof.
  intros Hw Hc. destruct (wf_cache_level h id p Hw Hc) as (l & Hg & Hin).
  pose proof (wf_get h _ _ Hw Hg) as Hl. pose proof (wf_level_le h _ _ Hw Hg) as Hle.
  destruct (extract_id_spec id (l_orders l) (lw_nodup _ _ Hl) Hin) as (v & Ee & Hiv & Hsum).
  pose proof (posq_In _ _ _ (lw_pos _ _ Hl) Hiv) as Hv. rewrite <- (lw_total _ _ Hl) in Hv.
  assert (Hother : forall p', p' <> p -> drop_id id (queue (h_levels h) p') = queue (h_levels h) p').
  { intros p' Hne. apply drop_id_notin. intros Hi. apply (hw_cache h Hw) in Hi. congruence. }
  assert (HQp : queue (h_levels h) p = l_orders l) by (unfold queue; now rewrite Hg).
  assert (Hcache : forall levels', (forall p', queue levels' p' = drop_id id (queue (h_levels h) p')) ->
     cache_ok (delete id (h_cache h)) levels').
  { intros levels' HQ i p'. rewrite HQ, drop_id_In. rewrite lookup_delete_Some.
    rewrite (hw_cache h Hw i p'). intuition congruence. }
  unfold half_cancel, level_cancel. rewrite Hc, Hg, Ee. rewrite usub_ok by lia. simpl.
  rewrite usub_ok by lia. simpl.
  destruct (Z.eqb_spec (l_total l - v) 0) as [Hz|Hnz].
  - assert (Hnil : drop_id id (l_orders l) = []).
    { apply sumq_zero; [apply posq_filter, Hl|]. rewrite Hsum. pose proof (lw_total _ _ Hl). lia. }
    assert (HQ : forall p', queue (bt_remove p (h_levels h)) p' = drop_id id (queue (h_levels h) p')).
    { intros p'. rewrite queue_remove by apply Hw. destruct (Z.eqb_spec p' p); [subst; now rewrite HQp|].
      symmetry. auto. }
    eexists _, v. split; [reflexivity|]. simpl.
    split; [|split; [reflexivity|split; [now rewrite HQp|split; [reflexivity|split; [reflexivity|exact HQ]]]]].
    constructor; simpl.
    + apply sorted_remove, Hw.
    + apply Forall_remove, Hw.
    + unfold sumt. rewrite sumv_remove by apply Hw. unfold wget. rewrite Hg.
      pose proof (hw_total h Hw). unfold sumt in *. lia.
    + pose proof (hw_bound h Hw). lia.
    + destruct (Z.eqb_spec p (h_best h)); [reflexivity|].
      rewrite best_of_remove_other; [apply Hw|apply Hw|]. now rewrite <- (hw_best h Hw).
    + apply Hcache, HQ.
  - assert (HQ : forall p', queue (bt_insert p (Level (l_price l) (drop_id id (l_orders l)) (l_total l - v)) (h_levels h)) p'
        = drop_id id (queue (h_levels h) p')).
    { intros p'. rewrite queue_insert. simpl. destruct (Z.eqb_spec p' p); [subst; now rewrite HQp|].
      symmetry. auto. }
    eexists _, v. split; [reflexivity|]. simpl.
    split; [|split; [reflexivity|split; [now rewrite HQp|split; [reflexivity|split; [reflexivity|exact HQ]]]]].
    destruct Hl. constructor; simpl.
    + apply sorted_insert, Hw.
    + apply Forall_insert; [|apply Hw]. constructor; simpl; auto.
      * intros E. apply Hnz. rewrite lw_total0. rewrite <- Hsum. now rewrite E.
      * now apply posq_filter.
      * now apply NoDup_map_filter.
      * lia.
    + unfold sumt. rewrite sumv_insert by apply Hw. unfold wget. rewrite Hg. simpl.
      pose proof (hw_total h Hw). unfold sumt in *. lia.
    + pose proof (hw_bound h Hw). lia.
    + rewrite best_of_insert_same with (l0 := l) by (auto; apply Hw). apply Hw.
    + apply Hcache, HQ.
Qed.

Lemma half_cancel_none m h id : h_cache h !! id = None -> half_cancel m h id = Ret (h, false).
Proof. intros H. unfold half_cancel. now rewrite H. Qed.

(** ** change_quantity *)
Definition put_qty (id q : Z) (l : list (Z * Z)) : list (Z * Z) :=
  map (fun x => if fst x =? id then (fst x, q) else x) l.

Lemma put_qty_notin id q l : ~ In id (map fst l) -> put_qty id q l = l.
Proof.
  unfold put_qty. induction l as [|[k v] t IH]; simpl; [reflexivity|]. intros H.
  destruct (Z.eqb_spec k id); [tauto|]. rewrite IH; auto.
Qed.

Lemma put_qty_ids id q l : map fst (put_qty id q l) = map fst l.
Proof.
  unfold put_qty. induction l as [|[k v] t IH]; simpl; [reflexivity|]. rewrite IH.
  destruct (k =? id); reflexivity.
Qed.

Lemma set_qty_spec id q l : NoDup (map fst l) -> In id (map fst l) ->
  exists v, set_qty id q l = Some (v, put_qty id q l) /\ In (id, v) l /\
    sumq (put_qty id q l) = sumq l - v + q.
Proof.
  induction l as [|[k v] t IH]; simpl; [tauto|]. intros Hnd Hin.
  apply NoDup_cons in Hnd as [Hni Hnd]. rewrite elem_of_list_In in Hni.
  destruct (Z.eqb_spec k id) as [->|Hne].
  - exists v. fold (put_qty id q t). rewrite put_qty_notin by exact Hni.
    split; [reflexivity|]. split; [now left|]. unfold sumq. simpl. lia.
  - destruct Hin as [?|Hin]; [congruence|]. destruct (IH Hnd Hin) as (v' & E & Hi & Hs).
    rewrite E. exists v'. split; [reflexivity|]. split; [now right|].
    unfold sumq in *. simpl. fold (put_qty id q t). lia.
Qed.

Lemma put_qty_pos id q l : 0 < q -> posq l -> posq (put_qty id q l).
Proof.
  unfold posq, put_qty. rewrite !List.Forall_forall. intros Hq H x Hx.
  apply in_map_iff in Hx as (y & <- & Hy). destruct (fst y =? id); simpl; auto.
Qed.

Lemma half_change_quantity_ok m h id q p :
  half_wf h -> h_cache h !! id = Some p -> 0 < q -> h_total h + q < two64 ->
  exists h' v, half_change_quantity m h id q = Ret (h', true) /\ half_wf h' /\ h_side h' = h_side h /\
    In (id, v) (queue (h_levels h) p) /\ h_total h' = h_total h - v + q /\
    h_cache h' = h_cache h /\
    forall p', queue (h_levels h') p' = put_qty id q (queue (h_levels h) p').
Proof.
  intros Hw Hc Hq Hb. destruct (wf_cache_level h id p Hw Hc) as (l & Hg & Hin).
  pose proof (wf_get h _ _ Hw Hg) as Hl. pose proof (wf_level_le h _ _ Hw Hg) as Hle.
  destruct (set_qty_spec id q (l_orders l) (lw_nodup _ _ Hl) Hin) as (v & Ee & Hiv & Hsum).
  pose proof (posq_In _ _ _ (lw_pos _ _ Hl) Hiv) as Hv. rewrite <- (lw_total _ _ Hl) in Hv.
  assert (HQp : queue (h_levels h) p = l_orders l) by (unfold queue; now rewrite Hg).
  unfold half_change_quantity, level_change_quantity. rewrite Hc, Hg, Ee.
  rewrite uadd_ok by lia. simpl. rewrite usub_ok by lia. simpl.
  rewrite usub_ok by lia. simpl. rewrite uadd_ok by lia. simpl.
  destruct (Z.eqb_spec (l_total l + q - v) 0); [lia|].
  assert (HQ : forall p', queue (bt_insert p (Level (l_price l) (put_qty id q (l_orders l)) (l_total l + q - v)) (h_levels h)) p'
        = put_qty id q (queue (h_levels h) p')).
  { intros p'. rewrite queue_insert. simpl. destruct (Z.eqb_spec p' p); [subst; now rewrite HQp|].
    symmetry. apply put_qty_notin. intros Hi. apply (hw_cache h Hw) in Hi. congruence. }
  eexists _, v. split; [reflexivity|]. simpl.
  split; [|split; [reflexivity|split; [now rewrite HQp|split; [reflexivity|split; [reflexivity|exact HQ]]]]].
  destruct Hl. constructor; simpl.
  - apply sorted_insert, Hw.
  - apply Forall_insert; [|apply Hw]. constructor; simpl; auto.
    + intros E. apply (f_equal (map fst)) in E. rewrite put_qty_ids in E.
      destruct (l_orders l); [tauto|discriminate].
    + now apply put_qty_pos.
    + now rewrite put_qty_ids.
    + lia.
  - unfold sumt. rewrite sumv_insert by apply Hw. unfold wget. rewrite Hg. simpl.
    pose proof (hw_total h Hw). unfold sumt in *. lia.
  - lia.
  - rewrite best_of_insert_same with (l0 := l) by (auto; apply Hw). apply Hw.
  - intros i p'. rewrite HQ, put_qty_ids. apply (hw_cache h Hw).
Qed.

Lemma half_change_quantity_none m h id q :
  h_cache h !! id = None -> half_change_quantity m h id q = Ret (h, false).
Proof. intros H. unfold half_change_quantity. now rewrite H. Qed.
