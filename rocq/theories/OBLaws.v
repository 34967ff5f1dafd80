(** OBLaws.v -- laws of matching, of the reference exchange and of snapshot
    decomposition, used by OBProps.v. *)
From Coq Require Import ZArith List Lia Sorted Bool Permutation.
From stdpp Require Import base gmap.
From Verif Require Import Base OBTypes OBModel OBSpec OBBase OBInv OBRemove OBTrade OBRel OBSim OBSnap OBDec OBStep.
Import ListNotations.
Open Scope Z_scope.

(** Total quantity of an execution report. *)
Definition executed (h : trade_history) : Z := fold_right (fun x a => snd x + a) 0 h.

Definition better_p (s : side) (p q : Z) : Prop := better s p q = true.

Lemma hist_laws s ok pls : forall r, lwf pls -> prio_keys s pls -> 0 <= r ->
  executed (sweep_hist ok r pls) = r - sweep_left ok r pls /\
  Forall (fun x => ok (fst x) = true /\ 0 < snd x /\ In (fst x) (keys pls)) (sweep_hist ok r pls) /\
  StronglySorted (better_p s) (map fst (sweep_hist ok r pls)).
Proof.
  induction pls as [|[p l] t IH]; intros r Hw Hp Hr; simpl.
  - split; [lia|]. split; constructor.
  - apply Forall_cons in Hw as [H1 H2]. simpl in H1. pose proof (lwf_pos _ _ H1) as Hpos.
    unfold prio_keys in Hp. simpl in Hp. inversion Hp as [|? ? Hp' Hf]; subst.
    destruct (negb (ok p) || (r <=? 0)) eqn:E; simpl.
    + split; [lia|]. split; constructor.
    + apply orb_false_iff in E as [E1 E2]. apply negb_false_iff in E1.
      destruct (IH (r - Z.min r (l_total l)) H2 Hp' ltac:(lia)) as (I1 & I2 & I3).
      split; [lia|]. split.
      * constructor; [simpl; split; [exact E1|split; [lia|now left]]|].
        eapply List.Forall_impl; [|exact I2]. simpl. tauto.
      * constructor; [exact I3|]. apply List.Forall_forall. intros x Hx.
        apply in_map_iff in Hx as (y & <- & Hy). rewrite List.Forall_forall in I2, Hf.
        destruct (I2 _ Hy) as (_ & _ & Hk). exact (Hf _ Hk).
Qed.

(** What a crossing execution does to the two sides. *)
Lemma execute_laws s h mk lim ok r mk' hist lft :
  rel_half s h mk -> NoDup (map r_id mk) -> 0 <= r ->
  okmono s ok -> (forall p, acceptable s lim p = ok p) ->
  execute s lim r mk = (mk', hist, lft) ->
  executed hist + lft = r /\ 0 <= lft /\
  Forall (fun x => acceptable s lim (fst x) = true /\ 0 < snd x) hist /\
  StronglySorted (better_p s) (map fst hist) /\
  side_qty s mk' = side_qty s mk - executed hist /\
  (forall h', rel_half (other s) h' mk -> side_qty (other s) mk' = side_qty (other s) mk).
Proof.
  intros Hr Hnd Hr0 Hm Hok E.
  destruct (execute_sweep s h mk lim ok r Hr Hnd Hr0 Hm Hok) as (mk1 & E1 & Hnd' & Hr' & Hoth & Hids).
  rewrite E in E1. injection E1 as -> -> ->.
  pose proof (plevels_lwf h (rh_wf _ _ _ Hr)) as Hlw.
  pose proof (plevels_prio h (rh_wf _ _ _ Hr)) as Hpk. rewrite (rh_side _ _ _ Hr) in Hpk.
  destruct (hist_laws s ok (plevels h) r Hlw Hpk Hr0) as (L1 & L2 & L3).
  destruct (sweep_left_bounds ok (plevels h) r Hlw Hr0) as [B1 B2].
  split; [lia|]. split; [lia|]. split.
  { eapply List.Forall_impl; [|exact L2]. intros x (A & B & _). rewrite Hok. auto. }
  split; [exact L3|]. split.
  - rewrite <- (rel_total _ _ _ Hr'), <- (rel_total _ _ _ Hr).
    destruct (swept_ok ok r h (rh_wf _ _ _ Hr) Hr0) as (_ & _ & Ht & _). rewrite Ht, L1. lia.
  - intros h' Hh'. rewrite <- (rel_total _ _ _ Hh'). symmetry. apply rel_total. apply Hoth; [destruct s; discriminate|exact Hh'].
Qed.

Lemma side_qty_add s o mk : side_qty s (sp_add o mk) =
  side_qty s mk + if side_eqb (lo_side o) s then lo_quantity o else 0.
Proof.
  unfold side_qty, on_side, sp_add. rewrite List.filter_app, total_qty_app. simpl.
  destruct (side_eqb (lo_side o) s); simpl; lia.
Qed.

(** Laws of a limit order on a related book. *)
Lemma limit_laws b mk o :
  rel b mk -> fresh_order mk (lo_id o) (lo_side o) (lo_price o) (lo_quantity o) ->
  let s := other (lo_side o) in
  let '(mk', t) := sp_limit o mk in
  match t with
  | None => side_qty s mk' = side_qty s mk /\
            side_qty (lo_side o) mk' = side_qty (lo_side o) mk + lo_quantity o /\
            mk' = sp_add o mk
  | Some (hist, lft) =>
      executed hist + lft = lo_quantity o /\ 0 <= lft /\
      Forall (fun x => acceptable s (Some (lo_price o)) (fst x) = true /\ 0 < snd x) hist /\
      StronglySorted (better_p s) (map fst hist) /\
      side_qty s mk' = side_qty s mk - executed hist /\
      side_qty (lo_side o) mk' = side_qty (lo_side o) mk + lft /\
      (0 < lft -> In (Rest (lo_id o) (lo_side o) (lo_price o) lft) mk')
  end.
Proof.
  intros Hr (Hni & Hq & Hp & Hb). cbn zeta. unfold sp_limit. set (s := other (lo_side o)).
  destruct (existsb _ _) eqn:Ex.
  - destruct (execute s (Some (lo_price o)) (lo_quantity o) mk) as [[mk1 hist] lft] eqn:Ee.
    destruct (execute_laws s (side_half b s) mk (Some (lo_price o)) (takes s (lo_price o)) (lo_quantity o) mk1 hist lft
       (rel_side b mk s Hr) (rel_nodup b mk Hr) ltac:(lia) (takes_mono s _) (acceptable_takes s _) Ee)
      as (L1 & L2 & L3 & L4 & L5 & L6).
    specialize (L6 _ (rel_side b mk _ Hr)). assert (Eos : other s = lo_side o) by (unfold s; destruct (lo_side o); reflexivity).
    rewrite Eos in L6. split; [exact L1|]. split; [exact L2|]. split; [exact L3|]. split; [exact L4|].
    destruct (Z.ltb_spec 0 lft).
    + rewrite !side_qty_add. cbn [lo_side lo_quantity]. rewrite side_eqb_refl.
      assert (side_eqb (lo_side o) s = false) as -> by (unfold s; destruct (lo_side o); reflexivity).
      split; [lia|]. split; [lia|]. intros _. unfold sp_add. apply in_or_app. right. now left.
    + split; [lia|]. split; [lia|lia].
  - rewrite !side_qty_add, side_eqb_refl.
    assert (side_eqb (lo_side o) s = false) as -> by (unfold s; destruct (lo_side o); reflexivity). split; [lia|]. split; [lia|reflexivity].
Qed.

Lemma market_laws b mk o :
  rel b mk -> 0 <= mo_quantity o ->
  let s := other (mo_side o) in
  let '(mk', t) := sp_market o mk in
  match t with
  | None => mk' = mk /\ on_side s mk = []
  | Some (hist, lft) =>
      executed hist + lft = mo_quantity o /\ 0 <= lft /\
      Forall (fun x => 0 < snd x) hist /\
      StronglySorted (better_p s) (map fst hist) /\
      side_qty s mk' = side_qty s mk - executed hist /\
      side_qty (mo_side o) mk' = side_qty (mo_side o) mk
  end.
Proof.
  intros Hr Hq. cbn zeta. unfold sp_market. set (s := other (mo_side o)).
  destruct (on_side s mk) as [|x t] eqn:Eo; [auto|].
  destruct (execute s None (mo_quantity o) mk) as [[mk1 hist] lft] eqn:Ee.
  destruct (execute_laws s (side_half b s) mk None any_price (mo_quantity o) mk1 hist lft
     (rel_side b mk s Hr) (rel_nodup b mk Hr) ltac:(lia) (any_mono s) ltac:(intros; reflexivity) Ee)
    as (L1 & L2 & L3 & L4 & L5 & L6).
  specialize (L6 _ (rel_side b mk _ Hr)). assert (Eos : other s = mo_side o) by (unfold s; destruct (mo_side o); reflexivity).
  rewrite Eos in L6. split; [exact L1|]. split; [exact L2|].
  split; [eapply List.Forall_impl; [|exact L3]; simpl; tauto|]. auto.
Qed.

(** ** The reference exchange does not cross *)
Definition uncrossed (mk : market) : Prop :=
  forall a b, In a mk -> In b mk -> r_side a = Ask -> r_side b = Bid -> r_price b < r_price a.

(** every order of mk' was in mk, up to its quantity *)
Definition shrunk (mk' mk : market) : Prop :=
  forall x, In x mk' -> exists y, In y mk /\ r_id y = r_id x /\ r_side y = r_side x /\ r_price y = r_price x.

Lemma uncrossed_shrunk mk mk' : shrunk mk' mk -> uncrossed mk -> uncrossed mk'.
Proof.
  intros Hs Hu a b Ha Hb Sa Sb. destruct (Hs a Ha) as (a' & Ha' & _ & Sa' & Pa).
  destruct (Hs b Hb) as (b' & Hb' & _ & Sb' & Pb). rewrite <- Pa, <- Pb. apply Hu; congruence.
Qed.
Lemma shrunk_refl mk : shrunk mk mk.
Proof. intros x Hx. eauto. Qed.
Lemma shrunk_filter f mk : shrunk (List.filter f mk) mk.
Proof. intros x Hx. apply filter_In in Hx as [Hx _]. eauto. Qed.
Lemma shrunk_settle ex mk : shrunk (settle ex mk) mk.
Proof.
  intros x Hx. unfold settle in Hx. apply filter_In in Hx as [Hx _].
  apply in_map_iff in Hx as (y & <- & Hy). exists y. auto.
Qed.
Lemma shrunk_set id q mk : shrunk (sp_set_qty id q mk) mk.
Proof.
  intros x Hx. unfold sp_set_qty in Hx. apply in_map_iff in Hx as (y & <- & Hy). exists y.
  destruct (r_id y =? id); auto.
Qed.

Lemma fill_all l : Forall (fun o => 0 < r_qty o) l -> forall r, 0 <= r -> fills_total (fill r l) < r ->
  forall o f, In (o, f) (fill r l) -> f = r_qty o.
Proof.
  induction 1 as [|x t Hx Ht IH]; intros r Hr Hlt o f Hin; simpl in *; [tauto|].
  destruct (fill_total (r - Z.min (r_qty x) r) t Ht ltac:(lia)) as [E En].
  unfold fills_total in *. simpl in *. destruct Hin as [Eq|Hin].
  - injection Eq as <- <-. lia.
  - apply (IH (r - Z.min (r_qty x) r)); [lia| |exact Hin]. lia.
Qed.

Lemma execute_clears s lim q mk mk' hist lft :
  NoDup (map r_id mk) -> (forall o, In o mk -> 0 < r_qty o) -> 0 <= q ->
  execute s lim q mk = (mk', hist, lft) ->
  shrunk mk' mk /\
  (0 < lft -> forall x, In x mk' -> r_side x = s -> acceptable s lim (r_price x) = false).
Proof.
  intros Hnd Hpos Hq E. unfold execute in E. injection E as <- _ Hl. split; [apply shrunk_settle|].
  intros Hpl x Hx Hxs.
  destruct (acceptable s lim (r_price x)) eqn:Ha; [|reflexivity]. exfalso.
  unfold settle in Hx. apply filter_In in Hx as [Hx Hq0]. apply in_map_iff in Hx as (y & <- & Hy). simpl in *.
  set (cs := List.filter (fun o => acceptable s lim (r_price o)) (by_priority s (on_side s mk))) in *.
  assert (Hcin : forall o, In o cs <-> In o mk /\ r_side o = s /\ acceptable s lim (r_price o) = true).
  { intros o. unfold cs. rewrite filter_In.
    assert (In o (by_priority s (on_side s mk)) <-> In o (on_side s mk)) as ->.
    { split; apply Permutation_in; [|symmetry]; apply perm_by_priority. }
    rewrite on_side_In. tauto. }
  assert (Hcpos : Forall (fun o => 0 < r_qty o) cs) by (apply List.Forall_forall; intros o Ho; apply Hcin in Ho; apply Hpos; tauto).
  assert (Hexnd : NoDup (map (fun x => r_id (fst x)) (fill q cs))).
  { rewrite fill_ids. unfold cs. apply nodup_filter.
    assert (Hp : Permutation (map r_id (by_priority s (on_side s mk))) (map r_id (on_side s mk)))
      by (apply Permutation_map, perm_by_priority).
    apply NoDup_ListNoDup. eapply Permutation_NoDup; [symmetry; exact Hp|]. apply NoDup_ListNoDup.
    unfold on_side. now apply nodup_filter. }
  assert (Hyc : In y cs) by (apply Hcin; auto).
  rewrite <- (fill_fst q cs) in Hyc. apply in_map_iff in Hyc as ([y' f] & Ey & Hyf). simpl in Ey. subst y'.
  rewrite (filled_of_In _ y f Hexnd Hyf) in Hq0.
  assert (f = r_qty y) by (eapply fill_all; eauto; lia). lia.
Qed.

Definition all_pos (mk : market) : Prop := forall o, In o mk -> 0 < r_qty o.
Lemma rel_all_pos b mk : rel b mk -> all_pos mk.
Proof. intros Hr o Ho. exact (rel_pos (r_side o) (side_half b (r_side o)) mk o (rel_side b mk _ Hr) Ho eq_refl). Qed.

Lemma limit_uncrossed b mk o : rel b mk -> 0 < lo_quantity o -> uncrossed mk -> uncrossed (fst (sp_limit o mk)).
Proof.
  intros Hr Hq Hu. unfold sp_limit. set (s := other (lo_side o)).
  assert (Hadd : forall mk1 q, uncrossed mk1 ->
     (forall x, In x mk1 -> r_side x = s -> acceptable s (Some (lo_price o)) (r_price x) = false) ->
     uncrossed (sp_add (LimitOrder (lo_price o) q (lo_side o) (lo_id o)) mk1)).
  { intros mk1 q Hu1 Hn a b0 Ha Hb0 Sa Sb. unfold sp_add in *. cbn [lo_id lo_side lo_price lo_quantity] in *.
    apply in_app_iff in Ha as [Ha|[<-|[]]]; apply in_app_iff in Hb0 as [Hb0|[<-|[]]]; auto; simpl in *.
    - specialize (Hn a Ha). unfold s in Hn. rewrite Sb in Hn. specialize (Hn Sa). simpl in Hn. lia.
    - specialize (Hn b0 Hb0). unfold s in Hn. rewrite Sa in Hn. specialize (Hn Sb). simpl in Hn. lia.
    - congruence. }
  destruct (existsb _ _) eqn:Ex.
  - destruct (execute s (Some (lo_price o)) (lo_quantity o) mk) as [[mk1 hist] lft] eqn:Ee.
    destruct (execute_clears s (Some (lo_price o)) (lo_quantity o) mk mk1 hist lft (rel_nodup b mk Hr) (rel_all_pos b mk Hr) ltac:(lia) Ee) as [H1 H2].
    cbn [fst]. destruct (Z.ltb_spec 0 lft).
    + apply Hadd; [eapply uncrossed_shrunk; eauto|auto].
    + eapply uncrossed_shrunk; eauto.
  - cbn [fst]. replace o with (LimitOrder (lo_price o) (lo_quantity o) (lo_side o) (lo_id o)) by now destruct o.
    apply Hadd; [exact Hu|]. intros x Hx Hs.
    destruct (acceptable s (Some (lo_price o)) (r_price x)) eqn:Ea; [|reflexivity].
    assert (existsb (fun x => acceptable s (Some (lo_price o)) (r_price x)) (on_side s mk) = true); [|congruence].
    apply existsb_exists. exists x. split; [apply on_side_In; auto|exact Ea].
Qed.

Definition matching (r : request) : Prop :=
  match r with QLimit _ | QMarket _ | QCancel _ | QModify _ | QChangeQty _ _ | QRemove _ => True | _ => False end.

Lemma shrunk_cancel id mk : shrunk (fst (sp_cancel id mk)) mk.
Proof. unfold sp_cancel. destruct (OBSpec.lookup id mk); [apply shrunk_filter|apply shrunk_refl]. Qed.

Lemma step_uncrossed b mk c r : rel b mk -> valid (mk, c) r -> matching r -> uncrossed mk ->
  uncrossed (fst (fst (sp_step (mk, c) r))).
Proof.
  intros Hr Hv Hm Hu. destruct r; cbn [matching] in Hm; try tauto; cbn [sp_step valid] in *.
  - pose proof (limit_uncrossed b mk o Hr) as H. destruct Hv as [(_ & Hq & _) _]. specialize (H Hq Hu).
    destruct (sp_limit o mk). exact H.
  - unfold sp_market. destruct (on_side _ mk) eqn:Eo; [exact Hu|].
    destruct (execute _ None (mo_quantity o) mk) as [[mk1 hist] lft] eqn:Ee.
    destruct (execute_clears (other (mo_side o)) None (mo_quantity o) mk mk1 hist lft (rel_nodup b mk Hr) (rel_all_pos b mk Hr) ltac:(unfold is_u64 in Hv; lia) Ee) as [H1 _].
    eapply uncrossed_shrunk; eauto.
  - pose proof (shrunk_cancel id mk) as H. destruct (sp_cancel id mk). eapply uncrossed_shrunk; eauto.
  - unfold sp_modify. pose proof (lookup_spec (mod_id o) mk) as Hl.
    destruct (OBSpec.lookup (mod_id o) mk) as [x|] eqn:El; [|exact Hu].
    destruct (Hv x eq_refl) as (Hq & _).
    destruct (r_price x =? mod_price o); [eapply uncrossed_shrunk; [apply shrunk_set|exact Hu]|].
    destruct (sim_cancel 
       Checked b mk (mod_id o) Hr) as (b1 & ok & _ & Es & Hr1 & _).
    assert (Hu1 : uncrossed (fst (sp_cancel (mod_id o) mk))) by (eapply uncrossed_shrunk; [apply shrunk_cancel|exact Hu]).
    rewrite Es in *. cbn [fst] in *.
    pose proof (limit_uncrossed b1 _ (LimitOrder (mod_price o) (mod_quantity o) (r_side x) (mod_id o)) Hr1 Hq Hu1) as H.
    destruct (sp_limit _ _). exact H.
  - unfold sp_change_quantity. destruct (OBSpec.lookup id mk); [|exact Hu]. eapply uncrossed_shrunk; [apply shrunk_set|exact Hu].
  - unfold sp_remove_any. cbn [fst]. eapply uncrossed_shrunk; [apply shrunk_settle|exact Hu].
Qed.

(** ** Youngest first: what stays are the oldest orders *)
Fixpoint keep_oldest (k : Z) (l : list (Z * Z)) : list (Z * Z) :=
  match l with
  | [] => []
  | (i, v) :: t => if k <=? 0 then [] else if v <=? k then (i, v) :: keep_oldest (k - v) t else [(i, k)]
  end.

Lemma keep_oldest_app k a b : posq a ->
  keep_oldest k (a ++ b) = if k <? sumq a then keep_oldest k a else a ++ keep_oldest (k - sumq a) b.
Proof.
  intros Ha. revert k. induction Ha as [|[i v] t Hv Ht IH]; intros k; simpl in *.
  - unfold sumq. simpl. destruct (Z.ltb_spec k 0); [|now rewrite Z.sub_0_r].
    destruct b as [|[j w] u]; simpl; [reflexivity|]. destruct (Z.leb_spec k 0); [reflexivity|lia].
  - pose proof (sumq_pos t Ht). unfold sumq in *. simpl. rewrite IH.
    destruct (Z.leb_spec k 0); [destruct (Z.ltb_spec k (v + fold_right (fun x a => snd x + a) 0 t)); [reflexivity|lia]|].
    destruct (Z.leb_spec v k).
    + destruct (Z.ltb_spec (k - v) (fold_right (fun x a => snd x + a) 0 t));
        destruct (Z.ltb_spec k (v + fold_right (fun x a => snd x + a) 0 t)); try lia; [reflexivity|].
      simpl. do 3 f_equal. lia.
    + destruct (Z.ltb_spec k (v + fold_right (fun x a => snd x + a) 0 t)); [reflexivity|lia].
Qed.
Lemma keep_oldest_all l : posq l -> forall k, sumq l <= k -> keep_oldest k l = l.
Proof.
  induction 1 as [|[i v] t Hv Ht IH]; intros k Hk; simpl in *; [reflexivity|].
  pose proof (sumq_pos t Ht). unfold sumq in *. simpl in Hk.
  destruct (Z.leb_spec k 0); [lia|]. destruct (Z.leb_spec v k); [|lia]. rewrite IH by lia. reflexivity.
Qed.
Lemma keep_oldest_none l k : k <= 0 -> keep_oldest k l = [].
Proof. intros H. destruct l as [|[i v] t]; simpl; [reflexivity|]. destruct (Z.leb_spec k 0); [reflexivity|lia]. Qed.

Lemma eat_rev_keep l : posq l -> forall r, 0 <= r -> rev (eat r (rev l)) = keep_oldest (sumq l - r) l.
Proof.
  induction l as [|[i v] l IH] using rev_ind; intros Hp r Hr; [reflexivity|].
  apply posq_app in Hp as [Hp Hx]. inversion Hx as [|? ? Hv _]; subst. simpl in Hv.
  rewrite rev_app_distr. simpl. rewrite keep_oldest_app by exact Hp.
  assert (Es : sumq (l ++ [(i, v)]) = sumq l + v) by (rewrite sumq_app; unfold sumq; simpl; lia). rewrite Es.
  destruct (Z.leb_spec r 0).
  - simpl. rewrite rev_involutive. destruct (Z.ltb_spec (sumq l + v - r) (sumq l)); [lia|].
    destruct (Z.leb_spec (sumq l + v - r - sumq l) 0); [lia|].
    destruct (Z.leb_spec v (sumq l + v - r - sumq l)); [reflexivity|lia].
  - destruct (Z.ltb_spec r v).
    + simpl. rewrite rev_involutive. destruct (Z.ltb_spec (sumq l + v - r) (sumq l)); [lia|].
      destruct (Z.leb_spec (sumq l + v - r - sumq l) 0); [lia|].
      destruct (Z.leb_spec v (sumq l + v - r - sumq l)); [lia|]. do 3 f_equal. lia.
    + rewrite IH by (auto; lia). replace (sumq l - (r - v)) with (sumq l + v - r) by lia.
      destruct (Z.ltb_spec (sumq l + v - r) (sumq l)); [reflexivity|].
      assert (r = v) by lia. rewrite (keep_oldest_all l Hp (sumq l + v - r)) by lia.
      rewrite (keep_oldest_none [(i, v)]) by lia. now rewrite app_nil_r.
Qed.
