(** SpinProps.v -- properties C42-C49 of the spin queue
    (trading-engine/src/spinqueue.rs), for every history the release-acquire
    machine of SpinModel.v can produce. *)
From Coq Require Import ZArith List Bool Lia ListDec.
From Verif Require Import Base SpinModel SpinSpec SpinProofs SpinInv SpinLive SpinDrive.
Import ListNotations.
Open Scope Z_scope.

(** The situation all theorems talk about: a queue built by
    [DataSpinQueue::new(d, ws)] from identities made by [WorkerId::new], used
    by a proper cast, and a contract-keeping history [h] that led to [s]. *)
Definition in_use {T} (m : build) (ws : list worker_id) (q : queue) (c : @cast) (d : T)
    (h : history T) (s : machine T) : Prop :=
  Forall (fun w => exists m' id, 0 <= id /\ worker_new m' id = Ret (ROk w)) ws /\
  queue_new m ws = Ret (ROk q) /\ @proper_cast c /\
  exec q (start d) h s /\ contract c h.

(** Thread [t] plays the worker [w] of [ws]. *)
Definition plays (c : @cast) (ws : list worker_id) (t : tid) (w : worker_id) : Prop :=
  identity c t = Some w /\ In (wid w) (map wid ws).

Lemma in_use_inv : forall T m ws q c (d : T) h s, in_use m ws q c d h s ->
  exists s0, inv c (map wid ws) d s0 h s.
Proof.
  intros T m ws q c d h s (Hm & Hq & Hc & X & HC).
  destruct (queue_new_full m ws q Hm Hq) as (_ & _ & H16 & Hr & Hf).
  exact (inv_exec c q (map wid ws) d Hc H16 Hf h s X HC).
Qed.

(** A concrete run used by the examples: producer 0, workers 1 (id 0) and 2
    (id 3); 10 is published, both workers take it, one with a stale load
    first; then 20 is published and worker 2 takes it. *)
Definition w0 : worker_id := WorkerId 0 1 65534.
Definition w3 : worker_id := WorkerId 3 8 65527.
Definition ex_cast : @cast :=
  Cast 0%nat (fun t => match t with 1%nat => Some w0 | 2%nat => Some w3 | _ => None end).
Definition ex_queue : queue := Queue (Some tt) 9.
Definition ex_run : list chosen :=
  [(0, EGetMut true, 0); (0, EWrite 10%Z, 0); (0, ENotify, 1);
   (1, EGet w0 true, 1); (2, EGet w3 false, 0); (1, ERead 10%Z, 0); (2, EGet w3 true, 1);
   (2, ERead 10%Z, 0); (1, EDone w0, 1); (0, EGetMut false, 2); (2, ERead 10%Z, 0); (2, EDone w3, 2);
   (0, EGetMut false, 2); (0, EGetMut true, 3); (0, EWrite 20%Z, 0); (0, ENotify, 4);
   (2, EGet w3 true, 4)]%nat.

Lemma ex_cast_proper : @proper_cast ex_cast.
Proof.
  split; [reflexivity|]. split.
  - intros t w E. cbn in E. destruct t as [|[|[|t]]]; try discriminate; inversion E; subst.
    + exists Checked, 0. split; [lia|reflexivity].
    + exists Checked, 3. split; [lia|reflexivity].
  - intros t1 t2 v1 v2 E1 E2 Q. cbn in E1, E2.
    destruct t1 as [|[|[|t1]]]; try discriminate; destruct t2 as [|[|[|t2]]]; try discriminate; try reflexivity;
      inversion E1; inversion E2; subst; discriminate.
Qed.

Ltac contract_tac :=
  split; [vm_compute; repeat constructor|];
  let t := fresh "t" in let N := fresh "N" in
  intros t N; destruct t as [|[|[|t]]]; [contradiction N; reflexivity| | |]; vm_compute;
  repeat constructor.

Lemma ex_in_use : exists s, in_use Checked [w0; w3] ex_queue ex_cast 5 (shown ex_run) s.
Proof.
  destruct (drive ex_queue (start 5) ex_run) as [s|] eqn:D; [|vm_compute in D; discriminate].
  exists s. split.
  - repeat constructor; [exists Checked, 0|exists Checked, 3]; (split; [lia|reflexivity]).
  - split; [reflexivity|]. split; [exact ex_cast_proper|]. split; [exact (drive_exec _ _ _ _ D)|].
    contract_tac.
Qed.

(** ** C42: no data race *)

(** Whatever the interleaving and however stale the loads, no access to the
    datum that keeps the contract is a data race. *)
Theorem C42_no_data_race : forall T m ws q c (d : T) h s t e s',
  in_use m ws q c d h s -> step q s t e s' -> contract c (h ++ [(t, e)]) ->
  ~ races s t e.
Proof.
  intros T m ws q c d h s t e s' HU St HC R.
  destruct (in_use_inv _ _ _ _ _ _ _ _ HU) as [s0 I]. destruct HU as (Hm & Hq & Hc & X & _).
  destruct (contract_snoc _ _ _ _ HC) as [_ [[-> A]|(N & w & E & A)]].
  - assert (B : e <> EGetMut true) by (intros ->; exact R).
    destruct e; cbn [races] in R; try contradiction; destruct R as (t' & N & L);
      destruct (i_busyP _ _ _ _ _ _ I A) as (_ & _ & K); specialize (K t'); unfold P in K.
    + lia.
    + pose proof (i_lw _ _ _ _ _ _ I t'). lia.
  - destruct e; cbn [races] in R; try contradiction. destruct R as (t' & N' & L).
    destruct (i_busy _ _ _ _ _ _ I _ _ E A) as (_ & _ & K).
    destruct (Nat.eq_dec t' (producer c)) as [->|D].
    + pose proof (i_lw _ _ _ _ _ _ I (producer c)). unfold P in K. lia.
    + pose proof (i_lwz _ _ _ _ _ _ I t' D). lia.
Qed.
Print Assumptions C42_no_data_race.

(** The next event of the concrete run, a read by worker 2, meets the
    hypotheses. *)
Example C42_hypotheses_met : exists s s',
  in_use Checked [w0; w3] ex_queue ex_cast 5 (shown ex_run) s /\
  step ex_queue s 2%nat (ERead 20) s' /\ contract ex_cast (shown ex_run ++ [(2%nat, ERead 20)]).
Proof.
  destruct ex_in_use as [s HU].
  assert (Hd : datum s = 20).
  { destruct (in_use_inv _ _ _ _ _ _ _ _ HU) as [s0 I]. rewrite (i_datum _ _ _ _ _ _ I). reflexivity. }
  exists s. eexists. split; [exact HU|]. split.
  - rewrite <- Hd. constructor.
  - contract_tac.
Qed.

(** ** C43: exclusion *)

(** The producer is between a [get_mut] that answered [Some] and its
    notification; a worker is between a [get] that answered [Some] and its
    [work_done]. *)
Definition producer_inside {T} (c : @cast) (h : history T) : Prop :=
  exists h1 h2, h = h1 ++ (producer c, EGetMut true) :: h2 /\ ~ In (producer c, ENotify) h2.
Definition worker_inside {T} (t : tid) (h : history T) : Prop :=
  exists h1 w h2, h = h1 ++ (t, EGet w true) :: h2 /\ forall w', ~ In (t, EDone w') h2.

Lemma acts_cons : forall T t (e : event T) h2, acts t ((t, e) :: h2) = e :: acts t h2.
Proof. intros. unfold acts. cbn. rewrite Nat.eqb_refl. reflexivity. Qed.

Lemma acts_app : forall T t (h1 h2 : history T), acts t (h1 ++ h2) = acts t h1 ++ acts t h2.
Proof. intros. unfold acts. rewrite filter_app, map_app. reflexivity. Qed.

Lemma in_acts : forall T t (e : event T) h, In e (acts t h) -> In (t, e) h.
Proof.
  intros T t e h H. unfold acts in H. apply in_map_iff in H. destruct H as ([t' e'] & <- & H).
  apply filter_In in H. destruct H as [H Q]. cbn in Q. apply Nat.eqb_eq in Q. cbn. subst; exact H.
Qed.

Lemma pphase_app : forall T (l1 l2 : list (event T)) b, pphase b (l1 ++ l2) = pphase (pphase b l1) l2.
Proof. intros T l1. induction l1 as [|e l1 IH]; intros; cbn; [reflexivity|]. destruct e; apply IH. Qed.
Lemma wphase_app : forall T (l1 l2 : list (event T)) b, wphase b (l1 ++ l2) = wphase (wphase b l1) l2.
Proof. intros T l1. induction l1 as [|e l1 IH]; intros; cbn; [reflexivity|]. destruct e; apply IH. Qed.

Lemma producer_ok_app : forall T (l1 l2 : list (event T)) b, producer_ok b (l1 ++ l2) ->
  producer_ok (pphase b l1) l2.
Proof.
  intros T l1. induction l1 as [|e l1 IH]; intros l2 b H; cbn [app pphase] in *; [exact H|].
  inversion H; subst; apply IH; assumption.
Qed.
Lemma worker_ok_app : forall T w (l1 l2 : list (event T)) b, worker_ok w b (l1 ++ l2) ->
  worker_ok w (wphase b l1) l2.
Proof.
  intros T w l1. induction l1 as [|e l1 IH]; intros l2 b H; cbn [app wphase] in *; [exact H|].
  inversion H; subst; apply IH; assumption.
Qed.

Lemma pphase_stays : forall T (l : list (event T)), producer_ok true l -> ~ In ENotify l -> pphase true l = true.
Proof.
  intros T l. induction l as [|e l IH]; intros H N; [reflexivity|].
  inversion H; subst; cbn [pphase].
  - apply IH; [assumption|]. intro; apply N; right; assumption.
  - apply IH; [assumption|]. intro; apply N; right; assumption.
  - exfalso. apply N. left; reflexivity.
Qed.
Lemma wphase_stays : forall T w (l : list (event T)), worker_ok w true l -> (forall w', ~ In (EDone w') l) ->
  wphase true l = true.
Proof.
  intros T w l. induction l as [|e l IH]; intros H N; [reflexivity|].
  inversion H; subst; cbn [wphase].
  - apply IH; [assumption|]. intros w' HI. apply (N w'). right; assumption.
  - exfalso. apply (N w). left; reflexivity.
Qed.

Lemma inside_busyP : forall T c (h : history T), contract c h -> producer_inside c h -> busyP c h = true.
Proof.
  intros T c h [HP _] (h1 & h2 & -> & N). unfold busyP, P.
  rewrite acts_app, acts_cons in *.
  pose proof (producer_ok_app _ _ _ _ HP) as H. rewrite pphase_app.
  inversion H; subst. cbn [pphase].
  apply pphase_stays; [assumption|]. intro HI. apply N. apply in_acts. exact HI.
Qed.

Lemma inside_busyW : forall T c (h : history T) t w, contract c h -> t <> producer c -> identity c t = Some w ->
  worker_inside t h -> busyW t h = true.
Proof.
  intros T c h t w [_ HW] NP E (h1 & w' & h2 & -> & N). unfold busyW.
  specialize (HW t NP). rewrite E in HW. rewrite acts_app, acts_cons in *.
  pose proof (worker_ok_app _ _ _ _ _ HW) as H. rewrite wphase_app.
  inversion H; subst. cbn [wphase].
  eapply wphase_stays; [eassumption|]. intros w'' HI. apply (N w''). apply in_acts. exact HI.
Qed.

(** While the producer may touch the datum no worker may, and conversely. *)
Theorem C43_exclusion : forall T m ws q c (d : T) h s t,
  in_use m ws q c d h s -> t <> producer c -> producer_inside c h -> ~ worker_inside t h.
Proof.
  intros T m ws q c d h s t HU N HP HW.
  destruct (in_use_inv _ _ _ _ _ _ _ _ HU) as [s0 I]. destruct HU as (Hm & Hq & Hc & X & HC).
  pose proof (inside_busyP _ _ _ HC HP) as B.
  destruct (identity c t) as [w|] eqn:E.
  - destruct (busyP_no_worker c _ d Hc _ _ _ I B t w E) as [BW _].
    rewrite (inside_busyW _ _ _ _ _ HC N E HW) in BW. discriminate.
  - destruct HC as [_ HCW]. specialize (HCW t N). rewrite E in HCW.
    destruct HW as (h1 & w' & h2 & -> & _). rewrite acts_app, acts_cons in HCW. destruct (acts t h1); discriminate.
Qed.
Print Assumptions C43_exclusion.

Example C43_hypotheses_met : exists s,
  in_use Checked [w0; w3] ex_queue ex_cast 5 (shown (firstn 2 ex_run)) s /\
  producer_inside ex_cast (shown (firstn 2 ex_run)).
Proof.
  destruct (drive ex_queue (start 5) (firstn 2 ex_run)) as [s|] eqn:D; [|vm_compute in D; discriminate].
  exists s. split.
  - split; [repeat constructor; [exists Checked, 0|exists Checked, 3]; (split; [lia|reflexivity])|].
    split; [reflexivity|]. split; [exact ex_cast_proper|]. split; [exact (drive_exec _ _ _ _ D)|].
    contract_tac.
  - exists [], [(0%nat, EWrite 10)]. split; [reflexivity|]. intros [H|[]]. discriminate.
Qed.

(** ** C44: every item reaches every worker exactly once, in order *)

(** A worker never falls more than one item behind and never takes an item
    twice; [get_mut] answers [Some] only when every worker has finished every
    item; and every value read by a worker in its section is the item it is
    at: the k-th item it took is the k-th item published. *)
Theorem C44_exactly_once_in_order : forall T m ws q c (d : T) h s,
  in_use m ws q c d h s ->
  (forall t w, plays c ws t w ->
     (finished t h <= taken t h <= finished t h + 1)%nat /\
     (taken t h <= publications c h <= finished t h + 1)%nat) /\
  (forall s' t w, step q s (producer c) (EGetMut true) s' ->
     contract c (h ++ [(producer c, EGetMut true)]) -> plays c ws t w ->
     finished t h = publications c h) /\
  (forall s' t w v, step q s t (ERead v) s' -> contract c (h ++ [(t, ERead v)]) -> plays c ws t w ->
     (0 < taken t h)%nat /\ nth_error (published d h) (taken t h - 1) = Some v).
Proof.
  intros T m ws q c d h s HU.
  destruct (in_use_inv _ _ _ _ _ _ _ _ HU) as [s0 I]. destruct HU as (Hm & Hq & Hc & X & HC).
  assert (TK : forall t w, identity c t = Some w ->
     (taken t h = finished t h + if busyW t h then 1 else 0)%nat).
  { intros t w E. assert (NP : t <> producer c) by (eapply producer_not_worker; eauto).
    destruct HC as [_ HCW]. specialize (HCW t NP). rewrite E in HCW.
    pose proof (worker_counts _ _ _ HCW) as WC. unfold taken, finished, busyW.
    destruct (wphase false (acts t h)); lia. }
  split; [|split].
  - intros t w [E Hin]. pose proof (TK _ _ E) as W.
    pose proof (i_round _ _ _ _ _ _ I _ _ E Hin) as R. unfold n_of in R.
    destruct (busyW t h) eqn:B.
    + destruct (i_busy _ _ _ _ _ _ I _ _ E B) as (L & _). unfold n_of in L. lia.
    + lia.
  - intros s' t w St HC1 [E Hin].
    assert (X1 : exec q (start d) (h ++ [(producer c, EGetMut true)]) s') by (econstructor; eauto).
    assert (HU1 : in_use m ws q c d (h ++ [(producer c, EGetMut true)]) s').
    { split; [exact Hm|]. split; [exact Hq|]. split; [exact Hc|]. split; assumption. }
    destruct (in_use_inv _ _ _ _ _ _ _ _ HU1) as [s1 I1].
    assert (B : busyP c (h ++ [(producer c, EGetMut true)]) = true) by apply busyP_same.
    destruct (busyP_no_worker c _ d Hc _ _ _ I1 B t w E) as [_ HF]. specialize (HF Hin).
    rewrite fin_snoc, n_snoc in HF. cbn [is_notify is_done] in HF. rewrite !andb_false_r in HF.
    unfold n_of in HF. lia.
  - intros s' t w v St HC1 [E Hin].
    assert (NP : t <> producer c) by (eapply producer_not_worker; eauto).
    destruct (contract_snoc _ _ _ _ HC1) as [_ [[Q _]|(_ & w' & E' & B)]]; [contradiction|].
    change (busyW t h = true) in B. pose proof (TK _ _ E) as W. rewrite B in W.
    destruct (i_busy _ _ _ _ _ _ I _ _ E B) as (L & _).
    pose proof (i_round _ _ _ _ _ _ I _ _ E Hin) as R.
    assert (BP : busyP c h = false).
    { destruct (busyP c h) eqn:BP; [|reflexivity].
      destruct (busyP_no_worker c _ d Hc _ _ _ I BP _ _ E). congruence. }
    split; [lia|]. replace (taken t h - 1)%nat with (n_of c h - 1)%nat by lia.
    rewrite (i_plast _ _ _ _ _ _ I BP) by lia. inversion St; subst. reflexivity.
Qed.
Print Assumptions C44_exactly_once_in_order.

Example C44_hypotheses_met : exists s,
  in_use Checked [w0; w3] ex_queue ex_cast 5 (shown ex_run) s /\
  plays ex_cast [w0; w3] 2%nat w3 /\
  publications ex_cast (shown ex_run) = 2%nat /\
  published 5 (shown ex_run) = [10; 20] /\ taken 2%nat (shown ex_run) = 2%nat /\ finished 1%nat (shown ex_run) = 1%nat.
Proof.
  destruct ex_in_use as [s HU]. exists s. split; [exact HU|].
  split; [split; [reflexivity|right; left; reflexivity]|]. repeat split.
Qed.

(** ** C45: progress *)

(** If every registered identity is held by some thread, then from every
    contract-keeping state the workers alone can finish everything published,
    after which [get_mut] can answer [Some]: the protocol cannot deadlock and
    no wake-up is lost. *)
Theorem C45_no_deadlock : forall T m ws q c (d : T) h s,
  in_use m ws q c d h s ->
  (forall w, In w ws -> exists t, identity c t = Some w) ->
  exists h' s', in_use m ws q c d (h ++ h') s' /\
    (forall te, In te h' -> fst te <> producer c) /\
    (forall t w, plays c ws t w -> finished t (h ++ h') = publications c (h ++ h')) /\
    exists s'', step q s' (producer c) (EGetMut true) s''.
Proof.
  intros T m ws q c d h s HU Hheld.
  destruct HU as (Hm & Hq & Hc & X & HC).
  destruct (queue_new_full m ws q Hm Hq) as (Hnd & _ & H16 & Hr & Hf).
  destruct (finish_all c q (map wid ws) d Hc H16 Hf (map wid ws) h s X HC) as (h' & s' & X' & HC' & F & A).
  { apply incl_refl. }
  { intros j Hj. apply in_map_iff in Hj. destruct Hj as (w & <- & Hw).
    destruct (Hheld w Hw) as (t & E). exists t, w. auto. }
  exists h', s'. split.
  { split; [exact Hm|]. split; [exact Hq|]. split; [exact Hc|]. split; assumption. }
  split; [intros te Hte; rewrite Forall_forall in F; exact (F te Hte)|].
  split.
  - intros t w [E Hin]. destruct (A (wid w) Hin) as (t' & w' & E' & Ew & HF).
    destruct Hc as (_ & _ & Hu). rewrite (Hu t t' w w' E E' (eq_sym Ew)). exact HF.
  - exact (get_mut_possible c q (map wid ws) d Hc H16 Hf _ s' X' HC' A).
Qed.
Print Assumptions C45_no_deadlock.

Example C45_hypotheses_met : exists s,
  in_use Checked [w0; w3] ex_queue ex_cast 5 (shown ex_run) s /\
  (forall w, In w [w0; w3] -> exists t, identity ex_cast t = Some w).
Proof.
  destruct ex_in_use as [s HU]. exists s. split; [exact HU|].
  intros w [<-|[<-|[]]]; [exists 1%nat|exists 2%nat]; reflexivity.
Qed.

(** An item that is waiting is visible: a worker outside its section with an
    unfinished item can get it at once (its load only has to see the newest
    status). *)
Theorem C45_waiting_item_visible : forall T m ws q c (d : T) h s t w,
  in_use m ws q c d h s -> plays c ws t w ->
  taken t h = finished t h -> (finished t h < publications c h)%nat ->
  exists s', step q s t (EGet w true) s'.
Proof.
  intros T m ws q c d h s t w (Hm & Hq & Hc & X & HC) [E Hin] TK L.
  destruct (queue_new_full m ws q Hm Hq) as (Hnd & _ & H16 & Hr & Hf).
  eapply (get_possible c q (map wid ws) d); eauto.
  assert (NP : t <> producer c) by (eapply producer_not_worker; eauto).
  destruct HC as [_ HCW]. specialize (HCW t NP). rewrite E in HCW.
  pose proof (worker_counts _ _ _ HCW) as WC. unfold taken, finished, busyW in *.
  destruct (wphase false (acts t h)); [lia|reflexivity].
Qed.
Print Assumptions C45_waiting_item_visible.

Example C45_waiting_hypotheses_met : exists s,
  in_use Checked [w0; w3] ex_queue ex_cast 5 (shown ex_run) s /\ plays ex_cast [w0; w3] 1%nat w0 /\
  taken 1%nat (shown ex_run) = finished 1%nat (shown ex_run) /\
  (finished 1%nat (shown ex_run) < publications ex_cast (shown ex_run))%nat.
Proof.
  destruct ex_in_use as [s HU]. exists s. split; [exact HU|].
  split; [split; [reflexivity|left; reflexivity]|]. split; [reflexivity|]. vm_compute. lia.
Qed.

(** ** C46: construction *)

(** [WorkerId::new] accepts exactly 0..15 and [DataSpinQueue::new] accepts
    exactly the identity lists without repetition; neither panics. *)
Theorem C46_construction : forall m,
  (forall id, 0 <= id < 65536 ->
     (id <= 15 <-> exists w, worker_new m id = Ret (ROk w) /\ wid w = id) /\
     (15 < id <-> worker_new m id = Ret RErr)) /\
  (forall ws, Forall (fun w => exists m' id, 0 <= id /\ worker_new m' id = Ret (ROk w)) ws ->
     (NoDup (map wid ws) <-> exists q, queue_new m ws = Ret (ROk q)) /\
     (~ NoDup (map wid ws) <-> queue_new m ws = Ret RErr)).
Proof.
  intro m. split.
  - intros id Hid.
    assert (A : id <= 15 -> exists w, worker_new m id = Ret (ROk w) /\ wid w = id).
    { intro H. unfold worker_new, id_bound. destruct (Z.ltb_spec 15 id); [lia|].
      rewrite shl1_small by lia. eexists; split; reflexivity. }
    assert (B : 15 < id -> worker_new m id = Ret RErr).
    { intro H. unfold worker_new, id_bound. destruct (Z.ltb_spec 15 id); [reflexivity|lia]. }
    split; split; [exact A| |exact B|].
    + intros (w & E & _). destruct (Z_le_gt_dec id 15); [assumption|]. rewrite B in E by lia. discriminate.
    + intro E. destruct (Z_le_gt_dec id 15) as [L|L]; [|lia]. destruct (A L) as (w & E' & _). congruence.
  - intros ws Hm.
    destruct (collect_ids_spec ws [] (NoDup_nil _)) as [A B]. cbn [app] in A, B.
    assert (A' : NoDup (map wid ws) -> exists q, queue_new m ws = Ret (ROk q)).
    { intro Hn. unfold queue_new. rewrite (A Hn).
      assert (Hr : Forall (fun i => 0 <= i <= 15) (map wid ws)) by (apply Forall_map; exact (made_range _ Hm)).
      destruct (fold_full_spec m (map wid ws) 0 Hr) as (full & E & _ & _).
      { split; [lia|]. intros; apply Z.bits_0. }
      rewrite E. eexists; reflexivity. }
    assert (B' : ~ NoDup (map wid ws) -> queue_new m ws = Ret RErr).
    { intro Hn. unfold queue_new. rewrite (B Hn). reflexivity. }
    destruct (NoDup_dec Z.eq_dec (map wid ws)) as [Hn|Hn].
    + destruct (A' Hn) as [q Eq]. split; split; auto; try (intro; congruence); contradiction.
    + specialize (B' Hn). split; split; auto; try contradiction; intros [q Eq]; congruence.
Qed.
Print Assumptions C46_construction.

Example C46_hypotheses_met :
  Forall (fun w => exists m' id, 0 <= id /\ worker_new m' id = Ret (ROk w)) [w0; w3] /\
  NoDup (map wid [w0; w3]) /\ ~ NoDup (map wid [w0; w3; w0]).
Proof.
  split; [repeat constructor; [exists Checked, 0|exists Checked, 3]; (split; [lia|reflexivity])|].
  split.
  - repeat constructor; cbn; intuition lia.
  - intro H. cbn in H. inversion H; subst. apply H2. cbn. auto.
Qed.

(** A queue from [new] never hands out a null pointer; [default()] does. *)
Theorem C46_pointer_valid : forall m ws q v w p,
  Forall (fun w' => exists m' id, 0 <= id /\ worker_new m' id = Ret (ROk w')) ws ->
  queue_new m ws = Ret (ROk q) ->
  (get_mut q v = Some p \/ get q v w = Some p) -> p <> None.
Proof.
  intros m ws q v w p Hm Hq H. destruct (queue_new_full m ws q Hm Hq) as (_ & Hp & _).
  unfold get_mut, get in H. rewrite Hp in H.
  destruct H as [H|H]; [destruct (ready_to_update v)|destruct (ready_to_work v w)]; inversion H; discriminate.
Qed.
Print Assumptions C46_pointer_valid.

Example C46_pointer_hypotheses_met :
  queue_new Checked [w0; w3] = Ret (ROk ex_queue) /\ get_mut ex_queue 0 = Some (Some tt).
Proof. split; reflexivity. Qed.

Theorem C46_default_pointer_refuted : get_mut queue_default 0 = Some None.
Proof. reflexivity. Qed.
Print Assumptions C46_default_pointer_refuted.

(** ** C47: a completion is private to the worker *)

(** [work_done] by one identity changes nothing for the others: it clears its
    own readiness and leaves every other worker's as it was. *)
Theorem C47_done_is_private : forall m1 m2 id1 id2 v a b,
  0 <= id1 -> 0 <= id2 -> worker_new m1 id1 = Ret (ROk a) -> worker_new m2 id2 = Ret (ROk b) ->
  0 <= v < 65536 ->
  ready_to_work (work_done_value v a) b = (if id1 =? id2 then false else ready_to_work v b).
Proof.
  intros m1 m2 id1 id2 v a b H1 H2 Ea Eb Hv.
  assert (H16 : is16 v).
  { split; [lia|]. intros j Hj. destruct (Z.eq_dec v 0) as [->|]; [apply Z.bits_0|].
    apply Z.bits_above_log2; [lia|].
    apply Z.lt_le_trans with 16; [|exact Hj]. apply Z.log2_lt_pow2; [lia|]. exact (proj2 Hv). }
  destruct (worker_new_spec _ _ _ H1 Ea) as (B1 & I1 & _). destruct (worker_new_spec _ _ _ H2 Eb) as (B2 & I2 & _).
  rewrite (ready_to_work_bit _ _ _ _ (work_done_is16 _ _ _ _ H16 H1 Ea) H2 Eb).
  rewrite (ready_to_work_bit _ _ _ _ H16 H2 Eb).
  rewrite (work_done_bits _ _ _ _ _ H16 H1 Ea) by lia. rewrite I1, I2.
  rewrite (Z.eqb_sym id2 id1). destruct (id1 =? id2); cbn [negb].
  - apply andb_false_r.
  - apply andb_true_r.
Qed.
Print Assumptions C47_done_is_private.

Example C47_hypotheses_met :
  worker_new Checked 0 = Ret (ROk w0) /\ worker_new Checked 3 = Ret (ROk w3) /\
  ready_to_work 9 w3 = true /\ ready_to_work (work_done_value 9 w0) w3 = true /\
  ready_to_work (work_done_value 9 w0) w0 = false.
Proof. repeat split. Qed.

(** False for [WorkerId::default()], whose mask is 0: its [work_done] wipes
    every other worker's pending item. *)
Theorem C47_default_identity_refuted : forall v b, ready_to_work (work_done_value v worker_default) b = false.
Proof.
  intros v b. unfold work_done_value, work_done_mask, worker_default, ready_to_work. cbn [wid_bit_neg].
  rewrite Z.land_0_r, Z.land_0_l. reflexivity.
Qed.
Print Assumptions C47_default_identity_refuted.

Example C47_default_loses_item : ready_to_work 9 w3 = true.
Proof. reflexivity. Qed.

(** ** C48: identities that were not registered, and the unpublished datum *)

(** An identity the queue was not built with never gets an item. *)
Theorem C48_unregistered_gets_nothing : forall T m ws q c (d : T) h s t w got s',
  in_use m ws q c d h s -> identity c t = Some w -> ~ In (wid w) (map wid ws) ->
  step q s t (EGet w got) s' -> got = false.
Proof.
  intros T m ws q c d h s t w got s' HU E Hn St.
  destruct (in_use_inv _ _ _ _ _ _ _ _ HU) as [s0 I]. destruct HU as (Hm & Hq & Hc & X & HC).
  inversion St; subst. unfold get.
  rewrite (id_ready c Hc _ _ _ E (i_is16 _ _ _ _ _ _ I _ _ H4)).
  destruct (Z.testbit (m_val x) (wid w)) eqn:B; [|reflexivity].
  exfalso. apply Hn. eapply (i_ids _ _ _ _ _ _ I); eauto. exact (proj1 (id_range c Hc t w E)).
Qed.
Print Assumptions C48_unregistered_gets_nothing.

Example C48_hypotheses_met : exists s s',
  in_use Checked [w0] (Queue (Some tt) 1) ex_cast 5 (shown (firstn 3 ex_run)) s /\
  identity ex_cast 2%nat = Some w3 /\ ~ In (wid w3) (map wid [w0]) /\
  step (Queue (Some tt) 1) s 2%nat (EGet w3 false) s'.
Proof.
  destruct (drive (Queue (Some tt) 1) (start 5) (firstn 3 ex_run)) as [s|] eqn:D; [|vm_compute in D; discriminate].
  destruct (drive1 (Queue (Some tt) 1) s (2%nat, EGet w3 false, 1%nat)) as [s'|] eqn:D1.
  2: { vm_compute in D. inversion D; subst s. vm_compute in D1. discriminate. }
  exists s, s'. split.
  - split; [repeat constructor; exists Checked, 0; (split; [lia|reflexivity])|].
    split; [reflexivity|]. split; [exact ex_cast_proper|]. split; [exact (drive_exec _ _ _ _ D)|].
    contract_tac.
  - split; [reflexivity|]. split; [cbn; intuition lia|]. exact (drive1_step _ _ _ _ _ _ D1).
Qed.

(** Before the first notification every [get] answers [None]: the datum given
    to [new] is not handed to the workers (the crate's own unit test,
    spinqueue.rs 172-173, unwraps such a [get]). *)
Theorem C48_initial_datum_refuted : forall T m ws q c (d : T) h s t w got s',
  in_use m ws q c d h s -> plays c ws t w -> publications c h = 0%nat ->
  step q s t (EGet w got) s' -> contract c (h ++ [(t, EGet w got)]) -> got = false.
Proof.
  intros T m ws q c d h s t w got s' HU [E Hin] H0 St HC1.
  destruct (in_use_inv _ _ _ _ _ _ _ _ HU) as [s0 I]. destruct HU as (Hm & Hq & Hc & X & HC).
  destruct (queue_new_full m ws q Hm Hq) as (_ & _ & H16 & _ & Hf).
  assert (NP : t <> producer c) by (eapply producer_not_worker; eauto).
  destruct (contract_snoc _ _ _ _ HC1) as [_ [[Q _]|(_ & w' & E' & _ & B)]]; [contradiction|].
  inversion St; subst.
  match goal with |- ?g = false => destruct g eqn:G; [|reflexivity] end.
  destruct (inv_get c q (map wid ws) d Hc _ _ _ _ _ i x _ I E B ltac:(assumption) ltac:(assumption) eq_refl) as [K _].
  destruct (K G) as (_ & L & _). unfold n_of in L. lia.
Qed.
Print Assumptions C48_initial_datum_refuted.

Example C48_initial_hypotheses_met : exists s',
  in_use Checked [w0; w3] ex_queue ex_cast 5 [] (start 5) /\ plays ex_cast [w0; w3] 1%nat w0 /\
  publications ex_cast (@nil (tid * event Z)) = 0%nat /\
  step ex_queue (start 5) 1%nat (EGet w0 false) s' /\ contract ex_cast [(1%nat, EGet w0 false : event Z)].
Proof.
  destruct (drive1 ex_queue (start 5) (1%nat, EGet w0 false, 0%nat)) as [s'|] eqn:D1;
    [|vm_compute in D1; discriminate].
  exists s'. split.
  - split; [repeat constructor; [exists Checked, 0|exists Checked, 3]; (split; [lia|reflexivity])|].
    split; [reflexivity|]. split; [exact ex_cast_proper|]. split; [constructor|]. contract_tac.
  - split; [split; [reflexivity|left; reflexivity]|]. split; [reflexivity|].
    split; [exact (drive1_step _ _ _ _ _ _ D1)|]. contract_tac.
Qed.

(** ** C49: the contract is needed *)

(** Each clause of the contract is needed.  A race is reachable: when one
    identity is used by two threads (identities are [Clone]) although everyone
    keeps their part; when the producer alone deviates and writes after its
    notification without asking [get_mut] again; and when two threads both
    keep the producer's part. *)
Definition shared_cast : @cast :=
  Cast 0%nat (fun t => match t with 1%nat => Some w0 | 2%nat => Some w3 | 3%nat => Some w0 | _ => None end).

Theorem C49_unguarded_use_refuted :
  (exists h s, exec ex_queue (start 5) h s /\ races s 0%nat (EWrite 20) /\
     contract shared_cast (h ++ [(0%nat, EWrite 20)])) /\
  (exists h s, exec ex_queue (start 5) h s /\ races s 0%nat (EWrite 20) /\
     contract ex_cast h) /\
  (exists h s, exec ex_queue (start 5) h s /\ races s 1%nat (EWrite 20) /\
     forall t, producer_ok false (acts t (h ++ [(1%nat, EWrite 20)]))).
Proof.
  split; [|split].
  - (* threads 1 and 3 share identity w0; 1 finishes while 3 still reads *)
    set (l := [(0, EGetMut true, 0); (0, EWrite 10%Z, 0); (0, ENotify, 1);
               (1, EGet w0 true, 1); (3, EGet w0 true, 1); (2, EGet w3 true, 1);
               (1, EDone w0, 1); (2, EDone w3, 2); (3, ERead 10%Z, 0); (0, EGetMut true, 3)]%nat : list chosen).
    destruct (drive ex_queue (start 5) l) as [s|] eqn:D; [|vm_compute in D; discriminate].
    exists (shown l), s. split; [exact (drive_exec _ _ _ _ D)|]. split.
    + exists 3%nat. split; [lia|]. vm_compute in D. inversion D; subst s. vm_compute. lia.
    + split; [vm_compute; repeat constructor|]. intros t N.
      destruct t as [|[|[|[|t]]]]; [contradiction N; reflexivity| | | |]; vm_compute; repeat constructor.
  - (* the producer writes again without a get_mut *)
    set (l := [(0, EGetMut true, 0); (0, EWrite 10%Z, 0); (0, ENotify, 1);
               (1, EGet w0 true, 1); (1, ERead 10%Z, 0)]%nat : list chosen).
    destruct (drive ex_queue (start 5) l) as [s|] eqn:D; [|vm_compute in D; discriminate].
    exists (shown l), s. split; [exact (drive_exec _ _ _ _ D)|]. split.
    + exists 1%nat. split; [lia|]. vm_compute in D. inversion D; subst s. vm_compute. lia.
    + contract_tac.
  - set (l := [(0, EGetMut true, 0); (1, EGetMut true, 0); (0, EWrite 10%Z, 0)]%nat : list chosen).
    destruct (drive ex_queue (start 5) l) as [s|] eqn:D; [|vm_compute in D; discriminate].
    exists (shown l), s. split; [exact (drive_exec _ _ _ _ D)|]. split.
    + exists 0%nat. split; [lia|]. vm_compute in D. inversion D; subst s. vm_compute. lia.
    + intros t. destruct t as [|[|t]]; vm_compute; repeat constructor.
Qed.
Print Assumptions C49_unguarded_use_refuted.
