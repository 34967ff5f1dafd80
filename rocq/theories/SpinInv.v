(** SpinInv.v -- the invariant that every contract-keeping execution of the
    spin queue preserves. *)
From Coq Require Import ZArith List Bool Lia.
From Verif Require Import Base SpinModel SpinSpec SpinProofs.
Import ListNotations.
Open Scope Z_scope.

Lemma insert_end : forall l x, insert_at l (length l) x = l ++ [x].
Proof. intros. unfold insert_at. rewrite firstn_all, skipn_all. reflexivity. Qed.

Lemma nth_snoc : forall {A} (l : list A) x i y, nth_error (l ++ [x]) i = Some y ->
  (i < length l)%nat /\ nth_error l i = Some y \/ i = length l /\ y = x.
Proof.
  intros A l x i y H. destruct (lt_dec i (length l)) as [L|L].
  - left. rewrite nth_error_app1 in H by exact L. split; assumption.
  - right. assert (i < length (l ++ [x]))%nat.
    { apply nth_error_Some. congruence. }
    rewrite app_length in H0. cbn in H0. assert (i = length l) by lia. subst i. split; [reflexivity|].
    rewrite nth_error_app2 in H by lia. rewrite Nat.sub_diag in H. cbn in H. congruence.
Qed.

Lemma nth_lt : forall {A} (l : list A) i y, nth_error l i = Some y -> (i < length l)%nat.
Proof. intros. apply nth_error_Some. congruence. Qed.

Lemma nth_end : forall {A} (l : list A) x, nth_error (l ++ [x]) (length l) = Some x.
Proof. intros. rewrite nth_error_app2, Nat.sub_diag by lia. reflexivity. Qed.

Lemma upd_same : forall {A} (f : tid -> A) t x, upd f t x t = x.
Proof. intros. unfold upd. rewrite Nat.eqb_refl. reflexivity. Qed.
Lemma upd_other : forall {A} (f : tid -> A) t x t', t' <> t -> upd f t x t' = f t'.
Proof. intros. unfold upd. destruct (Nat.eqb_spec t' t); [contradiction|reflexivity]. Qed.

Section Inv.
Context {T : Type}.
Variables (c : @cast) (q : queue) (ids : list Z) (d : T).

Definition P := producer c.
Definition busyP (h : history T) : bool := pphase false (acts P h).
Definition busyW (t : tid) (h : history T) : bool := wphase false (acts t h).
Definition n_of (h : history T) : nat := publications c h.

(** [s0] is the position of the latest notification. *)
Record inv (s0 : nat) (h : history T) (s : machine T) : Prop := Inv {
  i_s0 : (s0 < length (mo s))%nat;
  i_rmw : forall i x, (s0 < i)%nat -> at_pos s i x -> m_rmw x = true;
  i_floor : forall t, (floor s t < length (mo s))%nat;
  i_floorP : (s0 <= floor s P)%nat;
  i_is16 : forall i x, at_pos s i x -> is16 (m_val x);
  i_ids : forall i x j, at_pos s i x -> 0 <= j -> Z.testbit (m_val x) j = true -> In j ids;
  i_nonzero : forall i x, (s0 <= i)%nat -> (i + 1 < length (mo s))%nat -> at_pos s i x -> m_val x <> 0;
  i_last : forall x j, at_pos s (length (mo s) - 1) x -> 0 <= j ->
     (Z.testbit (m_val x) j = true <->
      In j ids /\ (0 < n_of h)%nat /\
      forall t w, identity c t = Some w -> wid w = j -> (finished t h < n_of h)%nat);
  i_round : forall t w, identity c t = Some w -> In (wid w) ids ->
     (finished t h <= n_of h <= finished t h + 1)%nat;
  i_done : forall t w i x, identity c t = Some w -> In (wid w) ids -> finished t h = n_of h ->
     (floor s t <= i)%nat -> at_pos s i x -> Z.testbit (m_val x) (wid w) = false;
  i_pend : forall t w i x, identity c t = Some w -> In (wid w) ids ->
     (floor s t <= i)%nat -> at_pos s i x -> Z.testbit (m_val x) (wid w) = true -> (s0 <= i)%nat;
  i_foreign : forall t w, identity c t = Some w -> ~ In (wid w) ids ->
     busyW t h = false /\ finished t h = 0%nat;
  i_busy : forall t w, identity c t = Some w -> busyW t h = true ->
     (finished t h < n_of h)%nat /\ (s0 <= floor s t)%nat /\ (accesses s P <= known s t P)%nat;
  i_viewP : busyP h = false -> forall i x, (s0 <= i)%nat -> at_pos s i x ->
     (accesses s P <= m_view x P)%nat;
  i_busyP : busyP h = true ->
     (floor s P = length (mo s) - 1)%nat /\
     (forall x, at_pos s (length (mo s) - 1) x -> m_val x = 0) /\
     (forall t, accesses s t <= known s P t)%nat;
  i_viewW : forall t w x, identity c t = Some w -> In (wid w) ids -> finished t h = n_of h ->
     at_pos s (length (mo s) - 1) x -> (accesses s t <= m_view x t)%nat;
  i_none : forall t, t <> P -> (forall w, identity c t = Some w -> ~ In (wid w) ids) -> accesses s t = 0%nat;
  i_lw : forall t, (last_write s t <= accesses s t)%nat;
  i_lwz : forall t, t <> P -> last_write s t = 0%nat;
  i_self : forall t, (accesses s t <= known s t t)%nat;
  i_datum : datum s = value_after d h;
  i_plen : length (published d h) = n_of h;
  i_plast : busyP h = false -> (0 < n_of h)%nat -> nth_error (published d h) (n_of h - 1) = Some (datum s)
}.

Hypothesis Hcast : @proper_cast c.
Hypothesis Hids : Forall (fun i => 0 <= i <= 15) ids.
Hypothesis Hfull16 : is16 (q_full q).
Hypothesis Hfull : forall j, 0 <= j -> (Z.testbit (q_full q) j = true <-> In j ids).

Lemma id_range : forall t w, identity c t = Some w -> 0 <= wid w <= 15.
Proof.
  intros t w E. destruct Hcast as (_ & H & _). destruct (H _ _ E) as (m & id & H0 & Ew).
  destruct (worker_new_spec _ _ _ H0 Ew) as (? & -> & _). lia.
Qed.

Lemma id_ready : forall t w v, identity c t = Some w -> is16 v -> ready_to_work v w = Z.testbit v (wid w).
Proof.
  intros t w v E H16. destruct Hcast as (_ & H & _). destruct (H _ _ E) as (m & id & H0 & Ew).
  eapply ready_to_work_bit; eauto.
Qed.

Lemma id_done_bits : forall t w v j, identity c t = Some w -> is16 v -> 0 <= j ->
  Z.testbit (work_done_value v w) j = Z.testbit v j && negb (j =? wid w).
Proof.
  intros t w v j E H16 Hj. destruct Hcast as (_ & H & _). destruct (H _ _ E) as (m & id & H0 & Ew).
  eapply work_done_bits; eauto.
Qed.

Lemma id_done_is16 : forall t w v, identity c t = Some w -> is16 v -> is16 (work_done_value v w).
Proof.
  intros t w v E H16. destruct Hcast as (_ & H & _). destruct (H _ _ E) as (m & id & H0 & Ew).
  eapply work_done_is16; eauto.
Qed.

Lemma producer_not_worker : forall t w, identity c t = Some w -> t <> P.
Proof. intros t w E ->. destruct Hcast as (H & _). unfold P in E. congruence. Qed.

Lemma last_exists : forall s : machine T, (0 < length (mo s))%nat ->
  exists x, at_pos s (length (mo s) - 1) x.
Proof.
  intros s H. unfold at_pos. destruct (nth_error (mo s) (length (mo s) - 1)) eqn:E; [eauto|].
  apply nth_error_None in E. lia.
Qed.

(** The floor of a load: reading keeps the floor inside. *)
Lemma load_at : forall (s : machine T) t i x j y, at_pos (do_load s t i x) j y <-> at_pos s j y.
Proof. intros. unfold at_pos, do_load. cbn. tauto. Qed.

Lemma inv_start : inv 0 [] (start d).
Proof.
  assert (A : forall i x, at_pos (start d) i x -> i = O /\ x = Msg 0 (fun _ => O) false).
  { intros i x H. unfold at_pos in H. cbn in H. destruct i; cbn in H; [split; congruence|].
    destruct i; discriminate. }
  constructor; cbn [start mo floor known accesses last_write datum length]; try (intros; lia).
  - intros i x Hi H. destruct (A _ _ H). lia.
  - intros i x H. destruct (A _ _ H) as [_ ->]. split; [cbn; lia|]. intros j Hj. apply Z.bits_0.
  - intros i x j H Hj. destruct (A _ _ H) as [_ ->]. cbn [m_val]. rewrite Z.bits_0. discriminate.
  - intros x j H Hj. destruct (A _ _ H) as [_ ->]. cbn [m_val]. rewrite Z.bits_0.
    unfold n_of, publications; cbn. split; [discriminate|lia].
  - intros. unfold finished, n_of, publications; cbn. lia.
  - intros t w i x _ _ _ _ H. destruct (A _ _ H) as [_ ->]. cbn [m_val]. apply Z.bits_0.
  - intros. unfold busyW, finished; cbn. auto.
  - intros t w _ Hb. unfold busyW in Hb. cbn in Hb. discriminate.
  - intro H. unfold busyP in H. cbn in H. discriminate.
  - reflexivity.
  - reflexivity.
  - intros. unfold n_of, publications in *; cbn in *. lia.
Qed.

(** Quantities of an extended history. *)
Lemma n_snoc : forall (h : history T) t e, n_of (h ++ [(t, e)]) =
  (n_of h + if Nat.eqb t P && is_notify e then 1 else 0)%nat.
Proof.
  intros. unfold n_of, publications. destruct (Nat.eqb_spec t P) as [->|N].
  - unfold P. rewrite acts_snoc_same, count_snoc. cbn [andb]. reflexivity.
  - rewrite acts_snoc_other by (unfold P in N; auto). cbn [andb]. lia.
Qed.

Lemma fin_snoc : forall (h : history T) t e t', finished t' (h ++ [(t, e)]) =
  (finished t' h + if Nat.eqb t' t && is_done e then 1 else 0)%nat.
Proof.
  intros. unfold finished. destruct (Nat.eqb_spec t' t) as [->|N].
  - rewrite acts_snoc_same, count_snoc. reflexivity.
  - rewrite acts_snoc_other by auto. cbn [andb]. lia.
Qed.

Lemma busyW_other : forall (h : history T) t e t', t' <> t -> busyW t' (h ++ [(t, e)]) = busyW t' h.
Proof. intros. unfold busyW. rewrite acts_snoc_other by auto. reflexivity. Qed.
Lemma busyP_other : forall (h : history T) t e, t <> P -> busyP (h ++ [(t, e)]) = busyP h.
Proof. intros. unfold busyP, P in *. rewrite acts_snoc_other by auto. reflexivity. Qed.
Lemma busyW_same : forall (h : history T) t e, busyW t (h ++ [(t, e)]) =
  match e with EGet _ got => got | EDone _ => false | _ => busyW t h end.
Proof. intros. unfold busyW. rewrite acts_snoc_same. apply wphase_snoc. Qed.
Lemma busyP_same : forall (h : history T) e, busyP (h ++ [(P, e)]) =
  match e with EGetMut got => got | ENotify => false | _ => busyP h end.
Proof. intros. unfold busyP. rewrite acts_snoc_same. apply pphase_snoc. Qed.

Lemma P_eqb : forall t, t <> P -> Nat.eqb t P = false.
Proof. intros. destruct (Nat.eqb_spec t P); [contradiction|reflexivity]. Qed.

(** No worker works while the producer holds the datum. *)
Lemma busyP_no_worker : forall s0 h s, inv s0 h s -> busyP h = true ->
  forall t w, identity c t = Some w -> busyW t h = false /\ (In (wid w) ids -> finished t h = n_of h).
Proof.
  intros s0 h s I B t w E.
  destruct (i_busyP _ _ _ I B) as (_ & HZ & _).
  destruct (last_exists s) as (x & Hx). { pose proof (i_s0 _ _ _ I); lia. }
  assert (HF : In (wid w) ids -> finished t h = n_of h).
  { intro Hin. pose proof (i_round _ _ _ I _ _ E Hin) as R.
    destruct (Nat.eq_dec (finished t h) (n_of h)) as [|N]; [assumption|exfalso].
    assert (Z.testbit (m_val x) (wid w) = true) as Hb.
    { apply (i_last _ _ _ I _ _ Hx); [apply id_range with t; exact E|].
      split; [exact Hin|]. split; [lia|]. intros t' w' E' Ew.
      destruct Hcast as (_ & _ & Hu). rewrite (Hu _ _ _ _ E' E Ew). lia. }
    rewrite (HZ _ Hx), Z.bits_0 in Hb. discriminate. }
  split; [|exact HF].
  destruct (busyW t h) eqn:Bw; [exfalso|reflexivity].
  destruct (in_dec Z.eq_dec (wid w) ids) as [Hin|Hni].
  - destruct (i_busy _ _ _ I _ _ E Bw) as (L & _). specialize (HF Hin). lia.
  - destruct (i_foreign _ _ _ I _ _ E Hni). congruence.
Qed.

(** [get_mut] by the producer. *)
Lemma inv_get_mut : forall s0 h s i x got,
  inv s0 h s -> busyP h = false ->
  (floor s P <= i)%nat -> at_pos s i x ->
  got = (match get_mut q (m_val x) with Some _ => true | None => false end) ->
  inv s0 (h ++ [(P, EGetMut got)]) (do_load s P i x).
Proof.
  intros s0 h s i x got I B Hf Hx Hg.
  assert (Hil : (i < length (mo s))%nat) by (eapply nth_lt; exact Hx).
  assert (EN : n_of (h ++ [(P, EGetMut got)]) = n_of h).
  { rewrite n_snoc. rewrite Nat.eqb_refl. cbn. lia. }
  assert (EF : forall t, finished t (h ++ [(P, EGetMut got)]) = finished t h).
  { intro t. rewrite fin_snoc. cbn [is_done]. rewrite andb_false_r. lia. }
  assert (EB : forall t w, identity c t = Some w -> busyW t (h ++ [(P, EGetMut got)]) = busyW t h).
  { intros t w E. apply busyW_other. eapply producer_not_worker; eauto. }
  assert (EP : published d (h ++ [(P, EGetMut got)]) = published d h) by (rewrite published_snoc; reflexivity).
  destruct I.
  constructor; cbn [do_load mo floor known accesses last_write datum] in *; try assumption.
  - intro t. destruct (Nat.eq_dec t P) as [->|N]; [rewrite upd_same; exact Hil|rewrite upd_other by auto; auto].
  - rewrite upd_same. pose proof i_floorP0. lia.
  - intros y j Hy Hj. rewrite (i_last0 y j Hy Hj). rewrite EN.
    setoid_rewrite EF. tauto.
  - intros t w E Hin. rewrite EN, EF. eauto.
  - intros t w k y E Hin HF Hk Hy. rewrite EN, EF in HF. rewrite upd_other in Hk by (eapply producer_not_worker; eauto).
    eapply i_done0; eauto.
  - intros t w k y E Hin Hk Hy. rewrite upd_other in Hk by (eapply producer_not_worker; eauto).
    eapply i_pend0; eauto.
  - intros t w E Hn. rewrite (EB _ _ E), EF. eauto.
  - intros t w E Hb. rewrite (EB _ _ E) in Hb. rewrite EN, EF.
    rewrite !upd_other by (eapply producer_not_worker; eauto). eauto.
  - intros _. apply i_viewP0. exact B.
  - rewrite busyP_same. intro Hgot. subst got.
    unfold get_mut, ready_to_update in Hgot.
    destruct (Z.eqb_spec (m_val x) 0) as [Z0|]; [|discriminate].
    assert (Hi : i = (length (mo s) - 1)%nat).
    { destruct (Nat.eq_dec i (length (mo s) - 1)) as [|N]; [assumption|exfalso].
      apply (i_nonzero0 i x); [lia|lia|exact Hx|exact Z0]. }
    subst i. rewrite upd_same. split; [reflexivity|]. split.
    + intros y Hy. assert (Some y = Some x) by (rewrite <- Hx, <- Hy; reflexivity). congruence.
    + intro t. rewrite upd_same. unfold vjoin.
      destruct (Nat.eq_dec t P) as [->|N].
      { pose proof (i_self0 P). lia. }
      destruct (identity c t) as [w|] eqn:E.
      * destruct (in_dec Z.eq_dec (wid w) ids) as [Hin|Hni].
        -- assert (HF : finished t h = n_of h).
           { pose proof (i_round0 t w E Hin).
             destruct (Nat.eq_dec (finished t h) (n_of h)); [assumption|exfalso].
             assert (Hb : Z.testbit (m_val x) (wid w) = true).
             { apply (i_last0 x (wid w) Hx); [apply id_range with t; exact E|].
               split; [exact Hin|]. split; [lia|]. intros t' w' E' Ew.
               destruct Hcast as (_ & _ & Hu). rewrite (Hu _ _ _ _ E' E Ew). lia. }
             rewrite Z0, Z.bits_0 in Hb. discriminate. }
           pose proof (i_viewW0 t w x E Hin HF Hx). lia.
        -- rewrite (i_none0 t N). { lia. } intros w' E'. congruence.
      * rewrite (i_none0 t N). { lia. } intros w' E'. congruence.
  - intros t w y E Hin HF Hy. rewrite EN, EF in HF. eauto.
  - intro t. destruct (Nat.eq_dec t P) as [->|N].
    + rewrite upd_same. unfold vjoin. pose proof (i_self0 P). lia.
    + rewrite upd_other by auto. auto.
  - rewrite value_after_snoc. assumption.
  - rewrite EP, EN. assumption.
  - intros _ Hn. rewrite EP, EN in *. apply i_plast0; assumption.
Qed.

(** An access by the producer inside its section. *)
Lemma inv_accessP : forall s0 h s e v,
  inv s0 h s -> busyP h = true ->
  (e = EWrite v \/ e = ERead v /\ v = datum s) ->
  inv s0 (h ++ [(P, e)])
      (do_access s P (match e with EWrite _ => upd (last_write s) P (S (accesses s P)) | _ => last_write s end) v).
Proof.
  intros s0 h s e v I B He.
  pose proof (busyP_no_worker _ _ _ I B) as NW.
  assert (EN : n_of (h ++ [(P, e)]) = n_of h).
  { rewrite n_snoc. destruct He as [->|[-> _]]; cbn; rewrite andb_false_r; lia. }
  assert (EF : forall t, finished t (h ++ [(P, e)]) = finished t h).
  { intro t. rewrite fin_snoc. destruct He as [->|[-> _]]; cbn [is_done]; rewrite andb_false_r; lia. }
  assert (EB : forall t w, identity c t = Some w -> busyW t (h ++ [(P, e)]) = busyW t h).
  { intros t w E. apply busyW_other. eapply producer_not_worker; eauto. }
  assert (EP : published d (h ++ [(P, e)]) = published d h).
  { rewrite published_snoc. destruct He as [->|[-> _]]; reflexivity. }
  assert (EBP : busyP (h ++ [(P, e)]) = true).
  { rewrite busyP_same. destruct He as [->|[-> _]]; exact B. }
  destruct I.
  constructor; cbn [do_access mo floor known accesses last_write datum] in *; try assumption.
  - intros y j Hy Hj. rewrite (i_last0 y j Hy Hj). rewrite EN. setoid_rewrite EF. tauto.
  - intros t w E Hin. rewrite EN, EF. eauto.
  - intros t w k y E Hin HF. rewrite EN, EF in HF. eauto.
  - intros t w E Hn. rewrite (EB _ _ E), EF. eauto.
  - intros t w E Hb. rewrite (EB _ _ E) in Hb. destruct (NW _ _ E). congruence.
  - intros Hb. congruence.
  - intros _. destruct (i_busyP0 B) as (F & Z0 & K). split; [exact F|]. split; [exact Z0|].
    intro t. rewrite upd_same. destruct (Nat.eq_dec t P) as [->|N].
    + rewrite !upd_same. lia.
    + rewrite !upd_other by auto. apply K.
  - intros t w y E Hin HF Hy. rewrite EN, EF in HF. rewrite upd_other by (eapply producer_not_worker; eauto).
    eauto.
  - intros t N Hw. rewrite upd_other by auto. auto.
  - intro t. destruct (Nat.eq_dec t P) as [->|N].
    + rewrite upd_same. pose proof (i_lw0 P). destruct e; rewrite ?upd_same; lia.
    + rewrite upd_other by auto. destruct e; rewrite ?upd_other by auto; auto.
  - intros t N. destruct e; rewrite ?upd_other by auto; auto.
  - intro t. destruct (Nat.eq_dec t P) as [->|N].
    + rewrite !upd_same. lia.
    + rewrite !upd_other by auto. auto.
  - rewrite value_after_snoc. destruct He as [->|[-> ->]]; [reflexivity|assumption].
  - rewrite EP, EN. assumption.
  - intro; congruence.
Qed.

(** [notify_all_workers] by the producer at the end of its section. *)
Lemma inv_notify : forall s0 h s p,
  inv s0 h s -> busyP h = true ->
  (floor s P < p)%nat -> (p <= length (mo s))%nat ->
  p = length (mo s) /\
  inv (length (mo s)) (h ++ [(P, ENotify)]) (do_store s P p (notify_value q)).
Proof.
  intros s0 h s p I B Hf Hp.
  pose proof (busyP_no_worker _ _ _ I B) as NW.
  destruct (i_busyP _ _ _ I B) as (F & Z0 & K).
  assert (p = length (mo s)) as -> by (pose proof (i_s0 _ _ _ I); lia).
  split; [reflexivity|].
  assert (EN : n_of (h ++ [(P, ENotify)]) = S (n_of h)).
  { rewrite n_snoc. rewrite Nat.eqb_refl. cbn. lia. }
  assert (EF : forall t, finished t (h ++ [(P, ENotify)]) = finished t h).
  { intro t. rewrite fin_snoc. cbn [is_done]. rewrite andb_false_r. lia. }
  assert (EB : forall t w, identity c t = Some w -> busyW t (h ++ [(P, ENotify)]) = busyW t h).
  { intros t w E. apply busyW_other. eapply producer_not_worker; eauto. }
  assert (EP : published d (h ++ [(P, ENotify)]) = published d h ++ [value_after d h]) by (rewrite published_snoc; reflexivity).
  assert (EBP : busyP (h ++ [(P, ENotify)]) = false) by (rewrite busyP_same; reflexivity).
  set (x0 := Msg (notify_value q) (known s P) false).
  assert (EM : mo (do_store s P (length (mo s)) (notify_value q)) = mo s ++ [x0]).
  { cbn. apply insert_end. }
  assert (AT : forall i x, at_pos (do_store s P (length (mo s)) (notify_value q)) i x ->
               (i < length (mo s))%nat /\ at_pos s i x \/ i = length (mo s) /\ x = x0).
  { intros i x Hx. unfold at_pos in *. rewrite EM in Hx. apply nth_snoc in Hx. exact Hx. }
  assert (EFL : forall t, t <> P -> floor (do_store s P (length (mo s)) (notify_value q)) t = floor s t).
  { intros t N. cbn [do_store floor]. rewrite upd_other by auto. unfold shift_floor.
    pose proof (i_floor _ _ _ I t). destruct (Nat.leb_spec (length (mo s)) (floor s t)); [lia|reflexivity]. }
  assert (EL : length (mo (do_store s P (length (mo s)) (notify_value q))) = S (length (mo s))).
  { rewrite EM, app_length. cbn. lia. }
  destruct I.
  constructor; cbn [do_store known accesses last_write datum] in *; rewrite ?EL.
  - lia.
  - intros i x Hi Hx. destruct (AT _ _ Hx) as [[L _]|[-> _]]; lia.
  - intro t. destruct (Nat.eq_dec t P) as [->|N].
    + cbn [do_store floor]. rewrite upd_same. lia.
    + rewrite EFL by auto. pose proof (i_floor0 t). lia.
  - cbn [do_store floor]. rewrite upd_same. lia.
  - intros i x Hx. destruct (AT _ _ Hx) as [[L Hx']|[-> ->]]; [eauto|]. exact Hfull16.
  - intros i x j Hx Hj. destruct (AT _ _ Hx) as [[L Hx']|[-> ->]]; [eauto|].
    cbn [x0 m_val]. apply Hfull. exact Hj.
  - intros i x H1 H2. lia.
  - intros x j Hx Hj. rewrite EN.
    destruct (AT _ _ Hx) as [[L Hx']|[_ ->]]; [lia|].
    cbn [x0 m_val]. unfold notify_value. rewrite (Hfull j Hj).
    split.
    + intro Hin. split; [exact Hin|]. split; [lia|]. intros t w E Ew. rewrite EF.
      destruct (NW _ _ E) as [_ HF]. rewrite Ew in HF. rewrite HF by exact Hin. lia.
    + tauto.
  - intros t w E Hin. rewrite EN, EF. destruct (NW _ _ E) as [_ HF]. rewrite HF by exact Hin. lia.
  - intros t w i x E Hin HF. rewrite EN, EF in HF. destruct (NW _ _ E) as [_ HF']. rewrite HF' in HF by exact Hin. lia.
  - intros t w i x E Hin Hi Hx Hb. rewrite EFL in Hi by (eapply producer_not_worker; eauto).
    destruct (AT _ _ Hx) as [[L Hx']|[-> _]]; [|lia]. exfalso.
    destruct (NW _ _ E) as [_ HF']. specialize (HF' Hin).
    rewrite (i_done0 t w i x E Hin HF' Hi Hx') in Hb. discriminate.
  - intros t w E Hn. rewrite (EB _ _ E), EF. eauto.
  - intros t w E Hb. rewrite (EB _ _ E) in Hb. destruct (NW _ _ E). congruence.
  - intros _ i x Hi Hx. destruct (AT _ _ Hx) as [[L Hx']|[-> ->]]; [lia|]. cbn [x0 m_view]. apply K.
  - intro; congruence.
  - intros t w x E Hin HF Hx. rewrite EN, EF in HF. destruct (NW _ _ E) as [_ HF']. rewrite HF' in HF by exact Hin. lia.
  - exact i_none0.
  - exact i_lw0.
  - exact i_lwz0.
  - exact i_self0.
  - rewrite value_after_snoc. exact i_datum0.
  - rewrite EP, EN, app_length, i_plen0. cbn. lia.
  - intros _ _. rewrite EP, EN. replace (S (n_of h) - 1)%nat with (length (published d h)) by lia.
    rewrite nth_end. congruence.
Qed.

(** [get] by a worker. *)
Lemma inv_get : forall s0 h s t w i x got,
  inv s0 h s -> identity c t = Some w -> busyW t h = false ->
  (floor s t <= i)%nat -> at_pos s i x ->
  got = (match get q (m_val x) w with Some _ => true | None => false end) ->
  (got = true -> In (wid w) ids /\ (finished t h < n_of h)%nat /\ busyP h = false) /\
  inv s0 (h ++ [(t, EGet w got)]) (do_load s t i x).
Proof.
  intros s0 h s t w i x got I E B Hf Hx Hg.
  assert (Hil : (i < length (mo s))%nat) by (eapply nth_lt; exact Hx).
  assert (NP : t <> P) by (eapply producer_not_worker; eauto).
  assert (EN : n_of (h ++ [(t, EGet w got)]) = n_of h).
  { rewrite n_snoc, P_eqb by auto. cbn. lia. }
  assert (EF : forall t', finished t' (h ++ [(t, EGet w got)]) = finished t' h).
  { intro t'. rewrite fin_snoc. cbn [is_done]. rewrite andb_false_r. lia. }
  assert (EBP : busyP (h ++ [(t, EGet w got)]) = busyP h) by (apply busyP_other; auto).
  assert (EP : published d (h ++ [(t, EGet w got)]) = published d h) by (rewrite published_snoc; reflexivity).
  assert (HG : got = true -> Z.testbit (m_val x) (wid w) = true).
  { intros ->. unfold get in Hg. rewrite (id_ready _ _ _ E (i_is16 _ _ _ I _ _ Hx)) in Hg.
    destruct (Z.testbit (m_val x) (wid w)); [reflexivity|discriminate]. }
  assert (HT : got = true -> In (wid w) ids /\ (finished t h < n_of h)%nat /\ busyP h = false).
  { intro Gt. specialize (HG Gt).
    assert (Hin : In (wid w) ids).
    { eapply i_ids; eauto. eapply id_range; eauto. }
    pose proof (i_round _ _ _ I _ _ E Hin).
    assert (HL : (finished t h < n_of h)%nat).
    { destruct (Nat.eq_dec (finished t h) (n_of h)) as [Q|]; [|lia]. exfalso.
      rewrite (i_done _ _ _ I t w i x E Hin Q Hf Hx) in HG. discriminate. }
    split; [exact Hin|]. split; [exact HL|].
    destruct (busyP h) eqn:BP; [|reflexivity].
    destruct (busyP_no_worker _ _ _ I BP _ _ E) as [_ HF]. specialize (HF Hin). lia. }
  split; [exact HT|].
  destruct I.
  constructor; cbn [do_load mo floor known accesses last_write datum] in *; try assumption.
  - intro t'. destruct (Nat.eq_dec t' t) as [->|N]; [rewrite upd_same; exact Hil|rewrite upd_other by auto; auto].
  - rewrite upd_other by auto. assumption.
  - intros y j Hy Hj. rewrite (i_last0 y j Hy Hj). rewrite EN. setoid_rewrite EF. tauto.
  - intros t' w' E' Hin. rewrite EN, EF. eauto.
  - intros t' w' k y E' Hin HF Hk Hy. rewrite EN, EF in HF.
    apply (i_done0 t' w' k y E' Hin HF); [|exact Hy].
    destruct (Nat.eq_dec t' t) as [->|N]; [rewrite upd_same in Hk; lia|].
    rewrite upd_other in Hk by auto. exact Hk.
  - intros t' w' k y E' Hin Hk Hy Hb.
    apply (i_pend0 t' w' k y E' Hin); [|exact Hy|exact Hb].
    destruct (Nat.eq_dec t' t) as [->|N]; [rewrite upd_same in Hk; lia|].
    rewrite upd_other in Hk by auto. exact Hk.
  - intros t' w' E' Hn. rewrite EF. destruct (Nat.eq_dec t' t) as [->|N].
    + rewrite busyW_same. assert (w' = w) by congruence. subst w'.
      destruct (i_foreign0 _ _ E Hn) as [_ F0]. split; [|exact F0].
      destruct got; [|reflexivity]. destruct (HT eq_refl) as [Hin _]. contradiction.
    + rewrite busyW_other by auto. eauto.
  - intros t' w' E' Hb. rewrite EN, EF. destruct (Nat.eq_dec t' t) as [->|N].
    + rewrite busyW_same in Hb. rewrite !upd_same.
      destruct (HT Hb) as (Hin & HL & HB). split; [exact HL|].
      assert (Hs : (s0 <= i)%nat) by exact (i_pend0 t w i x E Hin Hf Hx (HG Hb)).
      split; [exact Hs|]. unfold vjoin. pose proof (i_viewP0 HB i x Hs Hx). lia.
    + rewrite busyW_other in Hb by auto. rewrite !upd_other by auto. eauto.
  - rewrite EBP. assumption.
  - rewrite EBP. rewrite !upd_other by auto. assumption.
  - intros t' w' y E' Hin HF Hy. rewrite EN, EF in HF. eauto.
  - intro t'. destruct (Nat.eq_dec t' t) as [->|N].
    + rewrite upd_same. unfold vjoin. pose proof (i_self0 t). lia.
    + rewrite upd_other by auto. auto.
  - rewrite value_after_snoc. assumption.
  - rewrite EP, EN. assumption.
  - rewrite EP, EN, EBP. assumption.
Qed.

(** A read by a worker inside its section. *)
Lemma inv_readW : forall s0 h s t w,
  inv s0 h s -> identity c t = Some w -> busyW t h = true ->
  inv s0 (h ++ [(t, ERead (datum s))]) (do_access s t (last_write s) (datum s)).
Proof.
  intros s0 h s t w I E B.
  assert (NP : t <> P) by (eapply producer_not_worker; eauto).
  assert (BP : busyP h = false).
  { destruct (busyP h) eqn:BP; [|reflexivity]. destruct (busyP_no_worker _ _ _ I BP _ _ E). congruence. }
  set (e := ERead (datum s)) in *.
  assert (EN : n_of (h ++ [(t, e)]) = n_of h).
  { rewrite n_snoc, P_eqb by auto. cbn. lia. }
  assert (EF : forall t', finished t' (h ++ [(t, e)]) = finished t' h).
  { intro t'. rewrite fin_snoc. cbn [is_done e]. rewrite andb_false_r. lia. }
  assert (EBP : busyP (h ++ [(t, e)]) = busyP h) by (apply busyP_other; auto).
  assert (EB : forall t', busyW t' (h ++ [(t, e)]) = busyW t' h).
  { intro t'. destruct (Nat.eq_dec t' t) as [->|N]; [rewrite busyW_same; reflexivity|apply busyW_other; auto]. }
  assert (EP : published d (h ++ [(t, e)]) = published d h) by (rewrite published_snoc; reflexivity).
  destruct (i_busy _ _ _ I _ _ E B) as (HL & HFl & HK).
  destruct I.
  constructor; cbn [do_access mo floor known accesses last_write datum] in *; try assumption.
  - intros y j Hy Hj. rewrite (i_last0 y j Hy Hj). rewrite EN. setoid_rewrite EF. tauto.
  - intros t' w' E' Hin. rewrite EN, EF. eauto.
  - intros t' w' k y E' Hin HF. rewrite EN, EF in HF. eauto.
  - intros t' w' E' Hn. rewrite EB, EF. eauto.
  - intros t' w' E' Hb. rewrite EB in Hb. rewrite EN, EF.
    rewrite (upd_other _ t _ P) by auto.
    destruct (Nat.eq_dec t' t) as [->|N].
    + rewrite upd_same. rewrite (upd_other _ t _ P) by auto. auto.
    + rewrite upd_other by auto. eauto.
  - intros _ i x Hi Hx. rewrite upd_other by auto. eauto.
  - intro Hb. congruence.
  - intros t' w' y E' Hin HF Hy. rewrite EN, EF in HF.
    destruct (Nat.eq_dec t' t) as [->|N]; [lia|]. rewrite upd_other by auto. eauto.
  - intros t' N Hw. destruct (Nat.eq_dec t' t) as [->|N'].
    + exfalso. destruct (i_foreign0 t w E (Hw _ E)). congruence.
    + rewrite upd_other by auto. auto.
  - intro t'. destruct (Nat.eq_dec t' t) as [->|N].
    + rewrite upd_same. rewrite i_lwz0 by auto. lia.
    + rewrite upd_other by auto. auto.
  - intro t'. destruct (Nat.eq_dec t' t) as [->|N].
    + rewrite !upd_same. lia.
    + rewrite !upd_other by auto. auto.
  - rewrite value_after_snoc. assumption.
  - rewrite EP, EN. assumption.
  - rewrite EP, EN, EBP. assumption.
Qed.

(** [work_done] by a worker at the end of its section. *)
Lemma inv_work_done : forall s0 h s t w i x,
  inv s0 h s -> identity c t = Some w -> busyW t h = true ->
  (floor s t <= i)%nat -> at_pos s i x -> slot_free s i ->
  i = (length (mo s) - 1)%nat /\
  inv s0 (h ++ [(t, EDone w)]) (do_rmw s t i x (work_done_value (m_val x) w)).
Proof.
  intros s0 h s t w i x I E B Hf Hx Hfree.
  assert (Hil : (i < length (mo s))%nat) by (eapply nth_lt; exact Hx).
  assert (NP : t <> P) by (eapply producer_not_worker; eauto).
  assert (BP : busyP h = false).
  { destruct (busyP h) eqn:BP; [|reflexivity]. destruct (busyP_no_worker _ _ _ I BP _ _ E). congruence. }
  destruct (i_busy _ _ _ I _ _ E B) as (HL & HFl & HK).
  assert (Hin : In (wid w) ids).
  { destruct (in_dec Z.eq_dec (wid w) ids) as [|Hn]; [assumption|].
    destruct (i_foreign _ _ _ I _ _ E Hn). congruence. }
  assert (i = length (mo s) - 1)%nat as Hi.
  { destruct (Nat.eq_dec i (length (mo s) - 1)) as [|N]; [assumption|exfalso].
    destruct (nth_error (mo s) (i + 1)) as [y|] eqn:Ey.
    - pose proof (Hfree y Ey) as R0. rewrite (i_rmw _ _ _ I (i + 1)%nat y) in R0 by (auto; lia). discriminate.
    - apply nth_error_None in Ey. lia. }
  split; [exact Hi|].
  assert (Hi1 : (i + 1 = length (mo s))%nat) by lia.
  set (v := work_done_value (m_val x) w).
  assert (H16 : is16 (m_val x)) by (eapply i_is16; eauto).
  assert (Hbit : Z.testbit (m_val x) (wid w) = true).
  { rewrite Hi in Hx. apply (i_last _ _ _ I x (wid w) Hx); [eapply id_range; eauto|].
    split; [exact Hin|]. split; [lia|]. intros t' w' E' Ew.
    destruct Hcast as (_ & _ & Hu). rewrite (Hu _ _ _ _ E' E Ew). lia. }
  assert (Hnz : m_val x <> 0) by (intro Z0; rewrite Z0, Z.bits_0 in Hbit; discriminate).
  assert (HR : (n_of h = finished t h + 1)%nat) by (pose proof (i_round _ _ _ I _ _ E Hin); lia).
  set (e := EDone w : event T).
  assert (EN : n_of (h ++ [(t, e)]) = n_of h).
  { rewrite n_snoc, P_eqb by auto. cbn. lia. }
  assert (EF : forall t', t' <> t -> finished t' (h ++ [(t, e)]) = finished t' h).
  { intros t' N. rewrite fin_snoc. destruct (Nat.eqb_spec t' t); [contradiction|]. cbn. lia. }
  assert (EFt : finished t (h ++ [(t, e)]) = n_of h).
  { rewrite fin_snoc, Nat.eqb_refl. cbn. lia. }
  assert (EBP : busyP (h ++ [(t, e)]) = busyP h) by (apply busyP_other; auto).
  assert (EB : forall t', t' <> t -> busyW t' (h ++ [(t, e)]) = busyW t' h).
  { intros t' N. apply busyW_other; auto. }
  assert (EBt : busyW t (h ++ [(t, e)]) = false) by (rewrite busyW_same; reflexivity).
  assert (EP : published d (h ++ [(t, e)]) = published d h) by (rewrite published_snoc; reflexivity).
  set (x0 := Msg v (vjoin (known s t) (m_view x)) true).
  assert (EM : mo (do_rmw s t i x v) = mo s ++ [x0]).
  { cbn. rewrite Hi1. apply insert_end. }
  assert (AT : forall k y, at_pos (do_rmw s t i x v) k y ->
               (k < length (mo s))%nat /\ at_pos s k y \/ k = length (mo s) /\ y = x0).
  { intros k y Hy. unfold at_pos in *. rewrite EM in Hy. apply nth_snoc in Hy. exact Hy. }
  assert (EFL : forall t', t' <> t -> floor (do_rmw s t i x v) t' = floor s t').
  { intros t' N. cbn [do_rmw floor]. rewrite upd_other by auto. unfold shift_floor. rewrite Hi1.
    pose proof (i_floor _ _ _ I t'). destruct (Nat.leb_spec (length (mo s)) (floor s t')); [lia|reflexivity]. }
  assert (EFLt : floor (do_rmw s t i x v) t = length (mo s)).
  { cbn [do_rmw floor]. rewrite upd_same. exact Hi1. }
  assert (EL : length (mo (do_rmw s t i x v)) = S (length (mo s))).
  { rewrite EM, app_length. cbn. lia. }
  assert (VB : forall j, 0 <= j -> Z.testbit v j = Z.testbit (m_val x) j && negb (j =? wid w)).
  { intros j Hj. unfold v. eapply id_done_bits; eauto. }
  destruct I.
  constructor; cbn [do_rmw known accesses last_write datum] in *; rewrite ?EL.
  - lia.
  - intros k y Hk Hy. destruct (AT _ _ Hy) as [[L Hy']|[-> ->]]; [eauto|reflexivity].
  - intro t'. destruct (Nat.eq_dec t' t) as [->|N].
    + rewrite EFLt. lia.
    + rewrite EFL by auto. pose proof (i_floor0 t'). lia.
  - rewrite EFL by auto. assumption.
  - intros k y Hy. destruct (AT _ _ Hy) as [[L Hy']|[-> ->]]; [eauto|].
    cbn [x0 m_val]. unfold v. eapply id_done_is16; eauto.
  - intros k y j Hy Hj Hb. destruct (AT _ _ Hy) as [[L Hy']|[-> ->]]; [eauto|].
    cbn [x0 m_val] in Hb. rewrite VB in Hb by exact Hj. apply andb_prop in Hb. destruct Hb as [Hb _]. eauto.
  - intros k y Hk Hlt Hy. destruct (AT _ _ Hy) as [[L Hy']|[-> ->]]; [|lia].
    destruct (Nat.eq_dec k i) as [->|N].
    + assert (Some y = Some x) by (rewrite <- Hx, <- Hy'; reflexivity). congruence.
    + apply (i_nonzero0 k y); auto; lia.
  - intros y j Hy Hj. rewrite EN. destruct (AT _ _ Hy) as [[L _]|[_ ->]]; [lia|].
    cbn [x0 m_val]. rewrite VB by exact Hj. rewrite andb_true_iff.
    rewrite Hi in Hx. rewrite (i_last0 x j Hx Hj).
    split.
    + intros [(A1 & A2 & A3) A4]. split; [exact A1|]. split; [exact A2|].
      intros t' w' E' Ew. destruct (Nat.eq_dec t' t) as [->|N].
      * exfalso. assert (w' = w) by congruence. subst w'. rewrite <- Ew, Z.eqb_refl in A4. discriminate.
      * rewrite EF by auto. eauto.
    + intros (A1 & A2 & A3). split.
      * split; [exact A1|]. split; [exact A2|]. intros t' w' E' Ew. specialize (A3 t' w' E' Ew).
        destruct (Nat.eq_dec t' t) as [->|N]; [rewrite EFt in A3; lia|]. rewrite EF in A3 by auto. exact A3.
      * destruct (Z.eqb_spec j (wid w)) as [->|N]; [|reflexivity].
        specialize (A3 t w E eq_refl). rewrite EFt in A3. lia.
  - intros t' w' E' Hin'. rewrite EN. destruct (Nat.eq_dec t' t) as [->|N].
    + rewrite EFt. lia.
    + rewrite EF by auto. eauto.
  - intros t' w' k y E' Hin' HF Hk Hy. rewrite EN in HF.
    destruct (Nat.eq_dec t' t) as [->|N].
    + assert (w' = w) by congruence. subst w'. rewrite EFLt in Hk.
      destruct (AT _ _ Hy) as [[L _]|[_ ->]]; [lia|]. cbn [x0 m_val].
      rewrite VB by (eapply id_range; eauto). rewrite Z.eqb_refl. apply andb_false_r.
    + rewrite EF in HF by auto. rewrite EFL in Hk by auto.
      destruct (AT _ _ Hy) as [[L Hy']|[-> ->]]; [eauto|].
      cbn [x0 m_val]. rewrite VB by (eapply id_range; eauto).
      rewrite (i_done0 t' w' i x E' Hin' HF); [reflexivity| |exact Hx].
      pose proof (i_floor0 t'). lia.
  - intros t' w' k y E' Hin' Hk Hy Hb.
    destruct (AT _ _ Hy) as [[L Hy']|[-> ->]]; [|lia].
    destruct (Nat.eq_dec t' t) as [->|N].
    + rewrite EFLt in Hk. lia.
    + rewrite EFL in Hk by auto. eauto.
  - intros t' w' E' Hn. destruct (Nat.eq_dec t' t) as [->|N].
    + assert (w' = w) by congruence. subst w'. contradiction.
    + rewrite EB, EF by auto. eauto.
  - intros t' w' E' Hb. rewrite EN. destruct (Nat.eq_dec t' t) as [->|N].
    + congruence.
    + rewrite EB in Hb by auto. rewrite EF, EFL by auto. eauto.
  - intros _ k y Hk Hy. destruct (AT _ _ Hy) as [[L Hy']|[-> ->]]; [eauto|].
    cbn [x0 m_view]. unfold vjoin. lia.
  - intro Hb. congruence.
  - intros t' w' y E' Hin' HF Hy. rewrite EN in HF.
    destruct (AT _ _ Hy) as [[L _]|[_ ->]]; [lia|]. cbn [x0 m_view]. unfold vjoin.
    destruct (Nat.eq_dec t' t) as [->|N].
    + pose proof (i_self0 t). lia.
    + rewrite EF in HF by auto. rewrite Hi in Hx. pose proof (i_viewW0 t' w' x E' Hin' HF Hx). lia.
  - exact i_none0.
  - exact i_lw0.
  - exact i_lwz0.
  - exact i_self0.
  - rewrite value_after_snoc. exact i_datum0.
  - rewrite EP, EN. exact i_plen0.
  - rewrite EP, EN, EBP. exact i_plast0.
Qed.

(** Every contract-keeping execution. *)
Theorem inv_exec : forall h s, exec q (start d) h s -> contract c h -> exists s0, inv s0 h s.
Proof.
  intros h s X. remember (start d) as st eqn:Est.
  induction X as [s|s tr s1 t e s2 X IH St]; intros HC; subst.
  - exists O. apply inv_start.
  - destruct (contract_snoc _ _ _ _ HC) as [HC' R].
    destruct (IH eq_refl HC') as [s0 I].
    destruct R as [[-> R]|(N & w & E & R)].
    + inversion St; subst; try contradiction.
      * exists s0. eapply inv_get_mut; eauto.
      * eexists. eapply inv_notify; eauto.
      * exists s0. exact (inv_accessP s0 tr s1 (EWrite v) v I R (or_introl eq_refl)).
      * exists s0. exact (inv_accessP s0 tr s1 (ERead (datum s1)) (datum s1) I R (or_intror (conj eq_refl eq_refl))).
    + inversion St; subst; try contradiction.
      * destruct R as [-> R]. exists s0. eapply inv_get; eauto.
      * destruct R as [-> R]. exists s0. eapply inv_work_done; eauto.
      * exists s0. eapply inv_readW; eauto.
Qed.
End Inv.
