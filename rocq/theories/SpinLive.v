(** SpinLive.v -- progress of the spin queue: from every contract-keeping
    state the workers can finish and the producer can go on. *)
From Coq Require Import ZArith List Bool Lia ListDec.
From Verif Require Import Base SpinModel SpinSpec SpinProofs SpinInv.
Import ListNotations.
Open Scope Z_scope.

(** What [DataSpinQueue::new] guarantees about [full_status]. *)
Lemma queue_new_full : forall m ws q, made_workers ws -> queue_new m ws = Ret (ROk q) ->
  NoDup (map wid ws) /\ q_ptr q = Some tt /\ is16 (q_full q) /\
  Forall (fun i => 0 <= i <= 15) (map wid ws) /\
  forall j, 0 <= j -> (Z.testbit (q_full q) j = true <-> In j (map wid ws)).
Proof.
  intros m ws q Hm H. unfold queue_new in H.
  destruct (collect_ids_spec ws [] (NoDup_nil _)) as [A B]. cbn [app] in A, B.
  destruct (ListDec.NoDup_dec Z.eq_dec (map wid ws)) as [Hn|Hn].
  2: { rewrite (B Hn) in H. discriminate. }
  rewrite (A Hn) in H.
  assert (Hr : Forall (fun i => 0 <= i <= 15) (map wid ws)).
  { apply Forall_map. exact (made_range _ Hm). }
  destruct (fold_full_spec m (map wid ws) 0 Hr) as (full & E & H16 & Hb).
  { split; [lia|]. intros; apply Z.bits_0. }
  rewrite E in H. cbn [obind] in H. inversion H; subst q. cbn [q_ptr q_full].
  split; [exact Hn|]. split; [reflexivity|]. split; [exact H16|]. split; [exact Hr|].
  intros j Hj. rewrite Hb by exact Hj. rewrite Z.bits_0. cbn [orb].
  rewrite existsb_exists. split.
  - intros (x & Hx & Ex). apply Z.eqb_eq in Ex. subst; exact Hx.
  - intro Hin. exists j. split; [exact Hin|apply Z.eqb_refl].
Qed.

Section Live.
Context {T : Type}.
Variables (c : @cast) (q : queue) (ids : list Z) (d : T).
Hypothesis Hcast : @proper_cast c.
Hypothesis Hids : Forall (fun i => 0 <= i <= 15) ids.
Hypothesis Hfull16 : is16 (q_full q).
Hypothesis Hfull : forall j, 0 <= j -> (Z.testbit (q_full q) j = true <-> In j ids).

Let P := producer c.

Lemma producer_ok_ext : forall (l : list (event T)) b e, producer_ok b l ->
  match e with
  | EGetMut _ => pphase b l = false
  | ENotify | EWrite _ | ERead _ => pphase b l = true
  | EGet _ _ | EDone _ => False
  end -> producer_ok b (l ++ [e]).
Proof.
  induction l as [|e0 l IH]; intros b e H HE; cbn [app].
  - cbn in HE. destruct e; subst; try contradiction; try (constructor; constructor).
    destruct got; constructor; constructor.
  - inversion H; subst; constructor; apply IH; assumption.
Qed.

Lemma worker_ok_ext : forall w (l : list (event T)) b e, worker_ok w b l ->
  match e with
  | EGet w' _ => w' = w /\ wphase b l = false
  | EDone w' => w' = w /\ wphase b l = true
  | ERead _ => wphase b l = true
  | _ => False
  end -> worker_ok w b (l ++ [e]).
Proof.
  intros w. induction l as [|e0 l IH]; intros b e H HE; cbn [app].
  - cbn in HE. destruct e; try contradiction.
    + destruct HE as [-> ->]. destruct got; constructor; constructor.
    + destruct HE as [-> ->]. constructor; constructor.
    + subst. constructor; constructor.
  - inversion H; subst; constructor; apply IH; assumption.
Qed.

Lemma contract_ext_worker : forall h t w e, @contract T c h -> identity c t = Some w ->
  match e with
  | EGet w' _ => w' = w /\ busyW t h = false
  | EDone w' => w' = w /\ busyW t h = true
  | ERead _ => busyW t h = true
  | _ => False
  end -> contract c (h ++ [(t, e)]).
Proof.
  intros h t w e [HP HW] E HE.
  assert (N : t <> producer c) by (eapply producer_not_worker; eauto).
  split.
  - rewrite acts_snoc_other by auto. exact HP.
  - intros t' N'. specialize (HW t' N'). destruct (Nat.eq_dec t t') as [<-|D].
    + rewrite E in *. rewrite acts_snoc_same. apply worker_ok_ext; assumption.
    + rewrite acts_snoc_other by auto. exact HW.
Qed.

Lemma contract_ext_producer : forall h e, @contract T c h ->
  match e with
  | EGetMut _ => busyP c h = false
  | ENotify | EWrite _ | ERead _ => busyP c h = true
  | EGet _ _ | EDone _ => False
  end -> contract c (h ++ [(producer c, e)]).
Proof.
  intros h e [HP HW] HE. split.
  - rewrite acts_snoc_same. apply producer_ok_ext; assumption.
  - intros t N. specialize (HW t N). rewrite acts_snoc_other by auto. exact HW.
Qed.

(** A worker with an unfinished item and outside its section gets it when its
    load sees the newest status. *)
Lemma get_possible : forall h s t w, exec q (start d) h s -> contract c h ->
  identity c t = Some w -> In (wid w) ids -> busyW t h = false -> (finished t h < publications c h)%nat ->
  exists s', step q s t (EGet w true) s'.
Proof.
  intros h s t w X HC E Hin B HL.
  destruct (inv_exec c q ids d Hcast Hfull16 Hfull h s X HC) as [s0 I].
  destruct (last_exists s) as (x & Hx). { pose proof (i_s0 _ _ _ _ _ _ I); lia. }
  eexists. eapply step_get with (i := (length (mo s) - 1)%nat) (x := x).
  - pose proof (i_floor _ _ _ _ _ _ I t). lia.
  - exact Hx.
  - unfold get. rewrite (id_ready c Hcast _ _ _ E (i_is16 _ _ _ _ _ _ I _ _ Hx)).
    assert (Hb : Z.testbit (m_val x) (wid w) = true).
    { apply (i_last _ _ _ _ _ _ I x (wid w) Hx); [exact (proj1 (id_range c Hcast t w E))|].
      split; [exact Hin|]. split; [unfold n_of; lia|]. intros t' w' E' Ew.
      destruct Hcast as (_ & _ & Hu). rewrite (Hu _ _ _ _ E' E Ew). exact HL. }
    rewrite Hb. reflexivity.
Qed.

(** A load of the newest status answers [None] exactly when the worker has
    nothing to do; but [work_done] is always possible. *)
Lemma work_done_possible : forall h s t w, exec q (start d) h s -> contract c h ->
  exists s', step q s t (EDone w) s'.
Proof.
  intros h s t w X HC.
  destruct (inv_exec c q ids d Hcast Hfull16 Hfull h s X HC) as [s0 I].
  destruct (last_exists s) as (x & Hx). { pose proof (i_s0 _ _ _ _ _ _ I); lia. }
  eexists. eapply step_done with (i := (length (mo s) - 1)%nat) (x := x).
  - pose proof (i_floor _ _ _ _ _ _ I t). lia.
  - exact Hx.
  - intros y Hy. apply nth_lt in Hy. pose proof (i_s0 _ _ _ _ _ _ I). lia.
Qed.

Lemma get_mut_possible : forall h s, exec q (start d) h s -> contract c h ->
  (forall j, In j ids -> exists t w, identity c t = Some w /\ wid w = j /\ finished t h = publications c h) ->
  exists s', step q s P (EGetMut true) s'.
Proof.
  intros h s X HC HA.
  destruct (inv_exec c q ids d Hcast Hfull16 Hfull h s X HC) as [s0 I].
  destruct (last_exists s) as (x & Hx). { pose proof (i_s0 _ _ _ _ _ _ I); lia. }
  eexists. eapply step_get_mut with (i := (length (mo s) - 1)%nat) (x := x).
  - pose proof (i_floor _ _ _ _ _ _ I P). lia.
  - exact Hx.
  - assert (Z0 : m_val x = 0).
    { apply zero_of_bits. intros j Hj. destruct (Z.testbit (m_val x) j) eqn:Hb; [|reflexivity].
      apply (i_last _ _ _ _ _ _ I x j Hx Hj) in Hb. destruct Hb as (Hin & _ & Hall).
      destruct (HA j Hin) as (t & w & E & Ew & HF). specialize (Hall t w E Ew). unfold n_of in Hall. lia. }
    rewrite Z0. reflexivity.
Qed.

(** Let one worker finish what is pending. *)
Lemma finish_one : forall h s t w, exec q (start d) h s -> contract c h ->
  identity c t = Some w -> In (wid w) ids ->
  exists h' s', exec q (start d) (h ++ h') s' /\ contract c (h ++ h') /\
    Forall (fun te => fst te = t) h' /\ finished t (h ++ h') = publications c (h ++ h').
Proof.
  intros h s t w X HC E Hin.
  assert (NP : t <> producer c) by (eapply producer_not_worker; eauto).
  destruct (inv_exec c q ids d Hcast Hfull16 Hfull h s X HC) as [s0 I].
  pose proof (i_round _ _ _ _ _ _ I _ _ E Hin) as R. unfold n_of in R.
  destruct (Nat.eq_dec (finished t h) (publications c h)) as [Q|Q].
  { exists [], s. rewrite app_nil_r. auto. }
  assert (GO : forall h1 s1, exec q (start d) h1 s1 -> contract c h1 -> busyW t h1 = true ->
    (publications c h1 = finished t h1 + 1)%nat ->
    exists s2, exec q (start d) (h1 ++ [(t, EDone w)]) s2 /\ contract c (h1 ++ [(t, EDone w)]) /\
      finished t (h1 ++ [(t, EDone w)]) = publications c (h1 ++ [(t, EDone w)])).
  { intros h1 s1 X1 HC1 B1 HF1. destruct (work_done_possible h1 s1 t w X1 HC1) as [s2 St].
    exists s2. split; [econstructor; eauto|]. split; [eapply contract_ext_worker; eauto|].
    change (publications c (h1 ++ [(t, EDone w)])) with (n_of c (h1 ++ [(t, EDone w)])).
    rewrite fin_snoc, n_snoc. rewrite Nat.eqb_refl. cbn [is_notify is_done]. rewrite andb_false_r. cbn [andb].
    unfold n_of. lia. }
  destruct (busyW t h) eqn:B.
  - destruct (GO h s X HC B) as (s2 & X2 & HC2 & HF2); [lia|].
    exists [(t, EDone w)], s2. split; [exact X2|]. split; [exact HC2|]. split; [|exact HF2].
    constructor; [reflexivity|constructor].
  - destruct (get_possible h s t w X HC E Hin B) as [s1 St]; [lia|].
    assert (X1 : exec q (start d) (h ++ [(t, EGet w true)]) s1) by (econstructor; eauto).
    assert (HC1 : contract c (h ++ [(t, EGet w true)])) by (eapply contract_ext_worker; eauto).
    destruct (GO _ _ X1 HC1) as (s2 & X2 & HC2 & HF2).
    + apply busyW_same.
    + change (publications c (h ++ [(t, EGet w true)])) with (n_of c (h ++ [(t, EGet w true)])).
      rewrite fin_snoc, n_snoc. cbn [is_notify is_done]. rewrite !andb_false_r. unfold n_of. lia.
    + exists [(t, EGet w true); (t, EDone w)], s2.
      rewrite <- app_assoc in X2, HC2, HF2. cbn [app] in *.
      split; [exact X2|]. split; [exact HC2|]. split; [|exact HF2].
      constructor; [reflexivity|]. constructor; [reflexivity|constructor].
Qed.

Lemma acts_none : forall (h' h : history T) t, Forall (fun te => fst te <> t) h' -> acts t (h ++ h') = acts t h.
Proof.
  induction h' as [|[t0 e] h' IH]; intros h t HF; [rewrite app_nil_r; reflexivity|].
  inversion HF; subst. cbn in H1.
  replace (h ++ (t0, e) :: h') with ((h ++ [(t0, e)]) ++ h') by (rewrite <- app_assoc; reflexivity).
  rewrite IH by assumption. apply acts_snoc_other. auto.
Qed.

(** Let all workers of a list finish. *)
Lemma finish_all : forall js h s, exec q (start d) h s -> contract c h ->
  incl js ids -> (forall j, In j js -> exists t w, identity c t = Some w /\ wid w = j) ->
  exists h' s', exec q (start d) (h ++ h') s' /\ contract c (h ++ h') /\
    Forall (fun te => fst te <> producer c) h' /\
    forall j, In j js -> exists t w, identity c t = Some w /\ wid w = j /\
      finished t (h ++ h') = publications c (h ++ h').
Proof.
  induction js as [|j js IH]; intros h s X HC Hincl Hheld.
  - exists [], s. rewrite app_nil_r. split; [exact X|]. split; [exact HC|]. split; [constructor|].
    intros j [].
  - destruct (IH h s X HC) as (h1 & s1 & X1 & HC1 & F1 & A1).
    { intros k Hk. apply Hincl. right; exact Hk. }
    { intros k Hk. apply Hheld. right; exact Hk. }
    destruct (Hheld j (or_introl eq_refl)) as (t & w & E & Ew).
    destruct (finish_one (h ++ h1) s1 t w X1 HC1 E) as (h2 & s2 & X2 & HC2 & F2 & HF).
    { rewrite Ew. apply Hincl. left; reflexivity. }
    assert (NP : t <> producer c) by (eapply producer_not_worker; eauto).
    assert (F2' : Forall (fun te : tid * event T => fst te <> producer c) h2).
    { eapply Forall_impl; [|exact F2]. cbn. intros te ->. exact NP. }
    exists (h1 ++ h2), s2. rewrite app_assoc. split; [exact X2|]. split; [exact HC2|]. split.
    { apply Forall_app. split; assumption. }
    intros k [<-|Hk].
    + exists t, w. auto.
    + destruct (A1 k Hk) as (t' & w' & E' & Ew' & HF').
      exists t', w'. split; [exact E'|]. split; [exact Ew'|].
      destruct (Nat.eq_dec t' t) as [->|D]; [exact HF|].
      unfold finished, publications in *.
      rewrite (acts_none h2 (h ++ h1) t'). 2: { eapply Forall_impl; [|exact F2]. cbn. intros te ->. auto. }
      rewrite (acts_none h2 (h ++ h1) (producer c)) by exact F2'. exact HF'.
Qed.
End Live.
