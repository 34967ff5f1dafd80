(** LogProps.v -- properties C60-C67 of the logger
    (trading-engine/src/logger.rs). *)
From Coq Require Import ZArith List Bool Lia.
From Verif Require Import Base LogModel LogSpec LogProofs.
Import ListNotations.
Open Scope Z_scope.

(** The system after the history [h], the logger having been started at [t0]. *)
Definition after (m : build) (t0 : Z) (h : list sys_event) : system := sys_run m (sys_start t0) h.

(** ** Survival *)

(** A sane environment: files open, a core exists, and the clock does not run
    backwards (this last only matters with overflow checks). *)
Definition sane (m : build) (t0 : Z) (h : list sys_event) : Prop :=
  Forall openable (sents h) /\ (m = Wrapping \/ clock_from t0 h).

Definition ok_time (m : build) (t0 : Z) (h : list sys_event) : Prop := m = Wrapping \/ clock_from t0 h.

Lemma write_queue_last : forall l e l2 o c, write_queue l e = (l2, o, c) -> l_last l2 = l_last l \/ l_last l2 = e_after e.
Proof.
  intros l e l2 o c. unfold write_queue. destruct (l_writer l) as [[p buf]|].
  - destruct (bw_write p buf (concat (l_queue l))). intro H; inversion H; subst. right; reflexivity.
  - intro H; inversion H; subst. left; reflexivity.
Qed.

Lemma handle_survives : forall m l e x, openable x -> (m = Wrapping \/ l_last l <= e_now e) ->
  match fst (fst (handle m l e x)) with
  | Going l' => is_close x = false /\ (l_last l' = l_last l \/ l_last l' = e_after e)
  | Closed => is_close x = true
  | Died => False
  end.
Proof.
  intros m l e x Ho Ht.
  assert (U : exists d, usub m (e_now e) (l_last l) = Ret d).
  { destruct Ht as [->|Ht]; [unfold usub; destruct (_ <=? _); eexists; reflexivity|].
    rewrite usub_ok by exact Ht. eexists; reflexivity. }
  destruct U as [d U].
  assert (TX : forall s, match fst (fst (handle_text m l e s)) with
    | Going l' => l_last l' = l_last l \/ l_last l' = e_after e | _ => False end).
  { intro s. unfold handle_text.
    destruct (write_queue (Logger (l_queue l ++ [s]) (l_writer l) (l_last l)) e) as [[l2 o] c] eqn:W.
    pose proof (write_queue_last _ _ _ _ _ W) as L. cbn [l_last] in L.
    destruct (buffer_size_limit <? _); [exact L|].
    rewrite U. destruct (flush_interval <? d); cbn; [exact L|left; reflexivity]. }
  destruct x as [s|s|s|p ok|ok|]; cbn [handle].
  - specialize (TX s). destruct (handle_text m l e s) as [[[l'| |] o] c]; cbn in *; auto; contradiction.
  - destruct (write_queue (Logger (l_queue l ++ [s]) (l_writer l) (l_last l)) e) as [[l2 o] c] eqn:W.
    pose proof (write_queue_last _ _ _ _ _ W) as L. cbn [l_last fst] in *. split; [reflexivity|exact L].
  - specialize (TX s). destruct (handle_text m l e s) as [[[l'| |] o] c]; cbn in *; auto; contradiction.
  - cbn in Ho. subst ok. cbn. auto.
  - cbn in Ho. subst ok. cbn. auto.
  - destruct (l_writer l) as [[p buf]|]; [|reflexivity].
    destruct (bw_write p buf (concat (l_queue l))). reflexivity.
Qed.

(** Alive, with the time of the last flush in the past and openable messages
    waiting; or finished. *)
Definition surviving (m : build) (t : Z) (s : system) : Prop :=
  match thread s with
  | Alive l => Forall openable (chan s) /\ (m = Wrapping \/ l_last l <= t)
  | Finished => True
  | Dead => False
  end.

Lemma clock_from_weaken : forall h t t', t' <= t -> clock_from t h -> clock_from t' h.
Proof.
  induction h as [|[x|e] h IH]; intros t t' L H; cbn in *; [exact I|eapply IH; eauto|].
  destruct H as [H1 H2]. split; [lia|exact H2].
Qed.

Lemma surviving_run : forall m h t s, surviving m t s -> Forall openable (sents h) -> ok_time m t h ->
  exists t', surviving m t' (sys_run m s h).
Proof.
  intros m h. induction h as [|ev h IH]; intros t s S Ho Ht; cbn [sys_run]; [exists t; exact S|].
  destruct ev as [x|e]; cbn [sys_step sents] in *.
  - inversion Ho; subst. apply IH with t; [|assumption|destruct Ht; [left|right]; assumption].
    unfold send, surviving in *. destruct (thread s) as [l| |] eqn:T; cbn [snd thread chan]; rewrite ?T; try exact S.
    destruct S as [F L]. split; [|exact L]. apply Forall_app. split; [exact F|]. constructor; [assumption|constructor].
  - assert (Ht' : ok_time m (e_after e) h).
    { destruct Ht as [->|[_ Ht]]; [left; reflexivity|right; exact Ht]. }
    assert (Lt : m = Wrapping \/ t <= e_now e <= e_after e).
    { destruct Ht as [->|[Ht _]]; [left; reflexivity|right; exact Ht]. }
    apply IH with (e_after e); [|exact Ho|exact Ht'].
    unfold work, surviving in *. destruct (thread s) as [l| |] eqn:T; [|rewrite T; exact S|contradiction].
    destruct S as [F L]. destruct (chan s) as [|x r] eqn:CH.
    { rewrite T, CH. split; [constructor|]. destruct L as [L|L]; [left; exact L|]. destruct Lt as [Lt|Lt]; [left; exact Lt|right; lia]. }
    inversion F; subst.
    pose proof (handle_survives m l e x ltac:(assumption)) as HS.
    destruct (handle m l e x) as [[tn o] c]. cbn [fst] in HS.
    destruct tn as [l'| |]; cbn [thread chan].
    + split; [assumption|]. destruct Lt as [Lt|Lt]; [left; exact Lt|]. destruct L as [L|L]; [left; exact L|].
      right. destruct HS as (_ & [->| ->]); [right; lia|lia|lia].
    + exact I.
    + destruct Lt as [Lt|Lt]; [apply HS; left; exact Lt|]. destruct L as [L|L]; apply HS; [left; exact L|right; lia].
Qed.

Lemma surviving_start : forall m t0, surviving m t0 (sys_start t0).
Proof. intros m t0. cbn. split; [constructor|right; lia]. Qed.

(** Turns alone drain the channel up to a [Close]. *)
Lemma drain : forall m ts t s, surviving m t s -> ok_time m t (map Turn ts) ->
  match thread s with
  | Alive _ => existsb is_close (chan s) = true /\ (length (chan s) <= length ts)%nat
  | _ => True
  end ->
  thread (sys_run m s (map Turn ts)) = Finished.
Proof.
  intros m ts. induction ts as [|e ts IH]; intros t s S Ht H.
  - cbn. unfold surviving in S. destruct (thread s) as [l| |]; [|reflexivity|contradiction].
    destruct H as [C L]. cbn in L. destruct (chan s); [discriminate|cbn in L; lia].
  - cbn [map sys_run sys_step].
    destruct (surviving_run m [Turn e] t s S) as [t' S']; [constructor| |].
    { destruct Ht as [->|[Ht _]]; [left; reflexivity|right; split; [exact Ht|exact I]]. }
    cbn [sys_run sys_step] in S'.
    (* time after this turn *)
    assert (S2 : surviving m (e_after e) (work m s e)).
    { destruct Ht as [->|[Ht _]].
      - unfold surviving in *. destruct (thread (work Wrapping s e)); auto. destruct S'; split; auto.
      - clear S'. unfold work, surviving in *. destruct (thread s) as [l| |] eqn:T; [|rewrite T; exact S|contradiction].
        destruct S as [F L]. destruct (chan s) as [|x r] eqn:CH.
        { rewrite T, CH. split; [constructor|]. destruct L as [L|L]; [left; exact L|right; lia]. }
        inversion F; subst. pose proof (handle_survives m l e x ltac:(assumption)) as HS.
        destruct (handle m l e x) as [[tn o] c]. cbn [fst] in HS.
        destruct tn as [l'| |]; cbn [thread chan].
        + split; [assumption|]. destruct L as [L|L]; [left; exact L|]. right.
          destruct HS as (_ & [->| ->]); [right; lia|lia|lia].
        + exact I.
        + destruct L as [L|L]; apply HS; [left; exact L|right; lia]. }
    apply IH with (e_after e); [exact S2| |].
    { destruct Ht as [->|[_ Ht]]; [left; reflexivity|right; exact Ht]. }
    unfold work, surviving in *. destruct (thread s) as [l| |] eqn:T; [|rewrite T; exact I|rewrite T; exact I].
    destruct H as [C L]. destruct (chan s) as [|x r] eqn:CH; [discriminate|].
    destruct S as [F LL]. inversion F; subst.
    pose proof (handle_survives m l e x ltac:(assumption)) as HS.
    destruct (handle m l e x) as [[tn o] c]. cbn [fst] in HS.
    destruct tn as [l'| |]; cbn [thread chan]; try exact I.
    assert (E : is_close x = false).
    { destruct Ht as [->|[Ht _]]; [apply HS; left; reflexivity|]. destruct LL as [->|LL]; [apply HS; left; reflexivity|].
      apply HS. right. lia. }
    cbn in C, L. rewrite E in C. split; [exact C|lia].
Qed.

(** ** C60: after shutdown the log is complete *)

(** Whatever threads logged and whenever the logging thread ran: once it has
    finished after a [Close], and a file had been set before, the files hold
    exactly the text of the messages sent before the [Close], each once, in
    the order sent, cut into one segment per selected file. *)
Theorem C60_closed_log_is_complete : forall m t0 h,
  thread (after m t0 h) = Finished -> files_of (before_close h) <> [] ->
  holds (files (after m t0 h)) (files_of (before_close h)) (log_text (before_close h)).
Proof.
  intros m t0 h HF HN. pose proof (sys_inv_reachable m t0 h) as I. unfold after in *. unfold sys_inv in I.
  rewrite HF in I. destruct I as [_ I]. destruct (files_of (before_close h)) as [|p ps]; [contradiction|exact I].
Qed.
Print Assumptions C60_closed_log_is_complete.

(** In particular with one file: that file has received exactly the text. *)
Theorem C60_single_file_is_complete : forall m t0 h p,
  thread (after m t0 h) = Finished -> files_of (before_close h) = [p] ->
  files (after m t0 h) = map (pair p) (log_text (before_close h)).
Proof.
  intros m t0 h p HF HP. destruct (C60_closed_log_is_complete m t0 h HF) as (segs & L & E & C).
  { rewrite HP; discriminate. }
  rewrite HP in L, E. destruct segs as [|s [|s' segs]]; cbn in L; try discriminate.
  rewrite E. cbn in *. rewrite app_nil_r in *. rewrite <- C. reflexivity.
Qed.
Print Assumptions C60_single_file_is_complete.

(** And shutting down works: in a sane environment, from any point, [Close]
    followed by enough turns of the logging thread finishes it. *)
Theorem C60_shutdown_finishes : forall m t0 h ts,
  sane m t0 (h ++ Sent MClose :: map Turn ts) ->
  (length (sents h) < length ts)%nat ->
  thread (after m t0 (h ++ Sent MClose :: map Turn ts)) = Finished.
Proof.
  intros m t0 h ts [Ho Ht] L. unfold after.
  assert (SR : forall a b s, sys_run m s (a ++ b) = sys_run m (sys_run m s a) b).
  { induction a as [|x a IHa]; intros b s; cbn; [reflexivity|apply IHa]. }
  assert (CF : forall a b t, clock_from t (a ++ b) -> clock_from t a /\
     exists t', t <= t' /\ clock_from t' b).
  { induction a as [|[x|e] a IHa]; intros b t H; cbn in *.
    - split; [exact I|]. exists t. split; [lia|exact H].
    - destruct (IHa _ _ H) as [A [t' [B C]]]. split; [exact A|exists t'; auto].
    - destruct H as [H1 H2]. destruct (IHa _ _ H2) as [A [t' [B C]]]. split; [auto|]. exists t'. split; [lia|exact C]. }
  rewrite sents_app in Ho. apply Forall_app in Ho. destruct Ho as [Ho _].
  rewrite SR. cbn [sys_run sys_step].
  (* a time at the end of h *)
  assert (G : exists t1, surviving m t1 (sys_run m (sys_start t0) h) /\ ok_time m t1 (map Turn ts)).
  { clear L SR. revert Ht. assert (S0 := surviving_start m t0). revert S0. generalize (sys_start t0) as s.
    intros s S0 Ht. destruct Ht as [->|Ht].
    - destruct (surviving_run Wrapping h t0 s S0 Ho) as [t' S']; [left; reflexivity|].
      exists t'. split; [exact S'|left; reflexivity].
    - revert t0 s S0 Ht. induction h as [|[x|e] h IH]; intros t0 s S0 Ht; cbn [sys_run sys_step app] in *.
      + exists t0. split; [exact S0|right; exact Ht].
      + cbn in Ho. inversion Ho; subst. apply IH with t0; [assumption| |exact Ht].
        unfold send, surviving in *. destruct (thread s) as [l| |] eqn:T; cbn [snd thread chan]; rewrite ?T; try exact S0.
        destruct S0 as [F Q]. split; [|exact Q]. apply Forall_app. split; [exact F|]. constructor; [assumption|constructor].
      + cbn in Ht, Ho. destruct Ht as [H1 H2]. apply IH with (e_after e); [exact Ho| |exact H2].
        unfold work, surviving in *. destruct (thread s) as [l| |] eqn:T; [|rewrite T; exact S0|contradiction].
        destruct S0 as [F Q]. destruct (chan s) as [|x r] eqn:CH.
        { rewrite T, CH. split; [constructor|]. destruct Q as [Q|Q]; [left; exact Q|right; lia]. }
        inversion F; subst. pose proof (handle_survives m l e x ltac:(assumption)) as HS.
        destruct (handle m l e x) as [[tn o] c]. cbn [fst] in HS.
        destruct tn as [l'| |]; cbn [thread chan].
        * split; [assumption|]. destruct Q as [Q|Q]; [left; exact Q|]. right.
          destruct HS as (_ & [->| ->]); [right; lia|lia|lia].
        * exact I.
        * destruct Q as [Q|Q]; apply HS; [left; exact Q|right; lia]. }
  destruct G as (t1 & S1 & Ht1).
  pose proof (sys_inv_reachable m t0 h) as INV. unfold sys_inv in INV. fold (after m t0 h) in *.
  set (s := after m t0 h) in *. clearbody s.
  apply drain with t1; [|exact Ht1|].
  - unfold send, surviving in *. destruct (thread s) as [l| |] eqn:T; cbn [snd thread chan]; rewrite ?T; try exact S1.
    destruct S1 as [F Q]. split; [|exact Q]. apply Forall_app. split; [exact F|]. constructor; [exact I|constructor].
  - unfold send. destruct (thread s) as [l| |] eqn:T; cbn [snd thread chan]; rewrite ?T; try exact I.
    destruct INV as (pr & E & _). split.
    + rewrite existsb_app. cbn. apply orb_true_r.
    + rewrite app_length. cbn. rewrite E, app_length in L. lia.
Qed.
Print Assumptions C60_shutdown_finishes.

(** Two threads' messages, a file set late, a flush by time, then shutdown. *)
Definition ex_h : list sys_event :=
  [Sent (MLazy [1; 2]); Sent (MSetCore true); Turn (Env 10 10 true); Sent (MSetFile 7%nat true);
   Turn (Env 10 11 true); Turn (Env 12 12 true); Sent (MStatic [3]); Turn (Env 9000000 9000001 true);
   Sent (MLazy [4; 5])].
Definition ex_turns : list env := repeat (Env 9000001 9000001 true) 9.

Example C60_hypotheses_met :
  sane Checked 5 (ex_h ++ Sent MClose :: map Turn ex_turns) /\
  (length (sents ex_h) < length ex_turns)%nat /\
  thread (after Checked 5 (ex_h ++ Sent MClose :: map Turn ex_turns)) = Finished /\
  files_of (before_close (ex_h ++ Sent MClose :: map Turn ex_turns)) = [7%nat] /\
  log_text (before_close (ex_h ++ Sent MClose :: map Turn ex_turns)) = [1; 2; 3; 4; 5].
Proof.
  split.
  - split; [repeat constructor|]. right. vm_compute. repeat split; discriminate.
  - split; [vm_compute; lia|]. split; [vm_compute; reflexivity|]. split; reflexivity.
Qed.

(** ** C61: whatever happens, the files hold a prefix of the log *)

(** At every byte written (a crash can come between any two), in every
    history, sane or not: the bytes appended so far are the beginning of the
    log text, laid out over the first of the selected files in order: nothing
    is out of order, repeated, or torn away from the middle. *)
Theorem C61_crash_leaves_a_prefix : forall m t0 h written later,
  files (after m t0 h) = written ++ later ->
  exists ps t, is_prefix ps (files_of (before_close h)) /\ is_prefix t (log_text (before_close h)) /\
    holds written ps t.
Proof.
  intros m t0 h w r E. pose proof (sys_inv_reachable m t0 h) as I. unfold after in *. unfold sys_inv in I.
  assert (EI : ended_inv (files (sys_run m (sys_start t0) h)) (before_close h)).
  { destruct (thread (sys_run m (sys_start t0) h)) as [l| |]; [| |exact I].
    - destruct I as (pr & Es & C & TI).
      apply ended_more with pr.
      { unfold before_close. rewrite Es, (upto_close_app _ _ C). apply prefix_app. }
      unfold thread_inv in TI. destruct (l_writer l) as [[p buf]|].
      + destruct TI as (ps & t & A & Hh & Q). exists (ps ++ [p]), t. rewrite A.
        split; [apply prefix_refl|]. split; [exists (buf ++ concat (l_queue l)); rewrite Q; reflexivity|exact Hh].
      + destruct TI as (-> & _). exists [], []. split; [eexists; reflexivity|]. split; [eexists; reflexivity|exact holds_nil].
    - destruct I as [_ I]. destruct (files_of (before_close h)) as [|p ps] eqn:F.
      + exists [], []. split; [eexists; reflexivity|]. split; [eexists; reflexivity|exact I].
      + exists (p :: ps), (log_text (before_close h)). rewrite F. split; [apply prefix_refl|].
        split; [apply prefix_refl|exact I]. }
  destruct EI as (ps & t & P & T & Hh).
  destruct (holds_cut _ _ _ w r Hh E) as (ps1 & P1 & t1 & T1 & H1).
  exists ps1, t1. split; [eapply prefix_trans; eauto|]. split; [eapply prefix_trans; eauto|exact H1].
Qed.
Print Assumptions C61_crash_leaves_a_prefix.

Example C61_hypotheses_met :
  files (after Checked 5 (ex_h ++ Sent MClose :: map Turn ex_turns)) =
  [(7%nat, 1); (7%nat, 2)] ++ [(7%nat, 3); (7%nat, 4); (7%nat, 5)].
Proof. vm_compute. reflexivity. Qed.

(** ** C62: a flushing log call puts its text into the file -- refuted *)

(** For every text of fewer than 8192 bytes and every environment, the file is
    still empty after the thread has handled the flushing message: the text
    sits in the writer's buffer and a crash loses it. *)
Theorem C62_flushing_reaches_the_file_refuted : forall m t0 p s e1 e2,
  Z.of_nat (length s) < 8192 ->
  let s' := after m t0 [Sent (MSetFile p true); Turn e1; Sent (MFlushing s); Turn e2] in
  chan s' = [] /\ files s' = [].
Proof.
  intros m t0 p s e1 e2 L. cbn.
  unfold write_queue. cbn [l_writer l_queue concat app]. rewrite app_nil_r.
  unfold bw_write. cbn [length]. rewrite Nat.sub_0_r.
  destruct (Nat.ltb_spec (length s) bw_capacity) as [H|H].
  - cbn. split; reflexivity.
  - unfold bw_capacity in H. lia.
Qed.
Print Assumptions C62_flushing_reaches_the_file_refuted.

Example C62_hypotheses_met : Z.of_nat (length [1; 2; 3]) < 8192.
Proof. cbn. lia. Qed.

(** ** C63: the memory of the queue is bounded -- refuted *)

(** Without a file nothing is ever dropped or written: after [n] messages the
    queue holds [n]. *)
Fixpoint n_times {A} (n : nat) (l : list A) : list A := match n with O => [] | S k => l ++ n_times k l end.

Lemma run_repeat : forall m (P : nat -> system -> Prop) h,
  (forall k s, P k s -> P (S k) (sys_run m s h)) ->
  forall n k s, P k s -> P (n + k)%nat (sys_run m s (n_times n h)).
Proof.
  intros m P h H n. induction n as [|n IH]; intros k s Hk; cbn [n_times]; [exact Hk|].
  assert (SR : forall a b s, sys_run m s (a ++ b) = sys_run m (sys_run m s a) b).
  { induction a as [|x a IHa]; intros b s1; cbn; [reflexivity|apply IHa]. }
  rewrite SR. replace (S n + k)%nat with (n + S k)%nat by lia. apply IH. apply H. exact Hk.
Qed.

Definition queue_of (s : system) : list text := match thread s with Alive l => l_queue l | _ => [] end.

Theorem C63_no_file_grows_refuted : forall m s t0 n,
  queue_of (after m t0 (n_times n [Sent (MLazy s); Turn (Env t0 t0 true)])) = repeat s n /\
  files (after m t0 (n_times n [Sent (MLazy s); Turn (Env t0 t0 true)])) = [].
Proof.
  intros m s t0 n. unfold after.
  pose (P := fun k sy => exists l, sy = System [] (Alive l) [] [] /\ l_writer l = None /\ l_queue l = repeat s k /\ l_last l = t0).
  assert (H : P (n + 0)%nat (sys_run m (sys_start t0) (n_times n [Sent (MLazy s); Turn (Env t0 t0 true)]))).
  { apply run_repeat; [|exists (Logger [] None t0); repeat split].
    intros k sy (l & -> & W & Q & T). cbn. unfold handle_text, write_queue. cbn [l_writer]. rewrite W.
    rewrite T. cbn [e_now]. rewrite usub_ok by lia. rewrite Z.sub_diag.
    assert (A : exists l2, (if buffer_size_limit <? Z.of_nat (length (l_queue l)) + Z.of_nat (length s)
        then (Going (Logger (l_queue l ++ [s]) None t0), [], [])
        else if flush_interval <? 0 then (Going (Logger (l_queue l ++ [s]) None t0), [], [])
        else (Going (Logger (l_queue l ++ [s]) None t0), [], [])) = (Going l2, @nil appended, @nil text) /\
        l_writer l2 = None /\ l_queue l2 = repeat s (S k) /\ l_last l2 = t0).
    { exists (Logger (l_queue l ++ [s]) None t0).
      split; [destruct (_ <? _); [reflexivity|]; destruct (_ <? _); reflexivity|].
      split; [reflexivity|]. split; [|reflexivity]. cbn [l_queue]. rewrite Q.
      clear. induction k as [|k IHk]; [reflexivity|]. cbn in *. f_equal. exact IHk. }
    destruct A as (l2 & E & W2 & Q2 & T2). rewrite E. exists l2. split; [reflexivity|]. repeat split; assumption. }
  rewrite Nat.add_0_r in H. destruct H as (l & E & _ & Q & _). rewrite E. split; [exact Q|reflexivity].
Qed.
Print Assumptions C63_no_file_grows_refuted.

(** With a file, the "string length" limit of 2,000,000 does not bound the
    queued text, because the number of queued messages is compared instead of
    their length: within one flush interval [n] texts of [k] bytes stay queued
    whenever n + k <= 2,000,000 -- up to 10^12 bytes. *)
Theorem C63_limit_counts_messages_refuted : forall m s t0 p n,
  Z.of_nat n + Z.of_nat (length s) <= 2000000 ->
  queue_of (after m t0 (Sent (MSetFile p true) :: Turn (Env t0 t0 true) ::
    n_times n [Sent (MLazy s); Turn (Env t0 t0 true)])) = repeat s n.
Proof.
  intros m s t0 p n L. unfold after. cbn [sys_run sys_step].
  set (s1 := work m (snd (send (sys_start t0) (MSetFile p true))) (Env t0 t0 true)).
  pose (P := fun k sy => (k <= n)%nat -> exists l, sy = System [] (Alive l) [] [] /\ l_writer l = Some (p, []) /\
     l_queue l = repeat s k /\ l_last l = t0).
  assert (H : P (n + 0)%nat (sys_run m s1 (n_times n [Sent (MLazy s); Turn (Env t0 t0 true)]))).
  { apply run_repeat; [|intros _; exists (Logger [] (Some (p, [])) t0); repeat split].
    intros k sy HP Hk. destruct (HP ltac:(lia)) as (l & -> & W & Q & T). cbn. unfold handle_text. cbn [l_writer].
    rewrite T. cbn [e_now]. rewrite usub_ok by lia. rewrite Z.sub_diag. rewrite Q, repeat_length.
    unfold buffer_size_limit. destruct (Z.ltb_spec 2000000 (Z.of_nat k + Z.of_nat (length s))) as [X|X]; [lia|].
    change (flush_interval <? 0) with false. cbn.
    eexists. split; [reflexivity|]. cbn. split; [exact W|]. split; [|reflexivity].
    clear. induction k as [|k IHk]; [reflexivity|]. cbn in *. f_equal. exact IHk. }
  rewrite Nat.add_0_r in H. destruct (H ltac:(lia)) as (l & E & _ & Q & _). rewrite E. exact Q.
Qed.
Print Assumptions C63_limit_counts_messages_refuted.

Example C63_hypotheses_met : exists n s,
  Z.of_nat n + Z.of_nat (length (s : text)) <= 2000000 /\ Z.of_nat n * Z.of_nat (length s) = 1000000000000.
Proof.
  exists (Z.to_nat 1000000), (repeat 65 (Z.to_nat 1000000)). rewrite repeat_length, Z2Nat.id by lia. lia.
Qed.

(** ** C64: the level filter *)

(** How verbose a level is: Nil < Error < Warn < Info < Debug < Trace. *)
Definition verbosity_order : list log_level := [LNil; LError; LWarn; LInfo; LDebug; LTrace].
Definition at_most_as_verbose (a b : log_level) : Prop :=
  exists i j, nth_error verbosity_order i = Some a /\ nth_error verbosity_order j = Some b /\ (i <= j)%nat.

Lemma order_as_usize : forall i a, nth_error verbosity_order i = Some a -> Z.of_nat i = as_usize a.
Proof.
  intros i a H. destruct i as [|[|[|[|[|[|i]]]]]]; cbn in H; try (inversion H; subst; reflexivity).
  destruct i; discriminate.
Qed.

(** A call logs exactly when its level is at most the maximum, it sends exactly
    its message, and it leaves everything alone otherwise; the stored maximum
    always decodes. *)
Theorem C64_level_filter : forall s a b x l,
  thread s = Alive l ->
  (at_most_as_verbose a b ->
     log_call s (as_usize a) (as_usize b) x =
       Ret (true, System (chan s ++ [x]) (thread s) (files s) (console s))) /\
  (~ at_most_as_verbose a b -> log_call s (as_usize a) (as_usize b) x = Ret (false, s)) /\
  from_usize (as_usize b) = ROk b.
Proof.
  intros s a b x l T.
  assert (D : at_most_as_verbose a b <-> as_usize a <= as_usize b).
  { split.
    - intros (i & j & Hi & Hj & L).
      apply order_as_usize in Hi, Hj. lia.
    - intro L. exists (Z.to_nat (as_usize a)), (Z.to_nat (as_usize b)).
      split; [destruct a; reflexivity|]. split; [destruct b; reflexivity|]. lia. }
  unfold log_call, level_passes. split; [|split].
  - intro H. apply D in H. destruct (Z.leb_spec (as_usize a) (as_usize b)); [|lia].
    unfold send. rewrite T. reflexivity.
  - intro H. destruct (Z.leb_spec (as_usize a) (as_usize b)) as [L|L]; [exfalso; apply H, D; exact L|reflexivity].
  - destruct b; reflexivity.
Qed.
Print Assumptions C64_level_filter.

Example C64_hypotheses_met : at_most_as_verbose LWarn LInfo /\ ~ at_most_as_verbose LDebug LInfo.
Proof.
  split.
  - exists 2%nat, 3%nat. repeat split; lia.
  - intros (i & j & Hi & Hj & L).
    apply order_as_usize in Hi, Hj. cbn in Hi, Hj. lia.
Qed.

(** ** C65: a log call never disturbs its caller -- refuted after shutdown *)

(** After shutdown every log call whose level passes panics. *)
Theorem C65_log_after_shutdown_panics_refuted : forall m t0 h level max x,
  thread (after m t0 h) = Finished \/ thread (after m t0 h) = Dead ->
  level <= max -> log_call (after m t0 h) level max x = Panic.
Proof.
  intros m t0 h level max x H L. unfold log_call, level_passes.
  destruct (Z.leb_spec level max); [|lia]. unfold send.
  destruct H as [-> | ->]; reflexivity.
Qed.
Print Assumptions C65_log_after_shutdown_panics_refuted.

Example C65_hypotheses_met :
  thread (after Checked 5 (ex_h ++ Sent MClose :: map Turn ex_turns)) = Finished /\ 3 <= 3.
Proof. split; [vm_compute; reflexivity|lia]. Qed.

(** While the logging thread lives no call panics. *)
Theorem C65_live_logger_accepts : forall m t0 h level max x,
  sane m t0 h -> existsb is_close (sents h) = false ->
  exists sent s', log_call (after m t0 h) level max x = Ret (sent, s').
Proof.
  intros m t0 h level max x [Ho Ht] HC. unfold after.
  destruct (surviving_run m h t0 (sys_start t0) (surviving_start m t0) Ho Ht) as [t' S].
  pose proof (sys_inv_reachable m t0 h) as I. unfold sys_inv, surviving in *.
  unfold log_call. destruct (level_passes level max); [|eexists _, _; reflexivity].
  unfold send. destruct (thread (sys_run m (sys_start t0) h)) as [l| |].
  - eexists _, _; reflexivity.
  - destruct I as [C _]. congruence.
  - contradiction.
Qed.
Print Assumptions C65_live_logger_accepts.

Example C65_live_hypotheses_met : sane Checked 5 ex_h /\ existsb is_close (sents ex_h) = false.
Proof.
  split; [|reflexivity]. split; [repeat constructor|]. right. vm_compute. repeat split; discriminate.
Qed.

(** A message accepted after the [Close] was sent is lost without notice. *)
Theorem C65_accepted_is_written_refuted : forall m t0 p s e1 e2,
  s <> [] ->
  let h := [Sent (MSetFile p true); Sent MClose; Sent (MLazy s); Turn e1; Turn e2] in
  (exists s', log_call (after m t0 [Sent (MSetFile p true); Sent MClose]) 1 1 (MLazy s) = Ret (true, s')) /\
  thread (after m t0 h) = Finished /\ files (after m t0 h) = [].
Proof.
  intros m t0 p s e1 e2 _ h. split; [eexists; reflexivity|]. split; reflexivity.
Qed.
Print Assumptions C65_accepted_is_written_refuted.

Example C65_lost_hypotheses_met : [1; 2] <> @nil Z.
Proof. discriminate. Qed.

(** ** C66: the logger survives a clock adjustment -- refuted with overflow checks *)

(** With a file set and messages queued, one reading before the last flush
    kills the logging thread; the queued messages are lost and later calls
    panic. *)
Theorem C66_clock_step_back_refuted : forall t0 p a b e1 e2 e3,
  Z.of_nat (length a) + 1 < 1000000 -> Z.of_nat (length b) + 1 < 1000000 ->
  t0 <= e_now e2 <= t0 + flush_interval -> e_now e3 < t0 ->
  let h := [Sent (MSetFile p true); Turn e1; Sent (MLazy a); Turn e2; Sent (MLazy b); Turn e3] in
  thread (after Checked t0 h) = Dead /\ files (after Checked t0 h) = [] /\
  (forall x, log_call (after Checked t0 h) 1 1 x = Panic).
Proof.
  intros t0 p a b e1 e2 e3 La Lb H2 H3 h.
  assert (E : after Checked t0 h = System [] Dead [] []).
  { unfold h, after. cbn [sys_run sys_step send snd thread sys_start chan app files console work handle l_writer l_queue l_last].
    unfold handle_text. cbn [l_queue l_writer l_last length app].
    unfold buffer_size_limit. destruct (Z.ltb_spec 2000000 (Z.of_nat 0 + Z.of_nat (length a))); [lia|].
    rewrite usub_ok by lia. destruct (Z.ltb_spec flush_interval (e_now e2 - t0)); [lia|].
    cbn [send snd thread chan app files console work handle l_writer l_queue l_last].
    unfold handle_text. cbn [l_queue l_writer l_last length app].
    unfold buffer_size_limit. destruct (Z.ltb_spec 2000000 (Z.of_nat 1 + Z.of_nat (length b))); [lia|].
    unfold usub. destruct (Z.leb_spec t0 (e_now e3)); [lia|]. reflexivity. }
  rewrite E. split; [reflexivity|]. split; [reflexivity|]. reflexivity.
Qed.
Print Assumptions C66_clock_step_back_refuted.

Example C66_hypotheses_met : exists e2 e3 : env, 100 <= e_now e2 <= 100 + flush_interval /\ e_now e3 < 100.
Proof. exists (Env 100 100 false), (Env 99 99 false). unfold flush_interval. cbn. lia. Qed.

(** ** C67: the console shows the log *)

Definition console_on (ev : sys_event) : Prop := match ev with Turn e => e_console e = true | _ => True end.

Definition con_inv (s : system) (h : list sys_event) : Prop :=
  match thread s with
  | Alive l => exists pr, sents h = pr ++ chan s /\ existsb is_close pr = false /\
      concat (console s) ++ concat (l_queue l) = log_text pr
  | _ => is_prefix (concat (console s)) (log_text (before_close h))
  end.

Lemma write_queue_con : forall l e l2 o c, e_console e = true -> write_queue l e = (l2, o, c) ->
  concat c ++ concat (l_queue l2) = concat (l_queue l).
Proof.
  intros l e l2 o c Hc. unfold write_queue. rewrite Hc. destruct (l_writer l) as [[p buf]|].
  - destruct (bw_write p buf (concat (l_queue l))). intro H; inversion H; subst. cbn. rewrite !app_nil_r. reflexivity.
  - intro H; inversion H; subst. reflexivity.
Qed.

Lemma handle_con : forall m l e x t o c, e_console e = true -> handle m l e x = (t, o, c) ->
  match t with
  | Going l' => is_close x = false /\ concat c ++ concat (l_queue l') = concat (l_queue l) ++ text_of x
  | _ => c = []
  end.
Proof.
  intros m l e x t o c Hc H.
  assert (TX : forall s, handle_text m l e s = (t, o, c) ->
    match t with Going l' => concat c ++ concat (l_queue l') = concat (l_queue l) ++ s | _ => c = [] end).
  { intros s E. unfold handle_text in E.
    destruct (write_queue (Logger (l_queue l ++ [s]) (l_writer l) (l_last l)) e) as [[l2 o2] c2] eqn:W.
    pose proof (write_queue_con _ _ _ _ _ Hc W) as Q. cbn [l_queue] in Q. rewrite concat_snoc in Q.
    destruct (buffer_size_limit <? _); [inversion E; subst; exact Q|].
    destruct (usub m (e_now e) (l_last l)); [|inversion E; reflexivity|inversion E; reflexivity].
    destruct (flush_interval <? a); inversion E; subst; [exact Q|]. cbn. apply concat_snoc. }
  destruct x as [s|s|s|p ok|ok|]; cbn [handle text_of] in *.
  - specialize (TX s H). destruct t; auto.
  - destruct (write_queue (Logger (l_queue l ++ [s]) (l_writer l) (l_last l)) e) as [[l2 o2] c2] eqn:W.
    pose proof (write_queue_con _ _ _ _ _ Hc W) as Q. cbn [l_queue] in Q. rewrite concat_snoc in Q.
    inversion H; subst. split; [reflexivity|exact Q].
  - specialize (TX s H). destruct t; auto.
  - destruct ok; inversion H; subst; [|reflexivity]. cbn. rewrite app_nil_r. split; reflexivity.
  - destruct ok; inversion H; subst; [|reflexivity]. cbn. rewrite app_nil_r. split; reflexivity.
  - destruct (l_writer l) as [[p buf]|]; [destruct (bw_write p buf (concat (l_queue l)))|]; inversion H; reflexivity.
Qed.

Lemma con_inv_step : forall m s h ev, console_on ev -> con_inv s h -> con_inv (sys_step m s ev) (h ++ [ev]).
Proof.
  intros m s h [x|e] Hc I; cbn [sys_step].
  - unfold send, con_inv in *. destruct (thread s) as [l| |] eqn:T; cbn [snd thread chan console]; rewrite ?T.
    + destruct I as (pr & E & C & Q). exists pr. rewrite sents_app, E. cbn. rewrite app_assoc. auto.
    + unfold before_close in *. rewrite sents_app. eapply prefix_trans; [exact I|]. apply log_text_prefix, upto_close_prefix.
    + unfold before_close in *. rewrite sents_app. eapply prefix_trans; [exact I|]. apply log_text_prefix, upto_close_prefix.
  - unfold con_inv in *. unfold before_close in *. rewrite sents_app. cbn [sents]. rewrite app_nil_r.
    unfold work. destruct (thread s) as [l| |] eqn:T; [|rewrite T; exact I|rewrite T; exact I].
    destruct (chan s) as [|x r] eqn:CH.
    { rewrite T, CH. exact I. }
    destruct I as (pr & E & C & Q).
    destruct (handle m l e x) as [[t o] c] eqn:H. pose proof (handle_con _ _ _ _ _ _ _ Hc H) as HI.
    assert (PR : is_prefix (concat (console s)) (log_text (upto_close (sents h)))).
    { rewrite E, (upto_close_app _ _ C), log_text_app, <- Q. eexists. rewrite <- !app_assoc. reflexivity. }
    destruct t as [l'| |]; cbn [thread chan console].
    + destruct HI as [Hx HI]. exists (pr ++ [x]). split; [rewrite E, <- app_assoc; reflexivity|].
      split; [rewrite existsb_app, C; cbn; rewrite Hx; reflexivity|].
      rewrite concat_app, <- app_assoc, HI, log_text_snoc, <- Q, app_assoc. reflexivity.
    + subst c. rewrite app_nil_r. exact PR.
    + subst c. rewrite app_nil_r. exact PR.
Qed.

(** With the console report on throughout, what is printed (line breaks of
    [println!] aside) is a prefix of the log, in order. *)
Theorem C67_console_shows_a_prefix : forall m t0 h,
  Forall console_on h ->
  is_prefix (concat (console (after m t0 h))) (log_text (before_close h)).
Proof.
  intros m t0 h HF.
  assert (G : forall h2 s h1, con_inv s h1 -> Forall console_on h2 -> con_inv (sys_run m s h2) (h1 ++ h2)).
  { induction h2 as [|ev h2 IH]; intros s h1 I F; cbn [sys_run].
    - rewrite app_nil_r. exact I.
    - inversion F; subst. specialize (IH (sys_step m s ev) (h1 ++ [ev])).
      rewrite <- app_assoc in IH. apply IH; [|assumption]. apply con_inv_step; assumption. }
  specialize (G h (sys_start t0) []). cbn [app] in G.
  assert (I0 : con_inv (sys_start t0) []) by (exists []; repeat split).
  specialize (G I0 HF). unfold con_inv in G. fold (after m t0 h) in G.
  destruct (thread (after m t0 h)) as [l| |]; [|exact G|exact G].
  destruct G as (pr & E & C & Q). unfold before_close. rewrite E, (upto_close_app _ _ C), log_text_app, <- Q.
  eexists. rewrite <- !app_assoc. reflexivity.
Qed.
Print Assumptions C67_console_shows_a_prefix.

Example C67_hypotheses_met :
  Forall console_on (ex_h ++ Sent MClose :: map Turn ex_turns) /\
  console (after Checked 5 (ex_h ++ Sent MClose :: map Turn ex_turns)) = [[1; 2; 3]].
Proof. split; [repeat constructor|vm_compute; reflexivity]. Qed.

(** Refuted: not all of it, even after an orderly shutdown -- [Close] writes
    the rest of the queue to the file only. *)
Theorem C67_console_complete_refuted : forall m t0 p s e1 e2 e3,
  e_now e2 = t0 -> Z.of_nat (length s) < 1000000 -> s <> [] ->
  let h := [Sent (MSetFile p true); Turn e1; Sent (MLazy s); Turn e2; Sent MClose; Turn e3] in
  thread (after m t0 h) = Finished /\ console (after m t0 h) = [] /\
  files (after m t0 h) = map (pair p) s.
Proof.
  intros m t0 p s e1 e2 e3 H2 L N h.
  assert (T : thread (after m t0 h) = Finished /\ console (after m t0 h) = []).
  { unfold h, after. cbn [sys_run sys_step send snd thread sys_start chan app files console work handle l_writer l_queue l_last].
    unfold handle_text. cbn [l_queue l_writer l_last length app].
    unfold buffer_size_limit. destruct (Z.ltb_spec 2000000 (Z.of_nat 0 + Z.of_nat (length s))); [lia|].
    rewrite usub_ok by lia. rewrite H2, Z.sub_diag. change (flush_interval <? 0) with false.
    cbn [send snd thread chan app files console work handle l_writer l_queue l_last].
    match goal with |- context [bw_write ?a ?b ?c] => destruct (bw_write a b c) end. split; reflexivity. }
  destruct T as [T C]. split; [exact T|]. split; [exact C|].
  rewrite (C60_single_file_is_complete m t0 h p T eq_refl). cbn. rewrite app_nil_r. reflexivity.
Qed.
Print Assumptions C67_console_complete_refuted.

Example C67_refuted_hypotheses_met : exists e2, e_now e2 = 7 /\ Z.of_nat (length [1]) < 1000000 /\ [1] <> @nil Z.
Proof. exists (Env 7 7 true). split; [reflexivity|]. split; [cbn; lia|discriminate]. Qed.
