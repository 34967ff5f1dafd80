(** LogProofs.v -- the invariant of the logging system. *)
From Coq Require Import ZArith List Bool Lia.
From Verif Require Import Base LogModel LogSpec.
Import ListNotations.
Open Scope Z_scope.

Lemma cap_pos : (0 < bw_capacity)%nat.
Proof. unfold bw_capacity. lia. Qed.

Lemma bw_write_text : forall p buf s buf' out, bw_write p buf s = (buf', out) ->
  exists t, out = to_file p t /\ t ++ buf' = buf ++ s.
Proof.
  intros p buf s buf' out. unfold bw_write. pose proof cap_pos as CP.
  destruct (Nat.ltb_spec (length s) (bw_capacity - length buf)) as [L0|L0].
  { intro H; inversion H; subst. exists []. split; reflexivity. }
  destruct (Nat.ltb_spec (bw_capacity - length buf) (length s)) as [L|L];
    destruct (Nat.leb_spec bw_capacity (length s)) as [E|E]; intro H; inversion H; subst.
  - exists (buf ++ s). unfold to_file. rewrite map_app, app_nil_r. split; reflexivity.
  - exists buf. split; reflexivity.
  - destruct buf' as [|b buf']; [|exfalso; cbn [length] in L, L0; lia].
    exists s. rewrite app_nil_r. split; reflexivity.
  - exists []. split; reflexivity.
Qed.

(** ** Specification lemmas *)

Lemma log_text_app : forall a b, log_text (a ++ b) = log_text a ++ log_text b.
Proof. intros. unfold log_text. rewrite map_app, concat_app. reflexivity. Qed.
Lemma files_of_app : forall a b, files_of (a ++ b) = files_of a ++ files_of b.
Proof. intros. unfold files_of. rewrite map_app, concat_app. reflexivity. Qed.
Lemma sents_app : forall a b, sents (a ++ b) = sents a ++ sents b.
Proof. induction a as [|[x|e] a IH]; intros b; cbn; [reflexivity| |]; rewrite IH; reflexivity. Qed.

Lemma upto_close_app : forall a b, existsb is_close a = false -> upto_close (a ++ b) = a ++ upto_close b.
Proof.
  induction a as [|x a IH]; intros b H; [reflexivity|]. cbn in *.
  destruct (is_close x); [discriminate|]. cbn in H. rewrite IH by exact H. reflexivity.
Qed.

Lemma upto_close_prefix : forall a b, is_prefix (upto_close a) (upto_close (a ++ b)).
Proof.
  induction a as [|x a IH]; intros b; cbn; [eexists; reflexivity|].
  destruct (is_close x); [exists []; reflexivity|]. destruct (IH b) as [r ->]. exists r. reflexivity.
Qed.

Lemma upto_close_stable : forall a b, existsb is_close a = true -> upto_close (a ++ b) = upto_close a.
Proof.
  induction a as [|x a IH]; intros b H; [discriminate|]. cbn in *.
  destruct (is_close x); [reflexivity|]. rewrite IH by exact H. reflexivity.
Qed.

Lemma prefix_refl : forall A (l : list A), is_prefix l l.
Proof. intros. exists []. rewrite app_nil_r. reflexivity. Qed.
Lemma prefix_trans : forall A (a b c : list A), is_prefix a b -> is_prefix b c -> is_prefix a c.
Proof. intros A a b c [x ->] [y ->]. exists (x ++ y). rewrite app_assoc. reflexivity. Qed.
Lemma prefix_app : forall A (a b : list A), is_prefix a (a ++ b).
Proof. intros. eexists; reflexivity. Qed.

Lemma log_text_prefix : forall a b, is_prefix a b -> is_prefix (log_text a) (log_text b).
Proof. intros a b [r ->]. rewrite log_text_app. apply prefix_app. Qed.
Lemma files_of_prefix : forall a b, is_prefix a b -> is_prefix (files_of a) (files_of b).
Proof. intros a b [r ->]. rewrite files_of_app. apply prefix_app. Qed.

Lemma laid_out_snoc : forall ps segs p s, length segs = length ps ->
  laid_out (ps ++ [p]) (segs ++ [s]) = laid_out ps segs ++ to_file p s.
Proof.
  induction ps as [|q ps IH]; intros [|x segs] p s H; cbn in H; try discriminate; cbn.
  - rewrite app_nil_r. reflexivity.
  - rewrite IH by lia. rewrite app_assoc. reflexivity.
Qed.

Lemma holds_nil : holds [] [] [].
Proof. exists []. repeat split. Qed.

(** Append text to the current file. *)
Lemma holds_more : forall out ps p t s, holds out (ps ++ [p]) t ->
  holds (out ++ to_file p s) (ps ++ [p]) (t ++ s).
Proof.
  intros out ps p t s (segs & L & -> & <-).
  rewrite app_length in L. cbn in L.
  destruct (@exists_last _ segs) as (segs0 & x & ->). { destruct segs; cbn in L; [lia|discriminate]. }
  rewrite app_length in L. cbn in L. assert (L' : length segs0 = length ps) by lia.
  exists (segs0 ++ [x ++ s]). split; [rewrite !app_length; cbn; lia|]. split.
  - rewrite !laid_out_snoc by exact L'. unfold to_file. rewrite map_app, app_assoc. reflexivity.
  - rewrite !concat_app. cbn. rewrite !app_nil_r, app_assoc. reflexivity.
Qed.

(** Select a further file. *)
Lemma holds_next : forall out ps p t, holds out ps t -> holds out (ps ++ [p]) t.
Proof.
  intros out ps p t (segs & L & -> & <-). exists (segs ++ [[]]).
  split; [rewrite !app_length; cbn; lia|]. split.
  - rewrite laid_out_snoc by exact L. cbn. rewrite app_nil_r. reflexivity.
  - rewrite concat_app. cbn. rewrite app_nil_r. reflexivity.
Qed.

Lemma holds_bytes : forall out ps t, holds out ps t -> map snd out = t.
Proof.
  intros out ps t (segs & L & -> & <-). revert segs L.
  induction ps as [|p ps IH]; intros [|s segs] L; cbn in L; try discriminate; [reflexivity|].
  cbn. rewrite map_app, map_map. cbn. rewrite map_id. f_equal. apply IH. lia.
Qed.

(** A shorter trace of bytes holds a shorter text in the first files. *)
Lemma holds_cut : forall ps out t l r, holds out ps t -> out = l ++ r ->
  exists ps1, is_prefix ps1 ps /\ exists t1, is_prefix t1 t /\ holds l ps1 t1.
Proof.
  induction ps as [|p ps IH]; intros out t l r (segs & L & E & <-) Q; destruct segs as [|s segs]; cbn in L; try discriminate.
  - cbn in E. subst out. symmetry in Q. apply app_eq_nil in Q. destruct Q as [-> ->].
    exists []. split; [exists []; reflexivity|]. exists []. split; [exists []; reflexivity|exact holds_nil].
  - cbn in E. subst out. apply app_eq_app in Q. destruct Q as (k & [[Q1 Q2]|[Q1 Q2]]).
    + apply map_eq_app in Q1. destruct Q1 as (s1 & s2 & -> & <- & _).
      exists [p]. split; [exists ps; reflexivity|]. exists s1. split.
      * exists (s2 ++ concat segs). cbn. rewrite app_assoc. reflexivity.
      * exists [s1]. split; [reflexivity|]. cbn. rewrite !app_nil_r. split; reflexivity.
    + destruct (IH (laid_out ps segs) (concat segs) k r) as (ps1 & [a Ea] & t1 & [b Eb] & segs1 & L1 & K & T1).
      * exists segs. repeat split. lia.
      * exact Q2.
      * exists (p :: ps1). split; [exists a; rewrite Ea; reflexivity|]. exists (s ++ t1).
        split; [exists b; cbn; rewrite Eb, app_assoc; reflexivity|].
        exists (s :: segs1). split; [cbn; lia|]. split; [rewrite Q1, K; reflexivity|]. cbn. rewrite T1. reflexivity.
Qed.

(** ** The invariant *)

(** The live thread has handled [pr]. *)
Definition thread_inv (l : logger) (out : list appended) (pr : list lmsg) : Prop :=
  match l_writer l with
  | None => out = [] /\ files_of pr = [] /\ concat (l_queue l) = log_text pr
  | Some (p, buf) => exists ps t, files_of pr = ps ++ [p] /\ holds out (ps ++ [p]) t /\
      t ++ buf ++ concat (l_queue l) = log_text pr
  end.

Definition ended_inv (out : list appended) (before : list lmsg) : Prop :=
  exists ps t, is_prefix ps (files_of before) /\ is_prefix t (log_text before) /\ holds out ps t.

Definition sys_inv (s : system) (h : list sys_event) : Prop :=
  match thread s with
  | Alive l => exists pr, sents h = pr ++ chan s /\ existsb is_close pr = false /\ thread_inv l (files s) pr
  | Dead => ended_inv (files s) (before_close h)
  | Finished => existsb is_close (sents h) = true /\
      holds (files s) (files_of (before_close h))
        (match files_of (before_close h) with [] => [] | _ => log_text (before_close h) end)
  end.

Lemma concat_snoc : forall A (l : list (list A)) x, concat (l ++ [x]) = concat l ++ x.
Proof. intros. rewrite concat_app. cbn. rewrite app_nil_r. reflexivity. Qed.

Lemma files_of_snoc_text : forall pr x, selected x = [] -> files_of (pr ++ [x]) = files_of pr.
Proof. intros pr x H. rewrite files_of_app. unfold files_of at 2. cbn. rewrite H. cbn. apply app_nil_r. Qed.
Lemma log_text_snoc : forall pr x, log_text (pr ++ [x]) = log_text pr ++ text_of x.
Proof. intros. rewrite log_text_app. unfold log_text at 2. cbn. rewrite app_nil_r. reflexivity. Qed.

(** Queueing a text. *)
Lemma queue_inv : forall l out pr x s, text_of x = s -> selected x = [] -> thread_inv l out pr ->
  thread_inv (Logger (l_queue l ++ [s]) (l_writer l) (l_last l)) out (pr ++ [x]).
Proof.
  intros l out pr x s Ht Hs I. unfold thread_inv in *. cbn [l_writer l_queue].
  rewrite concat_snoc, log_text_snoc, (files_of_snoc_text _ _ Hs), Ht.
  destruct (l_writer l) as [[p buf]|].
  - destruct I as (ps & t & A & B & C). exists ps, t. split; [exact A|]. split; [exact B|].
    rewrite <- C, !app_assoc. reflexivity.
  - destruct I as (A & B & C). rewrite C. repeat split; assumption.
Qed.

(** Writing the queue. *)
Lemma write_queue_inv : forall l out pr e l2 out2 con, thread_inv l out pr ->
  write_queue l e = (l2, out2, con) -> thread_inv l2 (out ++ out2) pr.
Proof.
  intros l out pr e l2 out2 con I. unfold write_queue. unfold thread_inv in I.
  destruct (l_writer l) as [[p buf]|] eqn:W.
  - destruct (bw_write p buf (concat (l_queue l))) as [buf' o] eqn:B. intro H; inversion H; subst.
    destruct (bw_write_text _ _ _ _ _ B) as (u & -> & E). destruct I as (ps & t & A & Hh & C).
    unfold thread_inv. cbn [l_writer l_queue concat]. exists ps, (t ++ u). split; [exact A|].
    split; [apply holds_more; exact Hh|]. rewrite app_nil_r, <- app_assoc, E. exact C.
  - intro H; inversion H; subst. unfold thread_inv. rewrite W, app_nil_r. exact I.
Qed.

(** Dropping the writer: everything written so far reaches the file. *)
Lemma drop_inv : forall l out pr, thread_inv l out pr ->
  ended_inv (out ++ match l_writer l with Some (p, buf) => to_file p buf | None => [] end) pr.
Proof.
  intros l out pr I. unfold thread_inv in I. destruct (l_writer l) as [[p buf]|].
  - destruct I as (ps & t & A & Hh & C). exists (ps ++ [p]), (t ++ buf).
    split; [rewrite A; apply prefix_refl|]. split; [rewrite <- C, app_assoc; apply prefix_app|].
    apply holds_more; exact Hh.
  - destruct I as (-> & _). exists [], []. split; [eexists; reflexivity|]. split; [eexists; reflexivity|]. exact holds_nil.
Qed.

Lemma ended_more : forall out a b, is_prefix a b -> ended_inv out a -> ended_inv out b.
Proof.
  intros out a b H (ps & t & P & T & Hh). exists ps, t.
  split; [eapply prefix_trans; [exact P|apply files_of_prefix; exact H]|].
  split; [eapply prefix_trans; [exact T|apply log_text_prefix; exact H]|exact Hh].
Qed.

(** One turn. *)
Lemma handle_inv : forall m l out pr e x t o con, thread_inv l out pr -> handle m l e x = (t, o, con) ->
  match t with
  | Going l' => is_close x = false /\ thread_inv l' (out ++ o) (pr ++ [x])
  | Died => ended_inv (out ++ o) pr
  | Closed => is_close x = true /\
      holds (out ++ o) (files_of pr) (match files_of pr with [] => [] | _ => log_text pr end)
  end.
Proof.
  intros m l out pr e x t o con I H.
  assert (TX : forall s, text_of x = s -> selected x = [] -> is_close x = false -> handle_text m l e s = (t, o, con) ->
    match t with
    | Going l' => is_close x = false /\ thread_inv l' (out ++ o) (pr ++ [x])
    | Died => ended_inv (out ++ o) pr
    | Closed => False
    end).
  { intros s Ht Hs Hc E. pose proof (queue_inv _ _ _ _ _ Ht Hs I) as Q. unfold handle_text in E.
    destruct (buffer_size_limit <? _).
    - destruct (write_queue _ e) as [[l2 o2] c2] eqn:W. inversion E; subst. split; [exact Hc|].
      exact (write_queue_inv _ _ _ _ _ _ _ Q W).
    - destruct (usub m (e_now e) (l_last l)) as [d| |].
      + destruct (flush_interval <? d).
        * destruct (write_queue _ e) as [[l2 o2] c2] eqn:W. inversion E; subst. split; [exact Hc|].
          exact (write_queue_inv _ _ _ _ _ _ _ Q W).
        * inversion E; subst. split; [exact Hc|]. rewrite app_nil_r. exact Q.
      + inversion E; subst. apply drop_inv. exact I.
      + inversion E; subst. apply drop_inv. exact I. }
  destruct x as [s|s|s|p ok|ok|]; cbn [handle] in H.
  - specialize (TX s eq_refl eq_refl eq_refl H). destruct t; [exact TX|destruct TX|exact TX].
  - destruct (write_queue _ e) as [[l2 o2] c2] eqn:W. inversion H; subst. split; [reflexivity|].
    eapply write_queue_inv; [|exact W]. apply queue_inv; [reflexivity|reflexivity|exact I].
  - specialize (TX s eq_refl eq_refl eq_refl H). destruct t; [exact TX|destruct TX|exact TX].
  - destruct ok; inversion H; subst.
    + split; [reflexivity|]. unfold thread_inv in *. cbn [l_writer l_queue].
      rewrite log_text_snoc, files_of_app. cbn [text_of]. rewrite app_nil_r.
      change (files_of [MSetFile p true]) with [p].
      destruct (l_writer l) as [[p0 buf]|].
      * destruct I as (ps & t0 & A & Hh & C). exists (files_of pr), (t0 ++ buf).
        split; [reflexivity|]. split.
        -- apply holds_next. rewrite A. apply holds_more. exact Hh.
        -- cbn [app]. rewrite <- app_assoc. exact C.
      * destruct I as (-> & B & C). exists [], []. rewrite B. split; [reflexivity|].
        split; [apply holds_next; exact holds_nil|]. exact C.
    + apply drop_inv. exact I.
  - destruct ok; inversion H; subst.
    + split; [reflexivity|]. rewrite app_nil_r. unfold thread_inv in *.
      rewrite log_text_snoc, (files_of_snoc_text pr (MSetCore true) eq_refl). cbn [text_of]. rewrite app_nil_r. exact I.
    + apply drop_inv. exact I.
  - unfold thread_inv in I. destruct (l_writer l) as [[p buf]|].
    + destruct (bw_write p buf (concat (l_queue l))) as [buf' o1] eqn:B. inversion H; subst. split; [reflexivity|].
      destruct (bw_write_text _ _ _ _ _ B) as (u & -> & E). destruct I as (ps & t0 & A & Hh & C).
      assert (N : files_of pr <> []) by (rewrite A; destruct ps; discriminate).
      destruct (files_of pr) as [|f fs] eqn:F; [contradiction|]. rewrite A.
      rewrite <- C, <- E, !app_assoc. do 2 apply holds_more. exact Hh.
    + inversion H; subst. split; [reflexivity|]. destruct I as (-> & B & C). rewrite B. exact holds_nil.
Qed.

Lemma sys_step_inv : forall m s h ev, sys_inv s h -> sys_inv (sys_step m s ev) (h ++ [ev]).
Proof.
  intros m s h [x|e] I; cbn [sys_step].
  - unfold send. unfold sys_inv in *. destruct (thread s) as [l| |] eqn:T; cbn [snd thread chan files]; rewrite ?T.
    + destruct I as (pr & E & C & TI). exists pr. rewrite sents_app, E. cbn. rewrite app_assoc.
      repeat split; assumption.
    + destruct I as [C Hh]. unfold before_close. rewrite sents_app. cbn [sents].
      rewrite (upto_close_stable _ _ C). split; [|exact Hh]. rewrite existsb_app, C. reflexivity.
    + unfold before_close in *. rewrite sents_app. eapply ended_more; [apply upto_close_prefix|exact I].
  - unfold sys_inv in *. unfold before_close. rewrite sents_app. cbn [sents]. rewrite app_nil_r.
    unfold work. destruct (thread s) as [l| |] eqn:T; [|rewrite T; exact I|rewrite T; exact I].
    destruct (chan s) as [|x r] eqn:CH.
    { rewrite T, CH. exact I. }
    destruct I as (pr & E & C & TI).
    destruct (handle m l e x) as [[t o] con] eqn:H. pose proof (handle_inv _ _ _ _ _ _ _ _ _ TI H) as HI.
    destruct t as [l'| |]; cbn [thread chan files].
    + destruct HI as [Hc TI']. exists (pr ++ [x]). split; [rewrite E, <- app_assoc; reflexivity|].
      split; [rewrite existsb_app, C; cbn; rewrite Hc; reflexivity|exact TI'].
    + destruct HI as [Hc Hh]. split.
      * rewrite E, existsb_app. cbn. rewrite Hc. apply orb_true_r.
      * rewrite E, (upto_close_app _ _ C). cbn [upto_close]. rewrite Hc, app_nil_r. exact Hh.
    + eapply ended_more; [|exact HI]. rewrite E, (upto_close_app _ _ C). apply prefix_app.
Qed.

Lemma sys_run_inv : forall m h2 s h1, sys_inv s h1 -> sys_inv (sys_run m s h2) (h1 ++ h2).
Proof.
  intros m h2. induction h2 as [|ev h2 IH]; intros s h1 I; cbn [sys_run].
  - rewrite app_nil_r. exact I.
  - specialize (IH (sys_step m s ev) (h1 ++ [ev]) (sys_step_inv m s h1 ev I)).
    rewrite <- app_assoc in IH. exact IH.
Qed.

Theorem sys_inv_reachable : forall m t0 h, sys_inv (sys_run m (sys_start t0) h) h.
Proof.
  intros m t0 h. apply (sys_run_inv m h (sys_start t0) []).
  exists []. split; [reflexivity|]. split; [reflexivity|]. repeat split.
Qed.
