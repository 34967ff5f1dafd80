(** QGenProofs.v -- runs of the generator. *)
From Coq Require Import ZArith Ascii String.
From Coq Require Import List Bool Lia Permutation Relations.
From Flocq Require Import Core IEEE754.BinarySingleNaN.
From Verif Require Import Base FloatModel KrxModel QDateModel QInterpModel QDivModel QCurveModel QMoneyModel QBondModel QSwapModel QFutModel QInstModel QInstSpec QInstProps QMatchProps QVolModel QEngModel QEngSpec QEngProofs QEngFrame QLoadModel QLoadSpec QLoadProofs QGenModel.
Import ListNotations.
Open Scope Z_scope.

Section Runs.
Context (out : list instrument -> rresult (string -> option calc) -> Prop).
Definition merged (l : list (list instrument * (string -> option calc))) : string -> option calc := fold_left (fun m p => merge (snd p) m) l (fun _ => None).
(** what was done, what failed or was left out, what is left *)
Lemma run_inv : forall w w', clos_refl_trans_1n work (gstep out) w w' -> forall groups ok bad, Permutation (map fst ok ++ bad ++ wk_left w) groups -> Forall (fun p => out (fst p) (ROk (snd p))) ok -> (forall k, wk_shared w k = merged ok k) ->
  (wk_failed w = false -> bad = []) -> (wk_failed w = true -> exists is, In is groups /\ out is RErr) ->
  exists ok' bad', Permutation (map fst ok' ++ bad' ++ wk_left w') groups /\ Forall (fun p => out (fst p) (ROk (snd p))) ok' /\ (forall k, wk_shared w' k = merged ok' k) /\
    (wk_failed w' = false -> bad' = []) /\ (wk_failed w' = true -> exists is, In is groups /\ out is RErr).
Proof using.
  intros w w' R. induction R as [w|w w1 w' S R IH]; intros groups ok bad P F M B E; [exists ok, bad; auto|]. destruct S as [sh a is b e rs O|sh a is b e O|sh a is b]; cbn [wk_left wk_shared wk_failed] in *.
  - apply (IH groups (ok ++ [(is, rs)]) bad).
    + cbn [wk_left]. rewrite map_app. cbn [map fst]. rewrite <- P, <- !app_assoc. apply Permutation_app_head. cbn [app]. rewrite (app_assoc bad), (app_assoc bad). apply Permutation_middle.
    + apply Forall_app. split; [exact F|]. constructor; [exact O|constructor].
    + intro k. cbn [wk_shared]. unfold merged. rewrite fold_left_app. cbn [fold_left snd]. unfold merge. destruct (rs k); [reflexivity|exact (M k)].
    + exact B.
    + exact E.
  - apply (IH groups ok (is :: bad)).
    + cbn [wk_left]. rewrite <- P. apply Permutation_app_head. cbn [app]. rewrite (app_assoc bad), (app_assoc bad). apply Permutation_middle.
    + exact F.
    + exact M.
    + discriminate.
    + intros _. exists is. split; [|exact O]. apply (Permutation_in is P). apply in_or_app. right. apply in_or_app. right. apply in_or_app. right. left. reflexivity.
  - apply (IH groups ok (is :: bad)).
    + cbn [wk_left]. rewrite <- P. apply Permutation_app_head. cbn [app]. rewrite (app_assoc bad), (app_assoc bad). apply Permutation_middle.
    + exact F.
    + exact M.
    + discriminate.
    + exact E.
Qed.
Lemma merged_some : forall l k c, merged l k = Some c -> exists p, In p l /\ snd p k = Some c.
Proof using.
  intros l k c. unfold merged. assert (G : forall acc, fold_left (fun m p => merge (snd p) m) l acc k = Some c -> acc k = Some c \/ exists p, In p l /\ snd p k = Some c).
  { induction l as [|p l IH]; intros acc H; [left; exact H|]. cbn [fold_left] in H. destruct (IH _ H) as [Q|(q & I & Q)]; [|right; exists q; split; [right; exact I|exact Q]]. unfold merge in Q. destruct (snd p k) eqn:E; [right; exists p; split; [left; reflexivity|congruence]|left; exact Q]. }
  intro H. destruct (G _ H) as [Q|Q]; [discriminate Q|exact Q].
Qed.
Lemma merged_one : forall l k p, In p l -> snd p k <> None -> (forall q, In q l -> snd q k <> None -> q = p) -> merged l k = snd p k.
Proof using.
  intros l k p. unfold merged. assert (G : forall l acc, (forall q, In q l -> snd q k <> None -> q = p) -> (In p l \/ acc k = snd p k) -> snd p k <> None -> fold_left (fun m p => merge (snd p) m) l acc k = snd p k).
  { clear. induction l as [|q l IH]; intros acc U I N; [destruct I as [[]|I]; exact I|]. cbn [fold_left]. apply IH; [intros x X; apply U; right; exact X| |exact N]. destruct I as [[->|I]|I].
    - right. unfold merge. destruct (snd p k); [reflexivity|contradiction N; reflexivity].
    - left. exact I.
    - right. unfold merge. destruct (snd q k) eqn:Q; [|exact I]. assert (q = p) by (apply U; [left; reflexivity|congruence]). subst q. congruence. }
  intros I N U. apply G; auto.
Qed.
End Runs.

Lemma nodup_fst : forall A (l r : list A), NoDup (l ++ r) -> NoDup l.
Proof. intros A l r. induction l as [|x l IH]; intro H; [constructor|]. cbn [app] in H. inversion H as [|? ? N1 N2]; subst. constructor; [intro; apply N1; apply in_or_app; left; assumption|exact (IH N2)]. Qed.
Lemma nodup_snd : forall A (l r : list A), NoDup (l ++ r) -> NoDup r.
Proof. intros A l r. induction l as [|x l IH]; intro H; [exact H|]. cbn [app] in H. inversion H; subst. apply IH. assumption. Qed.
(** ** The reports of one group *)
Lemma nodup_coded : forall is, NoDup (map code is) -> coded is.
Proof.
  induction is as [|x is IH]; intros N i j I J E; [contradiction I|]. cbn [map] in N. inversion N as [|? ? N1 N2]; subst. destruct I as [<-|I]; destruct J as [<-|J]; [reflexivity| | |exact (IH N2 i j I J E)]; exfalso; apply N1; [rewrite E|rewrite <- E]; apply in_map; assumption.
Qed.
(** an engine's run, step by step *)
Lemma group_steps : forall fo se o is rs, group_run fo se o is = Ret (ROk rs) -> exists s l ws s',
  with_instruments (ld_market l) is = ROk s /\ with_parameter_data (se_exp se) (se_eval se) (se_data se) (se_match se) (se_sticky se) (cf_vega_tenors (se_config se)) (cf_moneyness (se_config se)) (or_shuffle o) is = Ret (ROk l) /\
  initialize_pricers (se_analytic se) l (se_match se) is = Ret (ROk ws) /\
  runs (calculate (Context is (pricer_map fo ws) (se_match se) (se_config se) (or_keys o) (or_div_keys o) (or_coupons o) (or_cash o) (se_exp se))) s s' /\ rs = st_results s'.
Proof.
  intros fo se o is rs H. unfold group_run in H. apply rbind_ok in H. destruct H as (s & E1 & H). apply rbind_ok in H. destruct H as (l & E2 & H). apply rbind_ok in H. destruct H as (ws & E3 & H).
  destruct (calculate _ _) as [[[x|] s']| |] eqn:C; try discriminate H. injection H as <-. exists (State (ld_market l) (st_results s) (st_action s)), l, ws, s'. split; [|split; [exact E2|split; [exact E3|split; [destruct x; exact C|reflexivity]]]].
  assert (D : w_date (mk_world (ld_market l)) = se_eval se).
  { unfold with_parameter_data in E2. do 9 (apply rbind_ok in E2; destruct E2 as (? & _ & E2)). injection E2 as <-. reflexivity. }
  assert (E : with_instruments (no_market (se_eval se)) is = ROk s) by congruence. unfold with_instruments in *. destruct is as [|i is]; [discriminate E|]. destruct (all_currencies (i :: is)); [|discriminate E]. rewrite D. cbn [mk_world no_market w_date] in E.
  destruct (maturing_upto (i :: is) (se_eval se) []); [|discriminate E]. apply rok_inj in E. subst s. reflexivity.
Qed.
Lemma group_keys : forall fo se is rs, NoDup (map code is) -> may fo se is (ROk rs) -> forall k, rs k <> None <-> In k (map code is).
Proof.
  intros fo se is rs N (o & OK & H) k. destruct (group_steps _ _ _ _ _ H) as (s & l & ws & s' & W & _ & _ & R & ->). destruct (with_instruments_ok _ _ _ W) as (_ & SM & SA & _ & RI & RN). pose proof (nodup_coded is N) as C. destruct (ok_keys _ _ _ OK) as [_ K].
  set (cx := Context is _ _ _ _ _ _ _ _) in *. assert (O : forall k, st_results s k = None <-> st_results s' k = None).
  { unfold runs in R. rewrite calculate_split in R. step R u s1 E. assert (A : forall P s s', only P s s' -> forall k, st_results s k = None <-> st_results s' k = None).
    { clear. intros P s s' O k. specialize (O k). destruct (st_results s k); destruct (st_results s' k); try contradiction O; split; congruence. }
    intro k0. rewrite (A _ _ _ (keeps_after cx _ _ _ R) k0) || rewrite <- (A _ _ _ (keeps_after cx _ _ _ R) k0). destruct (cf_npv (cx_config cx)); cbn [whenever] in E.
    - assert (KK : forall k, In k (cx_keys cx) <-> exists i, In i (st_action s) /\ code i = k). { intro x. cbn [cx cx_keys]. rewrite K, in_map_iff, SA. split; intros (i & A1 & A2); exists i; auto. }
      destruct u. assert (CS : coded (st_action s)) by (rewrite SA; exact C). destruct (npv_stage cx (ld_market l) s s1 CS SM KK E) as (_ & _ & O & _). apply (A _ _ _ O).
    - apply done_ok in E. destruct E as [_ ->]. reflexivity. }
  rewrite <- (O k). split.
  - intro Q. destruct (in_dec string_dec k (map code is)) as [I|I]; [exact I|]. exfalso. apply Q. apply RN. intros i I' <-. apply I. apply in_map. exact I'.
  - intro I. apply in_map_iff in I. destruct I as (i & <- & I). rewrite (RI C i I). discriminate.
Qed.
