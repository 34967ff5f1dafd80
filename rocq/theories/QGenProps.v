(** QGenProps.v -- C199: what parallel engines report. *)
From Coq Require Import ZArith Ascii String.
From Coq Require Import List Bool Lia Permutation Relations.
From Flocq Require Import Core IEEE754.BinarySingleNaN.
From Verif Require Import Base FloatModel KrxModel QDateModel QInterpModel QDivModel QCurveModel QMoneyModel QBondModel QSwapModel QFutModel QInstModel QInstSpec QInstProps QMatchProps QVolModel QEngModel QEngSpec QEngProofs QEngFrame QLoadModel QLoadSpec QLoadProofs QGenModel QGenProofs.
Import ListNotations.
Open Scope Z_scope.

Section Generator.
Context (fo : formulas) (se : setup).
Let ends := calculates (may fo se).

(** a success: whatever the schedule, each group's reports are those of one run of its
    engine, and there are no others *)
Theorem c199_each : forall g g', ends g (ROk tt) g' -> NoDup (map code (concat (ge_groups g))) ->
  (forall is, In is (ge_groups g) -> exists rs, may fo se is (ROk rs) /\ forall i, In i is -> ge_results g' (code i) = rs (code i) /\ rs (code i) <> None) /\
  (forall k, ~ In k (map code (concat (ge_groups g))) -> ge_results g' k = None).
Proof.
  intros g g' (sh & e & R & V & ->) N. destruct e; [discriminate V|]. clear V. cbn [ge_results]. destruct (run_inv _ _ _ R (ge_groups g) [] []) as (ok & bad & P & F & M & B & _); [apply Permutation_refl|constructor|reflexivity|reflexivity|discriminate|].
  cbn [wk_left wk_shared wk_failed] in *. rewrite (B eq_refl) in P. cbn [app] in P. rewrite app_nil_r in P. rewrite List.Forall_forall in F.
  assert (SUB : forall gs is, In is gs -> NoDup (map code (concat gs)) -> NoDup (map code is)).
  { clear. intros gs is. induction gs as [|x gs IH]; intros I ND; [contradiction I|]. cbn [concat] in ND. rewrite map_app in ND. destruct I as [->|I]; [exact (nodup_fst _ _ _ ND)|exact (IH I (nodup_snd _ _ _ ND))]. }
  assert (NP : NoDup (map code (concat (map fst ok)))). { apply (Permutation_NoDup (l := map code (concat (ge_groups g)))); [|exact N]. apply Permutation_map. clear -P. symmetry in P. induction P; cbn [concat]; [constructor|apply Permutation_app_head; assumption|rewrite !app_assoc; apply Permutation_app_tail, Permutation_app_comm|etransitivity; eassumption]. }
  assert (GK : forall p, In p ok -> forall k, snd p k <> None <-> In k (map code (fst p))). { intros p I. apply (group_keys fo se); [|exact (F p I)]. apply (SUB (map fst ok)); [apply in_map; exact I|exact NP]. }
  assert (ONE : forall p q, In p ok -> In q ok -> forall k, In k (map code (fst p)) -> In k (map code (fst q)) -> q = p).
  { clear -NP. induction ok as [|x ok IH]; intros p q I J k A B; [contradiction I|]. cbn [map concat] in NP. rewrite map_app in NP.
    assert (AP : forall y, In y ok -> In k (map code (fst x)) -> In k (map code (fst y)) -> False).
    { intros y Y K1 K2. assert (K3 : In k (map code (concat (map fst ok)))). { apply in_map_iff in K2. destruct K2 as (i & <- & K2). apply in_map. apply in_concat. exists (fst y). split; [apply in_map; exact Y|exact K2]. }
      clear -NP K1 K3. induction (map code (fst x)) as [|z l IH]; [contradiction K1|]. cbn [app] in NP. inversion NP as [|? ? N1 N2]; subst. destruct K1 as [->|K1]; [apply N1; apply in_or_app; right; exact K3|exact (IH N2 K1)]. }
    destruct I as [<-|I]; destruct J as [<-|J]; [reflexivity|exfalso; exact (AP q J A B)|exfalso; exact (AP p I B A)|exact (IH (nodup_snd _ _ _ NP) p q I J k A B)]. }
  split.
  - intros is I. apply (Permutation_in is (Permutation_sym P)) in I. apply in_map_iff in I. destruct I as (p & <- & I). exists (snd p). split; [exact (F p I)|]. intros i J.
    assert (K : In (code i) (map code (fst p))) by (apply in_map; exact J). split; [|apply (GK p I); exact K]. rewrite M. apply (merged_one ok); [exact I|apply (GK p I); exact K|]. intros q Q QN. apply (GK q Q) in QN. exact (ONE p q I Q _ K QN).
  - intros k K. rewrite M. destruct (merged ok k) as [c|] eqn:E; [|reflexivity]. exfalso. apply K. destruct (merged_some _ _ _ E) as (p & I & Q). assert (KP : In k (map code (fst p))) by (apply (GK p I); congruence). apply in_map_iff in KP. destruct KP as (i & <- & KP).
    apply in_map. apply in_concat. exists (fst p). split; [|exact KP]. apply (Permutation_in _ P). apply in_map. exact I.
Qed.
(** with the portfolio distributed before: one report for each instrument *)
Theorem c199_portfolio : forall g g1 g', gen_distribute g = (ROk tt, g1) -> ends g1 (ROk tt) g' -> NoDup (map code (ge_insts g)) -> ge_insts g' = ge_insts g /\ forall k, ge_results g' k <> None <-> In k (map code (ge_insts g)).
Proof.
  intros g g1 g' D E N. unfold gen_distribute in D. destruct (distribute_insts (ge_cats g) (ge_insts g)) as [gs|] eqn:DI; [|discriminate D]. apply (f_equal snd) in D. cbn [snd] in D. subst g1. destruct (c175_groups _ _ _ DI) as [P _].
  pose proof (Permutation_map code P) as PC. assert (NC : NoDup (map code (concat gs))) by (apply (Permutation_NoDup (Permutation_sym PC)); exact N). destruct (c199_each _ _ E NC) as [A B]. cbn [ge_groups] in A, B. destruct E as (sh & e & _ & _ & ->). cbn [ge_insts ge_results] in *. split; [reflexivity|]. intro k. split.
  - intro K. destruct (in_dec string_dec k (map code (ge_insts g))) as [I|I]; [exact I|]. exfalso. apply K. apply B. intro Q. apply I. exact (Permutation_in k PC Q).
  - intro K. apply (Permutation_in k (Permutation_sym PC)) in K. apply in_map_iff in K. destruct K as (i & <- & K). apply in_concat in K. destruct K as (is & I & J). destruct (A is I) as (rs & _ & R). destruct (R i J) as [Q Q']. congruence.
Qed.
(** an error is that of some group, and what is reported then is of groups that did well *)
Theorem c199_error : forall g g', ends g RErr g' -> (exists is, In is (ge_groups g) /\ may fo se is RErr) /\ forall k c, ge_results g' k = Some c -> exists is rs, In is (ge_groups g) /\ may fo se is (ROk rs) /\ rs k = Some c.
Proof.
  intros g g' (sh & e & R & V & ->). destruct e; [|discriminate V]. destruct (run_inv _ _ _ R (ge_groups g) [] []) as (ok & bad & P & F & M & _ & E); [apply Permutation_refl|constructor|reflexivity|reflexivity|discriminate|].
  cbn [wk_left wk_shared wk_failed] in *. split; [exact (E eq_refl)|]. intros k c Q. cbn [ge_results] in Q. rewrite M in Q. destruct (merged_some _ _ _ Q) as (p & I & S). exists (fst p), (snd p). rewrite List.Forall_forall in F. split; [|split; [exact (F p I)|exact S]].
  apply (Permutation_in _ P). apply in_or_app. left. apply in_map. exact I.
Qed.
(** success needs the success of every group *)
Theorem c199_success : forall g g', ends g (ROk tt) g' -> forall is, In is (ge_groups g) -> exists rs, may fo se is (ROk rs).
Proof.
  intros g g' (sh & e & R & V & ->) is I. destruct e; [discriminate V|]. destruct (run_inv _ _ _ R (ge_groups g) [] []) as (ok & bad & P & F & M & B & _); [apply Permutation_refl|constructor|reflexivity|reflexivity|discriminate|].
  cbn [wk_left wk_shared wk_failed] in *. rewrite (B eq_refl) in P. cbn [app] in P. rewrite app_nil_r in P. apply (Permutation_in is (Permutation_sym P)) in I. apply in_map_iff in I. destruct I as (p & <- & I). rewrite List.Forall_forall in F. exists (snd p). exact (F p I).
Qed.
(** every schedule ends *)
Theorem c199_ends : forall g, (forall is, In is (ge_groups g) -> exists r, may fo se is r) -> forall sh l e, clos_refl_trans_1n work (gstep (may fo se)) (Work (fun _ => None) (ge_groups g) false) (Work sh l e) -> exists sh' e', clos_refl_trans_1n work (gstep (may fo se)) (Work sh l e) (Work sh' [] e').
Proof.
  intros g T sh l e R. assert (I : incl l (ge_groups g)).
  { destruct (run_inv _ _ _ R (ge_groups g) [] []) as (ok & bad & P & _); [apply Permutation_refl|constructor|reflexivity|reflexivity|discriminate|]. cbn [wk_left] in P. intros is J. apply (Permutation_in is P). apply in_or_app. right. apply in_or_app. right. exact J. }
  clear R. revert sh e. induction l as [|is l IH]; intros sh e; [exists sh, e; constructor|]. destruct (T is) as [[rs|] O]; [apply I; left; reflexivity| |].
  - destruct (IH (fun x X => I x (or_intror X)) (merge rs sh) e) as (sh' & e' & R). exists sh', e'. econstructor; [exact (finish_ok _ sh [] is l e rs O)|exact R].
  - destruct (IH (fun x X => I x (or_intror X)) sh true) as (sh' & e' & R). exists sh', e'. econstructor; [exact (finish_err _ sh [] is l e O)|exact R].
Qed.
(** refuted: after an error what is reported depends on the schedule: of the groups that
    would do well any may be there or not *)
Theorem c199_failure_refuted : forall g a b rs k c, ge_groups g = [a; b] -> may fo se a (ROk rs) -> may fo se b RErr -> rs k = Some c ->
  exists g1 g2, ends g RErr g1 /\ ends g RErr g2 /\ ge_results g1 k = Some c /\ ge_results g2 k = None.
Proof.
  intros g a b rs k c G A B K. eexists. eexists. split; [|split; [|split]].
  - exists (merge rs (fun _ => None)), true. split; [|split; [reflexivity|reflexivity]]. rewrite G. econstructor; [exact (finish_ok _ _ [] a [b] false rs A)|]. econstructor; [exact (finish_err _ _ [] b [] false B)|]. constructor.
  - exists (fun _ => None), true. split; [|split; [reflexivity|reflexivity]]. rewrite G. econstructor; [exact (finish_err _ _ [a] b [] false B)|]. econstructor; [exact (leave_out _ _ [] a [])|]. constructor.
  - cbn. unfold merge. rewrite K. reflexivity.
  - reflexivity.
Qed.
(** refuted: for two instruments of one code in different groups either report may be the
    one, and the call succeeds *)
Theorem c199_same_code_refuted : forall g a b ra rb k ca cb, ge_groups g = [a; b] -> may fo se a (ROk ra) -> may fo se b (ROk rb) -> ra k = Some ca -> rb k = Some cb ->
  exists g1 g2, ends g (ROk tt) g1 /\ ends g (ROk tt) g2 /\ ge_results g1 k = Some cb /\ ge_results g2 k = Some ca.
Proof.
  intros g a b ra rb k ca cb G A B KA KB. eexists. eexists. split; [|split; [|split]].
  - exists (merge rb (merge ra (fun _ => None))), false. split; [|split; [reflexivity|reflexivity]]. rewrite G. econstructor; [exact (finish_ok _ _ [] a [b] false ra A)|]. econstructor; [exact (finish_ok _ _ [] b [] false rb B)|]. constructor.
  - exists (merge ra (merge rb (fun _ => None))), false. split; [|split; [reflexivity|reflexivity]]. rewrite G. econstructor; [exact (finish_ok _ _ [a] b [] false rb B)|]. econstructor; [exact (finish_ok _ _ [] a [] false ra A)|]. constructor.
  - cbn. unfold merge. rewrite KB. reflexivity.
  - cbn. unfold merge. rewrite KA. reflexivity.
Qed.
(** refuted: with a portfolio that was not distributed calculate succeeds and reports
    nothing; with one that was replaced since, it reports the old one *)
Theorem c199_undistributed_refuted : forall is cs, exists g', ends (gen_categories cs (gen_instruments is gen_new)) (ROk tt) g' /\ forall k, ge_results g' k = None.
Proof. intros is cs. eexists. split; [exists (fun _ => None), false; split; [constructor|split; reflexivity]|reflexivity]. Qed.
Theorem c199_replaced_refuted : forall g g1 g' js, gen_distribute g = (ROk tt, g1) -> NoDup (map code (ge_insts g)) -> ends (gen_instruments js g1) (ROk tt) g' -> ge_insts g' = js /\ forall k, ge_results g' k <> None <-> In k (map code (ge_insts g)).
Proof.
  intros g g1 g' js D N (sh & e & R & V & ->). split; [unfold gen_distribute in D; destruct (distribute_insts (ge_cats g) (ge_insts g)); [|discriminate D]; apply (f_equal snd) in D; cbn in D; subst g1; reflexivity|].
  intro k. destruct (c199_portfolio g g1 (Generator (ge_insts g1) (ge_groups g1) (ge_cats g1) sh) D) as [_ Q]; [exists sh, e; split; [exact R|split; [exact V|reflexivity]]|exact N|]. exact (Q k).
Qed.
(** refuted: the reports of an earlier success are gone after an error *)
Theorem c199_lost_refuted : forall g a g' k, ge_groups g = [a] -> may fo se a RErr -> (forall rs, ~ may fo se a (ROk rs)) -> ends g RErr g' -> ge_results g' k = None.
Proof.
  intros g a g' k G A N E. destruct (c199_error _ _ E) as [_ Q]. destruct (ge_results g' k) as [c|] eqn:K; [|reflexivity]. destruct (Q k c K) as (is & rs & I & M & _). rewrite G in I. destruct I as [<-|[]]. contradiction (N rs M).
Qed.
End Generator.

Print Assumptions c199_each.
Print Assumptions c199_portfolio.
Print Assumptions c199_error.
Print Assumptions c199_success.
Print Assumptions c199_ends.
Print Assumptions c199_failure_refuted.
Print Assumptions c199_same_code_refuted.
Print Assumptions c199_undistributed_refuted.
Print Assumptions c199_replaced_refuted.
Print Assumptions c199_lost_refuted.
