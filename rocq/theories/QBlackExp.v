(** QBlackExp.v -- Black's formula is the expected payoff. *)
From Coq Require Import Reals Lra Lia.
From Coquelicot Require Import Coquelicot.
From Verif Require Import QFutModel QNormal QOptSpec QBlackReal.
Open Scope R_scope.
Local Ltac inR := match goal with |- @eq _ ?a ?b => change (@eq R a b) end.

(** the density, tilted *)
Lemma tilt : forall s x, exp (s * x - s * s / 2) * phi x = phi (x - s).
Proof. intros s x. unfold phi. replace (- ((x - s) * (x - s) / 2)) with ((s * x - s * s / 2) + - (x * x / 2)) by field. rewrite exp_plus. unfold Rdiv. ring. Qed.
Definition prim (F K s x : R) : R := F * Phi (x - s) - K * Phi x.
Lemma prim_derive : forall F K s x, is_derive (prim F K s) x ((lognormal F s x - K) * phi x).
Proof.
  intros. unfold prim. evar_last.
  - apply (is_derive_minus (fun x => F * Phi (x - s)) (fun x => K * Phi x)).
    + apply is_derive_scal. apply (is_derive_comp Phi (fun x => x - s)); [apply Phi_derive|]. evar_last; [auto_derive; [exact I|reflexivity]|reflexivity].
    + apply is_derive_scal. apply Phi_derive.
  - unfold minus, plus, opp, scal; simpl. unfold mult; simpl. inR. unfold lognormal. rewrite <- (tilt s x). ring.
Qed.
Lemma phi_cont : forall x, continuous phi x.
Proof. intro x. apply (ex_derive_continuous phi x). unfold phi. auto_derive. exact I. Qed.
Lemma dens_cont : forall F K s x, continuous (fun x => (lognormal F s x - K) * phi x) x.
Proof. intros. apply (ex_derive_continuous (fun x => (lognormal F s x - K) * phi x) x). unfold lognormal, phi. auto_derive. exact I. Qed.
Lemma prim_int : forall F K s a b, is_RInt (fun x => (lognormal F s x - K) * phi x) a b (prim F K s b - prim F K s a).
Proof.
  intros. apply (is_RInt_derive (prim F K s) (fun x => (lognormal F s x - K) * phi x)).
  - intros x _. apply prim_derive.
  - intros x _. apply dens_cont.
Qed.
Section Expect.
Context (F K s : R) (PF : 0 < F) (PK : 0 < K) (PS : 0 < s).
Definition edge : R := s / 2 - ln (F / K) / s.
Lemma at_edge : s * edge - s * s / 2 = - ln (F / K).
Proof using PS. unfold edge. field. lra. Qed.
Lemma below : forall x, x <= edge -> lognormal F s x <= K.
Proof using PF PK PS.
  intros x H. unfold lognormal. assert (E : K = F * exp (- ln (F / K))) by (rewrite exp_Ropp, exp_ln by (apply Rdiv_lt_0_compat; assumption); field; lra). rewrite E. apply Rmult_le_compat_l; [lra|].
  assert (L : s * x - s * s / 2 <= - ln (F / K)) by (rewrite <- at_edge; assert (s * x <= s * edge) by (apply Rmult_le_compat_l; lra); lra). destruct L as [L|L]; [left; apply exp_increasing; exact L|rewrite L; apply Rle_refl].
Qed.
Lemma above : forall x, edge <= x -> K <= lognormal F s x.
Proof using PF PK PS.
  intros x H. unfold lognormal. assert (E : K = F * exp (- ln (F / K))) by (rewrite exp_Ropp, exp_ln by (apply Rdiv_lt_0_compat; assumption); field; lra). rewrite E at 1. apply Rmult_le_compat_l; [lra|].
  assert (L : - ln (F / K) <= s * x - s * s / 2) by (rewrite <- at_edge; assert (s * edge <= s * x) by (apply Rmult_le_compat_l; lra); lra). destruct L as [L|L]; [left; apply exp_increasing; exact L|rewrite L; apply Rle_refl].
Qed.
Lemma nothing : forall (f : R -> R) a b, a <= b -> (forall x, a < x < b -> f x = 0) -> is_RInt f a b 0.
Proof.
  intros f a b L H. apply (is_RInt_ext (fun _ => 0)).
  - intros x X. rewrite Rmin_left, Rmax_right in X by lra. symmetry. apply H. exact X.
  - evar_last; [apply (is_RInt_const a b 0)|]. unfold scal; simpl. unfold mult; simpl. inR. ring.
Qed.
Lemma expected : forall k L, Rabs edge <= L ->
  is_RInt (fun x => payoff k (lognormal F s x) K * phi x) (- L) L (match k with Call => prim F K s L - prim F K s edge | Put => prim F K s (- L) - prim F K s edge end).
Proof using PF PK PS.
  intros k L H. apply Rabs_le_between in H. destruct k.
  - replace (prim F K s L - prim F K s edge) with (0 + (prim F K s L - prim F K s edge)) by ring. apply (is_RInt_Chasles (V := R_NormedModule) _ _ edge).
    + apply nothing; [lra|]. intros x X. unfold payoff. pose proof (below x ltac:(lra)). rewrite Rmax_right by lra. ring.
    + apply (is_RInt_ext (fun x => (lognormal F s x - K) * phi x)); [|apply prim_int]. intros x X. rewrite Rmin_left, Rmax_right in X by lra. unfold payoff. pose proof (above x ltac:(lra)). rewrite Rmax_left by lra. reflexivity.
  - replace (prim F K s (- L) - prim F K s edge) with ((prim F K s (- L) - prim F K s edge) + 0) by ring. apply (is_RInt_Chasles (V := R_NormedModule) _ _ edge).
    + apply (is_RInt_ext (fun x => opp ((lognormal F s x - K) * phi x))).
      * intros x X. rewrite Rmin_left, Rmax_right in X by lra. unfold payoff. pose proof (below x ltac:(lra)). rewrite Rmax_left by lra. unfold opp; simpl. inR. ring.
      * replace (prim F K s (- L) - prim F K s edge) with (opp (prim F K s edge - prim F K s (- L))) by (unfold opp; simpl; inR; ring). apply (is_RInt_opp (V := R_NormedModule)). apply prim_int.
    + apply nothing; [lra|]. intros x X. unfold payoff. pose proof (above x ltac:(lra)). rewrite Rmax_right by lra. ring.
Qed.
Lemma black_edge : forall k, black_value k F K s = match k with Call => F - K - prim F K s edge | Put => - prim F K s edge end.
Proof using PS.
  intro k. unfold black_value, prim. replace (ln (F / K) / s + s / 2) with (- (edge - s)) by (unfold edge; field; lra). replace (ln (F / K) / s - s / 2) with (- edge) by (unfold edge; field; lra).
  destruct k; [rewrite !Phi_sym; ring|]. rewrite !Ropp_involutive. ring.
Qed.
End Expect.
(** the expected payoff: the integral over the line of the payoff times the
    density exists and is Black's value *)
Theorem black_expected : forall k F K s e, 0 < F -> 0 < K -> 0 < s -> 0 < e ->
  exists M, forall L, M <= L -> exists v, is_RInt (fun x => payoff k (lognormal F s x) K * phi x) (- L) L v /\ Rabs (v - black_value k F K s) <= e.
Proof.
  intros k F K s e PF PK PS PE. set (e' := e / (F + K)). assert (E' : 0 < e') by (apply Rdiv_lt_0_compat; lra). assert (EE : (F + K) * e' = e) by (unfold e'; field; lra).
  destruct (Phi_low e' E') as (X & HX). destruct (Phi_high e' E') as (Y & HY).
  exists (Rabs (edge F K s) + Rabs X + Rabs Y + s). intros L HL. pose proof (Rabs_pos (edge F K s)). pose proof (Rabs_pos X). pose proof (Rabs_pos Y). pose proof (Rle_abs Y). pose proof (Rle_abs (- X)) as AX. rewrite Rabs_Ropp in AX.
  eexists. split; [apply (expected F K s PF PK PS); lra|]. rewrite (black_edge F K s PS). unfold prim. set (g := F * Phi (edge F K s - s) - K * Phi (edge F K s)).
  assert (R : forall x, 0 < Phi x < 1) by apply Phi_range. destruct k.
  - pose proof (HY (L - s) ltac:(lra)) as A. pose proof (HY L ltac:(lra)) as B. destruct (R (L - s)). destruct (R L).
    replace (F * Phi (L - s) - K * Phi L - g - (F - K - g)) with (- (F * (1 - Phi (L - s))) + K * (1 - Phi L)) by ring.
    assert (0 <= F * (1 - Phi (L - s)) <= F * e') by (split; [apply Rmult_le_pos; lra|apply Rmult_le_compat_l; lra]). assert (0 <= K * (1 - Phi L) <= K * e') by (split; [apply Rmult_le_pos; lra|apply Rmult_le_compat_l; lra]). apply Rabs_le. lra.
  - pose proof (HX (- L - s) ltac:(lra)) as A. pose proof (HX (- L) ltac:(lra)) as B. destruct (R (- L - s)). destruct (R (- L)).
    replace (F * Phi (- L - s) - K * Phi (- L) - g - - g) with (F * Phi (- L - s) - K * Phi (- L)) by ring.
    assert (0 <= F * Phi (- L - s) <= F * e') by (split; [apply Rmult_le_pos; lra|apply Rmult_le_compat_l; lra]). assert (0 <= K * Phi (- L) <= K * e') by (split; [apply Rmult_le_pos; lra|apply Rmult_le_compat_l; lra]). apply Rabs_le. lra.
Qed.
