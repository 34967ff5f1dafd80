(** QEngBackProps.v -- C186 to C188: how closely a bump and its opposite restore a
    curve, a surface and dividends. *)
From Coq Require Import ZArith Arith Ascii String.
From Coq Require Import List Bool Lia Reals Lra.
From Flocq Require Import Core IEEE754.BinarySingleNaN.
From Verif Require Import Base FloatModel FloatFacts KrxModel QDateModel QPeriodModel QFindSpec QInterpSpec QFloatErr QLinProps QDivModel QDivSpec QDivProps QCurveModel QCurveFacts QCurveReach QCurveProps QCurveFwdProps QVolModel QVolSpec QVolProofs QVolBumpProps QEngModel QEngSpec QEngProps QCurveSpec.
Import ListNotations.
Open Scope R_scope.

(** [(v + b) - b] *)
Lemma there_and_back : forall v b M, finite v -> finite b -> Rabs (value v) <= M -> M + Rabs (value b) <= 2 ^ 9 -> finite (gadd (gadd v b) (gneg b)) /\ Rabs (value (gadd (gadd v b) (gneg b)) - value v) <= (M + 2 * Rabs (value b)) * (3 / 2 ^ 24).
Proof.
  intros v b M Fv Fb Bv HM. destruct (c180_undone None None None None b [gof_Z 1] [gof_Z 1] [[v]] M 0 0 v eq_refl ltac:(repeat constructor) Fb HM eq_refl Fv Bv) as (w & C & F & E).
  assert (IW : in_window (from_or None) (to_or None) (gof_Z 1) = true) by (vm_compute; reflexivity). unfold bump_grid in C. cbn [combine map fst snd] in C. rewrite IW in C. cbn [combine map fst snd] in C. rewrite IW in C. unfold QVolSpec.cell in C. cbn [nth_error] in C.
  assert (Q : gadd (gadd v b) (gneg b) = w) by congruence. rewrite Q. auto.
Qed.
Lemma all_hit : forall t, hit_by None None t.
Proof. intro t. split; intros a Q; discriminate Q. Qed.
Lemma whole_bump : forall f_exp c b, reached f_exp c -> finite b -> exists c', bump_times f_exp c None None b = Ret (ROk tt, c') /\ cv_times c' = cv_times c /\ forall i t r, nth_error (cv_times c) i = Some t -> nth_error (cv_rates c) i = Some r -> nth_error (cv_rates c') i = Some (gadd r b).
Proof.
  intros f_exp c b R F. destruct (c140_bump f_exp c None None b R ltac:(discriminate) ltac:(discriminate) F ltac:(discriminate) ltac:(discriminate) ltac:(discriminate)) as (c' & E & T & Q). exists c'. split; [exact E|]. split; [exact T|]. intros i t r Ht Hr. destruct (Q i t r Ht Hr) as (r' & N & G & _). rewrite N, (G (all_hit t)). reflexivity.
Qed.
(** a curve that was bumped up and down again: its rates are those of before within
    two roundings *)
Theorem c186_restored : forall f_exp b c c1 c2, reached f_exp c -> finite b -> Rabs (value b) <= 100 -> bump_times f_exp c None None b = Ret (ROk tt, c1) -> Forall small_rate (cv_rates c1) -> bump_times f_exp c1 None None (gneg b) = Ret (ROk tt, c2) ->
  cv_times c2 = cv_times c /\ forall i t r, nth_error (cv_times c) i = Some t -> nth_error (cv_rates c) i = Some r -> exists r', nth_error (cv_rates c2) i = Some r' /\ r' = gadd (gadd r b) (gneg b) /\ finite r' /\ Rabs (value r' - value r) <= (0.5 + 2 * Rabs (value b)) * (3 / 2 ^ 24).
Proof.
  intros f_exp b c c1 c2 R F B E1 S1 E2. destruct (whole_bump f_exp c b R F) as (x1 & X1 & T1 & Q1). assert (x1 = c1) by congruence. subst x1. assert (R1 : reached f_exp c1) by exact (re_times f_exp c None None b _ c1 R E1 S1).
  destruct (fin_neg 24 128 b _ (conj F eq_refl)) as [Fn _]. destruct (whole_bump f_exp c1 (gneg b) R1 Fn) as (x2 & X2 & T2 & Q2). assert (x2 = c2) by congruence. subst x2. split; [congruence|]. intros i t r Ht Hr. exists (gadd (gadd r b) (gneg b)).
  split; [apply (Q2 i t); [rewrite T1; exact Ht|exact (Q1 i t r Ht Hr)]|]. split; [reflexivity|]. pose proof (so_rates _ c (reached_sound _ c R)) as SR. rewrite List.Forall_forall in SR. destruct (SR r (nth_error_In _ _ Hr)) as [Fr Br]. apply there_and_back; try assumption. lra.
Qed.
Definition off_rate : f32 := gadd sixteenth (gdiv (gof_Z (-2)) (gof_Z 1000000)).
Definition below_half (x : f32) : bool := is_finite x && glt (gneg half) x && glt x half.
Lemma below_half_ok : forall x, below_half x = true -> small_rate x.
Proof.
  intros x B. unfold below_half in B. do 2 (apply andb_prop in B; destruct B as [B ?]). split; [exact B|]. destruct (fin_neg 24 128 half _ (conj (eq_refl : finite half) eq_refl)) as [Fh Vh]. assert (VH : B2R half = / 2) by (unfold half; cbn -[IZR]; unfold F2R; cbn -[IZR]; lra).
  apply (fin_lt 24 128 _ _ _ _ (conj Fh eq_refl) (conj B eq_refl)) in H0. apply (fin_lt 24 128 _ _ _ _ (conj B eq_refl) (conj (eq_refl : finite half) eq_refl)) in H. rewrite Vh, VH in *. unfold value. apply Rabs_le. lra.
Qed.
Lemma all_rates : forall f_exp c b c' x, reached f_exp c -> Forall (eq x) (cv_rates c) -> finite b -> small_rate (gadd x b) -> bump_times f_exp c None None b = Ret (ROk tt, c') -> reached f_exp c' /\ Forall (eq (gadd x b)) (cv_rates c').
Proof.
  intros f_exp c b c' x R A F SM E. destruct (whole_bump f_exp c b R F) as (y & Y & T & Q). assert (y = c') by congruence. subst y. pose proof (reached_sound _ c R) as S.
  assert (AL : Forall (eq (gadd x b)) (cv_rates c')).
  { destruct (bump_shape f_exp c None None b S) as [_ SH]. destruct (SH ltac:(vm_compute; reflexivity)) as (c'' & E'' & _ & RR & _). assert (c'' = c') by congruence. subst c''. apply List.Forall_forall. intros r I. apply In_nth_error in I. destruct I as (i & I).
    assert (L : (i < List.length (cv_times c))%nat). { assert (N : nth_error (cv_rates c') i <> None) by (rewrite I; discriminate). apply nth_error_Some in N. rewrite RR, map_length, combine_length in N. lia. }
    destruct (nth_error (cv_times c) i) as [t|] eqn:Ht; [|apply nth_error_None in Ht; lia]. assert (LR : (i < List.length (cv_rates c))%nat) by (rewrite (so_rlen _ c S), <- (so_29 _ c S); exact L). destruct (nth_error (cv_rates c) i) as [r0|] eqn:Hr; [|apply nth_error_None in Hr; lia].
    pose proof (Q i t r0 Ht Hr) as N. rewrite List.Forall_forall in A. rewrite <- (A r0 (nth_error_In _ _ Hr)) in N. congruence. }
  split; [|exact AL]. apply (re_times f_exp c None None b _ c' R E). apply List.Forall_forall. intros r I. rewrite List.Forall_forall in AL. rewrite <- (AL r I). exact SM.
Qed.
(** REFUTED: exactly the rates of before *)
Theorem c186_restored_refuted : forall f_exp, exists c c1 c2 r r', reached f_exp c /\ bump_times f_exp c None None bp = Ret (ROk tt, c1) /\ bump_times f_exp c1 None None (gneg bp) = Ret (ROk tt, c2) /\
  nth_error (cv_rates c) 0 = Some r /\ nth_error (cv_rates c2) 0 = Some r' /\ finite r' /\ value r' <> value r.
Proof.
  intro f. destruct (ex_reached f) as (c0 & R0 & RR0). set (q := gdiv (gof_Z (-2)) (gof_Z 1000000) : f32). assert (Fq : finite q) by (vm_compute; reflexivity). assert (Fb : finite bp) by (vm_compute; reflexivity). assert (Fn : finite (gneg bp)) by (vm_compute; reflexivity).
  assert (S1 : small_rate (gadd sixteenth q)) by (apply below_half_ok; vm_compute; reflexivity). assert (S2 : small_rate (gadd (gadd sixteenth q) bp)) by (apply below_half_ok; vm_compute; reflexivity).
  destruct (whole_bump f c0 q R0 Fq) as (c & E & _). destruct (all_rates f c0 q c sixteenth R0 ltac:(rewrite RR0; apply List.Forall_forall; intros r I; apply repeat_spec in I; auto) Fq S1 E) as [R A].
  destruct (whole_bump f c bp R Fb) as (c1 & E1 & T1 & Q1). destruct (all_rates f c bp c1 _ R A Fb S2 E1) as [R1 A1]. destruct (whole_bump f c1 (gneg bp) R1 Fn) as (c2 & E2 & _ & Q2). pose proof (reached_sound _ c R) as S.
  destruct (so_first _ c S) as (t0 & H0 & _). destruct (nth_error (cv_rates c) 0) as [r|] eqn:Hr; [|apply nth_error_None in Hr; rewrite (so_rlen _ c S) in Hr; lia]. pose proof (Q1 0%nat t0 r H0 Hr) as N1. rewrite <- T1 in H0. pose proof (Q2 0%nat t0 _ H0 N1) as N2.
  exists c, c1, c2, r, (gadd (gadd r bp) (gneg bp)). split; [exact R|]. split; [exact E1|]. split; [exact E2|]. split; [exact Hr|]. split; [exact N2|]. rewrite List.Forall_forall in A. rewrite <- (A r (nth_error_In _ _ Hr)).
  assert (FX : finite (gadd (gadd (gadd sixteenth q) bp) (gneg bp))) by (vm_compute; reflexivity). assert (NE : geq (gadd (gadd (gadd sixteenth q) bp) (gneg bp)) (gadd sixteenth q) = false) by (vm_compute; reflexivity). split; [exact FX|].
  intro V. apply (fin_eq 24 128 _ _ _ _ (conj FX eq_refl) (conj (proj1 S1) eq_refl)) in V. rewrite V in NE. discriminate NE.
Qed.

(** the same for the cells of a surface and the amounts of dividends *)
Theorem c187_restored : forall e b o o1 o2 M, List.length (su_grid o) = List.length (su_times o) -> Forall (fun row => List.length row = List.length (su_money o)) (su_grid o) -> finite b -> M + Rabs (value b) <= 2 ^ 9 ->
  bump_surface e None None None None b o = Ret (ROk o1) -> bump_surface e None None None None (gneg b) o1 = Ret (ROk o2) ->
  su_times o2 = su_times o /\ su_money o2 = su_money o /\ su_dates o2 = su_dates o /\ su_spot o2 = su_spot o /\ su_sticky o2 = su_sticky o /\
  forall i j v, QVolSpec.cell (su_grid o) i j = Some v -> finite v -> Rabs (value v) <= M -> exists w, QVolSpec.cell (su_grid o2) i j = Some w /\ finite w /\ Rabs (value w - value v) <= (M + 2 * Rabs (value b)) * (3 / 2 ^ 24).
Proof.
  intros e b o o1 o2 M L1 L2 F HM E1 E2. unfold bump_surface in E1, E2. destruct (build_inv _ _ _ E1) as (f1 & i1 & _ & _ & _ & Q1). destruct (build_inv _ _ _ E2) as (f2 & i2 & _ & _ & _ & Q2).
  rewrite Q2, Q1. unfold with_interp. cbn [su_times su_money su_dates su_spot su_sticky su_grid]. do 5 (split; [reflexivity|]). intros i j v C Fv Bv. exact (c180_undone None None None None b _ _ _ M i j v L1 L2 F HM C Fv Bv).
Qed.
Theorem c188_restored : forall v b v1 v2 M, listed v -> by_day (dv_dates v) -> Forall representable (dv_dates v) -> Forall (fun a => finite a /\ Rabs (value a) <= M) (dv_amounts v) -> finite b -> M + Rabs (value b) <= 2 ^ 9 ->
  bump_dividend v None None b = Ret (ROk tt, v1) -> bump_dividend v1 None None (gneg b) = Ret (ROk tt, v2) ->
  dv_dates v2 = dv_dates v /\ dv_spot v2 = dv_spot v /\ forall i d a, nth_error (dv_dates v) i = Some d -> nth_error (dv_amounts v) i = Some a -> exists a', nth_error (dv_amounts v2) i = Some a' /\ finite a' /\ Rabs (value a' - value a) <= (M + 2 * Rabs (value b)) * (3 / 2 ^ 24).
Proof.
  intros v b v1 v2 M LI BD RP FA Fb HM E1 E2. assert (FF : Forall (fun a : f32 => is_finite a = true) (dv_amounts v)) by (apply (List.Forall_impl _ (fun a H => proj1 H) FA)).
  destruct (c126_bump v None None b LI BD RP I I I FF Fb) as (x & X & L1 & D1 & S1 & A1 & _). assert (x = v1) by congruence. subst x. destruct (fin_neg 24 128 b _ (conj Fb eq_refl)) as [Fn _].
  assert (F1 : Forall (fun a : f32 => is_finite a = true) (dv_amounts v1)).
  { apply List.Forall_forall. intros r J. apply In_nth_error in J. destruct J as (i & J). assert (LT : (i < List.length (dv_amounts v1))%nat) by (apply nth_error_Some; congruence). destruct L1 as (_ & LL & _). rewrite LL, D1 in LT. destruct (nth_error (dv_dates v) i) as [d|] eqn:Hd; [|apply nth_error_None in Hd; lia].
    destruct (nth_error (dv_amounts v) i) as [a|] eqn:Ha; [|apply nth_error_None in Ha; destruct LI as (_ & LL' & _); lia]. destruct (A1 i d a Hd Ha) as (a' & N & Q). assert (a' = r) by congruence. subst a'. rewrite List.Forall_forall in FA. destruct (FA a (nth_error_In _ _ Ha)) as [Fa Ba].
    cbn in Q. rewrite Q. destruct (add_err a b _ _ (conj Fa eq_refl) (conj Fb eq_refl)) as (z & dd & [FZ _] & _); [|exact FZ]. apply two100_127. change (Rabs (value a + value b) <= two100 * 1000000). pose proof (Rabs_triang (value a) (value b)). assert (1000000 <= two100 * 1000000) by (unfold two100; lra). lra. }
  destruct (c126_bump v1 None None (gneg b) L1 ltac:(rewrite D1; exact BD) ltac:(rewrite D1; exact RP) I I I F1 Fn) as (y & Y & L2 & D2 & S2 & A2 & _). assert (y = v2) by congruence. subst y.
  split; [congruence|]. split; [congruence|]. intros i d a Hd Ha. destruct (A1 i d a Hd Ha) as (a1 & N1 & Q1). cbn in Q1. rewrite <- D1 in Hd. destruct (A2 i d a1 Hd N1) as (a2 & N2 & Q2). cbn in Q2. exists a2. split; [exact N2|]. rewrite Q2, Q1. rewrite List.Forall_forall in FA. destruct (FA a (nth_error_In _ _ Ha)) as [Fa Ba]. apply there_and_back; assumption.
Qed.
(** REFUTED: a bump and its opposite that leave every amount as it was leave the
    dividends worth what they were: those before the evaluation date are back *)
Definition past_check : bool := match dividend_new (noon 19850) (VectorData [two32; two32; ten32] (Some year2024) [] None) (gof_Z 4) with
  | Ret (ROk v) =>
      match bump_dividend v None None (gof_Z 1) with
      | Ret (ROk _, v1) =>
          match bump_dividend v1 None None (gneg (gof_Z 1)) with
          | Ret (ROk _, v2) => forallb (fun p => geq (fst p) (snd p)) (combine (dv_amounts v) (dv_amounts v2)) && gives_ratio (deduction_ratio v (noon 19860)) (gof_Z 1) && gives_ratio (deduction_ratio v2 (noon 19860)) half32
          | _ => false
          end
      | _ => false
      end
  | _ => false
  end.
Theorem c188_past_refuted : exists v v1 v2 x y, dividend_new (noon 19850) (VectorData [two32; two32; ten32] (Some year2024) [] None) (gof_Z 4) = Ret (ROk v) /\ bump_dividend v None None (gof_Z 1) = Ret (ROk tt, v1) /\ bump_dividend v1 None None (gneg (gof_Z 1)) = Ret (ROk tt, v2) /\
  Forall (fun p => geq (fst p) (snd p) = true) (combine (dv_amounts v) (dv_amounts v2)) /\ deduction_ratio v (noon 19860) = Ret (ROk x) /\ deduction_ratio v2 (noon 19860) = Ret (ROk y) /\ geq x (gof_Z 1) = true /\ geq y half32 = true.
Proof.
  assert (B : past_check = true) by (vm_compute; reflexivity). unfold past_check in B. set (o := dividend_new _ _ _) in *. destruct o as [[v|]| |]; [|discriminate B|discriminate B|discriminate B].
  destruct (bump_dividend v None None (gof_Z 1)) as [[[[]|] v1]| |] eqn:E1; [|discriminate B|discriminate B|discriminate B]. destruct (bump_dividend v1 None None (gneg (gof_Z 1))) as [[[[]|] v2]| |] eqn:E2; [|discriminate B|discriminate B|discriminate B].
  do 2 (apply andb_prop in B; destruct B as [B ?]). unfold gives_ratio in *. destruct (deduction_ratio v (noon 19860)) as [[x|]| |] eqn:D1; [|discriminate|discriminate|discriminate]. destruct (deduction_ratio v2 (noon 19860)) as [[y|]| |] eqn:D2; [|discriminate|discriminate|discriminate].
  exists v, v1, v2, x, y. split; [reflexivity|]. split; [exact E1|]. split; [exact E2|]. split; [|auto]. apply List.Forall_forall. rewrite forallb_forall in B. exact B.
Qed.

Print Assumptions c186_restored.
Print Assumptions c186_restored_refuted.
Print Assumptions c187_restored.
Print Assumptions c188_restored.
Print Assumptions c188_past_refuted.
