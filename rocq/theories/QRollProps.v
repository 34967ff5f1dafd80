(** QRollProps.v -- prices, dividends and the evaluation date: the properties
    (C128-C130). *)
From Coq Require Import ZArith Arith List Bool Ascii Lia Reals Lra.
From Flocq Require Import Core IEEE754.BinarySingleNaN.
From Verif Require Import Base FloatModel FloatFacts KrxModel QDateModel QPeriodModel QInterpModel QDistProps QFloatErr QDivModel QDivSpec QDivProofs QDivProps QRollProofs.
Import ListNotations.
Open Scope R_scope.

(** ** C128: a price that follows the evaluation date back and forth *)
(** a price from 2^-50 to 2^50, yields between 0 and 1 that together leave at
    least 2^-50 of it *)
Definition ordinary (l : list (odt * f32)) (x : f32) : Prop :=
  Forall mild (map snd l) /\ / 2 ^ 50 <= product (map snd l) /\ is_finite x = true /\ / 2 ^ 50 <= B2R x <= 2 ^ 50.
Definition follow (l : list (odt * f32)) (m : market_price) (es : list odt) : market_price := fold_left (fun m e => roll_price (Some l) m e) es m.
Lemma two50 : bpow radix2 50 = 2 ^ 50.
Proof. rewrite <- (IZR_Zpower radix2 50) by lia. rewrite pow_IZR. reflexivity. Qed.
Lemma hi_50 : hi = 2 ^ 50 * 2 ^ 50.
Proof. unfold hi. rewrite <- two50, <- bpow_plus. reflexivity. Qed.
Lemma lo_50 : lo = / 2 ^ 50 * / 2 ^ 50.
Proof. unfold lo. rewrite <- two50. change (bpow radix2 (-100)) with (bpow radix2 (- (100))). rewrite bpow_opp, <- Rinv_mult, <- bpow_plus. reflexivity. Qed.
Lemma follow_band : forall l es m B t n, Forall mild (map snd l) -> 0 < B -> (forall e, lo <= B * level e l <= hi) ->
  fn (mp_value m) (B * level (mp_dt m) l * t) -> band n t -> (Z.of_nat (n + crossings l (mp_dt m) es) <= 4194304)%Z ->
  exists t', fn (mp_value (follow l m es)) (B * level (last_date (mp_dt m) es) l * t') /\ band (n + crossings l (mp_dt m) es) t'.
Proof.
  intros l. induction es as [|e es IH]; intros m B t n M B0 R F Q N.
  - exists t. cbn. rewrite Nat.add_0_r. auto.
  - cbn [follow fold_left crossings] in *. fold (follow l (roll_price (Some l) m e) es).
    assert (D : mp_dt (roll_price (Some l) m e) = e) by (unfold roll_price; destruct (_ <? _)%Z; reflexivity).
    assert (ST : exists t1, fn (mp_value (roll_price (Some l) m e)) (B * level e l * t1) /\ band (n + (length (between (mp_dt m) e l) + length (between e (mp_dt m) l))) t1).
    { destruct (Z.lt_ge_cases (instant (mp_dt m)) (instant e)) as [G|G].
      - rewrite c127_forward by exact G. cbn [mp_value]. rewrite (between_none e (mp_dt m)) by lia. rewrite Nat.add_0_r.
        destruct (fold_mul (map snd (between (mp_dt m) e l)) (mp_value m) (B * level (mp_dt m) l) t n) as (t1 & F1 & B1); try assumption.
        + apply mild_filter. exact M.
        + rewrite map_length. lia.
        + apply R.
        + rewrite Rmult_assoc, <- level_between by lia. apply R.
        + exists t1. rewrite map_length in B1. split; [|exact B1]. rewrite (level_between (mp_dt m) e l) by lia. rewrite <- Rmult_assoc. exact F1.
      - rewrite c127_back by exact G. cbn [mp_value]. rewrite (between_none (mp_dt m) e) by lia. cbn [length Nat.add].
        pose proof (product_range _ (mild_filter (fun p => (instant e <? instant (fst p))%Z && (instant (fst p) <=? instant (mp_dt m))%Z) l M)) as PR. fold (between e (mp_dt m) l) in PR.
        assert (EQ : B * level (mp_dt m) l / product (map snd (between e (mp_dt m) l)) = B * level e l) by (rewrite (level_between e (mp_dt m) l) by lia; field; lra).
        destruct (fold_div (map snd (between e (mp_dt m) l)) (mp_value m) (B * level (mp_dt m) l) t n) as (t1 & F1 & B1); try assumption.
        + apply mild_filter. exact M.
        + rewrite map_length. lia.
        + apply R.
        + rewrite EQ. apply R.
        + exists t1. rewrite map_length in B1. split; [|exact B1]. rewrite EQ in F1. exact F1. }
    destruct ST as (t1 & F1 & B1). destruct (IH (roll_price (Some l) m e) B t1 _ M B0 R ltac:(rewrite D; exact F1) B1 ltac:(rewrite D; lia)) as (t2 & F2 & B2).
    rewrite D in F2, B2. exists t2. split; [|rewrite Nat.add_assoc; exact B2].
    replace (last_date (mp_dt m) (e :: es)) with (last_date e es); [exact F2|]. unfold last_date. clear. revert e. generalize (mp_dt m). induction es as [|x es IH]; intros o e; [reflexivity|]. cbn [last] in *. destruct es; [reflexivity|]. apply (IH o e).
Qed.
Lemma ordinary_range : forall l x d e, ordinary l x -> 0 < B2R x / level d l /\ lo <= B2R x / level d l * level e l <= hi.
Proof.
  intros l x d e (M & P & F & X). destruct (product_filter (fun p => (instant (fst p) <=? instant d)%Z) l M) as [A1 A2]. destruct (product_filter (fun p => (instant (fst p) <=? instant e)%Z) l M) as [B1 B2].
  fold (level d l) in A1, A2. fold (level e l) in B1, B2. assert (T : 0 < / 2 ^ 50) by (apply Rinv_0_lt_compat; apply pow_lt; lra). assert (T' : 0 < 2 ^ 50) by (apply pow_lt; lra).
  assert (I1 : 1 <= / level d l) by (rewrite <- Rinv_1; apply Rinv_le; lra).
  assert (I2 : / level d l <= 2 ^ 50) by (rewrite <- (Rinv_inv (2 ^ 50)); apply Rinv_le; lra).
  split; [apply Rmult_lt_0_compat; lra|]. unfold Rdiv. rewrite lo_50, hi_50. split.
  - apply Rle_trans with (B2R x * 1 * / 2 ^ 50); [apply Rmult_le_compat_r; lra|].
    apply Rmult_le_compat; [lra|lra|apply Rmult_le_compat_l; lra|lra].
  - apply Rle_trans with (B2R x * 2 ^ 50 * 1); [|rewrite Rmult_1_r; apply Rmult_le_compat_r; lra].
    apply Rmult_le_compat; [apply Rmult_le_pos; lra|lra|apply Rmult_le_compat_l; lra|lra].
Qed.
(** wherever it has been: the start value times the factors of the dividends
    between, up to a relative error of 2^-23 per dividend passed *)
Theorem c128_follow : forall l m es, ordinary l (mp_value m) -> (Z.of_nat (crossings l (mp_dt m) es) <= 4194304)%Z ->
  let target := B2R (mp_value m) * (level (last_date (mp_dt m) es) l / level (mp_dt m) l) in
  is_finite (mp_value (follow l m es)) = true /\ 0 < target /\
  Rabs (B2R (mp_value (follow l m es)) - target) <= INR (crossings l (mp_dt m) es) * / 2 ^ 23 * target.
Proof.
  intros l m es O N target. pose proof O as (M & P & F & X).
  destruct (ordinary_range l (mp_value m) (mp_dt m) (mp_dt m) O) as [B0 _].
  set (B := B2R (mp_value m) / level (mp_dt m) l) in *.
  pose proof (product_range _ (mild_filter (fun p => (instant (fst p) <=? instant (mp_dt m))%Z) l M)) as PR. fold (level (mp_dt m) l) in PR.
  pose proof (product_range _ (mild_filter (fun p => (instant (fst p) <=? instant (last_date (mp_dt m) es))%Z) l M)) as PR'. fold (level (last_date (mp_dt m) es) l) in PR'.
  destruct (follow_band l es m B 1 0 M B0) as (t & Ft & Bt).
  - intro e. apply (proj2 (ordinary_range l (mp_value m) (mp_dt m) e O)).
  - split; [exact F|]. unfold B. field. lra.
  - exact band_0.
  - exact N.
  - assert (ET : target = B * level (last_date (mp_dt m) es) l) by (unfold target, B; field; lra).
    assert (T0 : 0 < target) by (rewrite ET; apply Rmult_lt_0_compat; lra).
    destruct Ft as [Ff Fv]. split; [exact Ff|]. split; [exact T0|]. rewrite Fv, <- ET.
    replace (target * t - target) with (target * (t - 1)) by ring. rewrite Rabs_mult, Rabs_pos_eq by lra. rewrite (Rmult_comm target).
    apply Rmult_le_compat_r; [lra|]. cbn [Nat.add] in Bt. apply Rle_trans with (1 := band_linear _ _ N Bt).
    pose proof (pos_INR (crossings l (mp_dt m) es)). unfold e24. change (2 ^ 23) with (2 ^ 23). replace (2 ^ 23) with 8388608 by (rewrite pow_IZR; reflexivity). lra.
Qed.
(** back at the start date: back at the start value *)
Theorem c128_round_trip : forall l m es, ordinary l (mp_value m) -> (Z.of_nat (crossings l (mp_dt m) es) <= 4194304)%Z ->
  instant (last_date (mp_dt m) es) = instant (mp_dt m) ->
  Rabs (B2R (mp_value (follow l m es)) - B2R (mp_value m)) <= INR (crossings l (mp_dt m) es) * / 2 ^ 23 * B2R (mp_value m).
Proof.
  intros l m es O N E. destruct (c128_follow l m es O N) as (_ & T & H). replace (level (last_date (mp_dt m) es) l) with (level (mp_dt m) l) in *.
  2:{ unfold level. do 2 f_equal. apply filter_ext'. intro p. rewrite E. reflexivity. }
  destruct O as (M & _). pose proof (product_range _ (mild_filter (fun p => (instant (fst p) <=? instant (mp_dt m))%Z) l M)) as PR. fold (level (mp_dt m) l) in PR.
  replace (level (mp_dt m) l / level (mp_dt m) l) with 1 in * by (field; lra). rewrite Rmult_1_r in *. exact H.
Qed.
(** the factors are 1 - yield up to a relative error of 2^-24 *)
Theorem c128_factor : forall y, mild y -> 0 < factor y <= 1 /\ Rabs (factor y - (1 - B2R y)) <= / 2 ^ 24 * (1 - B2R y).
Proof.
  intros y M. destruct (factor_fin y M) as (_ & A & B). split; [exact A|]. replace (/ 2 ^ 24) with e24 by (unfold e24; replace (2 ^ 24) with 16777216 by (rewrite pow_IZR; reflexivity); reflexivity). exact B.
Qed.
Lemma half_mild : mild half32 /\ factor half32 = / 2.
Proof.
  assert (F : is_finite half32 = true) by (vm_compute; reflexivity). assert (V : B2R half32 = / 2) by (vm_compute; lra).
  split; [split; [exact F|rewrite V; lra]|]. unfold factor. rewrite V. replace (1 - / 2) with (/ 2) by lra. rewrite <- V. apply (rnd_B2R 24 128).
Qed.
Example c128_hypotheses_met : ordinary half_yearly hundred /\ crossings half_yearly (noon 19850) [noon 20100; noon 19900; noon 19850] = 4%nat.
Proof.
  split; [|vm_compute; reflexivity]. destruct half_mild as [M H].
  split; [apply Forall_cons; [exact M|]; apply Forall_cons; [exact M|]; apply Forall_nil|]. split; [cbn [half_yearly map snd product]; rewrite H; apply Rle_trans with (/ 2 ^ 2); [apply Rinv_le; [lra|apply Rle_pow; [lra|lia]]|lra]|].
  split; [vm_compute; reflexivity|]. assert (V : B2R hundred = 100) by (vm_compute; lra). rewrite V. split; [apply Rle_trans with (/ 2 ^ 0); [apply Rinv_le; [lra|apply Rle_pow; [lra|lia]]|cbn; lra]|].
  apply Rle_trans with (2 ^ 7); [lra|]. apply Rle_pow; [lra|lia].
Qed.

(** ** C129: setting the evaluation date *)
Lemma set_nth_at : forall A (l : list A) k x j, nth_error (set_nth l k x) j = if (j =? k)%nat then (match nth_error l k with Some _ => Some x | None => None end) else nth_error l j.
Proof.
  intros A. induction l as [|y l IH]; intros k x j; [destruct k, j; try reflexivity; cbn [set_nth nth_error]; destruct (_ =? _)%nat; reflexivity|].
  destruct k as [|k], j as [|j]; cbn [set_nth nth_error Nat.eqb]; try reflexivity. apply IH.
Qed.
Definition told (w : world) (e : odt) (k : nat) (m : market_price) : market_price := if existsb (Nat.eqb k) (w_pobs w) then roll_price (the_divs w m) m e else m.
Lemma roll_twice : forall ds m e, roll_price ds (roll_price ds m e) e = roll_price ds m e.
Proof. intros [l|] m e; [|reflexivity]. apply (proj2 (c127_again l m e e eq_refl)). Qed.
Lemma roll_div : forall ds m e, mp_div (roll_price ds m e) = mp_div m.
Proof. intros [l|] m e; [|reflexivity]. unfold roll_price. destruct (_ <? _)%Z; reflexivity. Qed.
Lemma notify_prices_all : forall obs w, let w' := notify_prices obs w in
  w_date w' = w_date w /\ w_dividends w' = w_dividends w /\ w_pobs w' = w_pobs w /\ w_dobs w' = w_dobs w /\
  forall k, nth_error (w_prices w') k = match nth_error (w_prices w) k with None => None | Some m => Some (if existsb (Nat.eqb k) obs then roll_price (the_divs w m) m (w_date w) else m) end.
Proof.
  induction obs as [|j obs IH]; intro w; cbn zeta; cbn [notify_prices].
  - split; [reflexivity|]. split; [reflexivity|]. split; [reflexivity|]. split; [reflexivity|]. intro k. cbn. destruct (nth_error (w_prices w) k); reflexivity.
  - destruct (nth_error (w_prices w) j) as [m|] eqn:Hj.
    + set (w1 := World _ _ _ _ _). destruct (IH w1) as (A & B & C & D & E). split; [exact A|]. split; [exact B|]. split; [exact C|]. split; [exact D|]. intro k. rewrite E. unfold w1. cbn [w_prices w_date].
      rewrite set_nth_at. cbn [existsb]. destruct (Nat.eqb_spec k j) as [->|NE]; [|cbn [orb]; reflexivity]. rewrite Hj. cbn [orb]. f_equal.
      assert (TD : the_divs w1 (roll_price (the_divs w m) m (w_date w)) = the_divs w m) by (unfold the_divs at 1; rewrite roll_div; reflexivity).
      change (the_divs (World (w_date w) (set_nth (w_prices w) j (roll_price (the_divs w m) m (w_date w))) (w_dividends w) (w_pobs w) (w_dobs w)) (roll_price (the_divs w m) m (w_date w))) with (the_divs w1 (roll_price (the_divs w m) m (w_date w))).
      rewrite TD, roll_twice. destruct (existsb _ obs); reflexivity.
    + destruct (IH w) as (A & B & C & D & E). split; [exact A|]. split; [exact B|]. split; [exact C|]. split; [exact D|]. intro k. rewrite E. cbn [existsb]. destruct (Nat.eqb_spec k j) as [->|NE]; [rewrite Hj; reflexivity|reflexivity].
Qed.
Lemma update_kept : forall v e v', update_dividend v e = Ret (ROk v') -> dv_dates v' = dv_dates v /\ dividend_ratio v' = dividend_ratio v /\ forall e', update_dividend v' e' = update_dividend v e'.
Proof.
  intros v e v'. unfold update_dividend. destruct (drop_past _ _ _ _); cbn [obind]; try discriminate. destruct (make_interp _ _) as [[it|]| | ]; cbn [rbind]; intro H; try discriminate H.
  assert (EV : v' = Dividend (dv_dates v) (dv_ints v) (dv_amounts v) (dv_yields v) it (dv_spot v)) by congruence. subst v'. cbn. auto.
Qed.
Lemma notify_dividends_all : forall obs w w', notify_dividends obs w = Ret w' ->
  w_date w' = w_date w /\ w_prices w' = w_prices w /\ w_pobs w' = w_pobs w /\ w_dobs w' = w_dobs w /\ length (w_dividends w') = length (w_dividends w) /\
  forall k v, nth_error (w_dividends w) k = Some v -> exists v', nth_error (w_dividends w') k = Some v' /\ dividend_ratio v' = dividend_ratio v /\
    (if existsb (Nat.eqb k) obs then update_dividend v (w_date w) = Ret (ROk v') else v' = v).
Proof.
  induction obs as [|j obs IH]; intros w w' H; cbn [notify_dividends] in H.
  - assert (w' = w) by congruence. subst w'. split; [reflexivity|]. split; [reflexivity|]. split; [reflexivity|]. split; [reflexivity|]. split; [reflexivity|]. intros k v Hv. exists v. cbn. auto.
  - destruct (nth_error (w_dividends w) j) as [x|] eqn:Hj.
    + destruct (update_dividend x (w_date w)) as [[x'|]| | ] eqn:EU; cbn [obind] in H; try discriminate H. set (w1 := World _ _ _ _ _) in H.
      destruct (IH w1 w' H) as (A & B & C & D & L & E). split; [exact A|]. split; [exact B|]. split; [exact C|]. split; [exact D|].
      split. { rewrite L. unfold w1. cbn [w_dividends]. clear. revert j. induction (w_dividends w) as [|y l IHl]; intros [|j]; cbn; auto. }
      destruct (update_kept x (w_date w) x' EU) as (_ & R1 & U1).
      intros k v Hv. cbn [existsb]. destruct (Nat.eqb_spec k j) as [->|NE].
      * assert (v = x) by congruence. subst v. cbn [orb]. destruct (E j x') as (v' & H1 & H2 & H3).
        { unfold w1. cbn [w_dividends]. rewrite set_nth_at, Nat.eqb_refl, Hj. reflexivity. }
        exists v'. split; [exact H1|]. split; [congruence|]. destruct (existsb (Nat.eqb j) obs).
        -- rewrite <- (U1 (w_date w)). exact H3.
        -- subst v'. exact EU.
      * cbn [orb]. destruct (E k v) as (v' & H1 & H2 & H3); [|exists v'; auto]. unfold w1. cbn [w_dividends]. rewrite set_nth_at. destruct (Nat.eqb_spec k j); [congruence|exact Hv].
    + destruct (IH w w' H) as (A & B & C & D & L & E). split; [exact A|]. split; [exact B|]. split; [exact C|]. split; [exact D|]. split; [exact L|].
      intros k v Hv. cbn [existsb]. destruct (Nat.eqb_spec k j) as [->|NE]; [congruence|]. cbn [orb]. apply E. exact Hv.
Qed.
(** every observing price is rolled to the new date exactly once, every other
    price and everything a dividend lists stays as it is, every observing
    dividend is told the new date *)
Theorem c129_set_date : forall w d w', set_date w d = Ret w' ->
  w_date w' = d /\ w_pobs w' = w_pobs w /\ w_dobs w' = w_dobs w /\
  (forall k m, nth_error (w_prices w) k = Some m -> nth_error (w_prices w') k = Some (told w d k m)) /\
  (forall k v, nth_error (w_dividends w) k = Some v -> exists v', nth_error (w_dividends w') k = Some v' /\ dividend_ratio v' = dividend_ratio v /\
     (In k (w_dobs w) -> update_dividend v d = Ret (ROk v')) /\ (~ In k (w_dobs w) -> v' = v)).
Proof.
  intros w d w' H. unfold set_date in H. set (w1 := World _ _ _ _ _) in H. destruct (notify_prices_all (w_pobs w1) w1) as (A & B & C & D & E).
  set (w2 := notify_prices (w_pobs w1) w1) in *. destruct (notify_dividends_all _ _ _ H) as (A' & B' & C' & D' & L' & E').
  unfold w1 in A, B, C, D. cbn [w_date w_dividends w_pobs w_dobs] in A, B, C, D. split; [congruence|]. split; [congruence|]. split; [congruence|]. split.
  - intros k m Hm. rewrite B', E. unfold w1. cbn [w_prices w_date w_pobs]. rewrite Hm. reflexivity.
  - intros k v Hv. destruct (E' k v) as (v' & H1 & H2 & H3); [rewrite B; exact Hv|]. exists v'. split; [exact H1|]. split; [exact H2|]. unfold w1 in H3. cbn [w_dobs] in H3. rewrite A in H3.
    destruct (existsb (Nat.eqb k) (w_dobs w)) eqn:X.
    + split; [intros _; exact H3|]. intro NI. exfalso. apply NI. apply existsb_exists in X. destruct X as (y & Hy & Q). apply Nat.eqb_eq in Q. congruence.
    + split; [|intros _; exact H3]. intro HI. exfalso. apply not_true_iff_false in X. apply X. apply existsb_exists. exists k. split; [exact HI|apply Nat.eqb_refl].
Qed.
(** it succeeds while every observing dividend still has a date to come *)
Definition alive (d : odt) (v : dividend) : Prop := listed v /\ by_day (dv_dates v) /\ in_time (dv_dates v) /\ Exists (fun x => (instant d <= instant x)%Z) (dv_dates v).
Theorem c129_succeeds : forall w d, (forall k v, In k (w_dobs w) -> nth_error (w_dividends w) k = Some v -> alive d v) -> exists w', set_date w d = Ret w'.
Proof.
  intros w d H. unfold set_date. set (w1 := World _ _ _ _ _). destruct (notify_prices_all (w_pobs w1) w1) as (A & B & _ & _ & _). set (w2 := notify_prices (w_pobs w1) w1) in *. clearbody w2.
  assert (Q : forall obs x, w_date x = d -> (forall k, In k obs -> In k (w_dobs w)) -> (forall k v, In k (w_dobs w) -> nth_error (w_dividends x) k = Some v -> alive d v) -> exists w', notify_dividends obs x = Ret w').
  { induction obs as [|j obs IH]; intros x HD HI HA; [cbn; eauto|]. cbn [notify_dividends]. destruct (nth_error (w_dividends x) j) as [v|] eqn:Hj; [|apply IH; auto; intros k Hk; apply HI; right; exact Hk].
    destruct (HA j v (HI j (or_introl eq_refl)) Hj) as (L1 & L2 & L3 & L4). rewrite HD.
    destruct (update_ratio v d L1 L2 L3 L4) as (v' & -> & _ & _ & LL & DD & _). cbn [obind]. apply IH; [reflexivity|intros k Hk; apply HI; right; exact Hk|].
    intros k y Hk Hy. cbn [w_dividends] in Hy. rewrite set_nth_at in Hy. destruct (Nat.eqb_spec k j) as [->|NE]; [|exact (HA k y Hk Hy)]. rewrite Hj in Hy. assert (y = v') by congruence. subst y. unfold alive. rewrite DD. auto. }
  apply Q; [exact A|auto|]. intros k v Hk Hv. rewrite B in Hv. exact (H k v Hk Hv).
Qed.
(** the new date of the dividends: their ratios are from then on *)
Theorem c129_ratios : forall w d w' k v, set_date w d = Ret w' -> In k (w_dobs w) -> nth_error (w_dividends w) k = Some v -> alive d v ->
  exists v', nth_error (w_dividends w') k = Some v' /\ forall T, deduction_ratio v' T = Ret (ROk (deduct (map snd (coming d T (dividend_ratio v))))).
Proof.
  intros w d w' k v E Hk Hv (L1 & L2 & L3 & L4). destruct (c129_set_date w d w' E) as (_ & _ & _ & _ & Q). destruct (Q k v Hv) as (v' & H1 & _ & H2 & _). exists v'. split; [exact H1|].
  destruct (update_ratio v d L1 L2 L3 L4) as (v2 & E2 & _ & _ & _ & _ & R). specialize (H2 Hk). assert (v2 = v') by congruence. subst v2. exact R.
Qed.
(** [+=] and [-=] are that for the date a period later or earlier *)
Theorem c129_periods : forall w s, 
  (forall w', add_assign w s = Ret w' -> exists d, add_period (w_date w) s = Ret d /\ set_date w d = Ret w') /\
  (forall w', sub_assign w s = Ret w' -> exists d, sub_period (w_date w) s = Ret d /\ set_date w d = Ret w').
Proof.
  intros w s. unfold add_assign, sub_assign. split; intros w' H.
  - destruct (add_period (w_date w) s) as [d| | ]; cbn [obind] in H; try discriminate H. eauto.
  - destruct (sub_period (w_date w) s) as [d| | ]; cbn [obind] in H; try discriminate H. eauto.
Qed.
(** any number of dates: an observing price with a dividend has followed them *)
Fixpoint set_dates (w : world) (es : list odt) : outcome world := match es with [] => Ret w | e :: es' => let! w1 := set_date w e in set_dates w1 es' end.
Theorem c129_dates : forall es w w' k m v j, set_dates w es = Ret w' -> nth_error (w_prices w) k = Some m -> In k (w_pobs w) -> mp_div m = Some j -> nth_error (w_dividends w) j = Some v ->
  nth_error (w_prices w') k = Some (follow (dividend_ratio v) m es) /\ w_date w' = last_date (w_date w) es.
Proof.
  induction es as [|e es IH]; intros w w' k m v j H Hm Hk Hd Hv; cbn [set_dates] in H.
  - assert (w' = w) by congruence. subst w'. cbn. auto.
  - destruct (set_date w e) as [w1| | ] eqn:E; cbn [obind] in H; try discriminate H. destruct (c129_set_date w e w1 E) as (A & B & C & P & Q).
    destruct (Q j v Hv) as (v' & Hv' & RV & _). specialize (P k m Hm). unfold told in P.
    assert (X : existsb (Nat.eqb k) (w_pobs w) = true) by (apply existsb_exists; exists k; split; [exact Hk|apply Nat.eqb_refl]). rewrite X in P.
    assert (TD : the_divs w m = Some (dividend_ratio v)) by (unfold the_divs; rewrite Hd, Hv; reflexivity). rewrite TD in P.
    destruct (IH w1 w' k _ v' j H P) as [R1 R2]; [rewrite B; exact Hk|rewrite roll_div; exact Hd|exact Hv'|].
    rewrite RV in R1. split; [exact R1|]. rewrite R2, A. unfold last_date. clear. revert e. generalize (w_date w). induction es as [|x es IH]; intros o e; [reflexivity|]. cbn [last] in *. destruct es; [reflexivity|]. apply (IH o e).
Qed.
Theorem c129_observers : forall w k, w_pobs (observe_price w k) = w_pobs w ++ [k] /\ w_dobs (observe_price w k) = w_dobs w /\ w_prices (observe_price w k) = w_prices w /\ w_dividends (observe_price w k) = w_dividends w /\
  w_dobs (observe_dividend w k) = w_dobs w ++ [k] /\ w_pobs (observe_dividend w k) = w_pobs w /\ w_prices (observe_dividend w k) = w_prices w /\ w_dividends (observe_dividend w k) = w_dividends w.
Proof. intros. cbn. auto 10. Qed.
(** an example world: one price of 100 with two dividends of half its value *)
Definition example_dividend : dividend :=
  Dividend [noon 19900; noon 20000] (map to_yyyymmdd_int [noon 19900; noon 20000]) [gof_Z 50; gof_Z 50] (map (fun a => gdiv a hundred) [gof_Z 50; gof_Z 50]) (DConst one32) hundred.
Definition example_world : world := World (noon 19850) [MarketPrice hundred (noon 19850) (Some 0%nat)] [example_dividend] [0%nat; 0%nat] [0%nat].
Definition price_is (w : outcome world) (x : f32) : bool := match w with Ret w => match w_prices w with m :: _ => geq (mp_value m) x | [] => false end | _ => false end.
Example c129_hypotheses_met : alive (noon 19950) example_dividend /\ price_is (set_date example_world (noon 19950)) (gof_Z 50) = true /\
  price_is (set_dates example_world [noon 19950; noon 19860]) hundred = true.
Proof.
  split; [|split; vm_compute; reflexivity]. split; [split; [reflexivity|]; split; [reflexivity|]; split; [reflexivity|discriminate]|].
  assert (Q : by_day [noon 19900; noon 20000] /\ in_time [noon 19900; noon 20000]).
  { split; intros i j a b Q Ha Hb; destruct i as [|[|i]], j as [|[|j]]; cbn in Ha, Hb; try discriminate; try lia; try (destruct i; discriminate); try (destruct j; discriminate);
    injection Ha as <-; injection Hb as <-; vm_compute; congruence. }
  split; [apply Q|]. split; [apply Q|]. apply Exists_exists. exists (noon 20000). split; [right; left; reflexivity|]. vm_compute. congruence.
Qed.

(** ** C130: price and deduction ratio fit together *)
Lemma product_app : forall a b, product (a ++ b) = product a * product b.
Proof. induction a as [|y a IH]; intro b; cbn [app product]; [lra|]. rewrite IH. ring. Qed.
Definition day_level (T : odt) (l : list (odt * f32)) : R := product (map snd (List.filter (fun p => (od_day (fst p) <=? od_day T)%Z) l)).
Lemma split_level : forall e T l, Forall mild (map snd l) -> (forall d y, In (d, y) l -> instant d <> instant e) -> (forall d y, In (d, y) l -> (instant d <= instant e)%Z -> (od_day d <= od_day T)%Z) ->
  level e l * product (map snd (coming e T l)) = day_level T l.
Proof.
  intros e T l M. unfold level, coming, day_level. induction l as [|[d y] l IH]; intros H1 H2; [cbn; lra|]. cbn [List.filter fst map snd] in *.
  assert (IH' := IH (Forall_inv_tail M) (fun d' y' Hi => H1 d' y' (or_intror Hi)) (fun d' y' Hi => H2 d' y' (or_intror Hi))).
  specialize (H1 d y (or_introl eq_refl)). specialize (H2 d y (or_introl eq_refl)).
  destruct (Z.leb_spec (instant d) (instant e)) as [A|A], (Z.leb_spec (instant e) (instant d)) as [B|B]; try lia; cbn [andb].
  - destruct (Z.leb_spec (od_day d) (od_day T)) as [C|C]; [|specialize (H2 A); lia]. cbn [map snd product]. rewrite <- IH'. ring.
  - destruct (Z.leb_spec (od_day d) (od_day T)) as [C|C]; cbn [map snd product]; rewrite <- IH'; ring.
Qed.
(** what the deduction ratio is in real numbers *)
Theorem c130_ratio : forall ys, Forall mild ys -> / 2 ^ 50 <= product ys -> (Z.of_nat (length ys) <= 4194304)%Z ->
  is_finite (deduct ys) = true /\ Rabs (B2R (deduct ys) - product ys) <= INR (length ys) * / 2 ^ 23 * product ys.
Proof.
  intros ys M P N. destruct (product_range ys M) as [P0 P1].
  destruct (fold_mul ys (gof_Z 1) 1 1 0 M) as (t & [F V] & B).
  - rewrite Rmult_1_l. exact one_fn.
  - exact band_0.
  - exact N.
  - unfold hi. change 1 with (bpow radix2 0). apply bpow_le. lia.
  - rewrite Rmult_1_l. apply Rle_trans with (2 := P). rewrite lo_50. rewrite <- (Rmult_1_r (/ 2 ^ 50)) at 3. assert (T : 0 < / 2 ^ 50) by (apply Rinv_0_lt_compat; apply pow_lt; lra).
    apply Rmult_le_compat_l; [lra|]. rewrite <- Rinv_1. apply Rinv_le; [lra|]. apply pow_R1_Rle. lra.
  - unfold deduct. split; [exact F|]. rewrite V, Rmult_1_l. replace (product ys * t - product ys) with (product ys * (t - 1)) by ring. rewrite Rabs_mult, Rabs_pos_eq by lra. rewrite (Rmult_comm (product ys)).
    apply Rmult_le_compat_r; [lra|]. cbn [Nat.add] in B. apply Rle_trans with (1 := band_linear _ _ N B). pose proof (pos_INR (length ys)).
    unfold e24. replace (2 ^ 23) with 8388608 by (rewrite pow_IZR; reflexivity). lra.
Qed.
(** the price at the evaluation date times the ratio up to T: the same for every
    evaluation date that is no ex-dividend time (all of the dividends up to it
    being on days up to T), up to rounding *)
Theorem c130_forward : forall l m es T, ordinary l (mp_value m) -> es <> [] ->
  let e := last_date (mp_dt m) es in
  (forall d y, In (d, y) l -> instant d <> instant e) -> (forall d y, In (d, y) l -> (instant d <= instant e)%Z -> (od_day d <= od_day T)%Z) ->
  let n := (crossings l (mp_dt m) es + length l)%nat in (Z.of_nat n <= 4194304)%Z ->
  let target := B2R (mp_value m) / level (mp_dt m) l * day_level T l in
  exists s, B2R (mp_value (follow l m es)) * B2R (deduct (map snd (coming e T l))) = target * s /\ Rabs (s - 1) <= INR n * / 2 ^ 22.
Proof.
  intros l m es T O NE e H1 H2 n N target. pose proof O as (M & P & F & X).
  set (cs := map snd (coming e T l)). assert (MC : Forall mild cs) by (apply mild_filter; exact M).
  assert (PC : / 2 ^ 50 <= product cs) by (apply Rle_trans with (1 := P); apply product_filter; exact M).
  assert (LC : (length cs <= length l)%nat).
  { unfold cs, coming. rewrite map_length. clear. induction l as [|p l IH]; cbn; [lia|]. destruct (_ && _); cbn; lia. }
  set (c := crossings l (mp_dt m) es) in *.
  destruct (c128_follow l m es O ltac:(lia)) as (_ & T1 & E1). fold e in T1, E1. fold c in E1. set (g := B2R (mp_value m) * (level e l / level (mp_dt m) l)) in *.
  destruct (c130_ratio cs MC PC ltac:(lia)) as (_ & E2). destruct (product_range cs MC) as [Q0 _].
  set (u := B2R (mp_value (follow l m es))) in *. set (r := B2R (deduct cs)) in *. set (q := product cs) in *.
  pose proof (product_range _ (mild_filter (fun p => (instant (fst p) <=? instant (mp_dt m))%Z) l M)) as PR. fold (level (mp_dt m) l) in PR.
  exists (u / g * (r / q)). split.
  - unfold target. rewrite <- (split_level e T l M H1 H2). fold cs. fold q. replace (B2R (mp_value m) / level (mp_dt m) l * (level e l * q)) with (g * q) by (unfold g; field; lra). field. lra.
  - assert (A1 : Rabs (u / g - 1) <= INR c * / 2 ^ 23).
    { replace (u / g - 1) with ((u - g) / g) by (field; lra). unfold Rdiv. rewrite Rabs_mult, Rabs_inv, (Rabs_pos_eq g) by lra. apply Rmult_le_reg_r with g; [lra|]. rewrite Rmult_assoc, Rinv_l, Rmult_1_r by lra. exact E1. }
    assert (A2 : Rabs (r / q - 1) <= INR (length cs) * / 2 ^ 23).
    { replace (r / q - 1) with ((r - q) / q) by (field; lra). unfold Rdiv. rewrite Rabs_mult, Rabs_inv, (Rabs_pos_eq q) by lra. apply Rmult_le_reg_r with q; [lra|]. rewrite Rmult_assoc, Rinv_l, Rmult_1_r by lra. exact E2. }
    set (a := u / g) in *. set (b := r / q) in *.
    replace (a * b - 1) with ((a - 1) * (b - 1) + ((a - 1) + (b - 1))) by ring. apply Rle_trans with (1 := Rabs_triang _ _). rewrite Rabs_mult.
    assert (NN : INR n <= 4194304) by (rewrite INR_IZR_INZ; apply IZR_le; exact N).
    assert (NC : INR n = INR c + INR (length l)) by (unfold n; apply plus_INR). pose proof (pos_INR c) as C0. pose proof (pos_INR (length cs)) as C1. pose proof (pos_INR (length l)) as C2.
    assert (LC' : INR (length cs) <= INR (length l)) by (apply le_INR; exact LC).
    replace (/ 2 ^ 23) with (/ 8388608) in * by (f_equal; rewrite pow_IZR; reflexivity). replace (/ 2 ^ 22) with (/ 4194304) by (f_equal; rewrite pow_IZR; reflexivity).
    assert (B1 : Rabs (a - 1) * Rabs (b - 1) <= INR c * / 8388608 * 1).
    { apply Rmult_le_compat; try apply Rabs_pos; [exact A1|]. apply Rle_trans with (1 := A2). lra. }
    pose proof (Rabs_triang (a - 1) (b - 1)) as TR. lra.
Qed.
Example c130_hypotheses_met : ordinary half_yearly hundred /\
  (forall d y, In (d, y) half_yearly -> instant d <> instant (noon 19950)) /\ (forall d y, In (d, y) half_yearly -> (instant d <= instant (noon 19950))%Z -> (od_day d <= od_day (noon 20100))%Z).
Proof.
  split; [apply c128_hypotheses_met|]. split; intros d y Hi; cbn [half_yearly In] in Hi; destruct Hi as [Hi|[Hi|[]]]; injection Hi as <- _; vm_compute; congruence.
Qed.
(** REFUTED when the evaluation date is an ex-dividend time: the dividend is
    taken off the price and off the ratio again *)
Theorem c130_ex_date_refuted :
  match set_date example_world (noon 19900) with
  | Ret w => match w_prices w, w_dividends w with
             | m :: _, v :: _ => geq (mp_value m) (gof_Z 50) && gives_ratio (deduction_ratio v (noon 19900)) half32
             | _, _ => false end
  | _ => false end = true.
Proof. vm_compute. reflexivity. Qed.
(** a nanosecond later it is taken off once *)
Theorem c130_after_ex_date :
  match set_date example_world (Odt 19900 (day_ns / 2 + 1) 0) with
  | Ret w => match w_prices w, w_dividends w with
             | m :: _, v :: _ => geq (mp_value m) (gof_Z 50) && gives_ratio (deduction_ratio v (noon 19900)) (gof_Z 1)
             | _, _ => false end
  | _ => false end = true.
Proof. vm_compute. reflexivity. Qed.
Print Assumptions c128_follow.
Print Assumptions c128_round_trip.
Print Assumptions c128_factor.
Print Assumptions c129_set_date.
Print Assumptions c129_succeeds.
Print Assumptions c129_ratios.
Print Assumptions c129_periods.
Print Assumptions c129_dates.
Print Assumptions c129_observers.
Print Assumptions c130_ratio.
Print Assumptions c130_forward.
Print Assumptions c130_ex_date_refuted.
Print Assumptions c130_after_ex_date.
