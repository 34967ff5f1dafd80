(** QSchedProps.v -- payment frequencies and schedules: the properties (C103-C108). *)
From Coq Require Import ZArith List Bool Ascii String Lia.
From Verif Require Import Base CivilSpec QDateModel QDateProofs QCalModel QCalSpec QCalProps QPeriodModel QPeriodSpec QPeriodProofs QPeriodProps
  QSchedModel QSchedSpec QSchedProofs QSchedBack QSchedTotal.
Import ListNotations.
Open Scope Z_scope.
Local Strategy 1000 [adjust].

(** ** C103: multiples of a frequency *)
Theorem c103_multiple : forall m f d i r, odt_ok d -> f <> NoFrequency -> 1 <= i <= 300000000 -> steps_after f d i r ->
  exists s, to_string_with_multiple m f i = Ret s /\ add_period d s = if in_range (od_day r) then Ret r else Panic.
Proof.
  intros m f d i r O N I S. apply freq_add; try assumption; [lia|]. assert (0 <= freq_head f <= 6) by (destruct f; cbn; lia). nia.
Qed.
(** the date so many steps away exists, is unique, and is later the more steps there are *)
Theorem c103_steps : forall f d, f <> NoFrequency ->
  (forall i, exists r, steps_after f d i r) /\ (forall i r r', steps_after f d i r -> steps_after f d i r' -> r = r') /\
  steps_after f d 0 d /\ (forall i j r r', i < j -> steps_after f d i r -> steps_after f d j r' -> instant r < instant r').
Proof.
  intros f d N. split; [intro; apply steps_exist; exact N|]. split; [intros; eapply steps_unique; eauto|].
  split; [apply steps_zero; exact N|]. intros i j r r' L A B. apply (steps_later f d i j r r' L A B).
Qed.
Theorem c103_none_panics : forall m i, to_string_with_multiple m NoFrequency i = Panic.
Proof. exact to_string_none. Qed.
(** as many steps as there are payments in a year make a year, if the step is in months *)
Theorem c103_year_partial : forall f k d r, freq_step f = Some (Months k) -> steps_after f d (per_year f) r -> steps_after Annually d 1 r.
Proof.
  intros f k d r E (A & B & C). rewrite E in C. split; [exact A|]. split; [exact B|]. cbn [freq_step].
  destruct C as (y & m & dd & V & D & M). exists y, m, dd. split; [exact V|]. split; [exact D|].
  assert (K : k * per_year f = 12 * 1) by (destruct f; cbn in E; try discriminate E; injection E as <-; reflexivity). rewrite <- K. exact M.
Qed.
Example c103_hypotheses_met : odt_ok (midnight 2024 5 6 9) /\
  to_string_with_multiple Checked Quarterly 5 = Ret (str "15M") /\ steps_after Quarterly (civil 2023 11 30 0 0) 5 (civil 2025 2 28 0 0) /\
  add_period (civil 2023 11 30 0 0) (str "15M") = Ret (civil 2025 2 28 0 0).
Proof.
  split; [apply (away_example 0); lia|]. split; [reflexivity|]. split; [|reflexivity].
  split; [reflexivity|]. split; [reflexivity|]. exists 2023, 11, 30. split; [split; [lia|change (month_days 2023 11) with 30; lia]|].
  split; [reflexivity|]. exists 2025, 2. split; [lia|]. split; [lia|reflexivity].
Qed.
(** REFUTED for the others: twice a month is every two weeks, which makes 48 weeks; and a day is not a business day *)
Theorem c103_year_refuted : forall d r r', steps_after SemiMonthly d (per_year SemiMonthly) r -> steps_after Daily d (per_year Daily) r' ->
  od_day r = od_day d + 336 /\ od_day r' = od_day d + 252 /\ as_str SemiMonthly = as_str BiWeekly.
Proof. intros d r r' (_ & _ & A) (_ & _ & B). cbn [freq_step per_year] in *. split; [lia|]. split; [lia|reflexivity]. Qed.

(** ** C104: a schedule generated forward *)
Lemma raw_fun : forall f d, f <> NoFrequency -> exists raw : nat -> odt, forall i, steps_after f d (Z.of_nat i) (raw i).
Proof.
  intros f d N. (* the witness is computed *)
  destruct (freq_step f) as [[k|k]|] eqn:E; [| |destruct f; discriminate || congruence].
  - destruct (date_fields (od_day d)) as [V D]. set (y := date_year (od_day d)) in *. set (m := date_month (od_day d)) in *. set (dd := date_day (od_day d)) in *.
    exists (fun i => let j := 12 * y + (m - 1) + k * Z.of_nat i in
      Odt (day_number (j / 12) (j mod 12 + 1) (Z.min dd (month_days (j / 12) (j mod 12 + 1)))) (od_ns d) (od_off d)).
    intro i. cbv zeta. set (j := 12 * y + (m - 1) + k * Z.of_nat i). unfold steps_after. rewrite E. cbn [od_ns od_off od_day].
    split; [reflexivity|]. split; [reflexivity|]. exists y, m, dd. split; [exact V|]. split; [symmetry; exact D|].
    exists (j / 12), (j mod 12 + 1). split; [Z.to_euclidean_division_equations; lia|]. split; [|reflexivity].
    pose proof (Z.div_mod j 12 ltac:(lia)). subst j. lia.
  - exists (fun i => Odt (od_day d + k * Z.of_nat i) (od_ns d) (od_off d)). intro i. unfold steps_after. rewrite E. auto.
Qed.
Lemma back_fun : forall f d, f <> NoFrequency -> exists raw : nat -> odt, raw 0%nat = d /\ forall i, (1 <= i)%nat -> back f d (Z.of_nat i) (raw i).
Proof.
  intros f d N. destruct (freq_step f) as [[k|k]|] eqn:E; [| |destruct f; discriminate || congruence].
  - destruct (date_fields (od_day d)) as [V D]. set (y := date_year (od_day d)) in *. set (m := date_month (od_day d)) in *. set (dd := date_day (od_day d)) in *.
    exists (fun i => match i with O => d | _ => let j := 12 * y + (m - 1) + - (if k =? 12 then 12 * Z.of_nat i else months_back m (k * Z.of_nat i)) in
      Odt (day_number (j / 12) (j mod 12 + 1) (Z.min dd (month_days (j / 12) (j mod 12 + 1)))) (od_ns d) (od_off d) end).
    split; [reflexivity|]. intros i Hi. destruct i as [|i]; [lia|]. cbv zeta.
    set (j := 12 * y + (m - 1) + - (if k =? 12 then 12 * Z.of_nat (S i) else months_back m (k * Z.of_nat (S i)))).
    unfold back. rewrite E. cbn [od_ns od_off od_day].
    split; [reflexivity|]. split; [reflexivity|]. exists y, m, dd. split; [exact V|]. split; [symmetry; exact D|].
    exists (j / 12), (j mod 12 + 1). split; [Z.to_euclidean_division_equations; lia|]. split; [|reflexivity].
    pose proof (Z.div_mod j 12 ltac:(lia)). subst j. lia.
  - exists (fun i => Odt (od_day d - k * Z.of_nat i) (od_ns d) (od_off d)). split; [destruct d; cbn; f_equal; lia|].
    intros i Hi. unfold back. rewrite E. auto.
Qed.

Lemma build_parts : forall m forward eff mat a cv f fg pg l, build_schedule m forward eff mat a cv f fg pg = Ret (ROk l) ->
  0 <= fg /\ 0 <= pg /\ exists raws v, raw_dates m forward eff mat f = Ret raws /\ adjust_all a cv raws = Ret (ROk v) /\
    coupons eff mat a cv fg pg 0 (List.length v - 1) v = Ret (ROk l).
Proof.
  intros m forward eff mat a cv f fg pg l H. unfold build_schedule in H.
  destruct ((pg <? 0) || (fg <? 0)) eqn:G; [discriminate H|]. apply orb_false_iff in G. rewrite !Z.ltb_ge in G.
  split; [lia|]. split; [lia|]. destruct (raw_dates m forward eff mat f) as [raws| |]; cbn [obind] in H; try discriminate H.
  destruct (adjust_all a cv raws) as [[v|]| |] eqn:E; cbn [obind] in H; try discriminate H. exists raws, v. auto.
Qed.

Theorem c104_forward : forall m eff mat a cv f fg pg l, odt_ok eff -> odt_ok mat -> f <> NoFrequency ->
  build_schedule m true eff mat a cv f fg pg = Ret (ROk l) ->
  exists raw : nat -> odt, (forall i, steps_after f eff (Z.of_nat i) (raw i)) /\
    (forall i, (i < List.length l)%nat -> instant (raw i) < instant mat) /\ instant mat <= instant (raw (List.length l)) /\
    built_on raw eff mat a cv fg pg l.
Proof.
  intros m eff mat a cv f fg pg l He Hm Hf H. destruct (build_parts _ _ _ _ _ _ _ _ _ _ H) as (_ & _ & raws & v & R & A & C).
  destruct (raw_fun f eff Hf) as (raw & Hraw). exists raw. split; [exact Hraw|].
  destruct (forward_loop m eff mat f He Hf raw Hraw) as [(n & E & L1 & L2)|(E & _)]; rewrite R in E; [|discriminate E].
  injection E as ->. destruct (assemble_ok _ _ _ _ _ _ _ _ _ _ A C) as [-> B]. auto.
Qed.
(** what this means for any schedule built on dates: the coupons join, the first
    starts on the effective date and, unless it is the only one, the last ends
    and pays at maturity *)
Theorem c104_contiguous : forall raw eff mat a cv fg pg l, built_on raw eff mat a cv fg pg l ->
  (forall c, nth_error l 0 = Some c -> calc_start_date c = eff) /\
  (forall i c c', nth_error l i = Some c -> nth_error l (i + 1) = Some c' -> calc_end_date c = calc_start_date c') /\
  (forall i j c c', (i < j)%nat -> nth_error l i = Some c -> nth_error l j = Some c' -> instant (calc_end_date c) <= instant (calc_start_date c')) /\
  (forall c, (2 <= List.length l)%nat -> nth_error l (List.length l - 1) = Some c -> calc_end_date c = mat /\ payment_date c = mat).
Proof.
  intros raw eff mat a cv fg pg l B.
  assert (J : forall i c c', nth_error l i = Some c -> nth_error l (i + 1) = Some c' -> calc_end_date c = calc_start_date c').
  { intros i c c' Hc Hc'. assert (L : (i + 1 < List.length l)%nat) by (apply nth_error_Some; congruence).
    destruct (B i c Hc) as (_ & _ & _ & X & _). destruct (B (i + 1)%nat c' Hc') as (_ & Y & _).
    specialize (Y ltac:(lia)). destruct (X (or_intror L)) as [X1 _]. rewrite X1 in Y. congruence. }
  split; [intros c Hc; apply (B 0%nat c Hc); reflexivity|]. split; [exact J|]. split.
  - intros i j c c' Lij Hc Hc'. replace j with (i + 1 + (j - i - 1))%nat in Hc' by lia.
    remember (j - i - 1)%nat as k. clear Heqk Lij j. revert c' Hc'. induction k as [|k IH]; intros c' Hc'.
    + rewrite Nat.add_0_r in Hc'. rewrite (J i c c' Hc Hc'). lia.
    + assert (L : (i + 1 + S k < List.length l)%nat) by (apply nth_error_Some; congruence).
      destruct (nth_error l (i + 1 + k)) as [c1|] eqn:E; [|apply nth_error_None in E; lia].
      specialize (IH c1 eq_refl). destruct (B _ _ E) as (_ & _ & _ & _ & _ & S1).
      rewrite <- (J (i + 1 + k)%nat c1 c' E) by (replace (i + 1 + k + 1)%nat with (i + 1 + S k)%nat by lia; exact Hc'). lia.
  - intros c L Hc. destruct (B _ c Hc) as (_ & _ & X & _). apply X; lia.
Qed.
(** an empty schedule is returned exactly for an effective date not before maturity *)
Theorem c104_empty : forall m eff mat a cv f fg pg l, odt_ok eff -> odt_ok mat -> f <> NoFrequency ->
  build_schedule m true eff mat a cv f fg pg = Ret (ROk l) -> (l = [] <-> instant mat <= instant eff).
Proof.
  intros m eff mat a cv f fg pg l He Hm Hf H. destruct (c104_forward m eff mat a cv f fg pg l He Hm Hf H) as (raw & R & L1 & L2 & _).
  assert (R0 : raw 0%nat = eff) by (exact (steps_unique f eff 0 _ _ (R 0%nat) (steps_zero f eff Hf))). split.
  - intros ->. cbn [List.length] in L2. rewrite R0 in L2. exact L2.
  - intro G. destruct l as [|c l]; [reflexivity|]. specialize (L1 0%nat ltac:(cbn; lia)). rewrite R0 in L1. lia.
Qed.
(** fixing dates are business days no later than the gap before the start *)
Theorem c104_fixing : forall raw eff mat a cv fg pg l i c, built_on raw eff mat a cv fg pg l -> odt_ok (later (calc_start_date c) (- fg)) ->
  nth_error l i = Some c -> is_open a (fixing_date c) /\ exists k, 0 <= k /\ fixing_date c = later (calc_start_date c) (- fg - k).
Proof.
  intros raw eff mat a cv fg pg l i c B O H. destruct (B i c H) as (_ & _ & _ & _ & F & _).
  destruct (proj2 (c80_preceding a (later (calc_start_date c) (- fg)) O)) as [(k & K & E & Op & _)|E]; [|congruence].
  rewrite F in E. assert (Q : fixing_date c = later (later (calc_start_date c) (- fg)) (- k)) by congruence.
  rewrite Q. split; [exact Op|]. exists k. split; [exact K|]. unfold later. cbn [od_day od_ns od_off]. f_equal. lia.
Qed.
Definition kr : any_calendar := Joint [new_south_korea KrSettlement].
Example c104_hypotheses_met : let eff := civil 2023 1 31 59400000000000 32400 in let mat := civil 2023 10 31 59400000000000 32400 in
  odt_ok eff /\ odt_ok mat /\ exists c0 c1 c2, build_schedule Checked true eff mat kr ModifiedFollowing Quarterly 1 0 = Ret (ROk [c0; c1; c2]) /\
    calc_start_date c0 = eff /\ calc_end_date c0 = civil 2023 4 28 59400000000000 32400 /\ fixing_date c0 = civil 2023 1 30 59400000000000 32400 /\
    calc_end_date c2 = mat.
Proof.
  cbv zeta. split; [|split].
  - split; [reflexivity|]. cbn [civil od_ns od_off]. unfold day_ns. lia.
  - split; [reflexivity|]. cbn [civil od_ns od_off]. unfold day_ns. lia.
  - do 3 eexists. split; [vm_compute; reflexivity|]. repeat split.
Qed.
(** REFUTED for a single coupon: it ends a full step after the effective date, beyond maturity *)
Theorem c104_single_refuted : exists c, build_schedule Checked true (civil 2024 1 15 0 0) (civil 2024 2 15 0 0) (One NullCalendar) Unadjusted Quarterly 0 0 = Ret (ROk [c]) /\
  calc_end_date c = civil 2024 4 15 0 0 /\ payment_date c = civil 2024 4 15 0 0 /\ instant (civil 2024 2 15 0 0) < instant (calc_end_date c).
Proof. eexists. split; [vm_compute; reflexivity|]. repeat split. Qed.
(** REFUTED: "the payment dates are the end dates plus the gap, adjusted": the last one is not *)
Theorem c104_payment_gap_refuted : exists c0 c1,
  build_schedule Checked true (civil 2024 1 15 0 32400) (civil 2024 6 16 0 32400) kr Following Quarterly 0 2 = Ret (ROk [c0; c1]) /\
  payment_date c0 = later (calc_end_date c0) 2 /\ payment_date c1 = calc_end_date c1 /\ is_closed kr (payment_date c1).
Proof. do 2 eexists. split; [vm_compute; reflexivity|]. split; [reflexivity|]. split; [reflexivity|]. vm_compute. reflexivity. Qed.

(** ** C105: errors and panics *)
Lemma adjust_all_unadjusted : forall a v, adjust_all a Unadjusted v = Ret (ROk v).
Proof. induction v as [|d v IH]; [reflexivity|]. cbn [adjust_all adjust obind]. rewrite IH. reflexivity. Qed.

Theorem c105_refused : forall m forward eff mat a cv f fg pg,
  (fg < 0 \/ pg < 0 -> build_schedule m forward eff mat a cv f fg pg = Ret RErr) /\
  (0 <= fg -> 0 <= pg -> instant eff < instant mat -> build_schedule m forward eff mat a cv NoFrequency fg pg = Panic) /\
  (forall l, build_schedule m forward eff mat a DummyConvention f fg pg <> Ret (ROk l)).
Proof.
  intros m forward eff mat a cv f fg pg. split; [|split].
  - intro H. unfold build_schedule. replace ((pg <? 0) || (fg <? 0)) with true; [reflexivity|]. symmetry. apply orb_true_iff. rewrite !Z.ltb_lt. tauto.
  - intros F P L. unfold build_schedule. replace ((pg <? 0) || (fg <? 0)) with false by (symmetry; apply orb_false_iff; rewrite !Z.ltb_ge; lia).
    assert (R : raw_dates m forward eff mat NoFrequency = Panic).
    { unfold raw_dates. destruct forward.
      - apply (while_loop_ends _ (fun st => instant (snd st) < instant mat) (fun _ => 0) (fun r => r = Panic)).
        + intros [[v c] cur] I. cbn [snd] in I. unfold forward_turn. rewrite (proj2 (Z.ltb_lt _ _) I). reflexivity.
        + exact L.
        + lia.
      - apply (while_loop_ends _ (fun st => instant eff < instant (snd st)) (fun _ => 0) (fun r => r = Panic)).
        + intros [[v c] cur] I. cbn [snd] in I. unfold backward_turn. rewrite (proj2 (Z.ltb_lt _ _) I). reflexivity.
        + exact L.
        + lia. }
    rewrite R. reflexivity.
  - intros l H. destruct (build_parts _ _ _ _ _ _ _ _ _ _ H) as (_ & _ & raws & v & R & A & C).
    pose proof (raw_dates_some m forward eff mat f) as N. rewrite R in N. cbn [some_dates] in N.
    destruct raws as [|d raws]; [congruence|]. cbn [adjust_all adjust obind] in A. discriminate A.
Qed.
(** away from the ends of the calendar there is always an answer, and it is an
    error exactly if some coupon would end no later than it starts *)
Theorem c105_answers : forall m eff mat a cv f fg pg, f <> NoFrequency -> cv <> DummyConvention -> 0 <= fg -> 0 <= pg -> span a <= 300 ->
  away_from_ends (2 * span a + fg + pg + 500) eff -> away_from_ends (2 * span a + fg + pg + 500) mat ->
  exists n (raw adj : nat -> odt), (forall i, steps_after f eff (Z.of_nat i) (raw i)) /\
    (forall i, (i < n)%nat -> instant (raw i) < instant mat) /\ instant mat <= instant (raw n) /\
    (forall i, (i <= n)%nat -> adjust a (raw i) cv = Ret (ROk (adj i))) /\
    (((exists i, (i < n)%nat /\ instant (coupon_end mat adj n i) <= instant (coupon_start eff adj i)) /\ build_schedule m true eff mat a cv f fg pg = Ret RErr) \/
     ((forall i, (i < n)%nat -> instant (coupon_start eff adj i) < instant (coupon_end mat adj n i)) /\ exists l, build_schedule m true eff mat a cv f fg pg = Ret (ROk l))).
Proof.
  intros m eff mat a cv f fg pg H1 H2 H3 H4 H5 H6 H7. destruct (build_total m eff mat a cv f fg pg H1 H2 H3 H4 H5 H6 H7) as (n & raw & adj & A & B & C & D & E).
  exists n, raw, adj. split; [exact A|]. split; [exact B|]. split; [exact C|]. split; [intros i Hi; exact (proj1 (D i Hi))|]. exact E.
Qed.
(** unadjusted dates always make a schedule *)
Theorem c105_unadjusted : forall m eff mat a f fg pg, f <> NoFrequency -> 0 <= fg -> 0 <= pg -> span a <= 300 ->
  away_from_ends (2 * span a + fg + pg + 500) eff -> away_from_ends (2 * span a + fg + pg + 500) mat ->
  exists l, build_schedule m true eff mat a Unadjusted f fg pg = Ret (ROk l).
Proof.
  intros m eff mat a f fg pg H1 H3 H4 H5 H6 H7.
  destruct (build_total m eff mat a Unadjusted f fg pg H1 ltac:(discriminate) H3 H4 H5 H6 H7) as (n & raw & adj & A & B & C & D & [[(i & Hi & L) E]|[_ E]]); [|exact E].
  exfalso. assert (Q : forall j, (j <= n)%nat -> adj j = raw j) by (intros j Hj; destruct (D j Hj) as [X _]; cbn [adjust] in X; congruence).
  assert (R0 : raw 0%nat = eff) by exact (steps_unique f eff 0 _ _ (A 0%nat) (steps_zero f eff H1)).
  assert (S1 : coupon_start eff adj i = raw i) by (destruct i; [symmetry; exact R0|apply Q; lia]). rewrite S1 in L.
  assert (N : instant (raw i) < instant (coupon_end mat adj n i)); [|lia]. unfold coupon_end. destruct (negb (i =? 0)%nat && (i + 1 =? n)%nat).
  - apply B. exact Hi.
  - rewrite Q by lia. apply (steps_later f eff (Z.of_nat i) (Z.of_nat (i + 1)) _ _ ltac:(lia) (A i) (A (i + 1)%nat)).
Qed.
(** months apart, the modified conventions keep the dates apart: there is a
    schedule unless a date lies before maturity but in its month *)
Theorem c105_modified : forall m eff mat a cv f k fg pg, freq_step f = Some (Months k) -> cv = ModifiedFollowing \/ cv = ModifiedPreceding ->
  0 <= fg -> 0 <= pg -> span a <= 28 -> od_off mat = od_off eff ->
  away_from_ends (2 * span a + fg + pg + 500) eff -> away_from_ends (2 * span a + fg + pg + 500) mat ->
  (forall i r, 0 < i -> steps_after f eff i r -> instant r < instant mat -> ~ same_month r mat) ->
  exists l, build_schedule m true eff mat a cv f fg pg = Ret (ROk l).
Proof.
  intros m eff mat a cv f k fg pg FS CV H3 H4 H5 HO H6 H7 HS.
  assert (Nf : f <> NoFrequency) by (intros ->; discriminate FS).
  assert (Nc : cv <> DummyConvention) by (destruct CV; subst; discriminate).
  destruct (build_total m eff mat a cv f fg pg Nf Nc H3 H4 ltac:(lia) H6 H7) as (n & raw & adj & A & B & C & D & [[(i & Hi & L) E]|[_ E]]); [|exact E].
  exfalso. assert (R0 : raw 0%nat = eff) by exact (steps_unique f eff 0 _ _ (A 0%nat) (steps_zero f eff Nf)).
  assert (SP := span_pos a).
  assert (GE : forall j, od_day eff <= od_day (raw j)).
  { intro j. destruct j as [|j]; [rewrite R0; lia|].
    destruct (steps_later f eff 0 (Z.of_nat (Datatypes.S j)) _ _ ltac:(lia) (A 0%nat) (A (Datatypes.S j))) as [X _]. rewrite R0 in X. lia. }
  assert (CL : forall j, od_ns (raw j) = od_ns eff /\ od_off (raw j) = od_off eff) by (intro j; destruct (A j) as (X & Y & _); auto).
  (* every date before maturity is away from the ends by sixty days *)
  assert (UP : forall j, (j <= n)%nat -> away_from_ends 60 (raw j)).
  { intros j Hj. destruct (D j Hj) as [_ [O _]]. split; [exact O|]. pose proof (GE j). destruct H6 as [_ H6]. split; [lia|].
    destruct j as [|j]; [rewrite R0; lia|]. destruct (D j ltac:(lia)) as [_ [O' _]].
    pose proof (instant_days (raw j) mat O' (proj1 H7) ltac:(specialize (B j ltac:(lia)); lia)).
    pose proof (A (Datatypes.S j)) as X. rewrite Nat2Z.inj_succ, <- Z.add_1_r in X. pose proof (step_bound f eff _ _ _ (A j) X). destruct H7 as [_ H7]. lia. }
  (* adjusting stays in the month and keeps the clock *)
  assert (AJ : forall j, (j <= n)%nat -> same_month (raw j) (adj j) /\ od_ns (adj j) = od_ns eff /\ od_off (adj j) = od_off eff).
  { intros j Hj. destruct (D j Hj) as [E1 AW]. pose proof (c81_every_month_has_a_business_day a (raw j) (UP j Hj) H5) as BD.
    destruct (CL j) as [CN CO].
    destruct CV as [-> | ->].
    - destruct (c81_modified_following a (raw j) AW ltac:(lia)) as (r & kf & kp & F1 & _ & _ & F2 & _ & F3). rewrite E1 in F1.
      assert (Q : adj j = r) by congruence. rewrite Q. split; [exact (F3 BD)|]. destruct F2 as [[_ ->]|[_ ->]]; cbn [later od_ns od_off]; auto.
    - destruct (c81_modified_preceding a (raw j) AW ltac:(lia)) as (r & kf & kp & F1 & _ & _ & F2 & _ & F3). rewrite E1 in F1.
      assert (Q : adj j = r) by congruence. rewrite Q. split; [exact (F3 BD)|]. destruct F2 as [[_ ->]|[_ ->]]; cbn [later od_ns od_off]; auto. }
  (* days in an earlier month are earlier *)
  assert (IM : forall y mo d, 1 <= mo <= 12 -> in_month y mo d -> valid_date y mo (date_day d) /\ d = day_number y mo (date_day d)).
  { intros y mo d Hm [I1 I2]. pose proof (month_days_range y mo). set (x := d - day_number y mo 1 + 1).
    assert (V : valid_date y mo x) by (split; [lia|]; subst x; unfold day_number in *; lia).
    assert (Q : d = day_number y mo x) by (subst x; unfold day_number; lia).
    destruct (fields_of_date y mo x V) as (_ & _ & F). rewrite <- Q in F. rewrite F. auto. }
  assert (EM : forall d e d' e', same_month d d' -> same_month e e' -> od_day d < od_day e -> ~ same_month d e -> od_day d' < od_day e').
  { intros d e d' e' (y1 & m1 & M1 & P1 & P1') (y2 & m2 & M2 & P2 & P2') LT NS.
    destruct (IM _ _ _ M1 P1) as [V1 Q1]. destruct (IM _ _ _ M2 P2) as [V2 Q2]. destruct (IM _ _ _ M1 P1') as [V1' Q1']. destruct (IM _ _ _ M2 P2') as [V2' Q2'].
    assert (X : y1 < y2 \/ (y1 = y2 /\ m1 < m2)).
    { destruct (Z_lt_le_dec y1 y2) as [|G]; [auto|]. right. destruct (Z.eq_dec y1 y2) as [<-|N2].
      - split; [reflexivity|]. destruct (Z_lt_le_dec m1 m2) as [|G2]; [assumption|]. exfalso.
        destruct (Z.eq_dec m1 m2) as [<-|N3]; [apply NS; exists y1, m1; auto|].
        rewrite Q1, Q2 in LT. assert (day_number y1 m2 (date_day (od_day e)) < day_number y1 m1 (date_day (od_day d))); [|lia].
        apply day_number_mono; [exact V2|exact V1|]. unfold date_lt. lia.
      - exfalso. rewrite Q1, Q2 in LT. assert (day_number y2 m2 (date_day (od_day e)) < day_number y1 m1 (date_day (od_day d))); [|lia].
        apply day_number_mono; [exact V2|exact V1|]. unfold date_lt. lia. }
    rewrite Q1', Q2'. apply day_number_mono; [exact V1'|exact V2'|]. unfold date_lt. lia. }
  (* different steps lie in different months *)
  assert (DM : forall j, ~ same_month (raw j) (raw (j + 1)%nat)).
  { intros j (y & mo & Hm & I1 & I2). destruct (IM _ _ _ Hm I1) as [V1 Q1]. destruct (IM _ _ _ Hm I2) as [V2 Q2].
    destruct (A j) as (_ & _ & M1), (A (j + 1)%nat) as (_ & _ & M2). rewrite FS in M1, M2. pose proof (step_positive f) as P. rewrite FS in P.
    destruct M1 as (y1 & m1 & d1 & W1 & X1 & y1' & m1' & Z1 & N1 & T1), M2 as (y2 & m2 & d2 & W2 & X2 & y2' & m2' & Z2 & N2 & T2).
    rewrite X1 in X2. destruct (day_number_unique _ _ _ _ _ _ W1 W2 X2) as (<- & <- & <-).
    pose proof (month_days_range y1' m1'). pose proof (month_days_range y2' m2'). destruct W1 as [W1m W1d].
    rewrite T1 in Q1, V1. rewrite T2 in Q2, V2.
    destruct (day_number_unique y1' m1' (Z.min d1 (month_days y1' m1')) y mo _ ltac:(split; lia) V1 Q1) as (U1 & U2 & _).
    destruct (day_number_unique y2' m2' (Z.min d1 (month_days y2' m2')) y mo _ ltac:(split; lia) V2 Q2) as (U3 & U4 & _). lia. }
  assert (RF : forall x : odt, same_month x x).
  { intro x. destruct (date_fields (od_day x)) as [V Q]. exists (date_year (od_day x)), (date_month (od_day x)). destruct V as [V1 V2].
    split; [exact V1|]. assert (I : in_month (date_year (od_day x)) (date_month (od_day x)) (od_day x)).
    { unfold in_month, day_number in *. lia. } auto. }
  assert (SM : same_month (raw i) (coupon_start eff adj i) /\ od_ns (coupon_start eff adj i) = od_ns eff /\ od_off (coupon_start eff adj i) = od_off eff).
  { destruct i as [|i]; cbn [coupon_start]; [rewrite R0; auto|apply AJ; lia]. }
  destruct SM as (SM & SN & SO).
  unfold coupon_end in L. destruct (negb (i =? 0)%nat && (i + 1 =? n)%nat) eqn:LAST.
  - apply andb_true_iff in LAST. rewrite negb_true_iff, Nat.eqb_neq, Nat.eqb_eq in LAST. destruct LAST as [I0 I1].
    specialize (B i Hi). pose proof (HS (Z.of_nat i) (raw i) ltac:(lia) (A i) B) as NS. destruct (CL i) as [CN CO].
    destruct (D i ltac:(lia)) as [_ [(_ & ON & _) _]]. destruct H7 as [(_ & OM & _) _]. destruct H6 as [(_ & OE & _) _].
    assert (G : od_day (raw i) < od_day mat).
    { assert (od_day (raw i) <= od_day mat) by (unfold instant, day_ns in *; rewrite CN, CO, HO in *; lia).
      destruct (Z.eq_dec (od_day (raw i)) (od_day mat)) as [Eq|]; [|lia]. exfalso. apply NS.
      destruct (RF mat) as (y & mo & M & P1 & P2). exists y, mo. rewrite Eq. auto. }
    pose proof (EM _ _ _ _ SM (RF mat) G NS) as G2. unfold instant, day_ns in *. rewrite SN, SO, HO in *. lia.
  - destruct (AJ (i + 1)%nat ltac:(lia)) as (T1 & T2 & T3).
    destruct (steps_later f eff (Z.of_nat i) (Z.of_nat (i + 1)) _ _ ltac:(lia) (A i) (A (i + 1)%nat)) as [G _].
    pose proof (EM _ _ _ _ SM T1 G (DM i)) as G2. unfold instant, day_ns in L. rewrite SN, SO, T2, T3 in L. lia.
Qed.
Example c105_hypotheses_met : away_from_ends (2 * span kr + 1 + 2 + 500) (midnight 2024 5 6 9) /\ span kr <= 28 /\ freq_step Quarterly = Some (Months 3).
Proof. split; [apply away_example; split; apply Z.leb_le; reflexivity|]. split; [apply Z.leb_le; reflexivity|reflexivity]. Qed.
(** an error for what one might expect to work: daily coupons over a weekend; a
    last date that the convention moves to the maturity or beyond *)
Theorem c105_error_cases :
  build_schedule Checked true (civil 2024 5 2 0 32400) (civil 2024 5 14 0 32400) kr Following Daily 0 0 = Ret RErr /\
  build_schedule Checked true (civil 2024 1 16 0 32400) (civil 2024 6 17 0 32400) kr Following Monthly 0 0 = Ret RErr.
Proof. split; vm_compute; reflexivity. Qed.

(** ** C106: a schedule generated backward *)
Definition backward_bad (f : frequency) (mat : odt) (i : Z) : Prop :=
  exists k y mo dd, freq_step f = Some (Months k) /\ k < 12 /\ valid_date y mo dd /\ od_day mat = day_number y mo dd /\ k * (i - 1) <= mo + 11 < k * i.
Lemma out_of_reach : forall f mat n, ~ in_reach f mat n -> exists i, i <= n /\ backward_bad f mat i.
Proof.
  intros f mat n N. destruct (date_fields (od_day mat)) as [V D]. set (y := date_year (od_day mat)) in *. set (mo := date_month (od_day mat)) in *. set (dd := date_day (od_day mat)) in *.
  destruct (freq_step f) as [[k|k]|] eqn:E.
  - pose proof (step_positive f) as P. rewrite E in P. destruct (Z.eq_dec k 12) as [->|N12].
    + exfalso. apply N. intros k' y' m' d' E' L. assert (k' = 12) by congruence. lia.
    + destruct (Z_le_gt_dec (k * n) (mo + 11)) as [L|G].
      * exfalso. apply N. intros k' y' m' d' E' L' V' D'. assert (k' = k) by congruence. subst k'. rewrite <- D in D'.
        destruct (day_number_unique _ _ _ _ _ _ V V' D') as (<- & <- & <-). exact L.
      * exists ((mo + 11) / k + 1). split; [Z.to_euclidean_division_equations; nia|]. exists k, y, mo, dd. split; [exact E|]. split; [lia|].
        split; [exact V|]. split; [symmetry; exact D|]. Z.to_euclidean_division_equations; nia.
  - exfalso. apply N. intros k' y' m' d' E'. congruence.
  - exfalso. apply N. intros k' y' m' d' E'. congruence.
Qed.
(** at the first step out of reach the date is later than at the one before *)
Lemma bad_step : forall f mat i r r', backward_bad f mat i -> back f mat i r -> (1 < i /\ back f mat (i - 1) r') ->
  od_day r' < od_day r <= od_day mat /\ od_ns r = od_ns mat /\ od_off r = od_off mat /\ od_ns r' = od_ns mat /\ od_off r' = od_off mat.
Proof.
  intros f mat i r r' (k & y & mo & dd & E & K & V & D & L) (A1 & A2 & A3) (I & B1 & B2 & B3). rewrite E in A3, B3.
  pose proof (step_positive f) as P. rewrite E in P.
  destruct A3 as (y1 & m1 & d1 & W1 & X1 & M1), B3 as (y2 & m2 & d2 & W2 & X2 & M2). rewrite D in X1, X2.
  destruct (day_number_unique _ _ _ _ _ _ V W1 X1) as (<- & <- & <-). destruct (day_number_unique _ _ _ _ _ _ V W2 X2) as (<- & <- & <-).
  assert (N12 : (k =? 12) = false) by (apply Z.eqb_neq; lia). rewrite N12 in M1, M2. unfold months_back in M1, M2.
  rewrite (proj2 (Z.leb_le _ _) (proj1 L)) in M2. cbn [orb] in M2. rewrite (proj2 (Z.leb_gt _ _) (proj2 L)) in M1. cbn [orb] in M1.
  assert (NE : ((k * i - (mo - 1)) mod 12 =? 0) = false).
  { apply Z.eqb_neq. destruct V as [Vm _]. assert (k <= 6) by (destruct f; cbn in E; try discriminate E; injection E as <-; lia). Z.to_euclidean_division_equations; lia. }
  rewrite NE in M1. destruct V as [Vm Vd]. split; [|auto]. split.
  - apply (months_after_later y mo dd (- (k * (i - 1))) (- (k * i - 12))); [split; assumption|lia|exact M2|exact M1].
  - assert (M0 : months_after y mo dd 0 (od_day mat)).
    { exists y, mo. split; [exact Vm|]. split; [lia|]. rewrite Z.min_l by lia. exact D. }
    destruct (Z.eq_dec (k * i) 12) as [Q|Q]; [rewrite Q in M1; cbn in M1; rewrite (months_after_unique _ _ _ _ _ _ M1 M0); lia|].
    pose proof (months_after_later y mo dd (- (k * i - 12)) 0 _ _ ltac:(split; assumption) ltac:(lia) M1 M0). lia.
Qed.
Lemma backward_parts : forall m eff mat a cv f fg pg l, odt_ok mat -> f <> NoFrequency -> build_schedule m false eff mat a cv f fg pg = Ret (ROk l) ->
  exists raw : nat -> odt, raw 0%nat = mat /\ (forall i, (1 <= i)%nat -> back f mat (Z.of_nat i) (raw i)) /\
    (forall i, (i < List.length l)%nat -> instant eff < instant (raw i)) /\ instant (raw (List.length l)) <= instant eff /\
    built_on (fun i => raw (List.length l - i)%nat) eff mat a cv fg pg l.
Proof.
  intros m eff mat a cv f fg pg l Om Nf H. destruct (build_parts _ _ _ _ _ _ _ _ _ _ H) as (_ & _ & raws & v & R & A & C).
  destruct (back_fun f mat Nf) as (raw & R0 & Hraw). exists raw. split; [exact R0|]. split; [exact Hraw|].
  destruct (backward_loop m eff mat f Om Nf raw R0 Hraw) as [(n & E & L1 & L2)|(E & _)]; rewrite R in E; [|discriminate E].
  assert (EE : raws = rev (map raw (seq 0 (Datatypes.S n)))) by congruence. rewrite EE, rev_map_seq in A. destruct (assemble_ok _ _ _ _ _ _ _ _ _ _ A C) as [-> B]. auto.
Qed.
Lemma backward_in_reach : forall m eff mat a cv f fg pg l, f <> NoFrequency -> span a <= 300 ->
  away_from_ends (span a + 5) eff -> away_from_ends (span a) mat ->
  build_schedule m false eff mat a cv f fg pg = Ret (ROk l) -> ~ exists i, i <= Z.of_nat (List.length l) /\ backward_bad f mat i.
Proof.
  intros m eff mat a cv f fg pg l Nf S0 [Oe Re] Am H (i & Hi & Bad). pose proof Am as [Om Rm].
  destruct (backward_parts _ _ _ _ _ _ _ _ _ Om Nf H) as (raw & R0 & Hraw & L1 & L2 & BO). set (n := List.length l) in *.
  assert (I1 : 1 < i).
  { destruct Bad as (k & y & mo & dd & E & K & V & _ & L). destruct V as [Vm _].
    assert (k <= 6) by (destruct f; cbn in E; try discriminate E; injection E as <-; lia). assert (1 <= k) by (pose proof (step_positive f) as P; rewrite E in P; lia). nia. }
  set (j := Z.to_nat i). assert (J : i = Z.of_nat j) by lia.
  destruct (bad_step f mat i (raw j) (raw (j - 1)%nat) Bad) as ((D1 & D2) & N1 & O1 & N2 & O2).
  { rewrite J. apply Hraw. lia. }
  { split; [exact I1|]. replace (i - 1) with (Z.of_nat (j - 1)) by lia. apply Hraw. lia. }
  assert (LT : instant (raw (j - 1)%nat) < instant (raw j)) by (apply instant_same_clock; [congruence|congruence|exact D1]).
  pose proof (L1 (j - 1)%nat ltac:(lia)) as P1.
  destruct (Nat.eq_dec j n) as [E|NE]; [rewrite E in *; lia|].
  (* the coupon from the late date to the one before *)
  destruct (nth_error l (n - j)) as [c|] eqn:Ec; [|apply nth_error_None in Ec; fold n in Ec; lia].
  destruct (BO _ _ Ec) as (_ & B1 & _ & B2 & _ & B3). fold n in B2.
  specialize (B1 ltac:(lia)). destruct (B2 ltac:(lia)) as [B4 _].
  replace (n - (n - j))%nat with j in B1 by lia. replace (n - (n - j + 1))%nat with (j - 1)%nat in B4 by lia.
  set (x := od_day (raw j) - od_day (raw (j - 1)%nat)).
  assert (Q : raw j = later (raw (j - 1)%nat) x).
  { destruct (raw j) as [d1 s1 o1], (raw (j - 1)%nat) as [d2 s2 o2]. cbn [od_day od_ns od_off] in *. unfold later. cbn [od_day od_ns od_off]. subst x. f_equal; lia. }
  destruct Om as (_ & On & Oo).
  assert (DB : od_day eff <= od_day (raw (j - 1)%nat) + 4).
  { destruct Oe as (_ & En & Eo). unfold instant, day_ns in *. rewrite N2, O2 in P1. lia. }
  assert (OK : forall d, od_ns d = od_ns mat -> od_off d = od_off mat -> od_day eff - 4 <= od_day d <= od_day mat -> away_from_ends (span a) d).
  { intros d Dn Do Dd. pose proof (span_pos a). split; [|lia]. split; [apply days_in_range; lia|]. rewrite Dn, Do. auto. }
  assert (M : instant (calc_end_date c) <= instant (calc_start_date c)); [|lia].
  apply (c82_monotone a (raw (j - 1)%nat) x cv); [subst x; lia| | |exact S0|exact B4|rewrite <- Q; exact B1].
  - apply OK; [exact N2|exact O2|lia].
  - rewrite <- Q. apply OK; [exact N1|exact O1|lia].
Qed.
Theorem c106_backward : forall m eff mat a cv f fg pg l, f <> NoFrequency -> span a <= 300 ->
  away_from_ends (span a + 5) eff -> away_from_ends (span a) mat ->
  build_schedule m false eff mat a cv f fg pg = Ret (ROk l) ->
  exists raw : nat -> odt, (forall i, (i <= List.length l)%nat -> steps_after f mat (Z.of_nat i - Z.of_nat (List.length l)) (raw i)) /\
    instant (raw 0%nat) <= instant eff /\ (forall i, (1 <= i <= List.length l)%nat -> instant eff < instant (raw i)) /\
    raw (List.length l) = mat /\ built_on raw eff mat a cv fg pg l.
Proof.
  intros m eff mat a cv f fg pg l Nf S0 Ae Am H. pose proof (backward_in_reach _ _ _ _ _ _ _ _ _ Nf S0 Ae Am H) as NB.
  destruct Am as [Om Rm]. destruct (backward_parts _ _ _ _ _ _ _ _ _ Om Nf H) as (raw & R0 & Hraw & L1 & L2 & BO). set (n := List.length l) in *.
  exists (fun i => raw (n - i)%nat). rewrite Nat.sub_0_r, Nat.sub_diag. split; [|split; [exact L2|split; [intros i Hi; apply L1; lia|split; [exact R0|exact BO]]]].
  intros i Hi. destruct (Nat.eq_dec i n) as [->|Ni].
  - rewrite Nat.sub_diag, R0, Z.sub_diag. apply steps_zero. exact Nf.
  - replace (Z.of_nat i - Z.of_nat n) with (- Z.of_nat (n - i)) by lia. apply back_steps; [|apply Hraw; lia].
    assert (D : in_reach f mat (Z.of_nat (n - i)) \/ ~ in_reach f mat (Z.of_nat (n - i))).
    { destruct (date_fields (od_day mat)) as [V D]. destruct (freq_step f) as [[k|k]|] eqn:E; [|left; intros ? ? ? ? X; congruence|left; intros ? ? ? ? X; congruence].
      destruct (Z_le_gt_dec (k * Z.of_nat (n - i)) (date_month (od_day mat) + 11)) as [L|G].
      - left. intros k' y' m' d' E' L' V' D'. assert (k' = k) by congruence. subst k'. rewrite <- D in D'.
        destruct (day_number_unique _ _ _ _ _ _ V V' D') as (_ & <- & _). exact L.
      - destruct (Z_lt_le_dec k 12) as [K|K].
        + right. intro X. specialize (X k _ _ _ E K V (eq_sym D)). lia.
        + left. intros k' y' m' d' E' L'. assert (k' = k) by congruence. lia. }
    destruct D as [D|D]; [exact D|]. exfalso. apply NB. destruct (out_of_reach f mat _ D) as (i' & H1 & H2). exists i'. split; [lia|exact H2].
Qed.
Theorem c106_empty : forall m eff mat a cv f fg pg l, odt_ok mat -> f <> NoFrequency ->
  build_schedule m false eff mat a cv f fg pg = Ret (ROk l) -> (l = [] <-> instant mat <= instant eff).
Proof.
  intros m eff mat a cv f fg pg l Om Nf H. destruct (backward_parts _ _ _ _ _ _ _ _ _ Om Nf H) as (raw & R0 & Hraw & L1 & L2 & BO). split.
  - intros ->. cbn [List.length] in L2. rewrite R0 in L2. exact L2.
  - intro G. destruct l as [|c l]; [reflexivity|]. specialize (L1 0%nat ltac:(cbn; lia)). rewrite R0 in L1. lia.
Qed.
Example c106_hypotheses_met : let eff := civil 2023 1 31 0 32400 in let mat := civil 2023 12 15 0 32400 in
  away_from_ends (span kr + 5) eff /\ away_from_ends (span kr) mat /\ span kr <= 300 /\
  exists c0 c1 c2 c3, build_schedule Checked false eff mat kr ModifiedFollowing Quarterly 1 0 = Ret (ROk [c0; c1; c2; c3]) /\
    calc_start_date c0 = eff /\ calc_end_date c0 = civil 2023 3 15 0 32400 /\ calc_start_date c3 = civil 2023 9 15 0 32400 /\ calc_end_date c3 = mat.
Proof.
  cbv zeta. split; [|split; [|split; [apply Z.leb_le; reflexivity|]]].
  - split; [split; [reflexivity|]; cbn [civil od_ns od_off]; unfold day_ns; lia|]. split; apply Z.leb_le; reflexivity.
  - split; [split; [reflexivity|]; cbn [civil od_ns od_off]; unfold day_ns; lia|]. split; apply Z.leb_le; reflexivity.
  - do 4 eexists. split; [vm_compute; reflexivity|]. repeat split.
Qed.

(** ** C107: how far back a backward schedule reaches *)
(** REFUTED that there is one whenever the effective date precedes maturity: if
    the dates of a frequency of less than a year still lie after the effective
    date when they are more than the maturity's month plus 11 months before
    maturity, there is none *)
Theorem c107_long_backward_refuted : forall m eff mat a cv f fg pg k i y mo dd r, freq_step f = Some (Months k) -> k < 12 -> span a <= 300 ->
  away_from_ends (span a + 5) eff -> away_from_ends (span a) mat ->
  valid_date y mo dd -> od_day mat = day_number y mo dd -> 0 <= i -> mo + 11 < k * (i + 1) -> k * i <= mo + 11 -> steps_after f mat (- i) r -> instant eff < instant r ->
  forall l, build_schedule m false eff mat a cv f fg pg <> Ret (ROk l).
Proof.
  intros m eff mat a cv f fg pg k i y mo dd r E K S0 Ae Am V D I0 I1 I2 St L l H.
  assert (Nf : f <> NoFrequency) by (intros ->; discriminate E).
  destruct (c106_backward _ _ _ _ _ _ _ _ _ Nf S0 Ae Am H) as (raw & R1 & R2 & R3 & R4 & _).
  apply (backward_in_reach _ _ _ _ _ _ _ _ _ Nf S0 Ae Am H). exists (i + 1). split.
  - (* the step i is among the dates before the last *)
    destruct (Z_le_gt_dec (i + 1) (Z.of_nat (List.length l))) as [|G]; [assumption|exfalso].
    destruct (Z.eq_dec (Z.of_nat (List.length l)) i) as [Q|Q].
    + pose proof (R1 0%nat ltac:(lia)) as X. rewrite Q in X. cbn [Z.of_nat Z.sub Z.add] in X. rewrite (steps_unique _ _ _ _ _ X St) in R2. lia.
    + pose proof (R1 0%nat ltac:(lia)) as X. pose proof (steps_later f mat (- i) (Z.of_nat 0 - Z.of_nat (List.length l)) _ _ ltac:(lia) St X) as [_ Y]. lia.
  - exists k, y, mo, dd. split; [exact E|]. split; [exact K|]. split; [exact V|]. split; [exact D|]. lia.
Qed.
Example c107_hypotheses_met : exists r, steps_after Quarterly (civil 2024 7 31 0 32400) (- 6) r /\ instant (civil 2022 1 31 0 32400) < instant r /\
  7 + 11 < 3 * (6 + 1) /\ 3 * 6 <= 7 + 11 /\
  build_schedule Checked false (civil 2022 1 31 0 32400) (civil 2024 7 31 0 32400) kr ModifiedFollowing Quarterly 0 0 = Ret RErr /\
  exists l, build_schedule Checked true (civil 2022 1 31 0 32400) (civil 2024 7 31 0 32400) kr ModifiedFollowing Quarterly 0 0 = Ret (ROk l) /\ List.length l = 10%nat.
Proof.
  exists (civil 2023 1 31 0 32400). split.
  { split; [reflexivity|]. split; [reflexivity|]. exists 2024, 7, 31. split; [split; [lia|change (month_days 2024 7) with 31; lia]|]. split; [reflexivity|].
    exists 2023, 1. split; [lia|]. split; [lia|reflexivity]. }
  split; [reflexivity|]. split; [lia|]. split; [lia|]. split; [vm_compute; reflexivity|]. eexists. split; [vm_compute; reflexivity|reflexivity].
Qed.
Print Assumptions c103_multiple.
Print Assumptions c103_steps.
Print Assumptions c103_none_panics.
Print Assumptions c103_year_partial.
Print Assumptions c103_year_refuted.
Print Assumptions c104_forward.
Print Assumptions c104_contiguous.
Print Assumptions c104_empty.
Print Assumptions c104_fixing.
Print Assumptions c104_single_refuted.
Print Assumptions c104_payment_gap_refuted.
Print Assumptions c105_refused.
Print Assumptions c105_answers.
Print Assumptions c105_unadjusted.
Print Assumptions c105_modified.
Print Assumptions c105_error_cases.
Print Assumptions c106_backward.
Print Assumptions c106_empty.
Print Assumptions c107_long_backward_refuted.
