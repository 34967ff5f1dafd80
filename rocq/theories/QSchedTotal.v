(** QSchedTotal.v -- when build_schedule answers. *)
From Coq Require Import ZArith List Bool Ascii String Lia.
From Verif Require Import Base CivilSpec QDateModel QDateProofs QCalModel QCalSpec QCalProps QPeriodModel QPeriodSpec QPeriodProofs QPeriodProps
  QSchedModel QSchedSpec QSchedProofs QSchedBack.
Import ListNotations.
Open Scope Z_scope.
Local Strategy 1000 [adjust].

Lemma span_pos : forall a, 7 <= span a.
Proof. intro a. destruct a; unfold span; lia. Qed.

Lemma adjust_total : forall a d cv, cv <> DummyConvention -> away_from_ends (span a) d -> span a <= 300 ->
  exists k, - span a < k < span a /\ adjust a d cv = Ret (ROk (later d k)).
Proof.
  intros a d cv N A S0. pose proof (span_pos a) as SP. pose proof A as [O B].
  assert (A0 : away_from_ends 0 d) by (split; [exact O|lia]).
  destruct (proj1 (c79_following a d O)) as (kf & KF & EF & _ & _); [split; [exact A0|lia]|].
  destruct (proj1 (c80_preceding a d O)) as (kp & KP & EP & _ & _); [split; [exact A0|lia]|].
  assert (MF : exists k, - span a < k < span a /\ adjust a d ModifiedFollowing = Ret (ROk (later d k))).
  { destruct (c81_modified_following a d A S0) as (r & k1 & k2 & E & E1 & E2 & D & _).
    assert (Q1 : later d k1 = later d kf) by congruence. assert (Q2 : later d (- k2) = later d (- kp)) by congruence.
    destruct D as [[_ D]|[_ D]]; rewrite D in E.
    + exists kf. split; [lia|]. rewrite <- Q1. exact E.
    + exists (- kp). split; [lia|]. rewrite <- Q2. exact E. }
  assert (MP : exists k, - span a < k < span a /\ adjust a d ModifiedPreceding = Ret (ROk (later d k))).
  { destruct (c81_modified_preceding a d A S0) as (r & k1 & k2 & E & E1 & E2 & D & _).
    assert (Q1 : later d k1 = later d kf) by congruence. assert (Q2 : later d (- k2) = later d (- kp)) by congruence.
    destruct D as [[_ D]|[_ D]]; rewrite D in E.
    + exists (- kp). split; [lia|]. rewrite <- Q2. exact E.
    + exists kf. split; [lia|]. rewrite <- Q1. exact E. }
  assert (FO : exists k, - span a < k < span a /\ adjust a d Following = Ret (ROk (later d k))) by (exists kf; split; [lia|exact EF]).
  assert (PR : exists k, - span a < k < span a /\ adjust a d Preceding = Ret (ROk (later d k))) by (exists (- kp); split; [lia|exact EP]).
  assert (UN : exists k, - span a < k < span a /\ adjust a d Unadjusted = Ret (ROk (later d k))).
  { exists 0. split; [lia|]. cbn [adjust]. unfold later. rewrite Z.add_0_r. destruct d; reflexivity. }
  clear - N MF MP FO PR UN. destruct cv; [exact UN|exact FO|exact MF|exact PR|exact MP|congruence].
Qed.

Lemma year_step : forall y, year_start (y + 1) - year_start y <= 366.
Proof. intro y. rewrite year_next. unfold year_days. destruct (leapb y); lia. Qed.
Lemma month_start_next_year : forall y m, 1 <= m <= 12 -> -1 <= month_start (y + 1) m - month_start y m <= 1.
Proof. intros y m H. month_cases m; unfold month_start; cbn; destruct (leapb (y + 1)), (leapb y); lia. Qed.
Lemma months_after_year : forall y m d k n n', valid_date y m d -> months_after y m d k n -> months_after y m d (k + 12) n' -> n' <= n + 400.
Proof.
  intros y m d k n n' [Hm Hd] (y1 & m1 & H1 & E1 & ->) (y2 & m2 & H2 & E2 & ->).
  assert (m2 = m1) by lia. assert (y2 = y1 + 1) by lia. subst. unfold day_number.
  pose proof (year_step y1). pose proof (month_start_next_year y1 m1 H1). pose proof (month_days_range y1 m1). pose proof (month_days_range (y1 + 1) m1). lia.
Qed.
Lemma step_bound : forall f d i r r', steps_after f d i r -> steps_after f d (i + 1) r' -> od_day r' <= od_day r + 400.
Proof.
  intros f d i r r' (_ & _ & A) (_ & _ & B). pose proof (step_positive f) as P.
  destruct (freq_step f) as [[k|k]|]; [| |contradiction].
  - destruct A as (y & m & dd & V & E & M), B as (y' & m' & dd' & V' & E' & M'). rewrite E in E'.
    destruct (day_number_unique _ _ _ _ _ _ V V' E') as (<- & <- & <-).
    assert (X : exists n, months_after y m dd (k * i + 12) n).
    { set (j := 12 * y + (m - 1) + (k * i + 12)). eexists. exists (j / 12), (j mod 12 + 1).
      split; [Z.to_euclidean_division_equations; lia|]. split; [|reflexivity]. pose proof (Z.div_mod j 12 ltac:(lia)). subst j. lia. }
    destruct X as [n X]. pose proof (months_after_year y m dd _ _ _ V M X).
    destruct (Z.eq_dec k 12) as [->|N].
    + replace (12 * (i + 1)) with (12 * i + 12) in M' by lia. rewrite (months_after_unique _ _ _ _ _ _ M' X). lia.
    + pose proof (months_after_later y m dd (k * (i + 1)) (k * i + 12) (od_day r') n V ltac:(lia) M' X). lia.
  - lia.
Qed.

Section Coupons.
Variables (eff mat : odt) (a : any_calendar) (cv : convention) (fg pg : Z).
Lemma coupons_answer : forall v i n,
  (forall k s e, nth_error v k = Some s -> nth_error v (k + 1) = Some e -> exists c, make_coupon eff mat a cv fg pg (i + k) n s e = Ret (ROk c)) ->
  let bad := exists k s e c, nth_error v k = Some s /\ nth_error v (k + 1) = Some e /\ make_coupon eff mat a cv fg pg (i + k) n s e = Ret (ROk c) /\
               instant (calc_end_date c) <= instant (calc_start_date c) in
  (coupons eff mat a cv fg pg i n v = Ret RErr /\ bad) \/ (exists l, coupons eff mat a cv fg pg i n v = Ret (ROk l)) /\ ~ bad.
Proof.
  induction v as [|s v IH]; intros i n H bad; cbn [coupons].
  - right. split; [eexists; reflexivity|]. intros (k & s & e & c & A & _). destruct k; discriminate A.
  - destruct v as [|e v].
    + right. split; [eexists; reflexivity|]. intros (k & s' & e & c & _ & B & _). destruct k as [|[|k]]; discriminate B.
    + destruct (H 0%nat s e eq_refl eq_refl) as [c E]. rewrite Nat.add_0_r in E. rewrite E. cbn [obind].
      destruct (Z.leb_spec (instant (calc_end_date c)) (instant (calc_start_date c))) as [L|L].
      * left. split; [reflexivity|]. exists 0%nat, s, e, c. rewrite Nat.add_0_r. auto.
      * specialize (IH (i + 1)%nat n). cbv zeta in IH. destruct IH as [[E1 B]|[[l E1] B]].
        { intros k s' e' K1 K2. replace (i + 1 + k)%nat with (i + S k)%nat by lia. apply H; [exact K1|exact K2]. }
        { left. rewrite E1. cbn [obind]. split; [reflexivity|]. destruct B as (k & s' & e' & c' & B1 & B2 & B3 & B4).
          exists (S k), s', e', c'. replace (i + S k)%nat with (i + 1 + k)%nat by lia. auto. }
        { right. rewrite E1. cbn [obind]. split; [eexists; reflexivity|]. intros (k & s' & e' & c' & B1 & B2 & B3 & B4). destruct k as [|k].
          - cbn in B1, B2. injection B1 as <-. injection B2 as <-. rewrite Nat.add_0_r in B3. rewrite E in B3. injection B3 as <-. lia.
          - apply B. exists k, s', e', c'. replace (i + 1 + k)%nat with (i + S k)%nat by lia. auto. }
Qed.
Lemma adjust_all_total : forall v, (forall d, In d v -> exists r, adjust a d cv = Ret (ROk r)) -> exists w, adjust_all a cv v = Ret (ROk w).
Proof.
  induction v as [|d v IH]; intro H; cbn [adjust_all]; [eexists; reflexivity|].
  destruct (H d (or_introl eq_refl)) as [r ->]. cbn [obind].
  destruct (IH (fun x Hx => H x (or_intror Hx))) as [w ->]. cbn [obind]. eexists. reflexivity.
Qed.
Lemma later_ok : forall k d, odt_ok d -> in_range (od_day d + k) = true -> odt_ok (later d k).
Proof. intros k d (_ & A & B) R. split; [exact R|]. auto. Qed.
Lemma days_in_range : forall n, date_min <= n <= date_max -> in_range n = true.
Proof. intros n H. unfold in_range. apply andb_true_iff. rewrite !Z.leb_le. exact H. Qed.
(** one coupon, its ends far enough from those of the calendar *)
Lemma make_coupon_total : forall i n s e, cv <> DummyConvention -> span a <= 300 -> 0 <= fg -> 0 <= pg ->
  odt_ok (if (i =? 0)%nat then eff else s) -> odt_ok e ->
  date_min + 2 + span a + fg <= od_day (if (i =? 0)%nat then eff else s) <= date_max - 2 - span a ->
  date_min + 2 + span a <= od_day e <= date_max - 2 - span a - pg ->
  exists c, make_coupon eff mat a cv fg pg i n s e = Ret (ROk c).
Proof.
  intros i n s e N S0 F P O1 O2 R1 R2. unfold make_coupon. set (start := if (i =? 0)%nat then eff else s) in *. pose proof (span_pos a) as SP.
  unfold add_days, date_add. rewrite (days_in_range (od_day start + - fg)) by lia. cbn [obind].
  change (Odt (od_day start + - fg) (od_ns start) (od_off start)) with (later start (- fg)).
  destruct (adjust_total a (later start (- fg)) Preceding) as (k & _ & ->); [discriminate| |exact S0|].
  { split; [apply later_ok; [exact O1|apply days_in_range; lia]|]. unfold later. cbn [od_day]. lia. }
  cbn [obind]. destruct (negb (i =? 0)%nat && (i =? n - 1)%nat); cbn [obind]; [eexists; reflexivity|].
  rewrite (days_in_range (od_day e + pg)) by lia. cbn [obind].
  change (Odt (od_day e + pg) (od_ns e) (od_off e)) with (later e pg).
  destruct (adjust_total a (later e pg) cv) as (k' & _ & ->); [exact N| |exact S0|].
  { split; [apply later_ok; [exact O2|apply days_in_range; lia]|]. unfold later. cbn [od_day]. lia. }
  cbn [obind]. eexists. reflexivity.
Qed.
End Coupons.

(** same clock and offset as a good value *)
Lemma steps_ok : forall f d i r, odt_ok d -> steps_after f d i r -> in_range (od_day r) = true -> odt_ok r.
Proof. intros f d i r (_ & A & B) (E1 & E2 & _) R. split; [exact R|]. rewrite E1, E2. auto. Qed.
(** an earlier instant is an earlier day, up to the offsets *)
Lemma instant_days : forall d e, odt_ok d -> odt_ok e -> instant d <= instant e -> od_day d <= od_day e + 4.
Proof. intros d e (_ & A & B) (_ & C & D) L. unfold instant, day_ns in *. lia. Qed.
Lemma instant_same_clock : forall d e, od_ns d = od_ns e -> od_off d = od_off e -> (instant d < instant e <-> od_day d < od_day e).
Proof. intros d e A B. unfold instant, day_ns. rewrite A, B. lia. Qed.

Theorem build_total : forall m eff mat a cv f fg pg, f <> NoFrequency -> cv <> DummyConvention -> 0 <= fg -> 0 <= pg -> span a <= 300 ->
  away_from_ends (2 * span a + fg + pg + 500) eff -> away_from_ends (2 * span a + fg + pg + 500) mat ->
  exists n (raw adj : nat -> odt), (forall i, steps_after f eff (Z.of_nat i) (raw i)) /\
    (forall i, (i < n)%nat -> instant (raw i) < instant mat) /\ instant mat <= instant (raw n) /\
    (forall i, (i <= n)%nat -> adjust a (raw i) cv = Ret (ROk (adj i)) /\ away_from_ends (span a) (raw i)) /\
    (((exists i, (i < n)%nat /\ instant (coupon_end mat adj n i) <= instant (coupon_start eff adj i)) /\ build_schedule m true eff mat a cv f fg pg = Ret RErr) \/
     ((forall i, (i < n)%nat -> instant (coupon_start eff adj i) < instant (coupon_end mat adj n i)) /\ exists l, build_schedule m true eff mat a cv f fg pg = Ret (ROk l))).
Proof.
  intros m eff mat a cv f fg pg Nf Nc Fg Pg S0 [Oe Re] [Om Rm]. pose proof (span_pos a) as SP.
  assert (RX : exists raw : nat -> odt, forall i, steps_after f eff (Z.of_nat i) (raw i)).
  { destruct (freq_step f) as [[k|k]|] eqn:E; [| |destruct f; discriminate || congruence].
    - destruct (date_fields (od_day eff)) as [V D]. set (y := date_year (od_day eff)) in *. set (mo := date_month (od_day eff)) in *. set (dd := date_day (od_day eff)) in *.
      exists (fun i => let j := 12 * y + (mo - 1) + k * Z.of_nat i in
        Odt (day_number (j / 12) (j mod 12 + 1) (Z.min dd (month_days (j / 12) (j mod 12 + 1)))) (od_ns eff) (od_off eff)).
      intro i. cbv zeta. set (j := 12 * y + (mo - 1) + k * Z.of_nat i). unfold steps_after. rewrite E. cbn [od_ns od_off od_day].
      split; [reflexivity|]. split; [reflexivity|]. exists y, mo, dd. split; [exact V|]. split; [symmetry; exact D|].
      exists (j / 12), (j mod 12 + 1). split; [Z.to_euclidean_division_equations; lia|]. split; [|reflexivity].
      pose proof (Z.div_mod j 12 ltac:(lia)). subst j. lia.
    - exists (fun i => Odt (od_day eff + k * Z.of_nat i) (od_ns eff) (od_off eff)). intro i. unfold steps_after. rewrite E. auto. }
  destruct RX as (raw & Hraw).
  assert (R0 : raw 0%nat = eff) by exact (steps_unique f eff 0 _ _ (Hraw 0%nat) (steps_zero f eff Nf)).
  assert (GE : forall i, od_day eff <= od_day (raw i)).
  { intro i. destruct i as [|i]; [rewrite R0; lia|].
    destruct (steps_later f eff 0 (Z.of_nat (S i)) _ _ ltac:(lia) (Hraw 0%nat) (Hraw (S i))) as [L _]. rewrite R0 in L. lia. }
  (* dates before maturity, and the one after *)
  assert (LT : forall i, in_range (od_day (raw i)) = true -> instant (raw i) < instant mat -> od_day (raw i) <= od_day mat + 4).
  { intros i IR L. apply instant_days; [apply (steps_ok f eff (Z.of_nat i)); [exact Oe|apply Hraw|exact IR]|exact Om|lia]. }
  assert (UB : forall n, (forall j, (j < n)%nat -> instant (raw j) < instant mat) -> forall i, (i <= n)%nat -> od_day (raw i) <= Z.max (od_day eff) (od_day mat + 404)).
  { intros n H. induction i as [|i IH]; intro Hi; [rewrite R0; lia|]. specialize (IH ltac:(lia)).
    pose proof (GE i). assert (IR : in_range (od_day (raw i)) = true) by (apply days_in_range; lia).
    pose proof (LT i IR (H i ltac:(lia))). pose proof (Hraw (S i)) as HS. rewrite Nat2Z.inj_succ, <- Z.add_1_r in HS.
    pose proof (step_bound f eff (Z.of_nat i) _ _ (Hraw i) HS). lia. }
  destruct (forward_loop m eff mat f Oe Nf raw Hraw) as [(n & E & L1 & L2)|(E & n & IR & L1)].
  2:{ exfalso. pose proof (UB n L1 n (le_n n)). pose proof (GE n). rewrite days_in_range in IR by lia. discriminate IR. }
  assert (AW : forall i, (i <= n)%nat -> odt_ok (raw i) /\ away_from_ends (span a) (raw i)).
  { intros i Hi. pose proof (UB n L1 i Hi). pose proof (GE i).
    assert (O : odt_ok (raw i)) by (apply (steps_ok f eff (Z.of_nat i)); [exact Oe|apply Hraw|apply days_in_range; lia]).
    split; [exact O|]. split; [exact O|]. lia. }
  assert (AD : exists w, adjust_all a cv (map raw (seq 0 (S n))) = Ret (ROk w)).
  { apply adjust_all_total. intros d Hd. apply in_map_iff in Hd. destruct Hd as (i & <- & Hi). apply in_seq in Hi.
    destruct (adjust_total a (raw i) cv Nc (proj2 (AW i ltac:(lia))) S0) as (k & _ & ->). eexists. reflexivity. }
  destruct AD as [w AD]. pose proof (adjust_all_ok _ _ _ _ AD) as F2. pose proof (Forall2_length' _ _ _ _ _ F2) as LW.
  rewrite map_length, seq_length in LW.
  set (adj := fun i => nth i w eff).
  assert (NW : forall i, (i <= n)%nat -> nth_error w i = Some (adj i)) by (intros i Hi; apply nth_error_nth'; lia).
  assert (AJ : forall i, (i <= n)%nat -> adjust a (raw i) cv = Ret (ROk (adj i))).
  { intros i Hi. apply (Forall2_nth _ _ _ _ _ F2 i); [|apply NW; exact Hi].
    rewrite nth_error_map, (nth_error_nth' _ 0%nat) by (rewrite seq_length; lia). rewrite seq_nth by lia. reflexivity. }
  assert (AB : forall i, (i <= n)%nat -> odt_ok (adj i) /\ od_day (raw i) - span a < od_day (adj i) < od_day (raw i) + span a).
  { intros i Hi. destruct (AW i Hi) as [O [_ B]]. destruct (adjust_total a (raw i) cv Nc (proj2 (AW i Hi)) S0) as (k & K & EK).
    rewrite (AJ i Hi) in EK. assert (Q : adj i = later (raw i) k) by congruence. rewrite Q. split; [apply later_ok; [exact O|apply days_in_range; lia]|].
    unfold later. cbn [od_day]. lia. }
  exists n, raw, adj. split; [exact Hraw|]. split; [exact L1|]. split; [exact L2|].
  split; [intros i Hi; split; [apply AJ; exact Hi|apply AW; exact Hi]|].
  assert (BS : build_schedule m true eff mat a cv f fg pg = coupons eff mat a cv fg pg 0 n w).
  { unfold build_schedule. replace ((pg <? 0) || (fg <? 0)) with false by (symmetry; apply orb_false_iff; rewrite !Z.ltb_ge; lia).
    rewrite E. cbn [obind]. rewrite AD. cbn [obind]. f_equal. lia. }
  assert (MC : forall i s e, nth_error w i = Some s -> nth_error w (i + 1) = Some e -> (i < n)%nat /\ s = adj i /\ e = adj (i + 1)%nat).
  { intros i s e H1 H2. assert (i + 1 < List.length w)%nat by (apply nth_error_Some; congruence).
    rewrite NW in H1, H2 by lia. split; [lia|]. split; congruence. }
  assert (MT : forall i s e, nth_error w i = Some s -> nth_error w (i + 1) = Some e -> exists c, make_coupon eff mat a cv fg pg (0 + i) n s e = Ret (ROk c)).
  { intros i s e H1 H2. destruct (MC i s e H1 H2) as (Hi & -> & ->). cbn [Nat.add].
    destruct (AB i ltac:(lia)) as [B1 B2]. destruct (AB (i + 1)%nat ltac:(lia)) as [B3 B4].
    pose proof (GE i). pose proof (GE (i + 1)%nat).
    pose proof (UB n L1 i ltac:(lia)). pose proof (UB n L1 (i + 1)%nat ltac:(lia)).
    apply make_coupon_total; try assumption.
    - destruct (i =? 0)%nat; assumption.
    - destruct (i =? 0)%nat; lia.
    - lia. }
  assert (SE : forall i c, (i < n)%nat -> make_coupon eff mat a cv fg pg i n (adj i) (adj (i + 1)%nat) = Ret (ROk c) ->
    calc_start_date c = coupon_start eff adj i /\ calc_end_date c = coupon_end mat adj n i).
  { intros i c Hi H. destruct (make_coupon_ok _ _ _ _ _ _ _ _ _ _ _ H) as (M1 & M2 & _). rewrite M1, M2. unfold coupon_start, coupon_end.
    split; [destruct i; reflexivity|]. replace (i =? n - 1)%nat with (i + 1 =? n)%nat; [reflexivity|].
    apply eq_true_iff_eq. rewrite !Nat.eqb_eq. lia. }
  destruct (coupons_answer eff mat a cv fg pg w 0 n MT) as [[E1 B]|[[l E1] B]]; rewrite <- BS in E1.
  - left. split; [|exact E1]. destruct B as (i & s & e & c & B1 & B2 & B3 & B4). destruct (MC i s e B1 B2) as (Hi & -> & ->).
    exists i. split; [exact Hi|]. destruct (SE i c Hi B3) as [<- <-]. exact B4.
  - right. split; [|exists l; exact E1]. intros i Hi.
    destruct (MT i (adj i) (adj (i + 1)%nat) (NW i ltac:(lia)) (NW (i + 1)%nat ltac:(lia))) as [c Ec]. cbn [Nat.add] in Ec.
    destruct (SE i c Hi Ec) as [<- <-]. destruct (Z_lt_le_dec (instant (calc_start_date c)) (instant (calc_end_date c))) as [L|L]; [exact L|].
    exfalso. apply B. exists i, (adj i), (adj (i + 1)%nat), c. split; [apply NW; lia|]. split; [apply NW; lia|]. split; [exact Ec|exact L].
Qed.
