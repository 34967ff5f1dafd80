(** QCalAdjust2.v -- the conventions. *)
From Coq Require Import ZArith List Bool Lia Permutation.
From Verif Require Import Base CivilSpec QDateModel QDateProofs QCalTables QCalModel QCalProofs QCalScan QCalSpec QCalAdjust.
Import ListNotations.
Open Scope Z_scope.

Local Strategy 1000 [while_loop run_pow].

(** [later d (s*k)] is the first business day met from [d] in direction [s] *)
Definition nearest (a : any_calendar) (s : Z) (d : odt) (k : Z) : Prop :=
  0 <= k /\ is_open a (later d (s * k)) /\ forall j, 0 <= j < k -> is_closed a (later d (s * j)).

Lemma found_nearest : forall a s d k, found a s d k -> nearest a s d k.
Proof.
  intros a s d k (A & _ & B & C). split; [exact A|]. split; [apply open_iff; exact B|].
  intros j Hj. apply closed_iff. exact (C j Hj).
Qed.
Lemma nearest_found : forall a s d k, in_range (od_day d + s * k) = true -> nearest a s d k -> found a s d k.
Proof.
  intros a s d k R (A & B & C). split; [exact A|]. split; [exact R|]. split; [apply open_iff; exact B|].
  intros j Hj. apply closed_iff. exact (C j Hj).
Qed.
Lemma open_not_closed : forall a d, is_open a d -> is_closed a d -> False.
Proof. unfold is_open, is_closed. intros. congruence. Qed.

Lemma nearest_unique : forall a s d k k', nearest a s d k -> nearest a s d k' -> k = k'.
Proof.
  intros a s d k k' (A1 & A2 & A3) (B1 & B2 & B3).
  destruct (Z.lt_trichotomy k k') as [L|[E|L]]; [|exact E|]; exfalso.
  - eapply open_not_closed; [exact A2|apply B3; lia].
  - eapply open_not_closed; [exact B2|apply A3; lia].
Qed.

Lemma walk_cases : forall a s d, s = 1 \/ s = -1 -> in_range (od_day d) = true ->
  (exists k, nearest a s d k /\ while_loop (adjust_turn a s) d = Ret (later d (s * k))) \/
  while_loop (adjust_turn a s) d = Panic.
Proof.
  intros a s d Hs Hd. destruct (walk_spec a s d Hs Hd) as [(k & F & E)|(k & _ & E)].
  - left. exists k. split; [exact (found_nearest _ _ _ _ F)|exact E].
  - right. exact E.
Qed.

Definition roomy (a : any_calendar) (d : odt) : Prop :=
  date_min + 2 + span a <= od_day d <= date_max - 2 - span a.

Lemma span_pos : forall a, 0 < span a.
Proof. intros [c|cs]; unfold span; lia. Qed.

Lemma walk_near : forall a s d, s = 1 \/ s = -1 -> odt_ok d -> inner d ->
  date_min + 2 <= od_day d + s * span a <= date_max - 2 ->
  exists k, k < span a /\ nearest a s d k /\ while_loop (adjust_turn a s) d = Ret (later d (s * k)).
Proof.
  intros a s d Hs Hd Hi Hr. destruct (walk_total a s d Hs Hd Hi Hr) as (k & K & F).
  exists k. split; [lia|]. split; [exact (found_nearest _ _ _ _ F)|]. apply walk_found; [exact Hs|apply Hd|exact F].
Qed.

(** ** Months *)
Lemma in_month_date : forall y m n, 1 <= m <= 12 -> (in_month y m n <-> date_year n = y /\ date_month n = m).
Proof.
  intros y m n Hm. unfold in_month. pose proof (month_days_range y m). split.
  - intro H0. assert (V : valid_date y m (n - day_number y m 1 + 1)).
    { split; [exact Hm|]. unfold day_number in *. lia. }
    destruct (fields_of_date _ _ _ V) as (A & B & _).
    replace (day_number y m (n - day_number y m 1 + 1)) with n in * by (unfold day_number; lia). auto.
  - intros [<- <-]. destruct (date_fields n) as [[_ V] E]. unfold day_number in *. lia.
Qed.

Lemma same_month_iff : forall d e, same_month d e <->
  date_year (od_day d) = date_year (od_day e) /\ date_month (od_day d) = date_month (od_day e).
Proof.
  intros d e. split.
  - intros (y & m & Hm & A & B). apply in_month_date in A, B; [|exact Hm..]. destruct A as [-> ->], B as [-> ->]. auto.
  - intros [A B]. destruct (date_month_spec (od_day d)) as [M _].
    exists (date_year (od_day d)), (date_month (od_day d)). split; [exact M|]. split; apply in_month_date; auto.
Qed.

Lemma months_far : forall n k, 0 <= k <= 300 -> date_month n = date_month (n + k) -> date_year n = date_year (n + k).
Proof.
  intros n k Hk E. destruct (Z.eq_dec (date_year n) (date_year (n + k))) as [Q|Q]; [exact Q|exfalso].
  pose proof (date_year_mono n (n + k) ltac:(lia)).
  destruct (date_fields n) as [[A1 A2] A3]. destruct (date_fields (n + k)) as [[B1 B2] B3].
  rewrite <- E in *. set (y := date_year n) in *. set (y' := date_year (n + k)) in *. set (m := date_month n) in *.
  clearbody y y' m. clear E.
  assert (year_start y + year_days y <= year_start y') by (apply year_start_mono; lia).
  unfold day_number in *. pose proof (month_days_range y m).
  assert (365 <= year_days y <= 366) by (unfold year_days; destruct (leapb y); lia).
  assert (month_start y m - 1 <= month_start y' m).
  { unfold month_start. destruct (_ && _); destruct (_ && _); lia. }
  lia.
Qed.

Lemma month_walk : forall d s k, s = 1 \/ s = -1 -> 0 <= k <= 300 ->
  ((date_month (od_day d) =? date_month (od_day (later d (s * k)))) = true <-> same_month d (later d (s * k))).
Proof.
  intros d s k Hs Hk. rewrite Z.eqb_eq, same_month_iff. cbn [later od_day]. split; [|tauto].
  intro E. split; [|exact E]. destruct Hs as [->| ->].
  - rewrite Z.mul_1_l in *. apply months_far; [exact Hk|exact E].
  - replace (-1 * k) with (- k) in * by lia. symmetry. 
    pose proof (months_far (od_day d + - k) k Hk) as G.
    replace (od_day d + - k + k) with (od_day d) in G by lia. apply G. congruence.
Qed.

Lemma same_month_between : forall d j k, (0 <= j <= k \/ k <= j <= 0) -> same_month d (later d k) -> same_month d (later d j).
Proof.
  intros d j k H (y & m & M & A & B). exists y, m. unfold in_month in *. cbn [later od_day] in *.
  repeat split; try tauto; lia.
Qed.

Lemma inner_roomy : forall a d, roomy a d -> inner d.
Proof. intros a d H. pose proof (span_pos a). unfold roomy, inner in *. lia. Qed.

(** ** Modified conventions *)
Lemma modified_walk : forall a s d, s = 1 \/ s = -1 -> odt_ok d -> roomy a d -> span a <= 300 ->
  exists kf kp, nearest a s d kf /\ nearest a (- s) d kp /\ kf < span a /\ kp < span a /\
    (let! r := while_loop (adjust_turn a s) d in
     if negb (date_month (od_day d) =? date_month (od_day r)) then while_loop (adjust_turn a (- s)) d else Ret r)
    = Ret (if date_month (od_day d) =? date_month (od_day (later d (s * kf))) then later d (s * kf) else later d (- s * kp)).
Proof.
  intros a s d Hs Hd Hr Hsp. pose proof (inner_roomy _ _ Hr) as Hi. pose proof (span_pos a) as SP. unfold roomy in Hr.
  assert (Hs' : - s = 1 \/ - s = -1) by lia.
  destruct (walk_near a s d Hs Hd Hi ltac:(destruct Hs as [->| ->]; lia)) as (kf & F1 & F2 & F3).
  destruct (walk_near a (- s) d Hs' Hd Hi ltac:(destruct Hs as [->| ->]; lia)) as (kp & P1 & P2 & P3).
  exists kf, kp. split; [exact F2|]. split; [exact P2|]. split; [exact F1|]. split; [exact P1|].
  rewrite F3. cbn [obind]. destruct (_ =? _); cbn [negb]; [reflexivity|exact P3].
Qed.

(** What a modified convention returns: the nearest business day in its own
    direction if that lies in the month, else the nearest in the other. *)
Definition modified (a : any_calendar) (s : Z) (d r : odt) : Prop :=
  exists kf kp, nearest a s d kf /\ nearest a (- s) d kp /\
    ((same_month d (later d (s * kf)) /\ r = later d (s * kf)) \/
     (~ same_month d (later d (s * kf)) /\ r = later d (- s * kp))).

Lemma modified_result : forall a s d, s = 1 \/ s = -1 -> odt_ok d -> roomy a d -> span a <= 300 ->
  exists r, (let! r := while_loop (adjust_turn a s) d in
     if negb (date_month (od_day d) =? date_month (od_day r)) then while_loop (adjust_turn a (- s)) d else Ret r) = Ret r /\
    modified a s d r.
Proof.
  intros a s d Hs Hd Hr Hsp. destruct (modified_walk a s d Hs Hd Hr Hsp) as (kf & kp & F & P & F1 & P1 & E).
  rewrite E. eexists. split; [reflexivity|]. exists kf, kp. split; [exact F|]. split; [exact P|].
  pose proof (month_walk d s kf Hs ltac:(destruct F; lia)) as M.
  destruct (_ =? _); [left|right]; (split; [|reflexivity]); [tauto|]. intro Q. apply M in Q. discriminate.
Qed.

Lemma modified_open : forall a s d r, modified a s d r -> is_open a r.
Proof. intros a s d r (kf & kp & F & P & [[_ ->]|[_ ->]]); [apply F|apply P]. Qed.

Lemma modified_in_month : forall a s d r, s = 1 \/ s = -1 -> modified a s d r ->
  (exists j, same_month d (later d j) /\ is_open a (later d j)) -> same_month d r.
Proof.
  intros a s d r Hs (kf & kp & F & P & [[M ->]|[M ->]]) (j & J1 & J2); [exact M|].
  assert (C : 0 <= s * j \/ 0 <= - s * j) by lia. destruct C as [C|C].
  - exfalso. apply M. apply (same_month_between d (s * kf) j); [|exact J1].
    destruct F as (F1 & F2 & F3).
    assert (kf <= s * j).
    { destruct (Z_lt_ge_dec (s * j) kf) as [L|G]; [|lia]. exfalso.
      apply (open_not_closed a (later d j)); [exact J2|]. specialize (F3 (s * j) ltac:(lia)).
      replace (s * (s * j)) with j in F3 by (destruct Hs as [->| ->]; lia). exact F3. }
    destruct Hs as [->| ->]; lia.
  - apply (same_month_between d (- s * kp) j); [|exact J1].
    destruct P as (P1 & P2 & P3).
    assert (kp <= - s * j).
    { destruct (Z_lt_ge_dec (- s * j) kp) as [L|G]; [|lia]. exfalso.
      apply (open_not_closed a (later d j)); [exact J2|]. specialize (P3 (- s * j) ltac:(lia)).
      replace (- s * (- s * j)) with j in P3 by (destruct Hs as [->| ->]; lia). exact P3. }
    destruct Hs as [->| ->]; lia.
Qed.

(** ** Order *)
Lemma nearest_mono : forall a s d j k k', s = 1 \/ s = -1 -> 0 <= j -> nearest a s d k -> nearest a s (later d (s * j)) k' -> k <= j + k'.
Proof.
  intros a s d j k k' Hs Hj (A1 & A2 & A3) (B1 & B2 & B3).
  destruct (Z_lt_ge_dec (j + k') k) as [L|G]; [|lia]. exfalso.
  specialize (A3 (j + k') ltac:(lia)). rewrite later_later in B2.
  replace (s * j + s * k') with (s * (j + k')) in B2 by ring. exact (open_not_closed _ _ B2 A3).
Qed.
(** ... seen from the other side: the walk back from a later day does not pass an earlier result. *)
Lemma nearest_back : forall a s d j k k', s = 1 \/ s = -1 -> 0 <= k <= j -> nearest a s d k -> nearest a (- s) (later d (s * j)) k' ->
  k' <= j - k.
Proof.
  intros a s d j k k' Hs Hj (A1 & A2 & A3) (B1 & B2 & B3).
  destruct (Z_lt_ge_dec (j - k) k') as [L|G]; [|lia]. exfalso.
  specialize (B3 (j - k) ltac:(lia)). rewrite later_later in B3.
  replace (s * j + - s * (j - k)) with (s * k) in B3 by ring. exact (open_not_closed _ _ A2 B3).
Qed.
Lemma nearest_from : forall a s d j k, s = 1 \/ s = -1 -> 0 <= j <= k -> nearest a s d k -> nearest a s (later d (s * j)) (k - j).
Proof.
  intros a s d j k Hs Hj (A1 & A2 & A3). split; [lia|]. split.
  - rewrite later_later. replace (s * j + s * (k - j)) with (s * k) by ring. exact A2.
  - intros i Hi. rewrite later_later. replace (s * j + s * i) with (s * (j + i)) by ring. apply A3. lia.
Qed.

Lemma same_month_trans : forall d e f, same_month d e -> (same_month e f <-> same_month d f).
Proof. intros d e f. rewrite !same_month_iff. intros [-> ->]. tauto. Qed.
Lemma same_month_sym : forall d e, same_month d e -> same_month e d.
Proof. intros d e. rewrite !same_month_iff. intros [-> ->]. tauto. Qed.
Lemma same_month_refl : forall d, same_month d d.
Proof. intro d. rewrite same_month_iff. tauto. Qed.

Lemma modified_mono_fwd : forall a d j r r', 0 <= j -> modified a 1 d r -> modified a 1 (later d j) r' ->
  od_day r <= od_day r'.
Proof.
  intros a d j r r' Hj (kf & kp & F & P & C) (kf' & kp' & F' & P' & C').
  change (- (1)) with (-1) in *. rewrite !Z.mul_1_l in *.
  pose proof (nearest_mono a 1 d j kf kf' (or_introl eq_refl) Hj F) as N. rewrite Z.mul_1_l in N. specialize (N F').
  destruct F as (F1 & F2 & F3). destruct P as (P1 & P2 & P3). destruct F' as (F1' & F2' & F3'). destruct P' as (P1' & P2' & P3').
  destruct C as [[M ->]|[M ->]], C' as [[M' ->]|[M' ->]]; cbn [later od_day].
  - lia.
  - (* the later date is moved back: the earlier result lies before it *)
    assert (kf <= j - kp'); [|lia].
    assert (kf <= j).
    { destruct (Z_lt_ge_dec j kf) as [L|G]; [|lia]. exfalso. apply M'.
      assert (E : j + kf' = kf).
      { pose proof (nearest_from a 1 d j kf (or_introl eq_refl) ltac:(lia) (conj F1 (conj F2 F3))) as Q.
        rewrite Z.mul_1_l in Q. pose proof (nearest_unique _ _ _ _ _ Q (conj F1' (conj F2' F3'))). lia. }
      rewrite later_later, E. apply (same_month_trans d); [|exact M].
      apply (same_month_between d j kf); [lia|exact M]. }
    pose proof (nearest_back a 1 d j kf kp' (or_introl eq_refl) ltac:(lia) (conj F1 (conj F2 F3))) as Q.
    rewrite Z.mul_1_l in Q. specialize (Q (conj P1' (conj P2' P3'))). lia.
  - lia.
  - assert (kp' <= j + kp); [|lia].
    destruct (Z_lt_ge_dec (j + kp) kp') as [L|G]; [|lia]. exfalso.
    specialize (P3' (j + kp) ltac:(lia)). rewrite later_later in P3'.
    replace (j + -1 * (j + kp)) with (- kp) in P3' by lia. replace (-1 * kp) with (- kp) in P2 by lia.
    exact (open_not_closed _ _ P2 P3').
Qed.

Lemma modified_mono_bwd : forall a d j r r', 0 <= j -> modified a (-1) d r -> modified a (-1) (later d (- j)) r' ->
  od_day r' <= od_day r.
Proof.
  intros a d j r r' Hj (kf & kp & F & P & C) (kf' & kp' & F' & P' & C').
  change (- (-1)) with 1 in *. rewrite !Z.mul_1_l in *.
  replace (- j) with (-1 * j) in F' by lia.
  pose proof (nearest_mono a (-1) d j kf kf' (or_intror eq_refl) Hj F F') as N.
  replace (-1 * j) with (- j) in F' by lia.
  destruct F as (F1 & F2 & F3). destruct P as (P1 & P2 & P3). destruct F' as (F1' & F2' & F3'). destruct P' as (P1' & P2' & P3').
  destruct C as [[M ->]|[M ->]], C' as [[M' ->]|[M' ->]]; cbn [later od_day].
  - lia.
  - assert (kf <= j).
    { destruct (Z_lt_ge_dec j kf) as [L|G]; [|lia]. exfalso. apply M'.
      assert (E : j + kf' = kf).
      { pose proof (nearest_from a (-1) d j kf (or_intror eq_refl) ltac:(lia) (conj F1 (conj F2 F3))) as Q.
        replace (-1 * j) with (- j) in Q by lia. pose proof (nearest_unique _ _ _ _ _ Q (conj F1' (conj F2' F3'))). lia. }
      rewrite later_later. replace (- j + -1 * kf') with (-1 * kf) by lia.
      apply (same_month_trans d); [|exact M].
      apply (same_month_between d (- j) (-1 * kf)); [lia|exact M]. }
    pose proof (nearest_back a (-1) d j kf kp' (or_intror eq_refl) ltac:(lia) (conj F1 (conj F2 F3))) as Q.
    replace (-1 * j) with (- j) in Q by lia. specialize (Q (conj P1' (conj P2' P3'))). lia.
  - lia.
  - assert (kp' <= j + kp); [|lia].
    destruct (Z_lt_ge_dec (j + kp) kp') as [L|G]; [|lia]. exfalso.
    specialize (P3' (j + kp) ltac:(lia)). rewrite later_later in P3'.
    replace (- j + 1 * (j + kp)) with (1 * kp) in P3' by lia. 
    exact (open_not_closed _ _ P2 P3').
Qed.

(** ** A business day stays *)
Lemma open_walk : forall a s d, s = 1 \/ s = -1 -> in_range (od_day d) = true -> is_open a d ->
  while_loop (adjust_turn a s) d = Ret d.
Proof.
  intros a s d Hs Hd Ho. rewrite (walk_found a s d Hs Hd 0).
  - rewrite Z.mul_0_r, later_0. reflexivity.
  - split; [lia|]. rewrite Z.mul_0_r, Z.add_0_r, later_0. split; [exact Hd|]. split; [apply open_iff; exact Ho|]. intros; lia.
Qed.

Lemma adjust_open : forall a d cv, in_range (od_day d) = true -> is_open a d -> cv <> DummyConvention ->
  adjust a d cv = Ret (ROk d).
Proof.
  intros a d cv Hd Ho Hc.
  pose proof (open_walk a 1 d (or_introl eq_refl) Hd Ho) as F.
  pose proof (open_walk a (-1) d (or_intror eq_refl) Hd Ho) as P.
  destruct cv; unfold adjust, adjust_following, adjust_preceding, adjust_modified_following, adjust_modified_preceding;
    rewrite ?F, ?P; cbn [obind]; rewrite ?Z.eqb_refl; cbn [negb obind]; try reflexivity. congruence.
Qed.

Lemma walk_in_range : forall a s d r, s = 1 \/ s = -1 -> in_range (od_day d) = true ->
  while_loop (adjust_turn a s) d = Ret r -> in_range (od_day r) = true /\ is_open a r.
Proof.
  intros a s d r Hs Hd E. destruct (walk_ret a s d Hs Hd r E) as (k & (K1 & K2 & K3 & K4) & ->).
  split; [exact K2|]. apply open_iff. exact K3.
Qed.

Lemma adjust_result : forall a d cv r, in_range (od_day d) = true -> cv <> Unadjusted ->
  adjust a d cv = Ret (ROk r) -> in_range (od_day r) = true /\ is_open a r.
Proof.
  intros a d cv r Hd Hc E.
  assert (W : forall s, s = 1 \/ s = -1 -> forall x, while_loop (adjust_turn a s) d = Ret x -> in_range (od_day x) = true /\ is_open a x)
    by (intros s Hs x; apply walk_in_range; assumption).
  pose proof (W 1 (or_introl eq_refl)) as W1. pose proof (W (-1) (or_intror eq_refl)) as W2.
  destruct cv; unfold adjust, adjust_modified_following, adjust_modified_preceding, adjust_following, adjust_preceding in E.
  - congruence.
  - destruct (while_loop (adjust_turn a 1) d) as [x| |]; cbn [obind] in E; [|discriminate..]. injection E as <-. apply W1. reflexivity.
  - destruct (while_loop (adjust_turn a 1) d) as [x| |]; cbn [obind] in E; [|discriminate..].
    destruct (negb _).
    + destruct (while_loop (adjust_turn a (-1)) d) as [z| |]; cbn [obind] in E; [|discriminate..]. injection E as <-. apply W2. reflexivity.
    + cbn [obind] in E. injection E as <-. apply W1. reflexivity.
  - destruct (while_loop (adjust_turn a (-1)) d) as [x| |]; cbn [obind] in E; [|discriminate..]. injection E as <-. apply W2. reflexivity.
  - destruct (while_loop (adjust_turn a (-1)) d) as [x| |]; cbn [obind] in E; [|discriminate..].
    destruct (negb _).
    + destruct (while_loop (adjust_turn a 1) d) as [z| |]; cbn [obind] in E; [|discriminate..]. injection E as <-. apply W1. reflexivity.
    + cbn [obind] in E. injection E as <-. apply W2. reflexivity.
  - discriminate.
Qed.

(** ** Points in time *)
Lemma cal_holiday_instant : forall c d d', c <> NullCalendar -> instant d = instant d' ->
  cal_is_holiday c d = cal_is_holiday c d' /\ cal_is_weekend c d = cal_is_weekend c d'.
Proof.
  intros [|t l r|t l r] d d' Hc E; [congruence| |]; unfold cal_is_holiday, cal_is_weekend, to_offset, cal_offset;
    rewrite E; split; reflexivity.
Qed.

Lemma any_ext : forall A (f g : A -> outcome bool) l, (forall x, In x l -> f x = g x) -> any_outcome f l = any_outcome g l.
Proof.
  intros A f g l H. induction l as [|x l IH]; [reflexivity|]. cbn [any_outcome].
  rewrite H by (left; reflexivity). destruct (g x) as [[]| |]; cbn [obind]; try reflexivity.
  apply IH. intros z Hz. apply H. right. exact Hz.
Qed.

Definition no_null (a : any_calendar) : Prop :=
  match a with One c => c <> NullCalendar | Joint cs => ~ In NullCalendar cs end.

Lemma holiday_instant : forall a d d', no_null a -> instant d = instant d' ->
  is_holiday a d = is_holiday a d' /\ is_weekend a d = is_weekend a d'.
Proof.
  intros [c|cs] d d' Hn E; cbn [is_holiday is_weekend no_null] in *; [apply cal_holiday_instant; assumption|].
  split; apply any_ext; intros c Hc; apply cal_holiday_instant; try exact E; intros ->; contradiction.
Qed.

Lemma instant_later : forall d k, instant (later d k) = instant d + k * day_ns.
Proof. intros [n s o] k. unfold later, instant. cbn [od_day od_ns od_off]. ring. Qed.

(** ** Joint calendars *)
Lemma joint_closed : forall cs d, odt_ok d -> inner d ->
  joint_is_holiday cs d = Ret (existsb (fun c => holiday_on c (cal_day c d)) cs).
Proof. intros cs d Hd Hi. exact (is_holiday_val (Joint cs) d Hd Hi). Qed.

Lemma all_any : forall A (f : A -> outcome bool) l,
  all_outcome (fun x => let! h := f x in Ret (negb h)) l = let! h := any_outcome f l in Ret (negb h).
Proof.
  intros A f l. induction l as [|x l IH]; [reflexivity|]. cbn [all_outcome any_outcome].
  destruct (f x) as [[]| |]; cbn [obind negb]; try reflexivity. exact IH.
Qed.
