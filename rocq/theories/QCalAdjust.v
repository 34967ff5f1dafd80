(** QCalAdjust.v -- the adjustment loops. *)
From Coq Require Import ZArith List Bool Lia.
From Verif Require Import Base CivilSpec QDateModel QDateProofs QCalTables QCalModel QCalProofs QCalScan QCalSpec.
Import ListNotations.
Open Scope Z_scope.

Lemma later_0 : forall d, later d 0 = d.
Proof. intros [n s o]. unfold later. cbn. rewrite Z.add_0_r. reflexivity. Qed.
Lemma later_later : forall d j k, later (later d j) k = later d (j + k).
Proof. intros. unfold later. cbn. f_equal. lia. Qed.

Lemma cal_holiday_no_diverge : forall c x, cal_is_holiday c x <> Diverge.
Proof.
  intros [|t l r|t l r] x; unfold cal_is_holiday; [discriminate| |]; unfold to_offset; cbv zeta;
    match goal with |- context [if ?b then _ else _] => destruct b end; cbn [obind]; discriminate.
Qed.

(** ** One loop *)
Section Walk.
Variables (a : any_calendar) (s : Z) (d : odt).
Hypothesis s_ok : s = 1 \/ s = -1.
Hypothesis d_ok : in_range (od_day d) = true.

Definition found (k : Z) : Prop :=
  0 <= k /\ in_range (od_day d + s * k) = true /\ is_holiday a (later d (s * k)) = Ret false /\
  forall j, 0 <= j < k -> is_holiday a (later d (s * j)) = Ret true.

(** The loop panics only when it runs into the end of the calendar. *)
Definition stuck (k : Z) : Prop :=
  0 <= k /\ (forall j, 0 <= j < k -> is_holiday a (later d (s * j)) = Ret true) /\
  (is_holiday a (later d (s * k)) = Panic \/
   (is_holiday a (later d (s * k)) = Ret true /\ in_range (od_day d + s * (k + 1)) = false)).

Lemma holiday_no_diverge : forall x, is_holiday a x <> Diverge.
Proof.
  intro x. destruct a as [c|cs]; cbn [is_holiday]; [apply cal_holiday_no_diverge|].
  unfold joint_is_holiday. induction cs as [|c cs IH]; cbn [any_outcome]; [discriminate|].
  pose proof (cal_holiday_no_diverge c x). destruct (cal_is_holiday c x) as [[]| |]; cbn [obind]; congruence.
Qed.

Lemma walk_spec :
  (exists k, found k /\ while_loop (adjust_turn a s) d = Ret (later d (s * k))) \/
  (exists k, stuck k /\ while_loop (adjust_turn a s) d = Panic).
Proof.
  set (I := fun x => exists k, 0 <= k /\ x = later d (s * k) /\ in_range (od_day d + s * k) = true /\
    forall j, 0 <= j < k -> is_holiday a (later d (s * j)) = Ret true).
  set (mu := fun x => if s =? 1 then date_max - od_day x else od_day x - date_min).
  set (P := fun o => (exists k, found k /\ o = Ret (later d (s * k))) \/ (exists k, stuck k /\ o = @Panic odt)).
  apply (while_loop_ends (adjust_turn a s) I mu P).
  - intros x (k & Hk & -> & R & H). unfold adjust_turn.
    pose proof (holiday_no_diverge (later d (s * k))) as ND.
    destruct (is_holiday a (later d (s * k))) as [[]| |] eqn:E; [| | |congruence]; cbn [turn_bind].
    + unfold add_days, date_add. cbn [later od_day od_ns od_off].
      replace (od_day d + s * k + s) with (od_day d + s * (k + 1)) by lia.
      destruct (in_range (od_day d + s * (k + 1))) eqn:R'; cbn [obind turn_bind].
      * split.
        -- exists (k + 1). repeat split; [lia|exact R'|].
           intros j Hj. destruct (Z.eq_dec j k) as [->|]; [exact E|apply H; lia].
        -- unfold mu. unfold in_range in R, R'. rewrite andb_true_iff, !Z.leb_le in R, R'.
           destruct s_ok as [->| ->]; cbn [Z.eqb Pos.eqb later od_day]; lia.
      * right. exists k. split; [|reflexivity]. split; [exact Hk|]. split; [exact H|]. right. auto.
    + left. exists k. split; [|reflexivity]. repeat split; assumption.
    + right. exists k. split; [|reflexivity]. split; [exact Hk|]. split; [exact H|]. left. exact E.
  - exists 0. rewrite Z.mul_0_r, Z.add_0_r, later_0. repeat split; [lia|exact d_ok|]. intros; lia.
  - unfold mu. unfold in_range, date_min, date_max in *. rewrite andb_true_iff, !Z.leb_le in d_ok.
    destruct s_ok as [->| ->]; cbn [Z.eqb Pos.eqb]; lia.
Qed.

Lemma found_unique : forall k k', found k -> found k' -> k = k'.
Proof.
  intros k k' (A1 & A2 & A3 & A4) (B1 & B2 & B3 & B4).
  destruct (Z.lt_trichotomy k k') as [L|[E|L]]; [|exact E|].
  - rewrite (B4 k ltac:(lia)) in A3. discriminate.
  - rewrite (A4 k' ltac:(lia)) in B3. discriminate.
Qed.

Lemma walk_found : forall k, found k -> while_loop (adjust_turn a s) d = Ret (later d (s * k)).
Proof.
  intros k F. destruct walk_spec as [(k' & F' & E)|(k' & (K & H & X) & E)].
  - rewrite (found_unique k k' F F'). exact E.
  - destruct F as (F1 & F2 & F3 & F4).
    assert (k' < k).
    { destruct (Z_lt_ge_dec k' k) as [L|G]; [exact L|]. destruct (Z.eq_dec k' k) as [->|].
      - destruct X as [X|[X _]]; rewrite X in F3; discriminate.
      - rewrite (H k ltac:(lia)) in F3. discriminate. }
    destruct X as [X|[X R]]; [rewrite (F4 k' ltac:(lia)) in X; discriminate|].
    exfalso. unfold in_range in *. rewrite andb_true_iff, !Z.leb_le in *. rewrite andb_false_iff, !Z.leb_gt in R.
    destruct s_ok as [->| ->]; lia.
Qed.

Lemma walk_ret : forall r, while_loop (adjust_turn a s) d = Ret r -> exists k, found k /\ r = later d (s * k).
Proof.
  intros r E. destruct walk_spec as [(k' & F' & E')|(k' & _ & E')]; rewrite E' in E; [|discriminate].
  injection E as <-. exists k'. auto.
Qed.
End Walk.

(** ** What [is_holiday] answers away from the ends of the calendar *)
Definition cal_day (c : calendar) (d : odt) : Z := local_day (cal_offset c d) d.
Definition closed (a : any_calendar) (d : odt) : bool :=
  match a with
  | One c => holiday_on c (cal_day c d)
  | Joint cs => existsb (fun c => holiday_on c (cal_day c d)) cs
  end.

Lemma local_day_near : forall off d, 0 <= od_ns d < day_ns -> -93599 <= od_off d <= 93599 -> -18000 <= off <= 32400 ->
  od_day d - 2 <= local_day off d <= od_day d + 2.
Proof.
  intros off [n s o] H1 H2 H3. unfold local_day, instant, day_ns in *. cbn [od_day od_ns od_off] in *.
  Z.to_euclidean_division_equations; lia.
Qed.

Lemma cal_day_near : forall c d, odt_ok d -> od_day d - 2 <= cal_day c d <= od_day d + 2.
Proof.
  intros c d (A & B & C). unfold cal_day. destruct c; cbn [cal_offset].
  - rewrite local_day_self by exact B. lia.
  - apply local_day_near; [exact B|exact C|lia].
  - apply local_day_near; [exact B|exact C|lia].
Qed.

(** far enough from the ends for every conversion to succeed *)
Definition inner (d : odt) : Prop := date_min + 2 <= od_day d <= date_max - 2.

Lemma cal_is_holiday_val : forall c d, odt_ok d -> inner d -> cal_is_holiday c d = Ret (holiday_on c (cal_day c d)).
Proof.
  intros c d Hd Hi. pose proof (cal_day_near c d Hd) as N. unfold inner in Hi.
  assert (R : in_range (cal_day c d) = true) by (unfold in_range; rewrite andb_true_iff, !Z.leb_le; lia).
  unfold cal_is_holiday. destruct c as [|t l r|t l r].
  - unfold cal_day. cbn [cal_offset]. rewrite local_day_self; [reflexivity|apply Hd].
  - destruct (to_offset_ok _ d R) as (d' & E & _ & _ & D & _). rewrite E. cbn [obind]. rewrite D. reflexivity.
  - destruct (to_offset_ok _ d R) as (d' & E & _ & _ & D & _). rewrite E. cbn [obind]. rewrite D. reflexivity.
Qed.

Lemma is_holiday_val : forall a d, odt_ok d -> inner d -> is_holiday a d = Ret (closed a d).
Proof.
  intros [c|cs] d Hd Hi; cbn [is_holiday closed]; [apply cal_is_holiday_val; assumption|].
  unfold joint_is_holiday. induction cs as [|c cs IH]; [reflexivity|]. cbn [any_outcome existsb].
  rewrite cal_is_holiday_val by assumption. cbn [obind]. destruct (holiday_on c (cal_day c d)); [reflexivity|exact IH].
Qed.

Lemma cal_day_later : forall c d k, cal_day c (later d k) = cal_day c d + k.
Proof.
  intros c [n s o] k. unfold cal_day, later. cbn [od_day od_ns od_off].
  replace (cal_offset c {| od_day := n + k; od_ns := s; od_off := o |}) with (cal_offset c {| od_day := n; od_ns := s; od_off := o |})
    by (destruct c; reflexivity).
  apply local_day_add.
Qed.

Lemma later_ok : forall d k, odt_ok d -> in_range (od_day d + k) = true -> odt_ok (later d k).
Proof. intros d k (A & B & C) H. repeat split; cbn; try assumption; lia. Qed.

(** ** A business day is near *)
Lemma holiday_on_closed : forall c n, holiday_on c n = true -> on c n = true \/ In n (added c).
Proof.
  intros c n. unfold holiday_on, on, base_closed. destruct (weekend (unpack n)); [left; reflexivity|].
  destruct (is_removed_holiday c n); [discriminate|].
  destruct (is_base_holiday c (unpack n)); [left; reflexivity|].
  destruct (is_added_holiday c n) eqn:E; [|discriminate]. intros _. right.
  destruct c; cbn in *; [discriminate| |]; apply existsb_exists in E; destruct E as (x & X1 & X2);
    apply Z.eqb_eq in X2; subst x; exact X1.
Qed.

Lemma filter_shorter : forall (f : Z -> bool) l, (length (filter f l) <= length l)%nat.
Proof. intros f l. induction l as [|x l IH]; cbn; [lia|]. destruct (f x); cbn; lia. Qed.

(** Excluding finitely many days leaves an open one. *)
Lemma pigeon : forall (open : Z -> Prop) K, 0 < K ->
  (forall m, exists x, m <= x < m + K /\ open x) ->
  forall n ex m, (length ex <= n)%nat ->
  exists x, m <= x < m + K * (Z.of_nat (length ex) + 1) /\ open x /\ ~ In x ex.
Proof.
  intros open K HK H. induction n as [|n IH]; intros ex m L.
  - destruct ex; [|cbn in L; lia]. destruct (H m) as (x & X1 & X2). exists x. cbn. split; [lia|auto].
  - destruct (H m) as (x & X1 & X2).
    destruct (in_dec Z.eq_dec x ex) as [Hin|Hout].
    2: { exists x. split; [|auto]. nia. }
    set (keep := fun z => negb ((m <=? z) && (z <? m + K))).
    set (ex' := filter keep ex).
    assert (Hl : (length ex' < length ex)%nat).
    { assert (G : forall l, In x l -> (length (filter keep l) < length l)%nat).
      { induction l as [|z l IHl]; intros Hl; [destruct Hl|].
        pose proof (filter_shorter keep l).
        cbn [filter]. destruct Hl as [->|Hl].
        - unfold keep at 1. replace (m <=? x) with true by (symmetry; apply Z.leb_le; lia).
          replace (x <? m + K) with true by (symmetry; apply Z.ltb_lt; lia). cbn [negb andb length]. lia.
        - specialize (IHl Hl). destruct (keep z); cbn [length]; lia. }
      apply G. exact Hin. }
    destruct (IH ex' (m + K) ltac:(lia)) as (z & Z1 & Z2 & Z3).
    exists z. split; [nia|]. split; [exact Z2|].
    intro F. apply Z3. apply filter_In. split; [exact F|]. unfold keep.
    replace (z <? m + K) with false by (symmetry; apply Z.ltb_ge; lia). rewrite andb_false_r. reflexivity.
Qed.

Lemma on_union : forall d c s t, s = cal_day (new_south_korea KrKrx) d - cal_day (new_united_states UsNyse) d ->
  t = cal_day NullCalendar d - cal_day (new_united_states UsNyse) d ->
  forall k, on c (cal_day c d + k) = true -> union_closed s t (cal_day (new_united_states UsNyse) d + k) = true.
Proof.
  intros d c s t -> -> k H. apply wider_closed in H. unfold union_closed, us_closed, kr_closed, we_closed.
  destruct c as [|[] l r|[] l r]; unfold wider in H; cbn [kind new_south_korea new_united_states] in H;
    unfold cal_day in *; cbn [cal_offset new_south_korea new_united_states] in *.
  - replace (local_day (-18000) d + k + (local_day (od_off d) d - local_day (-18000) d)) with (local_day (od_off d) d + k) by lia.
    unfold on, base_closed in H. destruct (weekend (unpack (local_day (od_off d) d + k))); [|discriminate].
    rewrite orb_true_r. reflexivity.
  - replace (local_day (-18000) d + k + (local_day 32400 d - local_day (-18000) d)) with (local_day 32400 d + k) by lia.
    unfold new_south_korea. rewrite H, orb_true_r. reflexivity.
  - replace (local_day (-18000) d + k + (local_day 32400 d - local_day (-18000) d)) with (local_day 32400 d + k) by lia.
    unfold new_south_korea in *. rewrite H, orb_true_r. reflexivity.
  - unfold new_united_states in *. rewrite H. reflexivity.
  - unfold new_united_states in *. rewrite H, !orb_true_r. reflexivity.
  - unfold new_united_states in *. rewrite H, !orb_true_r. reflexivity.
  - unfold new_united_states in *. rewrite H. reflexivity.
  - unfold new_united_states in *. rewrite H, !orb_true_r. reflexivity.
Qed.

Lemma shifts : forall d, 0 <= od_ns d < day_ns -> -93599 <= od_off d <= 93599 ->
  0 <= local_day 32400 d - local_day (-18000) d <= 1 /\ -1 <= local_day (od_off d) d - local_day (-18000) d <= 2.
Proof.
  intros [n s o] H1 H2. unfold local_day, instant, day_ns in *. cbn [od_day od_ns od_off] in *.
  Z.to_euclidean_division_equations; lia.
Qed.

(** In any [span a] consecutive days there is a business day. *)
Theorem open_near : forall a d m, odt_ok d -> exists k, m <= k < m + span a /\ closed a (later d k) = false.
Proof.
  intros a d m Hd. destruct a as [c|cs].
  - cbn [span all_added closed].
    destruct (pigeon (fun x => on c x = false) 7 ltac:(lia) (base_gap c) _ (added c) (cal_day c d + m) (le_n _))
      as (x & X1 & X2 & X3).
    exists (x - cal_day c d). split; [lia|]. rewrite cal_day_later.
    replace (cal_day c d + (x - cal_day c d)) with x by lia.
    destruct (holiday_on c x) eqn:E; [|reflexivity]. apply holiday_on_closed in E. destruct E; [congruence|contradiction].
  - cbn [span all_added closed].
    set (us := cal_day (new_united_states UsNyse) d).
    set (s := cal_day (new_south_korea KrKrx) d - us). set (t := cal_day NullCalendar d - us).
    destruct Hd as (_ & H1 & H2). pose proof (shifts d H1 H2) as [S1 S2].
    set (ex := flat_map (fun c => map (fun x => x - cal_day c d + us) (added c)) cs).
    assert (Lx : length ex = length (flat_map added cs)).
    { unfold ex. clear. induction cs as [|c cs IH]; [reflexivity|]. cbn [flat_map]. rewrite !app_length, map_length, IH. reflexivity. }
    destruct (pigeon (fun x => union_closed s t x = false) 14 ltac:(lia) (fun m => union_gap s t m S1 S2) _ ex (us + m) (le_n _))
      as (x & X1 & X2 & X3).
    exists (x - us). split; [rewrite Lx in X1; lia|].
    destruct (existsb _ cs) eqn:E; [|reflexivity]. exfalso. apply existsb_exists in E. destruct E as (c & C1 & C2).
    rewrite cal_day_later in C2. apply holiday_on_closed in C2. destruct C2 as [C2|C2].
    + apply (on_union d c s t eq_refl eq_refl) in C2. fold us in C2.
      replace (us + (x - us)) with x in C2 by lia. congruence.
    + apply X3. unfold ex. apply in_flat_map. exists c. split; [exact C1|].
      apply in_map_iff. exists (cal_day c d + (x - us)). split; [lia|exact C2].
Qed.

(** ** Adjustment *)
Lemma open_iff : forall a d, is_open a d <-> is_holiday a d = Ret false.
Proof.
  intros a d. unfold is_open, is_business_day. destruct (is_holiday a d) as [[]| |]; cbn; split; intro H; congruence.
Qed.
Lemma closed_iff : forall a d, is_closed a d <-> is_holiday a d = Ret true.
Proof.
  intros a d. unfold is_closed, is_business_day. destruct (is_holiday a d) as [[]| |]; cbn; split; intro H; congruence.
Qed.

Lemma inner_later : forall d k j, date_min + 2 <= od_day d <= date_max - 2 -> date_min + 2 <= od_day d + k <= date_max - 2 ->
  (0 <= j <= k \/ k <= j <= 0) -> inner (later d j) /\ in_range (od_day d + j) = true.
Proof.
  intros d k j A B C. unfold inner, later, in_range. cbn [od_day]. rewrite andb_true_iff, !Z.leb_le. lia.
Qed.

(** least witness *)
Lemma least : forall (f : Z -> bool) n, 0 <= n -> f n = false ->
  exists k, 0 <= k <= n /\ f k = false /\ forall j, 0 <= j < k -> f j = true.
Proof.
  intros f n Hn. revert f. pattern n. apply natlike_ind; [| |exact Hn].
  - intros f E. exists 0. repeat split; try lia. exact E.
  - intros m Hm IH f E. destruct (f 0) eqn:E0.
    + destruct (IH (fun j => f (j + 1))) as (k & K1 & K2 & K3); [replace (m + 1) with (Z.succ m) by lia; exact E|].
      exists (k + 1). split; [lia|]. split; [exact K2|]. intros j Hj. destruct (Z.eq_dec j 0) as [->|]; [exact E0|].
      replace j with (j - 1 + 1) by lia. apply K3. lia.
    + exists 0. split; [lia|]. split; [exact E0|]. intros; lia.
Qed.

Lemma walk_total : forall a s d, s = 1 \/ s = -1 -> odt_ok d -> inner d ->
  date_min + 2 <= od_day d + s * span a <= date_max - 2 ->
  exists k, 0 <= k < span a /\ found a s d k.
Proof.
  intros a s d Hs Hd Hi Hr.
  assert (exists n, 0 <= n < span a /\ closed a (later d (s * n)) = false) as (n & N1 & N2).
  { destruct Hs as [->| ->].
    - destruct (open_near a d 0 Hd) as (k & K1 & K2). exists k. split; [lia|]. rewrite Z.mul_1_l. exact K2.
    - destruct (open_near a d (1 - span a) Hd) as (k & K1 & K2). exists (- k). split; [lia|].
      replace (-1 * - k) with k by lia. exact K2. }
  destruct (least (fun j => closed a (later d (s * j))) n ltac:(lia) N2) as (k & K1 & K2 & K3).
  exists k. split; [lia|].
  assert (V : forall j, 0 <= j <= k -> in_range (od_day d + s * j) = true /\ is_holiday a (later d (s * j)) = Ret (closed a (later d (s * j)))).
  { intros j Hj. destruct (inner_later d (s * span a) (s * j) Hi Hr) as [A B].
    - destruct Hs as [->| ->]; lia.
    - split; [exact B|]. apply is_holiday_val; [|exact A]. apply later_ok; assumption. }
  unfold found. split; [lia|]. split; [apply V; lia|]. split.
  - rewrite (proj2 (V k ltac:(lia))), K2. reflexivity.
  - intros j Hj. rewrite (proj2 (V j ltac:(lia))), (K3 j Hj). reflexivity.
Qed.
