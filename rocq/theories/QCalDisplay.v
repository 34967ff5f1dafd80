(** QCalDisplay.v -- the holidays printed by [display_holidays]. *)
From Coq Require Import ZArith List Bool Lia Sorted.
From Verif Require Import Base CivilSpec QDateModel QDateProofs QCalTables QCalModel QCalProofs QCalScan QCalSpec QCalAdjust QCalAdjust2.
Import ListNotations.
Open Scope Z_scope.
Local Strategy 1000 [while_loop run_pow].

Definition on_weekend (a : any_calendar) (d : odt) : bool :=
  match a with
  | One c => weekend (unpack (cal_day c d))
  | Joint cs => existsb (fun c => weekend (unpack (cal_day c d))) cs
  end.

Lemma cal_is_weekend_val : forall c d, odt_ok d -> inner d -> cal_is_weekend c d = Ret (weekend (unpack (cal_day c d))).
Proof.
  intros c d Hd Hi. pose proof (cal_day_near c d Hd) as N. unfold inner in Hi.
  assert (R : in_range (cal_day c d) = true) by (unfold in_range; rewrite andb_true_iff, !Z.leb_le; lia).
  unfold cal_is_weekend. destruct c as [|t l r|t l r].
  - unfold cal_day. cbn [cal_offset]. rewrite local_day_self; [reflexivity|apply Hd].
  - destruct (to_offset_ok _ d R) as (d' & E & _ & _ & D & _). rewrite E. cbn [obind]. rewrite D. reflexivity.
  - destruct (to_offset_ok _ d R) as (d' & E & _ & _ & D & _). rewrite E. cbn [obind]. rewrite D. reflexivity.
Qed.

Lemma is_weekend_val : forall a d, odt_ok d -> inner d -> is_weekend a d = Ret (on_weekend a d).
Proof.
  intros [c|cs] d Hd Hi; cbn [is_weekend on_weekend]; [apply cal_is_weekend_val; assumption|].
  induction cs as [|c cs IH]; [reflexivity|]. cbn [any_outcome existsb].
  rewrite cal_is_weekend_val by assumption. cbn [obind]. destruct (weekend _); [reflexivity|exact IH].
Qed.

Section Display.
Variables (a : any_calendar) (from upto : odt) (inc : bool).
Hypothesis from_ok : odt_ok from.
Hypothesis from_in : date_min + 2 <= od_day from.
Hypothesis upto_ok : odt_ok upto.
Hypothesis upto_in : od_day upto <= date_max - 10.

Definition wanted (d : odt) : bool := closed a d && (inc || negb (on_weekend a d)).
Definition printed (k : nat) : list odt := filter wanted (map (fun j => later from (Z.of_nat j)) (seq 0 k)).

Lemma printed_next : forall k, printed (S k) =
  if wanted (later from (Z.of_nat k)) then printed k ++ [later from (Z.of_nat k)] else printed k.
Proof.
  intro k. unfold printed. rewrite seq_S, map_app, filter_app. cbn [Nat.add map filter].
  destruct (wanted _); [reflexivity|apply app_nil_r].
Qed.

Lemma before_upto : forall k, 0 <= k -> instant (later from k) <= instant upto -> od_day from + k <= date_max - 4.
Proof.
  intros k Hk H. destruct from_ok as (_ & A1 & A2). destruct upto_ok as (_ & B1 & B2).
  unfold instant, later, day_ns in *. cbn [od_day od_ns od_off] in *. lia.
Qed.

Lemma display_loop_result : exists k, display_loop a from upto inc = Ret (printed k) /\
  (forall j, (j < k)%nat -> instant (later from (Z.of_nat j)) <= instant upto) /\
  instant upto < instant (later from (Z.of_nat k)).
Proof.
  set (good := fun k => forall j, (j < k)%nat -> instant (later from (Z.of_nat j)) <= instant upto).
  set (I := fun st : odt * list odt => exists k, st = (later from (Z.of_nat k), printed k) /\ good k /\
    in_range (od_day from + Z.of_nat k) = true).
  set (mu := fun st : odt * list odt => date_max - od_day (fst st)).
  set (P := fun o => exists k, o = Ret (printed k) /\ good k /\ instant upto < instant (later from (Z.of_nat k))).
  apply (while_loop_ends (display_turn a upto inc) I mu P).
  - intros st (k & -> & G & R). unfold display_turn.
    destruct (Z.leb_spec (instant (later from (Z.of_nat k))) (instant upto)) as [L|L].
    2: { exists k. auto. }
    pose proof (before_upto (Z.of_nat k) ltac:(lia) L) as B.
    assert (Ok : odt_ok (later from (Z.of_nat k))) by (apply later_ok; assumption).
    assert (In : inner (later from (Z.of_nat k))) by (unfold inner; cbn [later od_day]; lia).
    rewrite is_holiday_val, is_weekend_val by assumption. cbn [turn_bind].
    replace (if closed a (later from (Z.of_nat k)) then if inc then Ret true
       else let! w := Ret (on_weekend a (later from (Z.of_nat k))) in Ret (negb w) else Ret false)
      with (Ret (wanted (later from (Z.of_nat k)))) by (unfold wanted; destruct (closed _ _), inc, (on_weekend _ _); reflexivity).
    cbn [turn_bind]. unfold add_days, date_add. cbn [later od_day od_ns od_off].
    assert (R' : in_range (od_day from + Z.of_nat k + 1) = true).
    { unfold in_range in *. rewrite andb_true_iff, !Z.leb_le in *. lia. }
    rewrite R'. cbn [obind turn_bind]. split.
    + exists (S k). rewrite printed_next. split; [|split].
      * f_equal. unfold later. f_equal. lia.
      * intros j Hj. destruct (Nat.eq_dec j k) as [->|]; [exact L|apply G; lia].
      * replace (od_day from + Z.of_nat (S k)) with (od_day from + Z.of_nat k + 1) by lia. exact R'.
    + unfold mu. cbn [fst later od_day]. lia.
  - exists 0%nat. split; [rewrite later_0; reflexivity|]. split; [intros j Hj; lia|].
    rewrite Z.add_0_r. apply from_ok.
  - unfold mu. cbn [fst]. unfold date_max, date_min in *. lia.
Qed.

Theorem display_loop_spec : exists out, display_loop a from upto inc = Ret out /\
  StronglySorted (fun x y => instant x < instant y) out /\
  forall e, In e out <->
    exists k, 0 <= k /\ e = later from k /\ instant e <= instant upto /\ is_closed a e /\
      (inc = true \/ is_weekend a e = Ret false).
Proof.
  destruct display_loop_result as (k & E & G & L). exists (printed k). split; [exact E|]. split.
  - unfold printed. clear G L E.
    assert (H : forall n m, StronglySorted (fun x y => instant x < instant y)
      (filter wanted (map (fun j => later from (Z.of_nat j)) (seq m n)))); [|apply H].
    induction n as [|n IH]; intro m; cbn [seq map filter]; [constructor|].
    destruct (wanted _); [|apply IH]. constructor; [apply IH|]. apply Forall_forall.
    intros x Hx. apply filter_In in Hx. destruct Hx as [Hx _]. apply in_map_iff in Hx. destruct Hx as (j & <- & Hj).
    apply in_seq in Hj. rewrite !instant_later. unfold day_ns. lia.
  - intro e. unfold printed. rewrite filter_In, in_map_iff.
    assert (V : forall j, 0 <= j -> instant (later from j) <= instant upto ->
       (wanted (later from j) = true <-> is_closed a (later from j) /\ (inc = true \/ is_weekend a (later from j) = Ret false))).
    { intros j Hj Hl. pose proof (before_upto j Hj Hl) as B.
      assert (R : in_range (od_day from + j) = true).
      { unfold in_range. rewrite andb_true_iff, !Z.leb_le. lia. }
      assert (Ok : odt_ok (later from j)) by (apply later_ok; assumption).
      assert (In : inner (later from j)) by (unfold inner; cbn [later od_day]; lia).
      rewrite closed_iff, is_holiday_val, is_weekend_val by assumption. unfold wanted.
      destruct (closed _ _), inc, (on_weekend _ _); cbn; split; intro X; try (split; [reflexivity|tauto]); try discriminate; try reflexivity;
        destruct X as [X1 X2]; try discriminate; destruct X2; discriminate. }
    split.
    + intros [(j & <- & Hj) W]. apply in_seq in Hj. exists (Z.of_nat j). split; [lia|]. split; [reflexivity|].
      specialize (G j ltac:(lia)). split; [exact G|]. apply (V (Z.of_nat j)); [lia|exact G|exact W].
    + intros (j & Hj & -> & Hl & Hc). split; [|apply V; assumption].
      exists (Z.to_nat j). split; [rewrite Z2Nat.id by exact Hj; reflexivity|].
      apply in_seq. split; [lia|]. cbn [Nat.add].
      destruct (le_lt_dec k (Z.to_nat j)) as [K|K]; [|exact K]. exfalso.
      rewrite !instant_later in *. unfold day_ns in *. lia.
Qed.
End Display.
