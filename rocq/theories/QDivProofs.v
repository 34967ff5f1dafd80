(** QDivProofs.v -- dropping past dividends, running products, the ratio. *)
From Coq Require Import ZArith Arith List Bool Lia.
From Flocq Require Import Core IEEE754.BinarySingleNaN.
From Verif Require Import Base CivilSpec FloatModel KrxModel QDateModel QDateProofs QFindModel QFindSpec QFindProofs QInterpModel QInterpSpec QInterpProofs QStepProps QDivModel QDivSpec.
Import ListNotations.
Open Scope Z_scope.

(** ** yyyymmdd *)
Lemma md_small : forall n, 0 < date_month n * 100 + date_day n < 10000.
Proof.
  intro n. destruct (date_month_spec n) as [A B]. assert (month_days (date_year n) (date_month n) <= 31).
  { unfold month_days. destruct (leapb (date_year n)); repeat match goal with |- context [match ?x with _ => _ end] => destruct x end; lia. }
  lia.
Qed.
Lemma day_small : forall n, 1 <= date_day n <= 31.
Proof.
  intro n. destruct (date_month_spec n) as [A B]. assert (month_days (date_year n) (date_month n) <= 31).
  { unfold month_days. destruct (leapb (date_year n)); repeat match goal with |- context [match ?x with _ => _ end] => destruct x end; lia. }
  lia.
Qed.
Lemma day_of_fields : forall n, n = year_start (date_year n) + month_start (date_year n) (date_month n) + date_day n - 1.
Proof. intro n. unfold date_day, date_ordinal. lia. Qed.
Definition ymd_int (n : Z) : Z := date_year n * 10000 + date_month n * 100 + date_day n.
Lemma ymd_mono : forall a b, a < b -> ymd_int a < ymd_int b.
Proof.
  intros a b H. unfold ymd_int. pose proof (date_year_mono a b ltac:(lia)) as Y. pose proof (md_small a) as A. pose proof (md_small b) as B.
  destruct (Z.eq_dec (date_year a) (date_year b)) as [E|]; [|lia].
  pose proof (day_of_fields a) as Fa. pose proof (day_of_fields b) as Fb. rewrite <- E in *.
  destruct (date_month_spec a) as [Ma Da]. destruct (date_month_spec b) as [Mb Db]. rewrite <- E in Db. pose proof (day_small a). pose proof (day_small b).
  destruct (Z.lt_trichotomy (date_month a) (date_month b)) as [L|[L|L]].
  - lia.
  - rewrite L in *. lia.
  - pose proof (month_start_mono (date_year a) (date_month b) (date_month a) ltac:(lia) L ltac:(lia)). lia.
Qed.
Lemma ymd_lt_iff : forall a b, ymd_int a < ymd_int b <-> a < b.
Proof.
  intros a b. split; [|apply ymd_mono]. intro H. destruct (Z.lt_trichotomy a b) as [L|[E|L]]; [exact L|subst; lia|]. apply ymd_mono in L. lia.
Qed.
Lemma ymd_le_iff : forall a b, ymd_int a <= ymd_int b <-> a <= b.
Proof. intros a b. pose proof (ymd_lt_iff b a). lia. Qed.

(** ** dropping *)
Lemma skip_remove : forall A (l : list A) c, (c < length l)%nat -> remove_at (skipn c l) 0 = Ret (skipn (c + 1) l).
Proof.
  intros A l. induction l as [|x l IH]; intros c H; [cbn in H; lia|]. destruct c as [|c]; [reflexivity|]. cbn [skipn Nat.add]. apply IH. cbn in H. lia.
Qed.
Section Drop.
Context (dates : list odt) (eval : odt) (yields : list f32) (ints : list Z).
Hypothesis LY : length yields = length dates.
Hypothesis LI : length ints = length dates.
Lemma stay : forall k d, nth_error dates k = Some d -> (instant d <? instant eval) = false ->
  forall m i fuel copy ys js, (length dates - i <= m)%nat -> (m < fuel)%nat -> drop_loop fuel dates eval i k copy ys js = Ret (ys, js).
Proof using.
  clear LY LI. intros k d Hd P. induction m as [|m IH]; intros i fuel copy ys js Hm Hf; (destruct fuel as [|fuel]; [lia|]); cbn [drop_loop];
    destruct (Nat.ltb_spec i (length dates)) as [G|G]; try reflexivity; [lia|].
  rewrite (at_some _ _ _ _ Hd). cbn [obind]. rewrite P. apply IH; lia.
Qed.
Lemma dropping : forall k d, nth_error dates k = Some d -> (instant d <? instant eval) = false ->
  (forall j e, (j < k)%nat -> nth_error dates j = Some e -> (instant e <? instant eval) = true) ->
  forall m c fuel, (k - c = m)%nat -> (c <= k)%nat -> (m + length dates < fuel)%nat ->
  drop_loop fuel dates eval 0 c (skipn c dates) (skipn c yields) (skipn c ints) = Ret (skipn k yields, skipn k ints).
Proof using LY LI.
  intros k d Hd P B. assert (Lk : (k < length dates)%nat) by (apply nth_error_Some; congruence).
  induction m as [|m IH]; intros c fuel Hm Hc Hf.
  - assert (c = k) by lia. subst c. apply (stay k d Hd P (length dates)); lia.
  - destruct fuel as [|fuel]; [lia|]. cbn [drop_loop]. destruct (Nat.ltb_spec 0 (length dates)); [|lia].
    destruct (at_lt _ dates c ltac:(lia)) as (e & He & ->). cbn [obind]. rewrite (B c e ltac:(lia) He).
    rewrite !skip_remove by lia. cbn [obind]. apply IH; lia.
Qed.
Lemma drop_prefix : forall k d, nth_error dates k = Some d -> (instant d <? instant eval) = false ->
  (forall j e, (j < k)%nat -> nth_error dates j = Some e -> (instant e <? instant eval) = true) ->
  drop_past dates eval yields ints = Ret (skipn k yields, skipn k ints).
Proof using LY LI.
  intros k d Hd P B. assert (Lk : (k < length dates)%nat) by (apply nth_error_Some; congruence). unfold drop_past.
  apply (dropping k d Hd P B k 0%nat (2 * length dates + 1)%nat); lia.
Qed.
Lemma drop_all : dates <> [] -> Forall (fun d => instant d < instant eval) dates -> drop_past dates eval yields ints = Panic.
Proof using LY LI.
  intros N F. assert (G : (0 < length dates)%nat) by (destruct dates; [congruence|cbn; lia]). unfold drop_past.
  assert (Q : forall m c fuel, (length dates - c = m)%nat -> (c <= length dates)%nat -> (m < fuel)%nat ->
    drop_loop fuel dates eval 0 c (skipn c dates) (skipn c yields) (skipn c ints) = Panic).
  { induction m as [|m IH]; intros c fuel Hm Hc Hf; (destruct fuel as [|fuel]; [lia|]); cbn [drop_loop]; (destruct (Nat.ltb_spec 0 (length dates)); [|lia]).
    - unfold at_. replace (nth_error dates c) with (@None odt); [reflexivity|]. symmetry. apply nth_error_None. lia.
    - destruct (at_lt _ dates c ltac:(lia)) as (e & He & ->). cbn [obind].
      assert (P : (instant e <? instant eval) = true) by (apply Z.ltb_lt; rewrite Forall_forall in F; apply F; eauto using nth_error_In).
      rewrite P, !skip_remove by lia. cbn [obind]. apply IH; lia. }
  apply (Q (length dates) 0%nat (2 * length dates + 1)%nat); lia.
Qed.
End Drop.
(** a first date that is not past, or all are past *)
Lemma first_coming : forall (ds : list odt) eval, (Forall (fun d => instant d < instant eval) ds) \/
  exists k d, nth_error ds k = Some d /\ (instant d <? instant eval) = false /\ forall j e, (j < k)%nat -> nth_error ds j = Some e -> (instant e <? instant eval) = true.
Proof.
  intros ds eval. induction ds as [|d ds IH]; [left; constructor|]. destruct (instant d <? instant eval) eqn:P.
  - destruct IH as [F|(k & e & He & Pe & B)].
    + left. constructor; [apply Z.ltb_lt; exact P|exact F].
    + right. exists (S k), e. split; [exact He|]. split; [exact Pe|]. intros [|j] x Hj Hx; [cbn in Hx; congruence|]. apply (B j x); [lia|exact Hx].
  - right. exists O, d. split; [reflexivity|]. split; [exact P|]. intros j e Hj. lia.
Qed.

(** ** running products *)
Lemma running_nth : forall ys t i, (i < length ys)%nat -> nth_error (running t ys) i = Some (fold_left (fun acc y => gmul acc (gsub one32 y)) (firstn (i + 1) ys) t).
Proof.
  induction ys as [|y ys IH]; intros t i H; [cbn in H; lia|]. cbn [running]. destruct i as [|i]; [reflexivity|]. cbn [nth_error firstn fold_left Nat.add]. apply IH. cbn in H. lia.
Qed.
Lemma running_length : forall ys t, length (running t ys) = length ys.
Proof. induction ys as [|y ys IH]; intro t; cbn [running length]; [reflexivity|]. rewrite IH. reflexivity. Qed.

(** ** filters of sorted lists *)
Lemma filter_prefix : forall A (f : A -> bool) l k, (forall i x, nth_error l i = Some x -> (f x = true <-> (i < k)%nat)) -> List.filter f l = firstn k l.
Proof.
  intros A f. induction l as [|x l IH]; intros k H; [destruct k; reflexivity|]. cbn [List.filter]. pose proof (H O x eq_refl) as H0.
  destruct k as [|k].
  - destruct (f x) eqn:E; [apply proj1 in H0; specialize (H0 eq_refl); lia|]. cbn [firstn]. rewrite (IH O); [destruct l; reflexivity|].
    intros i y Hy. pose proof (H (S i) y Hy) as Q. split; intro Z1; [apply Q in Z1; lia|lia].
  - destruct (f x) eqn:E; [|exfalso; destruct H0 as [_ H0]; discriminate H0; lia]. cbn [firstn]. f_equal. apply IH. intros i y Hy. pose proof (H (S i) y Hy) as Q. rewrite Q. lia.
Qed.
Lemma filter_suffix : forall A (f : A -> bool) l k, (forall i x, nth_error l i = Some x -> (f x = true <-> (k <= i)%nat)) -> List.filter f l = skipn k l.
Proof.
  intros A f. induction l as [|x l IH]; intros k H; [destruct k; reflexivity|]. cbn [List.filter]. pose proof (H O x eq_refl) as H0.
  destruct k as [|k].
  - destruct H0 as [_ H0]. rewrite H0 by lia. cbn [skipn]. f_equal. rewrite (IH O); [reflexivity|]. intros i y Hy. pose proof (H (S i) y Hy) as Q. rewrite Q. lia.
  - destruct (f x) eqn:E; [apply proj1 in H0; specialize (H0 eq_refl); lia|]. cbn [skipn]. apply IH. intros i y Hy. pose proof (H (S i) y Hy) as Q. rewrite Q. lia.
Qed.
Lemma filter_filter : forall A (f g : A -> bool) l, List.filter (fun x => f x && g x) l = List.filter g (List.filter f l).
Proof. intros A f g. induction l as [|x l IH]; [reflexivity|]. cbn [List.filter]. destruct (f x); cbn [andb]; [|exact IH]. cbn [List.filter]. rewrite IH. reflexivity. Qed.
Lemma skipn_combine : forall A B (l : list A) (m : list B) k, skipn k (combine l m) = combine (skipn k l) (skipn k m).
Proof.
  intros A B. induction l as [|x l IH]; intros m k; [destruct k; reflexivity|]. destruct m as [|y m]; [|destruct k as [|k]; [reflexivity|]; cbn; apply IH].
  destruct k as [|k]; [reflexivity|]. cbn. destruct (skipn k l); reflexivity.
Qed.
Lemma nth_combine : forall A B (l : list A) (m : list B) i p, nth_error (combine l m) i = Some p -> nth_error l i = Some (fst p) /\ nth_error m i = Some (snd p).
Proof.
  intros A B. induction l as [|x l IH]; intros m i p H; [destruct i; discriminate H|]. destruct m as [|y m]; [destruct i; discriminate H|].
  destruct i as [|i]; [cbn in H; injection H as <-; auto|]. cbn [nth_error]. apply IH. exact H.
Qed.
Lemma firstn_map : forall A B (f : A -> B) l k, firstn k (map f l) = map f (firstn k l).
Proof. intros A B f. induction l as [|x l IH]; intros [|k]; cbn; [reflexivity|reflexivity|reflexivity|]. rewrite IH. reflexivity. Qed.
Lemma map_snd_combine : forall A B (l : list A) (m : list B), length l = length m -> map snd (combine l m) = m.
Proof. intros A B. induction l as [|x l IH]; intros [|y m] H; try discriminate H; [reflexivity|]. cbn. f_equal. apply IH. cbn in H. lia. Qed.
Lemma nth_skipn : forall A (l : list A) k i, nth_error (skipn k l) i = nth_error l (k + i).
Proof. intros A. induction l as [|x l IH]; intros [|k] i; cbn [skipn Nat.add]; [reflexivity|destruct i; reflexivity|reflexivity|]. exact (IH k i). Qed.

Lemma z_total : total_order zcmp (fun _ => True).
Proof.
  split.
  - intros x y _ _. exists (x ?= y). unfold zcmp. split; [reflexivity|]. rewrite (Z.compare_antisym x y). reflexivity.
  - intros x y z _ _ _ A B. unfold le, zcmp in *. assert (x <= y) by (destruct (Z.compare_spec x y); [lia|lia|destruct A as [A|A]; discriminate A]).
    assert (y <= z) by (destruct (Z.compare_spec y z); [lia|lia|destruct B as [B|B]; discriminate B]).
    destruct (Z.compare_spec x z); [right; reflexivity|left; reflexivity|lia].
Qed.
Lemma z_le : forall x y, le zcmp x y <-> x <= y.
Proof. intros x y. unfold le, zcmp. destruct (Z.compare_spec x y); split; intro H1; try lia; auto; destruct H1 as [H1|H1]; discriminate H1. Qed.
Lemma z_lt : forall x y, lt zcmp x y <-> x < y.
Proof. intros x y. unfold lt, zcmp. destruct (Z.compare_spec x y); split; intro H1; try lia; auto; discriminate H1. Qed.
Lemma forall_true : forall A (l : list A), Forall (fun _ => True) l.
Proof. intros A l. induction l; constructor; auto. Qed.

(** ** what the interpolator made of a list of days and yields answers *)
Lemma interp_ratio : forall ints ys, length ints = length ys -> strictly_sorted zcmp ints ->
  exists it, make_interp ints (running one32 ys) = Ret (ROk it) /\
  forall v date, dv_interp v = it -> deduction_ratio v date = Ret (ROk (deduct (map snd (List.filter (fun p => fst p <=? to_yyyymmdd_int date) (combine ints ys))))).
Proof.
  intros ints ys L SS. unfold make_interp. pose proof (running_length ys one32) as RL.
  destruct (running one32 ys) as [|r0 rs] eqn:ER.
  - exists (DConst one32). split; [reflexivity|]. intros v date E. unfold deduction_ratio. rewrite E. assert (ys = []) by (destruct ys; [reflexivity|discriminate RL]). subst ys.
    destruct ints; [|discriminate L]. reflexivity.
  - rewrite <- ER in *. assert (G : (0 < length ys)%nat) by (rewrite <- RL, ER; cbn; lia). clear r0 rs ER.
    destruct (at_lt _ (running one32 ys) (length (running one32 ys) - 1) ltac:(lia)) as (last & HL & ->). cbn [obind].
    assert (NI : ints <> []) by (intros ->; cbn in L; lia).
    assert (E : stepwise_new zcmp ints (running one32 ys) true (Some one32) (Some last) = Ret (ROk (Stepwise ints (running one32 ys) true (Some one32) (Some last)))).
    { apply (c110_sorted Z zcmp (fun _ => True)); [exact z_total|apply forall_true|]. split; [lia|]. split; [exact NI|]. intros i j x y Q Hx Hy. left. exact (SS i j x y Q Hx Hy). }
    rewrite E. cbn [rbind]. eexists. split; [reflexivity|]. intros v date EV. unfold deduction_ratio. rewrite EV. set (T := to_yyyymmdd_int date).
    destruct (at_lt _ ints 0 ltac:(lia)) as (d0 & H0 & _). destruct (at_lt _ ints (length ints - 1) ltac:(lia)) as (d9 & H9 & _).
    destruct (at_lt _ (running one32 ys) 0 ltac:(lia)) as (v0 & V0 & _). destruct (at_lt _ (running one32 ys) (length ints - 1) ltac:(lia)) as (v9 & V9 & _).
    assert (V9' : v9 = last) by (rewrite RL, <- L in HL; congruence). subst last.
    destruct (c111_value Z f32 zcmp (fun _ => True) ints (running one32 ys) true (Some one32) (Some v9) T d0 d9 v0 v9 z_total (forall_true _ _) I SS ltac:(lia) H0 H9 V0 V9) as (C1 & C2 & C3).
    assert (KEY : forall i j x y, (i < j)%nat -> nth_error ints i = Some x -> nth_error ints j = Some y -> x < y) by (intros i j x y Q Hx Hy; apply z_lt; exact (SS i j x y Q Hx Hy)).
    (* k of the days are not after T *)
    assert (PRE : forall k, (k <= length ys)%nat -> (forall i x, (i < k)%nat -> nth_error ints i = Some x -> x <= T) -> (forall i x, (k <= i)%nat -> nth_error ints i = Some x -> T < x) ->
      deduct (map snd (List.filter (fun p => fst p <=? T) (combine ints ys))) = fold_left (fun acc y => gmul acc (gsub one32 y)) (firstn k ys) one32).
    { intros k Hk B1 B2. rewrite (filter_prefix _ _ _ k).
      - rewrite <- firstn_map, map_snd_combine by exact L. reflexivity.
      - intros i [x y] H. destruct (nth_combine _ _ _ _ _ _ H) as [Hx _]. cbn [fst] in *. rewrite Z.leb_le. split.
        + intro Q. destruct (Nat.lt_ge_cases i k) as [|GE]; [assumption|]. pose proof (B2 i x GE Hx). lia.
        + intro Q. exact (B1 i x Q Hx). }
    destruct (Z.lt_ge_cases T d0) as [A|A].
    + rewrite C1 by (apply z_lt; exact A). cbn [outside_answer]. rewrite (PRE O); [reflexivity|lia|intros i x Q; lia|].
      intros i x _ Hx. destruct i as [|i]; [assert (x = d0) by congruence; lia|]. pose proof (KEY O (S i) d0 x ltac:(lia) H0 Hx). lia.
    + destruct (Z.lt_ge_cases d9 T) as [B|B].
      * rewrite C2 by (apply z_lt; exact B). cbn [outside_answer]. rewrite (PRE (length ys)); [| lia | |].
        -- rewrite running_nth in V9 by lia. replace (length ints - 1 + 1)%nat with (length ys) in V9 by lia. congruence.
        -- intros i x Q Hx. destruct (Nat.eq_dec i (length ints - 1)) as [->|]; [assert (x = d9) by congruence; lia|]. pose proof (KEY i (length ints - 1)%nat x d9 ltac:(lia) Hx H9). lia.
        -- intros i x Q Hx. assert (i < length ints)%nat by (apply nth_error_Some; congruence). lia.
      * destruct C3 as (i & y & (a & Ha & LA & LB) & Hy & ->); [apply z_le; lia|apply z_le; lia|]. apply z_le in LA.
        assert (Li : (i < length ints)%nat) by (apply nth_error_Some; congruence). rewrite running_nth in Hy by lia.
        rewrite (PRE (i + 1)%nat); [congruence|lia| |].
        -- intros j x Q Hx. destruct (Nat.eq_dec j i) as [->|]; [assert (x = a) by congruence; lia|]. pose proof (KEY j i x a ltac:(lia) Hx Ha). lia.
        -- intros j x Q Hx. destruct (at_lt _ ints (i + 1) ltac:(assert (j < length ints)%nat by (apply nth_error_Some; congruence); lia)) as (b & Hb & _).
           pose proof (LB b Hb) as LT. apply z_lt in LT. destruct (Nat.eq_dec j (i + 1)) as [->|]; [assert (x = b) by congruence; lia|]. pose proof (KEY (i + 1)%nat j b x ltac:(lia) Hb Hx). lia.
Qed.
