(** QSchedBack.v -- lemmas about backward generation. *)
From Coq Require Import ZArith List Bool Ascii String Lia.
From Verif Require Import Base CivilSpec QDateModel QDateProofs QCalModel QCalSpec QCalProps QPeriodModel QPeriodSpec QPeriodProofs QPeriodProps
  QSchedModel QSchedSpec QSchedProofs.
Import ListNotations.
Open Scope Z_scope.
Local Strategy 1000 [adjust].

(** what the code subtracts: as [steps_after], with [months_back] *)
Definition back (f : frequency) (d : odt) (i : Z) (r : odt) : Prop :=
  od_ns r = od_ns d /\ od_off r = od_off d /\
  match freq_step f with
  | Some (Months k) => exists y m dd, valid_date y m dd /\ od_day d = day_number y m dd /\
      months_after y m dd (- (if k =? 12 then 12 * i else months_back m (k * i))) (od_day r)
  | Some (Days k) => od_day r = od_day d - k * i
  | None => False
  end.

Lemma back_exist : forall f d i, f <> NoFrequency -> exists r, back f d i r.
Proof.
  intros f d i N. unfold back. destruct (freq_step f) as [[k|k]|] eqn:E.
  - destruct (date_fields (od_day d)) as [V D]. set (y := date_year (od_day d)) in *. set (m := date_month (od_day d)) in *. set (dd := date_day (od_day d)) in *.
    set (b := if k =? 12 then 12 * i else months_back m (k * i)). set (j := 12 * y + (m - 1) + - b).
    exists (Odt (day_number (j / 12) (j mod 12 + 1) (Z.min dd (month_days (j / 12) (j mod 12 + 1)))) (od_ns d) (od_off d)). cbn [od_ns od_off od_day].
    split; [reflexivity|]. split; [reflexivity|]. exists y, m, dd. split; [exact V|]. split; [symmetry; exact D|].
    exists (j / 12), (j mod 12 + 1). split; [Z.to_euclidean_division_equations; lia|]. split; [|reflexivity].
    pose proof (Z.div_mod j 12 ltac:(lia)). subst j. lia.
  - exists (Odt (od_day d - k * i) (od_ns d) (od_off d)). auto.
  - destruct f; discriminate || congruence.
Qed.
Lemma back_unique : forall f d i r r', back f d i r -> back f d i r' -> r = r'.
Proof.
  intros f d i [n s o] [n' s' o'] (A1 & A2 & A3) (B1 & B2 & B3). cbn [od_ns od_off od_day] in *. subst. f_equal.
  destruct (freq_step f) as [[k|k]|]; [| |contradiction].
  - destruct A3 as (y & m & dd & V & E & M), B3 as (y' & m' & dd' & V' & E' & M'). rewrite E in E'.
    destruct (day_number_unique _ _ _ _ _ _ V V' E') as (<- & <- & <-). exact (months_after_unique _ _ _ _ _ _ M M').
  - lia.
Qed.

(** the span of months within which [sub_period] is right *)
Definition in_reach (f : frequency) (d : odt) (i : Z) : Prop :=
  forall k y m dd, freq_step f = Some (Months k) -> k < 12 -> valid_date y m dd -> od_day d = day_number y m dd -> k * i <= m + 11.
Lemma back_steps : forall f d i r, in_reach f d i -> back f d i r -> steps_after f d (- i) r.
Proof.
  intros f d i r R (A1 & A2 & A3). split; [exact A1|]. split; [exact A2|]. pose proof (step_positive f) as P.
  destruct (freq_step f) as [[k|k]|] eqn:E; [| |contradiction].
  - destruct A3 as (y & m & dd & V & D & M). exists y, m, dd. split; [exact V|]. split; [exact D|].
    destruct (Z.eqb_spec k 12) as [->|N]; [replace (12 * - i) with (- (12 * i)) by lia; exact M|].
    specialize (R k y m dd E ltac:(lia) V D). unfold months_back in M. rewrite (proj2 (Z.leb_le _ _) R) in M. cbn [orb] in M.
    replace (k * - i) with (- (k * i)) by lia. exact M.
  - lia.
Qed.

Lemma freq_sub : forall m f d i, odt_ok d -> f <> NoFrequency -> 1 <= i -> freq_head f * i <= 2147483647 -> forall r, back f d i r ->
  exists s, to_string_with_multiple m f i = Ret s /\ sub_period d s = if in_range (od_day r) then Ret r else Panic.
Proof.
  intros m f d i O N I H r S. eexists. split; [apply to_string_ok; [exact N|lia|exact H]|].
  assert (P : 0 <= freq_head f * i) by (assert (0 <= freq_head f) by (destruct f; cbn; lia); nia).
  destruct (z_to_string_ok (freq_head f * i) P) as [NU VA]. destruct O as (OR & ON & OO).
  destruct S as (S1 & S2 & S3).
  destruct (match freq_step f with Some (Months _) => true | _ => false end) eqn:K.
  - destruct (freq_step f) as [[k|k]|] eqn:FS; try discriminate K.
    destruct S3 as (y & mo & dd & V & E & M).
    assert (C : civil_ok y mo dd (od_ns d)).
    { split; [|split; [exact V|exact ON]]. rewrite E in OR. apply in_range_day in OR; [exact OR|exact V]. }
    assert (D : d = civil y mo dd (od_ns d) (od_off d)) by (destruct d; cbn in *; unfold civil; subst; reflexivity).
    set (b := if k =? 12 then 12 * i else months_back mo (k * i)) in *.
    assert (G : (representable_year (year_after y mo (- b)) -> exists n', sub_period d (z_to_string (freq_head f * i) ++ unit_name (freq_unit f)) = Ret (Odt n' (od_ns d) (od_off d)) /\ months_after y mo dd (- b) n') /\
                (~ representable_year (year_after y mo (- b)) -> sub_period d (z_to_string (freq_head f * i) ++ unit_name (freq_unit f)) = Panic)).
    { rewrite D. cbn [od_ns od_off civil]. unfold b. clear b M. destruct (Z.eqb_spec k 12) as [K12|K12].
      - assert (FA : f = Annually) by (destruct f; cbn in FS; try discriminate FS; try reflexivity; injection FS; lia). subst f.
        cbn [freq_unit freq_head] in *. pose proof (c100_sub_years y mo dd (od_ns d) (od_off d) (z_to_string (1 * i)) C NU ltac:(lia)) as X.
        rewrite VA in X. replace (12 * (1 * i)) with (12 * i) in X by lia. exact X.
      - assert (FA : freq_unit f = UM /\ freq_head f = k) by (destruct f; cbn in FS; try discriminate FS; injection FS as <-; cbn; split; congruence || lia).
        destruct FA as [FU FH]. rewrite FU. pose proof (sub_months_general y mo dd (od_ns d) (od_off d) (z_to_string (freq_head f * i)) C NU ltac:(lia)) as X.
        rewrite VA in X. rewrite FH in *. exact X. }
    destruct G as [A B]. destruct (in_range (od_day r)) eqn:IR.
    + destruct A as (n' & A1 & A2); [apply (months_after_range y mo dd _ _ V M); exact IR|]. rewrite A1. f_equal.
      rewrite (months_after_unique _ _ _ _ _ _ A2 M). destruct r; cbn in *; subst; reflexivity.
    + apply B. intro R. apply (months_after_range y mo dd _ _ V M) in R. congruence.
  - destruct (freq_step f) as [[k|k]|] eqn:FS; try discriminate K; [|contradiction].
    rewrite sub_period_one, VA by (try exact NU; lia).
    assert (U : - (freq_head f * i * unit_ns (freq_unit f)) = - (k * i) * day_ns).
    { destruct f; cbn in FS; try discriminate FS; injection FS as <-; cbn [freq_unit freq_head unit_ns]; lia. }
    assert (Q : sub_one (od_ns d) d (freq_head f * i) (freq_unit f) = add_ns d (- (freq_head f * i * unit_ns (freq_unit f)))).
    { destruct f; cbn in FS; try discriminate FS; reflexivity. }
    rewrite Q, U. destruct d as [n ns off]. cbn [od_day od_ns od_off] in *. rewrite add_ns_whole_days by exact ON. unfold date_add.
    replace (n + - (k * i)) with (od_day r) by lia.
    destruct (in_range (od_day r)); [|reflexivity]. cbn [obind]. f_equal. destruct r; cbn in *; subst; reflexivity.
Qed.

(** a date in range is not many steps away *)
Lemma back_count : forall f d i r, odt_ok d -> 1 <= i -> back f d i r -> in_range (od_day r) = true -> i <= 7304500.
Proof.
  intros f d i r (OR & _ & _) I (_ & _ & S3) R. pose proof (step_positive f) as P.
  destruct (freq_step f) as [[k|k]|] eqn:E; [| |contradiction].
  - destruct S3 as (y & m & dd & V & D & M). apply (months_after_range y m dd _ _ V M) in R. rewrite D in OR. apply in_range_day in OR; [|exact V].
    destruct V as [Vm Vd].
    unfold representable_year, year_after in *. destruct (Z.eqb_spec k 12).
    + Z.to_euclidean_division_equations; lia.
    + assert (k * i - 12 <= months_back m (k * i)) by (unfold months_back; destruct (_ || _); lia).
      assert (12 * -9999 <= 12 * y + (m - 1) + - months_back m (k * i)) by (Z.to_euclidean_division_equations; lia). nia.
  - unfold in_range, date_min, date_max in *. rewrite andb_true_iff, !Z.leb_le in OR, R. nia.
Qed.

Section Backward.
Variables (m : build) (eff mat : odt) (f : frequency).
Hypothesis (Heff : odt_ok eff) (Hmat : odt_ok mat) (Hf : f <> NoFrequency).
Variable raw : nat -> odt.
Hypothesis Hraw0 : raw 0%nat = mat.
Hypothesis Hraw : forall i, (1 <= i)%nat -> back f mat (Z.of_nat i) (raw i).

Definition bwd_inv (st : list odt * Z * odt) : Prop :=
  let '(v, count, cur) := st in
  exists n, count = Z.of_nat n + 1 /\ v = rev (map raw (seq 0 (S n))) /\ cur = raw n /\
    in_range (od_day cur) = true /\ forall j, (j < n)%nat -> instant eff < instant (raw j).
Definition bwd_result (r : outcome (list odt)) : Prop :=
  (exists n, r = Ret (rev (map raw (seq 0 (S n)))) /\ (forall j, (j < n)%nat -> instant eff < instant (raw j)) /\ instant (raw n) <= instant eff) \/
  (r = Panic /\ exists n, in_range (od_day (raw n)) = false /\ forall j, (j < n)%nat -> instant eff < instant (raw j)).

Lemma backward_loop : bwd_result (raw_dates m false eff mat f).
Proof.
  unfold raw_dates. apply (while_loop_ends _ bwd_inv (fun st => 7305000 - snd (fst st))).
  - intros [[v count] cur] (n & Hc & Hv & Hcur & HR & HL). unfold backward_turn. cbn [fst snd] in *.
    destruct (Z.ltb_spec (instant eff) (instant cur)) as [L|L].
    + assert (CB : count <= 7304501).
      { destruct n as [|n]; [lia|]. subst cur. pose proof (back_count f mat (Z.of_nat (S n)) _ Hmat ltac:(lia) (Hraw (S n) ltac:(lia)) HR). lia. }
      pose proof (Hraw (S n) ltac:(lia)) as HS. replace (Z.of_nat (S n)) with count in HS by lia.
      assert (HB : freq_head f * count <= 2147483647) by (assert (0 <= freq_head f <= 6) by (destruct f; cbn; lia); nia).
      destruct (freq_sub m f mat count Hmat Hf ltac:(lia) HB _ HS) as (s & -> & A).
      cbn [turn_bind]. rewrite A. destruct (in_range (od_day (raw (S n)))) eqn:IR; cbn [turn_bind].
      * split.
        { exists (S n). split; [lia|]. split; [rewrite Hv, (map_seq_snoc raw (S n)), rev_app_distr; reflexivity|]. split; [reflexivity|]. split; [exact IR|].
          intros j Hj. destruct (Nat.eq_dec j n) as [->|]; [rewrite <- Hcur; exact L|apply HL; lia]. }
        { cbn [fst snd]. pose proof (back_count f mat count _ Hmat ltac:(lia) HS IR). lia. }
      * right. split; [reflexivity|]. exists (S n). split; [exact IR|].
        intros j Hj. destruct (Nat.eq_dec j n) as [->|]; [rewrite <- Hcur; exact L|apply HL; lia].
    + left. exists n. split; [rewrite Hv; reflexivity|]. split; [exact HL|]. rewrite <- Hcur. exact L.
  - exists 0%nat. split; [reflexivity|]. cbn [seq map rev app]. rewrite Hraw0. split; [reflexivity|]. split; [reflexivity|].
    split; [apply Hmat|]. intros; lia.
  - cbn [fst snd]. lia.
Qed.
End Backward.

Lemma rev_map_seq : forall (g : nat -> odt) n, rev (map g (seq 0 (S n))) = map (fun i => g (n - i)%nat) (seq 0 (S n)).
Proof.
  intros g n. apply nth_ext with (d := g 0%nat) (d' := g 0%nat); [rewrite rev_length, !map_length; reflexivity|].
  intros i Hi. rewrite rev_length, map_length, seq_length in Hi. rewrite rev_nth by (rewrite map_length, seq_length; exact Hi).
  rewrite map_length, seq_length.
  rewrite (nth_indep _ _ (g (n - 0)%nat)) by (rewrite map_length, seq_length; lia).
  rewrite (nth_indep (map _ _) (g 0%nat) ((fun i => g (n - i)%nat) 0%nat)) by (rewrite map_length, seq_length; lia).
  rewrite (map_nth (fun i => g (n - i)%nat)), seq_nth by lia.
  rewrite (nth_indep _ _ (g 0%nat)) by (rewrite map_length, seq_length; lia). rewrite (map_nth g), seq_nth by lia.
  f_equal; lia.
Qed.

(** ** The raw dates are never none *)
Lemma run_pow_inv : forall T R (f : T -> turn T R) (I : T -> Prop) (P : outcome R -> Prop),
  (forall t, I t -> match f t with Next t' => I t' | Stop r => P r end) ->
  forall k t, I t -> match run_pow k f t with Next t' => I t' | Stop r => P r end.
Proof.
  intros T R f I P H. induction k as [|k IH]; intros t Ht; cbn [run_pow]; [apply H; exact Ht|].
  pose proof (IH t Ht) as A. destruct (run_pow k f t) as [t'|r]; [apply IH; exact A|exact A].
Qed.
Local Opaque run_pow.
Lemma while_loop_inv : forall T R (f : T -> turn T R) (I : T -> Prop) (P : outcome R -> Prop), P Diverge ->
  (forall t, I t -> match f t with Next t' => I t' | Stop r => P r end) -> forall t, I t -> P (while_loop f t).
Proof.
  intros T R f I P D H t Ht. unfold while_loop. pose proof (run_pow_inv T R f I P H 24 t Ht) as A.
  destruct (run_pow 24 f t); [exact D|exact A].
Qed.
Local Opaque while_loop.
Definition some_dates (r : outcome (list odt)) : Prop := match r with Ret w => w <> [] | _ => True end.
Lemma raw_dates_some : forall m forward eff mat f, some_dates (raw_dates m forward eff mat f).
Proof.
  intros m forward eff mat f. unfold raw_dates. destruct forward.
  - apply (while_loop_inv _ _ _ (fun st => fst (fst st) <> [])); [exact I| |discriminate].
    intros [[u c] cur] U. cbn [fst] in U. unfold forward_turn. destruct (instant cur <? instant mat); [|exact U].
    destruct (to_string_with_multiple m f c) as [s| |]; cbn [turn_bind some_dates]; try exact I.
    destruct (add_period eff s); cbn [turn_bind some_dates fst]; try exact I. destruct u; discriminate.
  - apply (while_loop_inv _ _ _ (fun st => fst (fst st) <> [])); [exact I| |discriminate].
    intros [[u c] cur] U. cbn [fst] in U. unfold backward_turn. destruct (instant eff <? instant cur); [|exact U].
    destruct (to_string_with_multiple m f c) as [s| |]; cbn [turn_bind some_dates]; try exact I.
    destruct (sub_period mat s); cbn [turn_bind some_dates fst]; try exact I. discriminate.
Qed.
