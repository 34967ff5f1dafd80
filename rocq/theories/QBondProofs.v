(** QBondProofs.v -- cash flow maps and sums of floats. *)
From Coq Require Import ZArith List Permutation Reals Lra Lia Bool.
From Flocq Require Import Core IEEE754.BinarySingleNaN.
From Verif Require Import Base FloatModel FloatFacts KrxModel QDateModel QSchedModel QCurveModel QInterpSpec QInterpModel QCurveSpec QFloatErr QBondModel QBondSpec.
Import ListNotations.
Open Scope Z_scope.

(** ** Maps *)
Lemma falling_app : forall l1 l2 x, falling (l1 ++ l2) x = (falling l1 x ++ falling l2 x)%list.
Proof. intros. unfold falling. rewrite filter_app, map_app. reflexivity. Qed.
Lemma falling_one : forall d a x, falling [(d, a)] x = if instant d =? x then [a] else [].
Proof. intros. unfold falling. cbn. destruct (instant d =? x); reflexivity. Qed.
Lemma falling_in : forall l d a, In (d, a) l -> falling l (instant d) <> [].
Proof.
  intros l d a H Q. unfold falling in Q. apply map_eq_nil in Q. assert (I : In (d, a) (filter (fun p => instant (fst p) =? instant d) l)) by (apply filter_In; split; [exact H|apply Z.eqb_refl]).
  rewrite Q in I. destruct I.
Qed.
Lemma falling_none : forall l x, ~ In x (map (fun p => instant (fst p)) l) -> falling l x = [].
Proof.
  induction l as [|[d a] l IH]; intros x H; [reflexivity|]. unfold falling in *. cbn in *. destruct (Z.eqb_spec (instant d) x) as [E|E]; [exfalso; apply H; left; exact E|].
  apply IH. intro Q. apply H. right. exact Q.
Qed.
Lemma sum_snoc : forall l a, l <> [] -> sum_in_order (l ++ [a]) = gadd (sum_in_order l) a.
Proof. intros [|x l] a H; [contradiction|]. cbn. rewrite fold_left_app. reflexivity. Qed.
Lemma cash_add_keys : forall m d a, In (instant d) (map (fun p => instant (fst p)) m) -> map (fun p => instant (fst p)) (cash_add d a m) = map (fun p => instant (fst p)) m.
Proof.
  induction m as [|[e v] m IH]; intros d a H; [destruct H|]. cbn in *. destruct (Z.eqb_spec (instant e) (instant d)) as [E|E]; [reflexivity|].
  cbn. f_equal. apply IH. destruct H as [H|H]; [contradiction|exact H].
Qed.
Lemma cash_add_new : forall m d a, ~ In (instant d) (map (fun p => instant (fst p)) m) -> cash_add d a m = (m ++ [(d, a)])%list.
Proof.
  induction m as [|[e v] m IH]; intros d a H; [reflexivity|]. cbn in *. destruct (Z.eqb_spec (instant e) (instant d)) as [E|E]; [exfalso; apply H; left; exact E|].
  f_equal. apply IH. intro Q. apply H. right. exact Q.
Qed.
Lemma cash_add_in : forall m d a e v, NoDup (map (fun p => instant (fst p)) m) -> In (instant d) (map (fun p => instant (fst p)) m) ->
  (In (e, v) (cash_add d a m) <-> (instant e <> instant d /\ In (e, v) m) \/ (instant e = instant d /\ exists w, In (e, w) m /\ v = gadd w a)).
Proof.
  induction m as [|[e0 v0] m IH]; intros d a e v ND H; [destruct H|]. cbn [map fst] in ND, H. inversion ND as [|? ? N1 N2]; subst. cbn [cash_add].
  destruct (Z.eqb_spec (instant e0) (instant d)) as [E|E].
  - split.
    + intros [Q|Q].
      * injection Q as <- <-. right. split; [exact E|]. exists v0. split; [left; reflexivity|reflexivity].
      * left. split; [|right; exact Q]. intro X. apply N1. rewrite E, <- X. change (instant e) with ((fun p : odt * f32 => instant (fst p)) (e, v)). apply in_map. exact Q.
    + intros [[X [Q|Q]]|[X (w & [Q|Q] & W)]].
      * injection Q as <- <-. contradiction.
      * right. exact Q.
      * injection Q as <- <-. left. rewrite W. reflexivity.
      * exfalso. apply N1. rewrite E, <- X. change (instant e) with ((fun p : odt * f32 => instant (fst p)) (e, w)). apply in_map. exact Q.
  - destruct H as [H|H]; [contradiction|]. specialize (IH d a e v N2 H). cbn [In]. rewrite IH. split.
    + intros [Q|[[X Q]|[X (w & Q & W)]]].
      * injection Q as <- <-. left. auto.
      * left. auto.
      * right. split; [exact X|]. exists w. auto.
    + intros [[X [Q|Q]]|[X (w & [Q|Q] & W)]]; auto.
      * injection Q as <- <-. contradiction.
      * right. right. split; [exact X|]. exists w. auto.
Qed.
Lemma collects_nil : collects [] [].
Proof. split; [constructor|]. split; intros ? ? []. Qed.
Lemma collects_keys : forall m l x, collects m l -> (In x (map (fun p => instant (fst p)) m) <-> In x (map (fun p => instant (fst p)) l)).
Proof.
  intros m l x (_ & A & B). split; intro H; apply in_map_iff in H; destruct H as ([d v] & <- & I); cbn [fst].
  - destruct (A d v I) as [I' _]. apply in_map_iff in I'. destruct I' as ([d' a] & E & I'). cbn in E. subst d'. apply in_map_iff. exists (d, a). auto.
  - destruct (B d v I) as (d' & w & I' & <-). apply in_map_iff. exists (d', w). auto.
Qed.
Lemma collects_add : forall m l d a, collects m l -> collects (cash_add d a m) (l ++ [(d, a)]).
Proof.
  intros m l d a C. pose proof (collects_keys m l (instant d) C) as K. destruct C as (ND & A & B).
  destruct (in_dec Z.eq_dec (instant d) (map (fun p => instant (fst p)) m)) as [I|I].
  - split; [rewrite cash_add_keys by exact I; exact ND|]. split.
    + intros e v H. apply (cash_add_in m d a e v ND I) in H. rewrite falling_app, falling_one. destruct H as [[X H]|[X (w & H & ->)]].
      * destruct (A e v H) as [P Q]. split; [rewrite map_app; apply in_or_app; left; exact P|]. destruct (Z.eqb_spec (instant d) (instant e)); [congruence|]. rewrite app_nil_r. exact Q.
      * destruct (A e w H) as [P Q]. split; [rewrite map_app; apply in_or_app; left; exact P|]. rewrite (proj2 (Z.eqb_eq _ _) (eq_sym X)). rewrite sum_snoc, <- Q; [reflexivity|].
        apply in_map_iff in P. destruct P as ([e' x] & E & P). cbn in E. subst e'. exact (falling_in l e x P).
    + intros e x H. apply in_app_or in H. destruct H as [H|[H|[]]].
      * destruct (B e x H) as (e' & v & I' & E). destruct (Z.eq_dec (instant e') (instant d)) as [Y|Y].
        -- exists e', (gadd v a). split; [apply (cash_add_in m d a e' _ ND I); right; split; [exact Y|exists v; auto]|exact E].
        -- exists e', v. split; [apply (cash_add_in m d a e' _ ND I); left; auto|exact E].
      * injection H as <- <-. apply in_map_iff in I. destruct I as ([e' v] & E & I'). cbn in E.
        exists e', (gadd v a). split; [|exact E]. apply (cash_add_in m d a e' _ ND); [rewrite <- E; change (instant e') with ((fun p : odt * f32 => instant (fst p)) (e', v)); apply in_map; exact I'|].
        right. split; [exact E|]. exists v. auto.
  - rewrite cash_add_new by exact I. split.
    + rewrite map_app. cbn. apply (Permutation_NoDup (Permutation_cons_append _ _)). constructor; assumption.
    + assert (FN : falling l (instant d) = []) by (apply falling_none; rewrite <- K; exact I). split.
      * intros e v H. apply in_app_or in H. rewrite falling_app, falling_one. destruct H as [H|[H|[]]].
        -- destruct (A e v H) as [P Q]. split; [rewrite map_app; apply in_or_app; left; exact P|]. destruct (Z.eqb_spec (instant d) (instant e)) as [E|E].
           ++ exfalso. apply I. rewrite E. change (instant e) with ((fun p : odt * f32 => instant (fst p)) (e, v)). apply in_map. exact H.
           ++ rewrite app_nil_r. exact Q.
        -- injection H as <- <-. split; [rewrite map_app; apply in_or_app; right; left; reflexivity|]. rewrite FN, Z.eqb_refl. reflexivity.
      * intros e x H. apply in_app_or in H. destruct H as [H|[H|[]]].
        -- destruct (B e x H) as (e' & v & I' & E). exists e', v. split; [apply in_or_app; left; exact I'|exact E].
        -- injection H as <- <-. exists d, a. split; [apply in_or_app; right; left; reflexivity|reflexivity].
Qed.

(** ** Cash flows *)
Lemma cash_rows_ok : forall f_ln b eval fwd past pricing rows xs m l, collects m l ->
  Forall2 (fun r x => od_day (payment_date (rw_dates r)) < od_day pricing \/ row_amount f_ln b r eval fwd past pricing = Ret (ROk x)) rows xs ->
  exists m', cash_rows f_ln b rows eval fwd past pricing m = Ret (ROk m') /\ collects m' (l ++ due pricing (combine (map (fun r => payment_date (rw_dates r)) rows) xs)).
Proof.
  intros f_ln b eval fwd past pricing rows xs m l C H. revert m l C. induction H as [|r x rows xs A H IH]; intros m l C; cbn [cash_rows map combine due filter fst].
  - exists m. split; [reflexivity|]. rewrite app_nil_r. exact C.
  - unfold due. cbn [filter fst]. destruct (Z.ltb_spec (od_day (payment_date (rw_dates r))) (od_day pricing)) as [L|L].
    + destruct (IH m l C) as (m' & E & C'). exists m'. split; [exact E|]. rewrite (proj2 (Z.leb_gt _ _) L). exact C'.
    + destruct A as [A|A]; [lia|]. rewrite A. cbn [rbind]. rewrite (proj2 (Z.leb_le _ _) L).
      destruct (IH _ _ (collects_add m l (payment_date (rw_dates r)) x C)) as (m' & E & C'). exists m'. split; [exact E|]. rewrite <- app_assoc in C'. exact C'.
Qed.
Lemma cash_rows_err : forall f_ln b eval fwd past pricing rows m, 
  (forall r, In r rows -> od_day pricing <= od_day (payment_date (rw_dates r)) -> exists x, row_amount f_ln b r eval fwd past pricing = Ret x) ->
  (exists r, In r rows /\ od_day pricing <= od_day (payment_date (rw_dates r)) /\ row_amount f_ln b r eval fwd past pricing = Ret RErr) ->
  cash_rows f_ln b rows eval fwd past pricing m = Ret RErr.
Proof.
  intros f_ln b eval fwd past pricing. induction rows as [|r0 rows IH]; intros m A (r & I & D & E); [destruct I|]. cbn [cash_rows].
  destruct (Z.ltb_spec (od_day (payment_date (rw_dates r0))) (od_day pricing)) as [L|L].
  - destruct I as [<-|I]; [lia|]. apply IH; [intros r1 I1; apply A; right; exact I1|]. exists r. auto.
  - destruct (A r0 (or_introl eq_refl) L) as (x & Q). rewrite Q. destruct x as [x|]; cbn [rbind]; [|reflexivity].
    destruct I as [<-|I]; [congruence|]. apply IH; [intros r1 I1; apply A; right; exact I1|]. exists r. auto.
Qed.

(** ** Sums of products *)
Open Scope R_scope.
Lemma sum_perm : forall f l l', Permutation l l' -> sum_over f l = sum_over f l'.
Proof. intros f l l' H. unfold sum_over. induction H; cbn; lra. Qed.
Lemma sum_nonneg : forall f l, (forall p, In p l -> 0 <= f p) -> 0 <= sum_over f l.
Proof. intros f l. induction l as [|p l IH]; intro H; cbn; [lra|]. pose proof (H p (or_introl eq_refl)). assert (0 <= sum_over f l) by (apply IH; intros; apply H; right; assumption). unfold sum_over in *. lra. Qed.
Lemma sum_bound : forall f l k, (forall p, In p l -> f p <= k) -> sum_over f l <= INR (length l) * k.
Proof.
  intros f l k. induction l as [|p l IH]; intro H; cbn [sum_over fold_right length]; [simpl; lra|]. rewrite S_INR. pose proof (H p (or_introl eq_refl)). assert (sum_over f l <= INR (length l) * k) by (apply IH; intros; apply H; right; assumption).
  unfold sum_over in *. lra.
Qed.
Lemma sum_abs : forall f g l, (forall p, In p l -> Rabs (f p) <= g p) -> Rabs (sum_over f l) <= sum_over g l.
Proof.
  intros f g l. induction l as [|p l IH]; intro H; cbn [sum_over fold_right]; [rewrite Rabs_R0; lra|]. pose proof (H p (or_introl eq_refl)). assert (Rabs (sum_over f l) <= sum_over g l) by (apply IH; intros; apply H; right; assumption).
  pose proof (Rabs_triang (f p) (sum_over f l)). unfold sum_over in *. lra.
Qed.
(** one addition to a running sum: [A] is the exact sum, [B] the sum of the
    absolute terms, [k] the number of terms so far *)
Lemma acc_step : forall (s p : f32) v w A B e k delta tau, fn s v -> fn p w -> Rabs (w - e) <= delta * Rabs e + tau -> Rabs (v - A) <= (2 * k * e24 + 2 * delta) * B + k * (2 * tau) -> Rabs A <= B ->
  0 <= k <= 1048576 -> 0 <= delta <= / 8 -> 0 <= tau <= 1 -> B + Rabs e <= 2 ^ 99 ->
  exists v', fn (gadd s p) v' /\ Rabs (v' - (A + e)) <= (2 * (k + 1) * e24 + 2 * delta) * (B + Rabs e) + (k + 1) * (2 * tau) /\ Rabs (A + e) <= B + Rabs e.
Proof.
  intros s p v w A B e k delta tau Fs Fp W V HA K D T BB.
  pose proof (Rabs_pos e) as Pe. pose proof (Rabs_pos A) as PA. assert (PB : 0 <= B) by lra.
  assert (U : e24 = / 16777216) by reflexivity.
  set (E1 := Rabs (v - A)) in *. set (E2 := Rabs (w - e)) in *. set (ep := 2 * k * e24 + 2 * delta) in *.
  assert (EP : 0 <= ep <= / 2) by (unfold ep; rewrite U; lra).
  assert (EB : ep * B <= / 2 * B) by (apply Rmult_le_compat_r; lra).
  assert (DE : delta * Rabs e <= / 8 * Rabs e) by (apply Rmult_le_compat_r; lra).
  assert (KT : k * (2 * tau) <= 1048576 * 2) by (apply Rmult_le_compat; lra).
  assert (P99 : 2 ^ 99 = 633825300114114700748351602688) by (rewrite pow_IZR; reflexivity). rewrite P99 in BB.
  assert (VW : Rabs (v + w) <= B + Rabs e + E1 + E2).
  { replace (v + w) with ((A + e) + ((v - A) + (w - e))) by ring. apply Rle_trans with (1 := Rabs_triang _ _).
    pose proof (Rabs_triang A e). pose proof (Rabs_triang (v - A) (w - e)). unfold E1, E2. lra. }
  assert (B100 : Rabs (v + w) <= bpow radix2 127).
  { apply two100_127. unfold two100. apply Rle_trans with (1 := VW). apply Rle_trans with (2 * 633825300114114700748351602688 + 3000000); [lra|]. lra. }
  destruct (add_err s p v w Fs Fp B100) as (v' & d & F' & Hd & Ev). exists v'. split; [exact F'|]. split; [|apply Rle_trans with (1 := Rabs_triang _ _); lra].
  assert (X : Rabs (v' - (A + e)) <= E1 + E2 + e24 * Rabs (v + w)).
  { rewrite Ev. replace ((v + w) * (1 + d) - (A + e)) with ((v - A) + (w - e) + d * (v + w)) by ring. apply Rle_trans with (1 := Rabs_triang _ _). rewrite Rabs_mult.
    pose proof (Rabs_triang (v - A) (w - e)). assert (Rabs d * Rabs (v + w) <= e24 * Rabs (v + w)) by (apply Rmult_le_compat_r; [apply Rabs_pos|exact Hd]). unfold E1, E2. lra. }
  apply Rle_trans with (1 := X).
  assert (Y : e24 * Rabs (v + w) <= e24 * (B + Rabs e + E1 + E2)) by (apply Rmult_le_compat_l; [rewrite U; lra|exact VW]).
  assert (Q1 : e24 * (ep * B) <= e24 * (/ 2 * B)) by (apply Rmult_le_compat_l; [rewrite U; lra|exact EB]).
  assert (Q2 : k * (2 * tau) * e24 <= / 8 * (2 * tau)).
  { replace (k * (2 * tau) * e24) with (k * e24 * (2 * tau)) by ring. apply Rmult_le_compat_r; [lra|]. rewrite U. lra. }
  assert (Q3 : (2 * (k + 1) * e24 + 2 * delta) * (B + Rabs e) = ep * B + 2 * e24 * B + (ep + 2 * e24) * Rabs e) by (unfold ep; ring). rewrite Q3.
  assert (Q4 : 2 * delta * Rabs e <= ep * Rabs e) by (apply Rmult_le_compat_r; [lra|]; unfold ep; assert (0 <= 2 * k * e24) by (rewrite U; lra); lra).
  assert (Q5 : 0 <= delta * Rabs e) by (apply Rmult_le_pos; lra).
  replace ((k + 1) * (2 * tau)) with (k * (2 * tau) + 2 * tau) by ring. replace ((ep + 2 * e24) * Rabs e) with (ep * Rabs e + 2 * e24 * Rabs e) by ring.
  rewrite Rmult_assoc in Q4. set (de := delta * Rabs e) in *. set (ee := ep * Rabs e) in *. set (eb := ep * B) in *. set (kt := k * (2 * tau)) in *. clearbody de ee eb kt. clearbody E1 E2.
  rewrite U in *. clear - V W Y Q1 Q2 Q4 Q5 Pe PB T DE EB. lra.
Qed.

(** ** Discounted cash flows *)
Lemma p20 : 2 ^ 20 = 1048576. Proof. rewrite pow_IZR. reflexivity. Qed.
Lemma p30 : 2 ^ 30 = 1073741824. Proof. rewrite pow_IZR. reflexivity. Qed.
Lemma p50 : 2 ^ 50 = 1125899906842624. Proof. rewrite pow_IZR. reflexivity. Qed.
Lemma tiny_small : 0 < tiny <= / 2 ^ 120.
Proof.
  split; [apply tiny_pos|]. unfold tiny. apply Rle_trans with (bpow radix2 (-120)); [apply bpow_le; lia|]. change (-120)%Z with (Z.opp 120). rewrite (bpow_opp radix2 120). rewrite <- (IZR_Zpower radix2 120) by lia.
  rewrite pow_IZR. apply Rle_refl.
Qed.
Lemma tiny_1 : 0 <= tiny <= 1.
Proof. pose proof tiny_small. assert (/ 2 ^ 120 <= 1) by (rewrite <- Rinv_1; apply Rinv_le; [lra|]; apply Rle_trans with (2 ^ 0); [simpl; lra|apply Rle_pow; [lra|lia]]). lra. Qed.
Lemma factor_range : forall eval disc d, priced eval disc d -> / 2 ^ 20 <= factor_on eval disc d <= 2 ^ 20.
Proof. intros eval disc d (D & E & _ & B). unfold factor_on. rewrite E. exact B. Qed.
Lemma discounted_err : forall eval disc pricing l s v A B k, Forall (good_flow eval disc pricing) l -> fn s v -> Rabs A <= B -> B <= INR k * 2 ^ 50 ->
  (Z.of_nat (k + length (future pricing l)) <= 1048576)%Z -> Rabs (v - A) <= (2 * INR k * e24 + 2 * e24) * B + INR k * (2 * tiny) ->
  let n := INR (k + length (future pricing l)) in let F := factor_on eval disc in
  exists s' v', discounted l eval disc pricing s = Ret (ROk s') /\ fn s' v' /\
    Rabs (v' - (A + present_value F (future pricing l))) <= (2 * n * e24 + 2 * e24) * (B + present_size F (future pricing l)) + n * (2 * tiny).
Proof.
  intros eval disc pricing l. induction l as [|[d x] l IH]; intros s v A B k G Fs HA HB K V; cbn zeta.
  - exists s, v. split; [reflexivity|]. split; [exact Fs|]. cbn [future filter present_value present_size sum_over fold_right length]. rewrite Nat.add_0_r, !Rplus_0_r. exact V.
  - inversion G as [|? ? G1 G2]; subst. destruct G1 as (Fx & Bx & GD). cbn [fst snd] in *. cbn [discounted]. unfold future in *. cbn [filter fst] in K |- *.
    destruct (Z.ltb_spec (od_day pricing) (od_day d)) as [L|L]; [|exact (IH s v A B k G2 Fs HA HB K V)].
    specialize (GD L). destruct GD as (D & E & FD & BD). rewrite E. cbn [rbind]. cbn [length] in K.
    set (F := factor_on eval disc) in *. assert (EF : F d = value D) by (unfold F, factor_on; rewrite E; reflexivity).
    set (e := value x * value D). rewrite p20 in BD. rewrite p30 in Bx.
    assert (Be : Rabs e <= 2 ^ 50).
    { unfold e. rewrite Rabs_mult, (Rabs_pos_eq (value D)) by lra. rewrite p50. apply Rle_trans with (1073741824 * 1048576); [apply Rmult_le_compat; try lra; apply Rabs_pos|lra]. }
    destruct (mul_err x D (value x) (value D) (conj Fx eq_refl) (conj FD eq_refl)) as (w & dd & t & Fw & Hd & Ht & Ew).
    { apply two100_127. fold e. apply Rle_trans with (1 := Be). rewrite p50. unfold two100. lra. }
    assert (W : Rabs (w - e) <= e24 * Rabs e + tiny).
    { rewrite Ew. fold e. replace (e * (1 + dd) + t - e) with (dd * e + t) by ring. apply Rle_trans with (1 := Rabs_triang _ _). rewrite Rabs_mult. apply Rplus_le_compat; [|exact Ht]. apply Rmult_le_compat_r; [apply Rabs_pos|exact Hd]. }
    assert (KR : 0 <= INR k <= 1048576). { split; [apply pos_INR|]. rewrite INR_IZR_INZ. apply IZR_le. lia. }
    assert (K99 : B + Rabs e <= 2 ^ 99).
    { apply Rle_trans with (1048576 * 2 ^ 50 + 2 ^ 50); [apply Rplus_le_compat; [|exact Be]; apply Rle_trans with (1 := HB); apply Rmult_le_compat_r; [apply pow_le; lra|lra]|].
      rewrite p50. assert (P99 : 2 ^ 99 = 633825300114114700748351602688) by (rewrite pow_IZR; reflexivity). lra. }
    destruct (acc_step s (gmul x D) v w A B e (INR k) e24 tiny Fs Fw W V HA KR ltac:(unfold e24; lra) tiny_1 K99) as (v1 & F1 & V1 & A1).
    assert (SK : INR (Datatypes.S k) = INR k + 1) by apply S_INR. rewrite <- SK in V1.
    destruct (IH (gadd s (gmul x D)) v1 (A + e) (B + Rabs e) (Datatypes.S k) G2 F1 A1) as (s' & v' & Es & Fv & Q).
    { rewrite SK, Rmult_plus_distr_r, Rmult_1_l. apply Rplus_le_compat; assumption. }
    { lia. }
    { exact V1. }
    exists s', v'. split; [exact Es|]. split; [exact Fv|]. cbn zeta in Q. cbn [length]. rewrite <- plus_n_Sm. cbn [Nat.add] in Q. unfold present_value, present_size in *. cbn [sum_over fold_right fst snd]. fold (sum_over (fun p => value (snd p) * F (fst p)) (filter (fun p => (od_day pricing <? od_day (fst p))%Z) l)).
    fold (sum_over (fun p => Rabs (value (snd p)) * F (fst p)) (filter (fun p => (od_day pricing <? od_day (fst p))%Z) l)). rewrite EF. fold e.
    replace (Rabs (value x) * value D) with (Rabs e) by (unfold e; rewrite Rabs_mult, (Rabs_pos_eq (value D)) by lra; reflexivity). rewrite <- !Rplus_assoc. exact Q.
Qed.
Lemma discounted_fails : forall eval disc pricing l s, (forall p, In p l -> (od_day pricing < od_day (fst p))%Z -> exists x, discount_at eval disc (fst p) = Ret x) ->
  (exists p, In p l /\ (od_day pricing < od_day (fst p))%Z /\ discount_at eval disc (fst p) = Ret RErr) -> discounted l eval disc pricing s = Ret RErr.
Proof.
  intros eval disc pricing l. induction l as [|[d x] l IH]; intros s A (p & I & L & E); [destruct I|]. cbn [discounted].
  destruct (Z.ltb_spec (od_day pricing) (od_day d)) as [Ld|Ld].
  - destruct (A (d, x) (or_introl eq_refl) Ld) as (y & Q). cbn [fst] in Q. rewrite Q. destruct y as [y|]; cbn [rbind]; [|reflexivity]. destruct I as [<-|I]; [cbn [fst] in E; congruence|].
    apply IH; [intros q Iq; apply A; right; exact Iq|]. exists p. auto.
  - destruct I as [<-|I]; [cbn [fst] in L; lia|]. apply IH; [intros q Iq; apply A; right; exact Iq|]. exists p. auto.
Qed.
