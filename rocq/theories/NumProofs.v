(** NumProofs.v -- correctness of the SWAR decimal parsers of NumModel.v. *)
From Coq Require Import ZArith List Lia Bool.
From Verif Require Import Base NumModel.
Import ListNotations.
Open Scope Z_scope.

(** ** Lanes *)

Lemma land_lane : forall B b x m y, 0 <= B -> 0 <= b < 2 ^ B -> 0 <= m < 2 ^ B ->
  Z.land (b + 2 ^ B * x) (m + 2 ^ B * y) = Z.land b m + 2 ^ B * Z.land x y.
Proof.
  intros B b x m y HB Hb Hm.
  assert (lane : forall c z, 0 <= c < 2 ^ B -> c + 2 ^ B * z = Z.lor c (Z.shiftl z B)).
  { intros c z Hc.
    assert (D : Z.land c (Z.shiftl z B) = 0).
    { apply Z.bits_inj'; intros n Hn. rewrite Z.land_spec, Z.bits_0, Z.shiftl_spec by lia.
      destruct (Z.ltb_spec n B).
      + rewrite (Z.testbit_neg_r z) by lia. apply andb_false_r.
      + destruct (Z.eq_dec c 0) as [->|]; [rewrite Z.bits_0; reflexivity|].
        rewrite (Z.bits_above_log2 c n); [reflexivity | lia |].
        apply Z.log2_lt_pow2; [lia|]. assert (2 ^ B <= 2 ^ n) by (apply Z.pow_le_mono_r; lia). lia. }
    rewrite <- Z.lxor_lor by exact D. rewrite <- Z.add_nocarry_lxor by exact D.
    rewrite Z.shiftl_mul_pow2 by lia. lia. }
  assert (above : forall c n, 0 <= c < 2 ^ B -> B <= n -> Z.testbit c n = false).
  { intros c n Hc Hn. destruct (Z.eq_dec c 0) as [->|]; [apply Z.bits_0|].
    apply Z.bits_above_log2; [lia|]. apply Z.log2_lt_pow2; [lia|].
    assert (2 ^ B <= 2 ^ n) by (apply Z.pow_le_mono_r; lia). lia. }
  assert (Hlow : 0 <= Z.land b m < 2 ^ B).
  { split; [apply Z.land_nonneg; lia|].
    destruct (Z.eq_dec (Z.land b m) 0) as [E|E]; [rewrite E; lia|].
    assert (0 <= Z.land b m) by (apply Z.land_nonneg; lia).
    destruct (Z_lt_le_dec (Z.land b m) (2 ^ B)) as [|G]; [assumption|].
    exfalso.
    assert (Hl : B <= Z.log2 (Z.land b m)) by (apply Z.log2_le_pow2; lia).
    assert (T : Z.testbit (Z.land b m) (Z.log2 (Z.land b m)) = true) by (apply Z.bit_log2; lia).
    rewrite Z.land_spec, above in T by lia. discriminate. }
  rewrite !lane by assumption.
  apply Z.bits_inj'; intros n Hn.
  rewrite ?Z.land_spec, ?Z.lor_spec, ?Z.land_spec, ?Z.shiftl_spec by lia.
  destruct (Z.ltb_spec n B).
  - rewrite !(Z.testbit_neg_r _ (n - B)) by lia. rewrite !orb_false_r. reflexivity.
  - rewrite (above b), (above m) by lia. rewrite Z.land_spec. reflexivity.
Qed.

Lemma land_small : forall B x, 0 <= B -> 0 <= x < 2 ^ B -> Z.land x (2 ^ B - 1) = x.
Proof.
  intros B x HB Hx. replace (2 ^ B - 1) with (Z.ones B) by (rewrite Z.ones_equiv; lia).
  rewrite Z.land_ones by lia. apply Z.mod_small; lia.
Qed.

(** Lanes of pairs: [a] in the low half of each double lane, [b] in the high half. *)
Fixpoint pairs (B : Z) (ps : list (Z * Z)) : Z :=
  match ps with [] => 0 | (a, b) :: r => a + 2 ^ B * (b + 2 ^ B * pairs B r) end.
Fixpoint lanes (W : Z) (l : list Z) : Z :=
  match l with [] => 0 | a :: r => a + 2 ^ W * lanes W r end.

Definition in_lane (B : Z) (p : Z * Z) := 0 <= fst p < 2 ^ B /\ 0 <= snd p < 2 ^ B.

Lemma pairs_land : forall B M N ps, 0 <= B -> 0 <= M < 2 ^ B -> 0 <= N < 2 ^ B ->
  Forall (in_lane B) ps ->
  Z.land (pairs B ps) (pairs B (map (fun _ => (M, N)) ps))
  = pairs B (map (fun p => (Z.land (fst p) M, Z.land (snd p) N)) ps).
Proof.
  intros B M N ps HB HM HN. induction ps as [|[a b] r IH]; intros F; [reflexivity|].
  apply Forall_cons_iff in F. destruct F as [[Ha Hb] F]. cbn [fst snd] in *.
  cbn [pairs map fst snd]. rewrite !land_lane by assumption. rewrite (IH F). reflexivity.
Qed.

Lemma land_bound : forall a M, 0 <= a -> 0 <= M -> 0 <= Z.land a M <= M.
Proof.
  intros a M Ha HM. split; [apply Z.land_nonneg; lia|].
  rewrite Z.land_comm. apply Z.ldiff_le; [lia|].
  apply Z.bits_inj'; intros n Hn. rewrite Z.ldiff_spec, Z.land_spec, Z.bits_0.
  destruct (Z.testbit M n), (Z.testbit a n); reflexivity.
Qed.

Lemma lanes_bound : forall W l, 0 <= W -> Forall (fun x => 0 <= x < 2 ^ W) l ->
  0 <= lanes W l < 2 ^ (W * Z.of_nat (length l)).
Proof.
  intros W l HW. induction l as [|a r IH]; intros F.
  - cbn. rewrite Z.mul_0_r. cbn. lia.
  - apply Forall_cons_iff in F. destruct F as [Ha F]. specialize (IH F).
    cbn [lanes length]. rewrite Nat2Z.inj_succ, Z.mul_succ_r, Z.add_comm, Z.pow_add_r by lia.
    nia.
Qed.

Lemma pairs_hi : forall B l, 0 <= B ->
  Z.shiftr (pairs B (map (fun b => (0, b)) l)) B = lanes (B + B) l.
Proof.
  intros B l HB. rewrite Z.shiftr_div_pow2 by lia.
  assert (E : pairs B (map (fun b => (0, b)) l) = lanes (B + B) l * 2 ^ B).
  { induction l as [|b r IH]; [reflexivity|]. cbn [map pairs lanes]. rewrite IH, Z.pow_add_r by lia. ring. }
  rewrite E. apply Z.div_mul. apply Z.pow_nonzero; lia.
Qed.

Lemma pairs_lo : forall B l, 0 <= B -> pairs B (map (fun a => (a, 0)) l) = lanes (B + B) l.
Proof.
  intros B l HB. induction l as [|a r IH]; [reflexivity|].
  cbn [map pairs lanes]. rewrite IH, Z.pow_add_r by lia. ring.
Qed.

Lemma wmul_ok : forall m w a b, a * b < 2 ^ w -> wmul m w a b = Ret (a * b).
Proof. intros m w a b H. unfold wmul. destruct (Z.ltb_spec (a * b) (2 ^ w)); [reflexivity | lia]. Qed.
Lemma wadd_ok : forall m w a b, a + b < 2 ^ w -> wadd m w a b = Ret (a + b).
Proof. intros m w a b H. unfold wadd. destruct (Z.ltb_spec (a + b) (2 ^ w)); [reflexivity | lia]. Qed.
Lemma wshl_ok : forall m w x k, k < w -> wshl m w x k = Ret ((x * 2 ^ k) mod 2 ^ w).
Proof. intros m w x k H. unfold wshl. destruct (Z.ltb_spec k w); [reflexivity | lia]. Qed.

(** One SWAR step merges the two halves of every double lane. *)
Lemma swar_step_pairs : forall m w B M f lo hi ps,
  0 <= B -> 0 <= M < 2 ^ B -> 0 <= f -> M * f + M < 2 ^ (B + B) ->
  w = (B + B) * Z.of_nat (length ps) ->
  lo = pairs B (map (fun _ => (0, M)) ps) -> hi = pairs B (map (fun _ => (M, 0)) ps) ->
  Forall (in_lane B) ps ->
  swar_step m w lo B hi f (pairs B ps)
  = Ret (lanes (B + B) (map (fun p => Z.land (snd p) M + Z.land (fst p) M * f) ps)).
Proof.
  intros m w B M f lo hi ps HB HM Hf Hb -> -> -> F.
  assert (P : 0 < 2 ^ B) by (apply Z.pow_pos_nonneg; lia).
  unfold swar_step. rewrite !pairs_land by (assumption || lia).
  rewrite (map_ext (fun p => (Z.land (fst p) 0, Z.land (snd p) M)) (fun p => (0, Z.land (snd p) M)))
    by (intros; rewrite Z.land_0_r; reflexivity).
  rewrite (map_ext (fun p => (Z.land (fst p) M, Z.land (snd p) 0)) (fun p => (Z.land (fst p) M, 0)))
    by (intros; rewrite Z.land_0_r; reflexivity).
  rewrite <- (map_map (fun p : Z * Z => Z.land (snd p) M) (fun b => (0, b))).
  rewrite <- (map_map (fun p : Z * Z => Z.land (fst p) M) (fun b => (b, 0))).
  rewrite pairs_hi, pairs_lo by lia.
  assert (S1 : lanes (B + B) (map (fun p : Z * Z => Z.land (fst p) M) ps) * f
               = lanes (B + B) (map (fun p : Z * Z => Z.land (fst p) M * f) ps)).
  { clear. induction ps as [|p r IH]; [reflexivity|]. cbn [map lanes].
    rewrite <- IH. ring. }
  assert (S2 : lanes (B + B) (map (fun p : Z * Z => Z.land (snd p) M) ps)
               + lanes (B + B) (map (fun p : Z * Z => Z.land (fst p) M * f) ps)
               = lanes (B + B) (map (fun p : Z * Z => Z.land (snd p) M + Z.land (fst p) M * f) ps)).
  { clear. induction ps as [|p r IH]; [reflexivity|]. cbn [map lanes].
    rewrite <- IH. ring. }
  assert (B1 : lanes (B + B) (map (fun p : Z * Z => Z.land (fst p) M * f) ps)
               < 2 ^ ((B + B) * Z.of_nat (length ps))).
  { rewrite <- (map_length (fun p : Z * Z => Z.land (fst p) M * f) ps).
    apply lanes_bound; [lia|]. apply Forall_map. eapply Forall_impl; [|exact F].
    intros [a b] [Ha Hb']; cbn [fst snd] in *.
    pose proof (land_bound a M ltac:(lia) ltac:(lia)). nia. }
  assert (B2 : lanes (B + B) (map (fun p : Z * Z => Z.land (snd p) M + Z.land (fst p) M * f) ps)
               < 2 ^ ((B + B) * Z.of_nat (length ps))).
  { rewrite <- (map_length (fun p : Z * Z => Z.land (snd p) M + Z.land (fst p) M * f) ps).
    apply lanes_bound; [lia|]. apply Forall_map. eapply Forall_impl; [|exact F].
    intros [a b] [Ha Hb']; cbn [fst snd] in *.
    pose proof (land_bound a M ltac:(lia) ltac:(lia)).
    pose proof (land_bound b M ltac:(lia) ltac:(lia)). nia. }
  rewrite wmul_ok by (rewrite S1; exact B1). cbn [obind].
  rewrite wadd_ok by (rewrite S1, S2; exact B2). rewrite S1, S2. reflexivity.
Qed.

(** ** Decimal value of the low nibbles *)
Definition is_byte (b : Z) : Prop := 0 <= b < 256.
Definition nib (b : Z) : Z := Z.land b 15.
Definition dec (l : list Z) : Z := fold_left (fun a b => 10 * a + nib b) l 0.

Lemma nib_bound : forall b, is_byte b -> 0 <= nib b <= 15.
Proof. intros b [Hb _]. apply land_bound; lia. Qed.

Ltac lane_bounds := repeat (apply Forall_cons || apply Forall_nil); unfold in_lane; cbn [fst snd].

Lemma u64_decimal : forall m b0 b1 b2 b3 b4 b5 b6 b7,
  Forall is_byte [b0; b1; b2; b3; b4; b5; b6; b7] ->
  u8_chunk_to_u64_decimal m (le [b0; b1; b2; b3; b4; b5; b6; b7])
  = Ret (dec [b0; b1; b2; b3; b4; b5; b6; b7]).
Proof.
  intros m b0 b1 b2 b3 b4 b5 b6 b7 F.
  repeat (apply Forall_cons_iff in F; destruct F as [?H F]).
  repeat match goal with H : is_byte ?b |- _ =>
    pose proof (nib_bound b H); unfold is_byte in H end.
  unfold u8_chunk_to_u64_decimal.
  change (le [b0; b1; b2; b3; b4; b5; b6; b7])
    with (pairs 8 [(b0, b1); (b2, b3); (b4, b5); (b6, b7)]).
  rewrite (swar_step_pairs m 64 8 15 10) by (reflexivity || lia || (lane_bounds; lia)).
  cbn [obind map fst snd]. fold (nib b0) (nib b1) (nib b2) (nib b3) (nib b4) (nib b5) (nib b6) (nib b7).
  remember (nib b1 + nib b0 * 10) as c0. remember (nib b3 + nib b2 * 10) as c1.
  remember (nib b5 + nib b4 * 10) as c2. remember (nib b7 + nib b6 * 10) as c3.
  change (lanes (8 + 8) [c0; c1; c2; c3]) with (pairs 16 [(c0, c1); (c2, c3)]).
  rewrite (swar_step_pairs m 64 16 255 100) by (reflexivity || lia || (lane_bounds; lia)).
  cbn [obind map fst snd].
  rewrite !(land_small 8 _) by lia.
  remember (c1 + c0 * 100) as d0. remember (c3 + c2 * 100) as d1.
  change (lanes (16 + 16) [d0; d1]) with (pairs 32 [(d0, d1)]).
  rewrite (swar_step_pairs m 64 32 65535 10000) by (reflexivity || lia || (lane_bounds; lia)).
  cbn [map fst snd lanes]. rewrite !(land_small 16 _) by lia.
  f_equal. unfold dec. cbn [fold_left]. lia.
Qed.

Lemma u128_decimal : forall m b0 b1 b2 b3 b4 b5 b6 b7 b8 b9 b10 b11 b12 b13 b14 b15,
  Forall is_byte [b0; b1; b2; b3; b4; b5; b6; b7; b8; b9; b10; b11; b12; b13; b14; b15] ->
  u8_chunk_to_u128_decimal m (le [b0; b1; b2; b3; b4; b5; b6; b7; b8; b9; b10; b11; b12; b13; b14; b15])
  = Ret (dec [b0; b1; b2; b3; b4; b5; b6; b7; b8; b9; b10; b11; b12; b13; b14; b15]).
Proof.
  intros m b0 b1 b2 b3 b4 b5 b6 b7 b8 b9 b10 b11 b12 b13 b14 b15 F.
  repeat (apply Forall_cons_iff in F; destruct F as [?H F]).
  repeat match goal with H : is_byte ?b |- _ =>
    pose proof (nib_bound b H); unfold is_byte in H end.
  unfold u8_chunk_to_u128_decimal.
  change (le [b0; b1; b2; b3; b4; b5; b6; b7; b8; b9; b10; b11; b12; b13; b14; b15])
    with (pairs 8 [(b0, b1); (b2, b3); (b4, b5); (b6, b7); (b8, b9); (b10, b11); (b12, b13); (b14, b15)]).
  rewrite (swar_step_pairs m 128 8 15 10) by (reflexivity || lia || (lane_bounds; lia)).
  cbn [obind map fst snd].
  fold (nib b0) (nib b1) (nib b2) (nib b3) (nib b4) (nib b5) (nib b6) (nib b7)
       (nib b8) (nib b9) (nib b10) (nib b11) (nib b12) (nib b13) (nib b14) (nib b15).
  remember (nib b1 + nib b0 * 10) as c0. remember (nib b3 + nib b2 * 10) as c1.
  remember (nib b5 + nib b4 * 10) as c2. remember (nib b7 + nib b6 * 10) as c3.
  remember (nib b9 + nib b8 * 10) as c4. remember (nib b11 + nib b10 * 10) as c5.
  remember (nib b13 + nib b12 * 10) as c6. remember (nib b15 + nib b14 * 10) as c7.
  change (lanes (8 + 8) [c0; c1; c2; c3; c4; c5; c6; c7])
    with (pairs 16 [(c0, c1); (c2, c3); (c4, c5); (c6, c7)]).
  rewrite (swar_step_pairs m 128 16 255 100) by (reflexivity || lia || (lane_bounds; lia)).
  cbn [obind map fst snd].
  rewrite !(land_small 8 _) by lia.
  remember (c1 + c0 * 100) as d0. remember (c3 + c2 * 100) as d1.
  remember (c5 + c4 * 100) as d2. remember (c7 + c6 * 100) as d3.
  change (lanes (16 + 16) [d0; d1; d2; d3]) with (pairs 32 [(d0, d1); (d2, d3)]).
  rewrite (swar_step_pairs m 128 32 65535 10000) by (reflexivity || lia || (lane_bounds; lia)).
  cbn [obind map fst snd]. rewrite !(land_small 16 _) by lia.
  remember (d1 + d0 * 10000) as e0. remember (d3 + d2 * 10000) as e1.
  change (lanes (32 + 32) [e0; e1]) with (pairs 64 [(e0, e1)]).
  rewrite (swar_step_pairs m 128 64 4294967295 100000000) by (reflexivity || lia || (lane_bounds; lia)).
  cbn [map fst snd lanes]. rewrite !(land_small 32 _) by lia.
  f_equal. unfold dec. cbn [fold_left]. lia.
Qed.

Lemma u64_decimal_list : forall m l, length l = 8%nat -> Forall is_byte l ->
  u8_chunk_to_u64_decimal m (le l) = Ret (dec l).
Proof.
  intros m l L F.
  do 8 (destruct l as [|?b l]; [discriminate L|]). destruct l; [|discriminate L].
  apply u64_decimal; assumption.
Qed.

Lemma u128_decimal_list : forall m l, length l = 16%nat -> Forall is_byte l ->
  u8_chunk_to_u128_decimal m (le l) = Ret (dec l).
Proof.
  intros m l L F.
  do 16 (destruct l as [|?b l]; [discriminate L|]). destruct l; [|discriminate L].
  apply u128_decimal; assumption.
Qed.

(** ** Shifts of byte lists *)

Lemma le_bound : forall l, Forall is_byte l -> 0 <= le l < 256 ^ Z.of_nat (length l).
Proof.
  induction l as [|b r IH]; intros F; [cbn; lia|].
  apply Forall_cons_iff in F. destruct F as [Hb F]. specialize (IH F). unfold is_byte in Hb.
  cbn [length]. rewrite Nat2Z.inj_succ, Z.pow_succ_r by lia.
  change (le (b :: r)) with (b + 256 * le r). lia.
Qed.

Lemma le_app : forall a b, le (a ++ b) = le a + 256 ^ Z.of_nat (length a) * le b.
Proof.
  induction a as [|x r IH]; intros b; [cbn [app length]; change (le []) with 0; rewrite Z.pow_0_r; lia|].
  cbn [app length]. change (le (x :: r ++ b)) with (x + 256 * le (r ++ b)).
  change (le (x :: r)) with (x + 256 * le r).
  rewrite IH, Nat2Z.inj_succ, Z.pow_succ_r by lia. ring.
Qed.

Lemma le_zeros : forall k, le (repeat 0 k) = 0.
Proof. induction k as [|k IH]; [reflexivity|]. cbn [repeat]. change (le (0 :: repeat 0 k)) with (0 + 256 * le (repeat 0 k)). lia. Qed.

Lemma le_mod : forall l k, Forall is_byte l -> le l mod 256 ^ Z.of_nat k = le (firstn k l).
Proof.
  intros l k F. rewrite <- (firstn_skipn k l) at 1.
  assert (F1 : Forall is_byte (firstn k l)).
  { apply Forall_forall. intros x Hx. rewrite Forall_forall in F. apply F.
    rewrite <- (firstn_skipn k l). apply in_or_app. left; exact Hx. }
  pose proof (le_bound _ F1) as Bd. rewrite le_app.
  destruct (Nat.le_gt_cases k (length l)) as [H|H].
  - rewrite firstn_length_le in * by exact H.
    rewrite (Z.mul_comm (256 ^ _)), Z.mod_add by (apply Z.pow_nonzero; lia). apply Z.mod_small; exact Bd.
  - rewrite skipn_all2 by lia. change (le []) with 0. rewrite Z.mul_0_r, Z.add_0_r.
    apply Z.mod_small. split; [lia|]. eapply Z.lt_le_trans; [apply Bd|].
    apply Z.pow_le_mono_r; [lia|]. rewrite firstn_all2 by lia. lia.
Qed.

Lemma pow256 : forall k, 256 ^ k = 2 ^ (8 * k).
Proof.
  intros k. destruct (Z_le_gt_dec 0 k).
  - rewrite Z.pow_mul_r by lia. reflexivity.
  - rewrite !Z.pow_neg_r by lia. reflexivity.
Qed.

Lemma shl_le : forall l k n, Forall is_byte l -> (k <= n)%nat ->
  (le l * 2 ^ (8 * Z.of_nat k)) mod 2 ^ (8 * Z.of_nat n) = le (repeat 0 k ++ firstn (n - k) l).
Proof.
  intros l k n F H. rewrite <- !pow256, le_app, le_zeros, repeat_length.
  rewrite <- (le_mod l (n - k) F).
  replace (Z.of_nat n) with (Z.of_nat k + Z.of_nat (n - k)) by lia.
  rewrite Z.pow_add_r by lia. rewrite Z.mul_comm, Zmult_mod_distr_l. lia.
Qed.

(** ** Bytes of a slice *)
Definition bytes_of (u : slice) (a n : nat) : list Z := map (s_at u) (seq a n).
Definition all_bytes (u : slice) : Prop := forall i, is_byte (s_at u i).

Lemma bytes_of_length : forall u a n, length (bytes_of u a n) = n.
Proof. intros. unfold bytes_of. rewrite map_length, seq_length. reflexivity. Qed.
Lemma bytes_of_bytes : forall u a n, all_bytes u -> Forall is_byte (bytes_of u a n).
Proof. intros u a n H. unfold bytes_of. apply Forall_map, Forall_forall. intros; apply H. Qed.
Lemma bytes_of_app : forall u a n k, bytes_of u a (n + k) = bytes_of u a n ++ bytes_of u (a + n) k.
Proof. intros. unfold bytes_of. rewrite seq_app, map_app. reflexivity. Qed.
Lemma bytes_of_firstn : forall u a n k, (k <= n)%nat -> firstn k (bytes_of u a n) = bytes_of u a k.
Proof.
  intros u a n k H. replace n with (k + (n - k))%nat by lia. rewrite bytes_of_app.
  rewrite firstn_app, bytes_of_length, Nat.sub_diag, firstn_all2 by (rewrite bytes_of_length; lia).
  cbn [firstn]. apply app_nil_r.
Qed.
Lemma bytes_of_skipn : forall u a n k, (k <= n)%nat -> skipn k (bytes_of u a n) = bytes_of u (a + k) (n - k).
Proof.
  intros u a n k H. replace n with (k + (n - k))%nat at 1 by lia. rewrite bytes_of_app.
  rewrite skipn_app, bytes_of_length, Nat.sub_diag, skipn_all2 by (rewrite bytes_of_length; lia).
  reflexivity.
Qed.
Lemma bytes_of_shift : forall u a b n L C,
  bytes_of (Slice (fun i => s_at u (a + i)%nat) L C) b n = bytes_of u (a + b) n.
Proof.
  intros u a b n L C. unfold bytes_of. cbn [s_at].
  revert b. induction n as [|n IH]; intros b; [reflexivity|].
  cbn [seq map]. f_equal. rewrite IH. f_equal. f_equal. lia.
Qed.

Lemma repeat_bytes : forall k, Forall is_byte (repeat 0 k).
Proof. intros k. apply Forall_forall. intros x Hx. apply repeat_spec in Hx. subst. unfold is_byte. lia. Qed.

Lemma dec_app_acc : forall l a, fold_left (fun a b => 10 * a + nib b) l a = dec l + a * 10 ^ Z.of_nat (length l).
Proof.
  unfold dec. induction l as [|b r IH]; intros a; [cbn; lia|].
  cbn [fold_left length]. rewrite IH, (IH (10 * 0 + nib b)), Nat2Z.inj_succ, Z.pow_succ_r by lia. ring.
Qed.
Lemma dec_app : forall a b, dec (a ++ b) = dec a * 10 ^ Z.of_nat (length b) + dec b.
Proof. intros a b. unfold dec at 1. rewrite fold_left_app. fold (dec a). rewrite dec_app_acc. lia. Qed.
Lemma dec_zeros : forall k l, dec (repeat 0 k ++ l) = dec l.
Proof.
  intros k l. rewrite dec_app. assert (E : dec (repeat 0 k) = 0).
  { induction k as [|k IH]; [reflexivity|]. cbn [repeat].
    change (0 :: repeat 0 k) with ([0] ++ repeat 0 k). rewrite dec_app, IH. reflexivity. }
  rewrite E. lia.
Qed.
Lemma dec_bound : forall l, Forall is_byte l -> 0 <= dec l /\ 3 * dec l <= 5 * (10 ^ Z.of_nat (length l) - 1).
Proof.
  intros l. induction l as [|b r IH]; intros F; [cbn; lia|].
  apply Forall_cons_iff in F. destruct F as [Hb F]. specialize (IH F).
  change (b :: r) with ([b] ++ r). rewrite dec_app, app_length, Nat2Z.inj_add.
  cbn [length]. rewrite Z.pow_add_r by lia. change (10 ^ Z.of_nat 1) with 10.
  change (dec [b]) with (10 * 0 + nib b). pose proof (nib_bound b Hb).
  assert (0 < 10 ^ Z.of_nat (length r)) by (apply Z.pow_pos_nonneg; lia). nia.
Qed.

(** ** The parsers of undotted numbers *)
Lemma read_le_ok : forall n u, (n <= s_cap u)%nat -> read_le n u = Ret (le (bytes_of u 0 n)).
Proof. intros n u H. unfold read_le. rewrite (proj2 (Nat.leb_le _ _) H). reflexivity. Qed.

Lemma parse_under8_ok : forall m u n, all_bytes u -> (1 <= n <= 8)%nat -> (8 <= s_cap u)%nat ->
  parse_under8 m u n = Ret (dec (bytes_of u 0 n)).
Proof.
  intros m u n A H C. unfold parse_under8, debug_assert.
  rewrite (proj2 (Nat.leb_le n 8)) by lia.
  assert (X : (match m with Checked => Ret tt | Wrapping => Ret tt end) = Ret tt) by (destruct m; reflexivity).
  rewrite X; cbn [obind]; clear X.
  rewrite (read_le_ok 8 u C), umul_ok by (unfold two64; lia). cbn [obind].
  rewrite usub_ok by lia. cbn [obind]. rewrite wshl_ok by lia. cbn [obind].
  replace (64 - Z.of_nat n * 8) with (8 * Z.of_nat (8 - n)) by lia.
  change (2 ^ 64) with (2 ^ (8 * Z.of_nat 8)).
  rewrite shl_le by (try apply bytes_of_bytes; assumption || lia).
  replace (8 - (8 - n))%nat with n by lia. rewrite bytes_of_firstn by lia.
  rewrite u64_decimal_list, dec_zeros; [reflexivity | |].
  - rewrite app_length, repeat_length, bytes_of_length. lia.
  - apply Forall_app; split; [apply repeat_bytes | apply bytes_of_bytes; exact A].
Qed.

Lemma parse_under16_ok : forall m u n, all_bytes u -> (1 <= n <= 16)%nat -> (16 <= s_cap u)%nat ->
  parse_under16 m u n = Ret (dec (bytes_of u 0 n)).
Proof.
  intros m u n A H C. unfold parse_under16, debug_assert.
  rewrite (proj2 (Nat.leb_le n 16)) by lia.
  assert (X : (match m with Checked => Ret tt | Wrapping => Ret tt end) = Ret tt) by (destruct m; reflexivity).
  rewrite X; cbn [obind]; clear X.
  rewrite (read_le_ok 16 u C), umul_ok by (unfold two64; lia). cbn [obind].
  rewrite usub_ok by lia. cbn [obind]. rewrite wshl_ok by lia. cbn [obind].
  replace (128 - Z.of_nat n * 8) with (8 * Z.of_nat (16 - n)) by lia.
  change (2 ^ 128) with (2 ^ (8 * Z.of_nat 16)).
  rewrite shl_le by (try apply bytes_of_bytes; assumption || lia).
  replace (16 - (16 - n))%nat with n by lia. rewrite bytes_of_firstn by lia.
  rewrite u128_decimal_list, dec_zeros; [reflexivity | |].
  - rewrite app_length, repeat_length, bytes_of_length. lia.
  - apply Forall_app; split; [apply repeat_bytes | apply bytes_of_bytes; exact A].
Qed.

Lemma shifted_bytes : forall u a L C, all_bytes u -> all_bytes (Slice (fun i => s_at u (a + i)%nat) L C).
Proof. intros u a L C A i. apply A. Qed.

Lemma pow10_ok : forall m e, (e <= 38)%nat -> pow10_u128 m e = Ret (10 ^ Z.of_nat e).
Proof.
  intros m e H. unfold pow10_u128. destruct (Z.ltb_spec (10 ^ Z.of_nat e) (2 ^ 128)) as [|G]; [reflexivity|].
  exfalso. assert (10 ^ Z.of_nat e <= 10 ^ 38) by (apply Z.pow_le_mono_r; lia).
  assert (10 ^ 38 < 2 ^ 128) by reflexivity. lia.
Qed.

Lemma parse_under32_ok : forall m u n, all_bytes u -> (17 <= n <= 32)%nat -> (16 <= s_len u)%nat ->
  (32 <= s_cap u)%nat ->
  parse_under32 m u n = Ret (dec (bytes_of u 0 n)).
Proof.
  intros m u n A H L C. unfold parse_under32, debug_assert, split_at.
  rewrite (proj2 (Nat.leb_le 16 n)), (proj2 (Nat.leb_le n 32)), (proj2 (Nat.leb_le 16 (s_len u))) by lia.
  assert (X : (match m with Checked => if (true && true)%bool then Ret tt else Panic | Wrapping => Ret tt end) = Ret tt)
    by (destruct m; reflexivity).
  rewrite X; cbn [obind]; clear X.
  rewrite (proj2 (Nat.ltb_ge n 16)) by lia.
  rewrite parse_under16_ok by (cbn [s_cap]; lia || exact A). cbn [obind].
  rewrite pow10_ok by lia. cbn [obind].
  pose proof (bytes_of_bytes u 0 16 A) as F1.
  pose proof (dec_bound _ F1) as B1. rewrite bytes_of_length in B1.
  change (10 ^ Z.of_nat 16) with 10000000000000000 in B1.
  change (bytes_of (Slice (s_at u) 16 (s_cap u)) 0 16) with (bytes_of u 0 16).
  set (lw := Slice (fun i => s_at u (16 + i)%nat) (s_len u - 16) (s_cap u - 16)).
  pose proof (bytes_of_bytes lw 0 (n - 16) (shifted_bytes u 16 _ _ A)) as F2.
  pose proof (dec_bound _ F2) as B2. rewrite bytes_of_length in B2.
  assert (P : 0 < 10 ^ Z.of_nat (n - 16) <= 10 ^ 16)
    by (split; [apply Z.pow_pos_nonneg; lia | apply Z.pow_le_mono_r; lia]).
  change (10 ^ 16) with 10000000000000000 in P.
  assert (Q : dec (bytes_of u 0 16) * 10 ^ Z.of_nat (n - 16) <= 16666666666666666 * 10000000000000000)
    by (apply Z.mul_le_mono_nonneg; lia).
  assert (T : 2 ^ 128 = 340282366920938463463374607431768211456) by reflexivity.
  rewrite wmul_ok by lia. cbn [obind].
  rewrite (parse_under16_ok m lw) by (try apply shifted_bytes; try exact A; unfold lw; cbn [s_cap]; lia).
  cbn [obind]. rewrite wadd_ok by lia.
  f_equal. replace n with (16 + (n - 16))%nat at 3 by lia. rewrite bytes_of_app, dec_app, bytes_of_length.
  unfold lw. rewrite bytes_of_shift. reflexivity.
Qed.

(** ** Removing the decimal point *)

Lemma land_high : forall w k x, 0 <= k <= w -> 0 <= x < 2 ^ w ->
  Z.land x (2 ^ w - 2 ^ k) = x - x mod 2 ^ k.
Proof.
  intros w k x Hk Hx.
  assert (P : 0 < 2 ^ k) by (apply Z.pow_pos_nonneg; lia).
  assert (E : 2 ^ w = 2 ^ k * 2 ^ (w - k)) by (rewrite <- Z.pow_add_r by lia; f_equal; lia).
  rewrite (Z.div_mod x (2 ^ k)) at 1 by lia.
  replace (2 ^ k * (x / 2 ^ k) + x mod 2 ^ k) with (x mod 2 ^ k + 2 ^ k * (x / 2 ^ k)) by ring.
  replace (2 ^ w - 2 ^ k) with (0 + 2 ^ k * (2 ^ (w - k) - 1)) by (rewrite E; ring).
  rewrite land_lane by (try apply Z.mod_pos_bound; lia).
  rewrite Z.land_0_r, land_small.
  - pose proof (Z.div_mod x (2 ^ k)). lia.
  - lia.
  - split; [apply Z.div_pos; lia|]. apply Z.div_lt_upper_bound; [lia|]. rewrite <- E. lia.
Qed.

Lemma drop_point_ok : forall m nb c p, (nb = 8 \/ nb = 16)%nat -> length c = nb -> Forall is_byte c ->
  (2 <= p <= nb)%nat ->
  drop_point m (8 * Z.of_nat nb) (Z.of_nat nb) (le c) p
  = Ret (le (0 :: firstn (nb - p) c ++ skipn (S (nb - p)) c)).
Proof.
  intros m nb c p Hnb Lc F Hp. unfold drop_point.
  rewrite usub_ok by lia. cbn [obind].
  rewrite umul_ok by (unfold two64; lia). cbn [obind].
  rewrite wshl_ok by lia. cbn [obind].
  set (q := (nb - p)%nat) in *.
  replace ((Z.of_nat nb + 1 - Z.of_nat p) * 8) with (8 * Z.of_nat (S q)) by (unfold q; lia).
  set (w := 8 * Z.of_nat nb). set (k := 8 * Z.of_nat (S q)).
  assert (Hk : 8 <= k < w) by (unfold k, w, q; lia).
  assert (Pk : 0 < 2 ^ k) by (apply Z.pow_pos_nonneg; lia).
  assert (E : 2 ^ w = 2 ^ k * 2 ^ (w - k)) by (rewrite <- Z.pow_add_r by lia; f_equal; lia).
  assert (M : ((2 ^ w - 1) * 2 ^ k) mod 2 ^ w = 2 ^ w - 2 ^ k).
  { replace ((2 ^ w - 1) * 2 ^ k) with ((2 ^ w - 2 ^ k) + (2 ^ k - 1) * 2 ^ w) by ring.
    rewrite Z.mod_add by (apply Z.pow_nonzero; lia). apply Z.mod_small.
    assert (2 ^ k <= 2 ^ w) by (apply Z.pow_le_mono_r; lia). lia. }
  rewrite M.
  assert (Nt : wnot w (2 ^ w - 2 ^ k) = 2 ^ k - 1) by (unfold wnot; lia).
  rewrite Nt.
  assert (Sh : Z.shiftr (2 ^ k - 1) 8 = 2 ^ (8 * Z.of_nat q) - 1).
  { rewrite Z.shiftr_div_pow2 by lia. unfold k. replace (8 * Z.of_nat (S q)) with (8 + 8 * Z.of_nat q) by lia.
    rewrite Z.pow_add_r by lia. change (2 ^ 8) with 256.
    symmetry. apply Z.div_unique with (r := 255); lia. }
  rewrite Sh.
  pose proof (le_bound c F) as Bd. rewrite Lc, pow256 in Bd. fold w in Bd.
  assert (L1 : Z.land (le c) (2 ^ (8 * Z.of_nat q) - 1) = le (firstn q c)).
  { replace (2 ^ (8 * Z.of_nat q) - 1) with (Z.ones (8 * Z.of_nat q)) by (rewrite Z.ones_equiv; lia).
    rewrite Z.land_ones by lia. rewrite <- pow256. apply le_mod; exact F. }
  rewrite L1.
  assert (Fq : Forall is_byte (firstn q c)).
  { rewrite <- (firstn_skipn q c) in F. apply Forall_app in F. apply F. }
  rewrite wshl_ok by lia. cbn [obind].
  assert (L2 : (le (firstn q c) * 2 ^ 8) mod 2 ^ w = 256 * le (firstn q c)).
  { rewrite Z.mod_small; [change (2 ^ 8) with 256; lia|].
    pose proof (le_bound _ Fq) as Bq. rewrite firstn_length_le, pow256 in Bq by (rewrite Lc; unfold q; lia).
    split; [change (2 ^ 8) with 256; lia|].
    apply Z.lt_le_trans with (2 ^ (8 * Z.of_nat q) * 2 ^ 8).
    - apply Z.mul_lt_mono_pos_r; [reflexivity|]. lia.
    - rewrite <- Z.pow_add_r by lia. apply Z.pow_le_mono_r; lia. }
  rewrite L2.
  rewrite land_high by (assumption || lia).
  assert (Sk : le c - le c mod 2 ^ k = 256 ^ Z.of_nat (S q) * le (skipn (S q) c)).
  { rewrite <- (firstn_skipn (S q) c) at 1. rewrite le_app, firstn_length_le by (rewrite Lc; unfold q; lia).
    unfold k. rewrite <- pow256, (le_mod c (S q) F). lia. }
  rewrite Sk.
  assert (R : 256 ^ Z.of_nat (S q) * le (skipn (S q) c) + 256 * le (firstn q c)
              = le (0 :: firstn q c ++ skipn (S q) c)).
  { change (le (0 :: firstn q c ++ skipn (S q) c)) with (0 + 256 * le (firstn q c ++ skipn (S q) c)).
    rewrite le_app, firstn_length_le by (rewrite Lc; unfold q; lia).
    rewrite Nat2Z.inj_succ, Z.pow_succ_r by lia. ring. }
  rewrite wadd_ok; [rewrite R; reflexivity|].
  rewrite R.
  assert (F2 : Forall is_byte (0 :: firstn q c ++ skipn (S q) c)).
  { constructor; [unfold is_byte; lia|]. apply Forall_app; split; [exact Fq|].
    rewrite <- (firstn_skipn (S q) c) in F. apply Forall_app in F. apply F. }
  pose proof (le_bound _ F2) as B2.
  cbn [length] in B2. rewrite app_length, firstn_length_le, skipn_length, Lc in B2 by (rewrite Lc; unfold q; lia).
  rewrite pow256 in B2. replace (8 * Z.of_nat (S (q + (nb - S q)))) with w in B2 by (unfold w, q; lia). lia.
Qed.

(** The characters of a dotted number of [n] characters whose point is the
    [p]-th character from the end. *)
Definition undotted (u : slice) (a n p : nat) : list Z :=
  match p with
  | O => bytes_of u a n
  | _ => bytes_of u a (n - p) ++ bytes_of u (a + (n - p) + 1) (p - 1)
  end.

Lemma assert_true : forall m, debug_assert m true = Ret tt.
Proof. destruct m; reflexivity. Qed.

Lemma dropped_list : forall nb u n p, (n <= nb)%nat -> (2 <= p <= n)%nat ->
  firstn (nb - p) (repeat 0 (nb - n) ++ bytes_of u 0 n) ++
  skipn (S (nb - p)) (repeat 0 (nb - n) ++ bytes_of u 0 n)
  = repeat 0 (nb - n) ++ undotted u 0 n p.
Proof.
  intros nb u n p H Hp. rewrite firstn_app, skipn_app, repeat_length.
  replace (nb - p - (nb - n))%nat with (n - p)%nat by lia.
  replace (S (nb - p) - (nb - n))%nat with (S (n - p)) by lia.
  rewrite firstn_all2 by (rewrite repeat_length; lia).
  rewrite skipn_all2 by (rewrite repeat_length; lia).
  rewrite bytes_of_firstn, bytes_of_skipn by lia. cbn [app].
  rewrite <- app_assoc. f_equal. unfold undotted. destruct p; [lia|].
  f_equal. f_equal; lia.
Qed.

Lemma undotted_bytes : forall u a n p, all_bytes u -> Forall is_byte (undotted u a n p).
Proof.
  intros u a n p A. unfold undotted. destruct p; [apply bytes_of_bytes; exact A|].
  apply Forall_app; split; apply bytes_of_bytes; exact A.
Qed.

Lemma undotted_length : forall u a n p, (p <= n)%nat ->
  length (undotted u a n p) = (match p with O => n | _ => n - 1 end)%nat.
Proof.
  intros u a n p H. unfold undotted. destruct p; [apply bytes_of_length|].
  rewrite app_length, !bytes_of_length. lia.
Qed.

Lemma subslice_ok : forall u a b, (a <= b <= s_len u)%nat ->
  subslice u a b = Ret (Slice (fun i => s_at u (a + i)%nat) (b - a) (s_cap u - a)).
Proof.
  intros u a b H. unfold subslice.
  rewrite (proj2 (Nat.leb_le a b)), (proj2 (Nat.leb_le b (s_len u))) by lia. reflexivity.
Qed.

(** [fits p n len] : the slice is long enough for the re-slicing the code does
    when the point comes last. *)
Definition fits (u : slice) (n p : nat) : Prop := (p = 1 -> 2 <= n /\ n - 1 <= s_len u)%nat.

Lemma parse_under8_fp_ok : forall m u n p, all_bytes u -> (1 <= n <= 8)%nat -> (p <= n)%nat ->
  fits u n p -> (8 <= s_cap u)%nat ->
  parse_under8_fp m u n p = Ret (dec (undotted u 0 n p)).
Proof.
  intros m u n p A Hn Hp Ft C. unfold parse_under8_fp.
  rewrite (proj2 (Nat.leb_le 1 n)), (proj2 (Nat.leb_le n 8)) by lia. cbn [andb].
  rewrite assert_true. cbn [obind].
  destruct p as [|[|p]].
  - apply parse_under8_ok; assumption || lia.
  - destruct (Ft eq_refl) as [F1 F2].
    rewrite (proj2 (Nat.eqb_neq n 0)) by lia.
    rewrite subslice_ok by lia. cbn [obind].
    rewrite parse_under8_ok by (try apply shifted_bytes; try exact A; cbn [s_cap]; lia).
    rewrite bytes_of_shift. unfold undotted. cbn [Nat.sub].
    f_equal. f_equal. symmetry. apply app_nil_r.
  - rewrite (read_le_ok 8 u C). cbn [obind].
    rewrite umul_ok by (unfold two64; lia). cbn [obind]. rewrite usub_ok by lia. cbn [obind].
    rewrite wshl_ok by lia. cbn [obind].
    replace (64 - Z.of_nat n * 8) with (8 * Z.of_nat (8 - n)) by lia.
    change (2 ^ 64) with (2 ^ (8 * Z.of_nat 8)).
    rewrite shl_le by (try apply bytes_of_bytes; assumption || lia).
    replace (8 - (8 - n))%nat with n by lia. rewrite bytes_of_firstn by lia.
    assert (Fc : Forall is_byte (repeat 0 (8 - n) ++ bytes_of u 0 n))
      by (apply Forall_app; split; [apply repeat_bytes | apply bytes_of_bytes; exact A]).
    change 64 with (8 * Z.of_nat 8). change (drop_point m (8 * Z.of_nat 8) 8) with (drop_point m (8 * Z.of_nat 8) (Z.of_nat 8)).
    rewrite drop_point_ok; [| lia | rewrite app_length, repeat_length, bytes_of_length; lia | exact Fc | lia].
    cbn [obind]. rewrite dropped_list by lia.
    change (0 :: repeat 0 (8 - n) ++ undotted u 0 n (S (S p))) with (repeat 0 (S (8 - n)) ++ undotted u 0 n (S (S p))).
    rewrite u64_decimal_list, dec_zeros; [reflexivity | |].
    + rewrite app_length, repeat_length, undotted_length by lia. lia.
    + apply Forall_app; split; [apply repeat_bytes | apply undotted_bytes; exact A].
Qed.

Lemma dec_u64 : forall l, Forall is_byte l -> (length l <= 18)%nat -> 0 <= dec l < 1666666666666666667.
Proof.
  intros l F L. pose proof (dec_bound l F) as [D1 D2].
  assert (10 ^ Z.of_nat (length l) <= 10 ^ 18) by (apply Z.pow_le_mono_r; lia).
  change (10 ^ 18) with 1000000000000000000 in H. lia.
Qed.

Lemma parse_under16_fp_ok : forall m u n p, all_bytes u -> (1 <= n <= 16)%nat -> (p <= n)%nat ->
  fits u n p -> (16 <= s_cap u)%nat ->
  parse_under16_fp m u n p = Ret (dec (undotted u 0 n p)).
Proof.
  intros m u n p A Hn Hp Ft C. unfold parse_under16_fp.
  rewrite (proj2 (Nat.leb_le 1 n)), (proj2 (Nat.leb_le n 16)) by lia. cbn [andb].
  rewrite assert_true. cbn [obind].
  assert (SM : dec (undotted u 0 n p) mod two64 = dec (undotted u 0 n p)).
  { apply Z.mod_small. pose proof (dec_u64 (undotted u 0 n p) (undotted_bytes u 0 n p A)) as D.
    rewrite undotted_length in D by lia. unfold two64. destruct p; lia. }
  rewrite <- SM.
  destruct p as [|[|p]].
  - rewrite parse_under16_ok by (assumption || lia). reflexivity.
  - destruct (Ft eq_refl) as [F1 F2].
    rewrite (proj2 (Nat.eqb_neq n 0)) by lia.
    rewrite subslice_ok by lia. cbn [obind].
    rewrite parse_under16_ok by (try apply shifted_bytes; try exact A; cbn [s_cap]; lia).
    rewrite bytes_of_shift. unfold undotted. cbn [Nat.sub obind Nat.add].
    f_equal. f_equal. f_equal. symmetry. apply app_nil_r.
  - rewrite (read_le_ok 16 u C). cbn [obind].
    rewrite umul_ok by (unfold two64; lia). cbn [obind]. rewrite usub_ok by lia. cbn [obind].
    rewrite wshl_ok by lia. cbn [obind].
    replace (128 - Z.of_nat n * 8) with (8 * Z.of_nat (16 - n)) by lia.
    change (2 ^ 128) with (2 ^ (8 * Z.of_nat 16)).
    rewrite shl_le by (try apply bytes_of_bytes; assumption || lia).
    replace (16 - (16 - n))%nat with n by lia. rewrite bytes_of_firstn by lia.
    assert (Fc : Forall is_byte (repeat 0 (16 - n) ++ bytes_of u 0 n))
      by (apply Forall_app; split; [apply repeat_bytes | apply bytes_of_bytes; exact A]).
    change 128 with (8 * Z.of_nat 16). change (drop_point m (8 * Z.of_nat 16) 16) with (drop_point m (8 * Z.of_nat 16) (Z.of_nat 16)).
    rewrite drop_point_ok; [| lia | rewrite app_length, repeat_length, bytes_of_length; lia | exact Fc | lia].
    cbn [obind]. rewrite dropped_list by lia.
    change (0 :: repeat 0 (16 - n) ++ undotted u 0 n (S (S p))) with (repeat 0 (S (16 - n)) ++ undotted u 0 n (S (S p))).
    rewrite u128_decimal_list, dec_zeros; [reflexivity | |].
    + rewrite app_length, repeat_length, undotted_length by lia. lia.
    + apply Forall_app; split; [apply repeat_bytes | apply undotted_bytes; exact A].
Qed.

Lemma parse_under32_fp_ok : forall m u n p, all_bytes u -> (17 <= n <= 18)%nat -> (p <= n)%nat ->
  (p = 1 -> n = 18 /\ 17 <= s_len u)%nat -> (16 <= s_len u)%nat -> (32 <= s_cap u)%nat ->
  parse_under32_fp m u n p = Ret (dec (undotted u 0 n p)).
Proof.
  intros m u n p A Hn Hp Ft L C. unfold parse_under32_fp.
  rewrite (proj2 (Nat.leb_le 16 n)), (proj2 (Nat.leb_le n 32)) by lia. cbn [andb].
  rewrite assert_true. cbn [obind].
  assert (SM : dec (undotted u 0 n p) mod two64 = dec (undotted u 0 n p)).
  { apply Z.mod_small. pose proof (dec_u64 (undotted u 0 n p) (undotted_bytes u 0 n p A)) as D.
    rewrite undotted_length in D by lia. unfold two64. destruct p; lia. }
  destruct p as [|[|p]].
  - rewrite parse_under32_ok by (assumption || lia). cbn [obind]. f_equal. exact SM.
  - destruct (Ft eq_refl) as [F1 F2].
    rewrite (proj2 (Nat.eqb_neq n 0)) by lia.
    rewrite subslice_ok by lia. cbn [obind].
    rewrite parse_under32_ok by (try apply shifted_bytes; try exact A; cbn [s_cap s_len]; lia).
    rewrite <- SM. rewrite bytes_of_shift. unfold undotted. cbn [Nat.sub obind Nat.add].
    f_equal. f_equal. f_equal. symmetry. apply app_nil_r.
  - remember (S (S p)) as q.
    rewrite (proj2 (Nat.ltb_ge n q)), (proj2 (Nat.ltb_ge n 16)) by lia. cbn [orb].
    unfold split_at. rewrite (proj2 (Nat.leb_le 16 (s_len u))) by lia. cbn [obind].
    set (up := Slice (s_at u) 16 (s_cap u)).
    set (lw := Slice (fun i => s_at u (16 + i)%nat) (s_len u - 16) (s_cap u - 16)).
    assert (Au : all_bytes up) by exact A.
    assert (Al : all_bytes lw) by (apply shifted_bytes; exact A).
    assert (Lup : s_len up = 16%nat) by reflexivity.
    assert (Cup : s_cap up = s_cap u) by reflexivity.
    assert (Clw : s_cap lw = (s_cap u - 16)%nat) by reflexivity.
    set (loc := (n - q)%nat).
    assert (Hloc : (loc <= 16)%nat) by (unfold loc; lia).
    rewrite (proj2 (Nat.ltb_ge 16 loc)) by lia.
    assert (Hul : (if (loc <? 16)%nat then 0%nat else q) = 0%nat \/
                  (loc = 16 /\ n = 18 /\ q = 2 /\ (if (loc <? 16)%nat then 0%nat else q) = 2)%nat).
    { destruct (Nat.ltb_spec loc 16); [left; reflexivity|]. right. unfold loc in *. lia. }
    assert (U : parse_under16_fp m up 16 (16 - loc) = Ret (dec (undotted up 0 16 (16 - loc)))).
    { apply parse_under16_fp_ok; [exact Au | lia | lia | intros _; rewrite Lup; lia | lia]. }
    rewrite U. cbn [obind]. clear U.
    assert (Pq : forall x, bytes_of up x = bytes_of u x) by reflexivity.
    pose proof (dec_u64 (undotted up 0 16 (16 - loc)) (undotted_bytes _ _ _ _ Au)) as Du.
    rewrite undotted_length in Du by lia.
    assert (Du' : 0 <= dec (undotted up 0 16 (16 - loc)) < 16666666666666667).
    { pose proof (dec_bound (undotted up 0 16 (16 - loc)) (undotted_bytes _ _ _ _ Au)) as D.
      rewrite undotted_length in D by lia.
      assert (10 ^ Z.of_nat (match (16 - loc)%nat with 0%nat => 16 | S _ => 16 - 1 end) <= 10 ^ 16)
        by (apply Z.pow_le_mono_r; [lia|]; destruct (16 - loc)%nat; lia).
      change (10 ^ 16) with 10000000000000000 in H. lia. }
    clear Du.
    destruct (Nat.ltb_spec loc 16) as [Hl|Hl].
    + rewrite (proj2 (Nat.leb_le loc 15)) by lia.
      rewrite (parse_under16_fp_ok m lw (n - 16) 0) by (try exact Al; try lia; intros X; discriminate X).
      cbn [obind undotted]. rewrite pow10_ok by lia. cbn [obind].
      assert (P : 0 < 10 ^ Z.of_nat (n - 16) <= 100).
      { split; [apply Z.pow_pos_nonneg; lia|]. change 100 with (10 ^ 2). apply Z.pow_le_mono_r; lia. }
      rewrite (Z.mod_small (10 ^ _)) by (unfold two64; lia).
      pose proof (dec_bound (bytes_of lw 0 (n - 16)) (bytes_of_bytes _ _ _ Al)) as D.
      rewrite bytes_of_length in D.
      assert (dec (undotted up 0 16 (16 - loc)) * 10 ^ Z.of_nat (n - 16) <= 16666666666666667 * 100)
        by (apply Z.mul_le_mono_nonneg; lia).
      rewrite umul_ok by (unfold two64; lia). cbn [obind].
      rewrite uadd_ok by (unfold two64; lia).
      f_equal. unfold lw. rewrite bytes_of_shift.
      assert (R : undotted u 0 n q = undotted up 0 16 (16 - loc) ++ bytes_of u (16 + 0) (n - 16)).
      { unfold undotted. destruct q as [|q']; [lia|]. destruct (16 - loc)%nat as [|k] eqn:Ek; [lia|].
        rewrite !Pq. rewrite <- app_assoc. fold loc.
        replace (16 - S k)%nat with loc by lia.
        f_equal.
        replace (S q' - 1)%nat with ((S k - 1) + (n - 16))%nat by (unfold loc in *; lia).
        rewrite bytes_of_app. f_equal. f_equal. lia. }
      rewrite R, dec_app, bytes_of_length. reflexivity.
    + assert (HE : loc = 16%nat) by lia. assert (Hn18 : n = 18%nat /\ q = 2%nat) by (unfold loc in *; lia).
      destruct Hn18 as [-> ->]. rewrite HE. change (16 <=? 15)%nat with false. cbv iota.
      rewrite (parse_under16_fp_ok m lw (18 - 16) 2) by (try exact Al; try lia; intros X; discriminate X).
      cbn [obind]. rewrite pow10_ok by lia. cbn [obind].
      change (10 ^ Z.of_nat (18 - 17) mod two64) with 10.
      rewrite HE in Du'. change (16 - 16)%nat with 0%nat in *.
      pose proof (dec_bound (undotted lw 0 (18 - 16) 2) (undotted_bytes _ _ _ _ Al)) as D.
      rewrite undotted_length in D by lia. change (10 ^ Z.of_nat (18 - 16 - 1)) with 10 in D.
      rewrite umul_ok by (unfold two64; lia). cbn [obind].
      rewrite uadd_ok by (unfold two64; lia).
      f_equal. unfold undotted, lw. rewrite !bytes_of_shift. rewrite !dec_app, !bytes_of_length.
      change (bytes_of up 0 16) with (bytes_of u 0 16).
      change (bytes_of u (16 + 0) (18 - 16 - 2)) with (@nil Z). change (dec []) with 0.
      change (10 ^ Z.of_nat (2 - 1)) with 10.
      cbn [Nat.sub Nat.add]. lia.
Qed.

(** ** Clock fields *)
Lemma hhmmss_ok : forall m u, all_bytes u -> (8 <= s_cap u)%nat ->
  parse_hhmmss_to_nanos m u
  = Ret ((dec (bytes_of u 0 2) * 3600 + dec (bytes_of u 2 2) * 60 + dec (bytes_of u 4 2)) * 1000000000).
Proof.
  intros m u A C. unfold parse_hhmmss_to_nanos. rewrite (read_le_ok 8 u C). cbn [obind].
  rewrite wshl_ok by lia. cbn [obind].
  change 16 with (8 * Z.of_nat 2) at 1. change (2 ^ 64) with (2 ^ (8 * Z.of_nat 8)).
  rewrite shl_le by (try apply bytes_of_bytes; assumption || lia).
  change (repeat 0 2 ++ firstn (8 - 2) (bytes_of u 0 8))
    with [0; 0; s_at u 0; s_at u 1; s_at u 2; s_at u 3; s_at u 4; s_at u 5].
  pose proof (A 0%nat) as H0. pose proof (A 1%nat) as H1. pose proof (A 2%nat) as H2.
  pose proof (A 3%nat) as H3. pose proof (A 4%nat) as H4. pose proof (A 5%nat) as H5.
  change (bytes_of u 0 2) with [s_at u 0; s_at u 1].
  change (bytes_of u 2 2) with [s_at u 2; s_at u 3].
  change (bytes_of u 4 2) with [s_at u 4; s_at u 5].
  set (b0 := s_at u 0) in *. set (b1 := s_at u 1) in *. set (b2 := s_at u 2) in *.
  set (b3 := s_at u 3) in *. set (b4 := s_at u 4) in *. set (b5 := s_at u 5) in *.
  clearbody b0 b1 b2 b3 b4 b5.
  repeat match goal with H : is_byte ?b |- _ =>
    pose proof (nib_bound b H); unfold is_byte in H end.
  change (le [0; 0; b0; b1; b2; b3; b4; b5])
    with (pairs 8 [(0, 0); (b0, b1); (b2, b3); (b4, b5)]).
  rewrite (swar_step_pairs m 64 8 15 10) by (reflexivity || lia || (lane_bounds; lia)).
  cbn [obind map fst snd]. fold (nib b0) (nib b1) (nib b2) (nib b3) (nib b4) (nib b5).
  rewrite !Z.land_0_l.
  remember (nib b1 + nib b0 * 10) as c1. remember (nib b3 + nib b2 * 10) as c2.
  remember (nib b5 + nib b4 * 10) as c3. change (0 + 0 * 10) with 0.
  change (lanes (8 + 8) [0; c1; c2; c3]) with (pairs 16 [(0, c1); (c2, c3)]).
  rewrite (swar_step_pairs m 64 16 255 60) by (reflexivity || lia || (lane_bounds; lia)).
  cbn [obind map fst snd]. rewrite Z.land_0_l. rewrite !(land_small 8 _) by lia.
  remember (c1 + 0 * 60) as d0. remember (c3 + c2 * 60) as d1.
  change (lanes (16 + 16) [d0; d1]) with (pairs 32 [(d0, d1)]).
  rewrite (swar_step_pairs m 64 32 65535 3600) by (reflexivity || lia || (lane_bounds; lia)).
  cbn [obind map fst snd lanes]. rewrite !(land_small 16 _) by lia.
  unfold second_nanos. rewrite umul_ok by (unfold two64; lia).
  f_equal. unfold dec. cbn [fold_left]. lia.
Qed.

Lemma parse_2digits_ok : forall m u, all_bytes u -> (2 <= s_cap u)%nat ->
  parse_2digits m u = Ret (dec (bytes_of u 0 2)).
Proof.
  intros m u A C. unfold parse_2digits. rewrite (read_le_ok 2 u C). cbn [obind].
  pose proof (A 0%nat) as H0. pose proof (A 1%nat) as H1.
  pose proof (nib_bound _ H0). pose proof (nib_bound _ H1). unfold is_byte in *.
  change (bytes_of u 0 2) with [s_at u 0; s_at u 1].
  change (le [s_at u 0; s_at u 1]) with (pairs 8 [(s_at u 0, s_at u 1)]).
  rewrite (swar_step_pairs m 16 8 15 10) by (reflexivity || lia || (lane_bounds; lia)).
  cbn [map fst snd lanes]. fold (nib (s_at u 0)) (nib (s_at u 1)).
  f_equal. unfold dec. cbn [fold_left]. lia.
Qed.

Lemma parse_3digits_ok : forall m u, all_bytes u -> (4 <= s_cap u)%nat ->
  parse_3digits m u = Ret (dec (bytes_of u 0 3)).
Proof.
  intros m u A C. unfold parse_3digits. rewrite (read_le_ok 4 u C). cbn [obind].
  rewrite wshl_ok by lia. cbn [obind].
  change (2 ^ 8) with (2 ^ (8 * Z.of_nat 1)). change (2 ^ 32) with (2 ^ (8 * Z.of_nat 4)).
  rewrite shl_le by (try apply bytes_of_bytes; assumption || lia).
  change (repeat 0 1 ++ firstn (4 - 1) (bytes_of u 0 4)) with [0; s_at u 0; s_at u 1; s_at u 2].
  pose proof (A 0%nat) as H0. pose proof (A 1%nat) as H1. pose proof (A 2%nat) as H2.
  pose proof (nib_bound _ H0). pose proof (nib_bound _ H1). pose proof (nib_bound _ H2). unfold is_byte in *.
  change (bytes_of u 0 3) with [s_at u 0; s_at u 1; s_at u 2].
  set (b0 := s_at u 0) in *. set (b1 := s_at u 1) in *. set (b2 := s_at u 2) in *.
  clearbody b0 b1 b2.
  change (le [0; b0; b1; b2]) with (pairs 8 [(0, b0); (b1, b2)]).
  rewrite (swar_step_pairs m 32 8 15 10) by (reflexivity || lia || (lane_bounds; lia)).
  cbn [obind map fst snd]. fold (nib b0) (nib b1) (nib b2). rewrite Z.land_0_l.
  remember (nib b0 + 0 * 10) as c0. remember (nib b2 + nib b1 * 10) as c1.
  change (lanes (8 + 8) [c0; c1]) with (pairs 16 [(c0, c1)]).
  rewrite (swar_step_pairs m 32 16 255 100) by (reflexivity || lia || (lane_bounds; lia)).
  cbn [map fst snd lanes]. rewrite !(land_small 8 _) by lia.
  f_equal. unfold dec. cbn [fold_left]. lia.
Qed.
