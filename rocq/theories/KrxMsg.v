(** KrxMsg.v -- lemmas about whole KRX messages. *)
From Coq Require Import ZArith List Lia Bool.
From Verif Require Import Base OBTypes NumModel NumSpec NumProofs NumConv KrxModel KrxSpec KrxProofs.
Import ListNotations.
Open Scope Z_scope.

(** Right length, end keyword in place, and the slice lies in its allocation. *)
Definition framed (f : iface) (P : slice) : Prop :=
  s_len P = if_len f /\ s_at P (if_len f - 1)%nat = 255 /\ (s_len P <= s_cap P)%nat.

Lemma framed_valid : forall f P, (1 <= if_len f)%nat -> framed f P -> is_valid_krx_payload f P = Ret (ROk tt).
Proof.
  intros f P N [L [E _]]. unfold is_valid_krx_payload. rewrite L, Nat.eqb_refl. cbn [negb].
  unfold index. rewrite L. rewrite (proj2 (Nat.ltb_lt (if_len f - 1) (if_len f))) by lia. cbn [obind].
  rewrite E. reflexivity.
Qed.

Lemma rbind_ok : forall A B (a : A) (f : A -> outcome (rresult B)), rbind (Ret (ROk a)) f = f a.
Proof. reflexivity. Qed.

(** ** The header *)
Lemma header_text_length : forall h, header_ok h -> length (header_text h) = 47%nat.
Proof.
  intros h [[H1 _] [[H2 _] [[H3 _] [[H4 _] [[H5 _] [[H6 _] [[H7 _] _]]]]]]]. unfold header_text, clock_text.
  rewrite !app_length, !digit_chars_length, H1, H2, H3, H4, H5, H6, H7. reflexivity.
Qed.

Lemma header_parts : forall P h, header_ok h -> shows P 0 (header_text h) ->
  shows P 2 (hd_information h) /\ shows P 17 (hd_isin h) /\
  shows P 35 (clock_text (hd_hour h) (hd_minute h) (hd_second h) (hd_micro h)).
Proof.
  intros P h [[H1 _] [[H2 _] [[H3 _] [[H4 _] [[H5 _] [[H6 _] [[H7 _] _]]]]]]] S. unfold header_text in S.
  repeat rewrite shows_app in S. rewrite H1, H2, H3, H4, H5, H6, H7 in S. cbn [Nat.add] in S. tauto.
Qed.

Lemma isin_read : forall P h, (29 <= s_len P)%nat -> header_ok h -> shows P 17 (hd_isin h) ->
  isin_new (sub P 17 29) = ROk (hd_isin h).
Proof.
  intros P h L [_ [_ [_ [_ [_ [[H6 F] _]]]]]] S. unfold isin_new.
  assert (E : slice_list (sub P 17 29) = hd_isin h).
  { apply shows_list; [apply sub_shows; exact S | rewrite sub_len, H6; reflexivity]. }
  rewrite E. rewrite Forall_forall in F.
  assert (E1 : existsb (Z.eqb 32) (hd_isin h) = false).
  { apply not_true_is_false. intros X. apply existsb_exists in X. destruct X as [x [X1 X2]].
    apply Z.eqb_eq in X2. apply F in X1. destruct X1 as [_ [X1 _]]. lia. }
  assert (E2 : existsb (Z.eqb 9) (hd_isin h) = false).
  { apply not_true_is_false. intros X. apply existsb_exists in X. destruct X as [x [X1 X2]].
    apply Z.eqb_eq in X2. apply F in X1. destruct X1 as [_ [_ X1]]. lia. }
  assert (E3 : forallb (fun c => c <? 128) (hd_isin h) = true).
  { apply forallb_forall. intros x X. apply F in X. destruct X as [[_ X] _]. apply Z.ltb_lt. exact X. }
  rewrite E1, E2, E3. reflexivity.
Qed.

Lemma converter_read : forall P h p, (5 <= s_len P)%nat -> header_ok h -> shows P 2 (hd_information h) -> format_of h p ->
  get_krx_derivative_converter (sub P 0 5) (hd_isin h) = Ret (deriv_conv p).
Proof.
  intros P h p L H S Fo. unfold get_krx_derivative_converter.
  rewrite sub_ok by (rewrite sub_len; lia). cbn [obind].
  assert (E : slice_list (sub (sub P 0 5) 2 5) = hd_information h).
  { apply shows_list; [apply sub_shows, sub_shows; exact S|].
    destruct H as [_ [[H2 _] _]]. rewrite sub_len, H2. reflexivity. }
  rewrite E. cbv zeta. rewrite stockd_conv, comm_conv, riskfree_conv, base_conv.
  destruct p; cbn [format_of] in Fo.
  - destruct Fo as [-> |[-> | ->]]; reflexivity.
  - destruct Fo as [N R].
    rewrite !bytes_eqb_neq by tauto. rewrite R. reflexivity.
  - destruct Fo as [N R]. rewrite !bytes_eqb_neq by tauto. reflexivity.
Qed.

Lemma converter_total : forall P isin, (5 <= s_len P)%nat ->
  exists p, get_krx_derivative_converter (sub P 0 5) isin = Ret (deriv_conv p).
Proof.
  intros P isin L. unfold get_krx_derivative_converter.
  rewrite sub_ok by (rewrite sub_len; lia). cbn [obind]. cbv zeta.
  rewrite stockd_conv, comm_conv, riskfree_conv, base_conv.
  destruct (_ || _); [eexists; reflexivity|]. destruct (bytes_eqb _ [49; 48; 70]); [eexists; reflexivity|].
  destruct (bytes_eqb _ _); eexists; reflexivity.
Qed.

Lemma stamp_read : forall m P h dg, all_bytes P -> (49 <= s_cap P)%nat -> header_ok h -> gen_ok dg ->
  shows P 35 (clock_text (hd_hour h) (hd_minute h) (hd_second h) (hd_micro h)) ->
  exists t date', stamped (9 * 3600 * 1000000000) (dg_date dg) (dg_prev dg) h t date' /\
    parse_hhmmssuuuuuu m krx_offset (sub P 35 47) dg = Ret (t, DateGen date' t).
Proof.
  intros m P h dg A C H G S.
  destruct (clock_any m (sub P 35 47) dg) as [k [K0 [K1 [K2 K3]]]];
    [apply sub_bytes; exact A | reflexivity | rewrite sub_cap; lia | exact G |].
  assert (V : clock_value (sub P 35 47) = clock_nanos (hd_hour h) (hd_minute h) (hd_second h) (hd_micro h)).
  { apply clock_read; [apply sub_shows; exact S | apply H]. }
  rewrite V in K1, K2, K3. eexists _, _. split; [|exact K1].
  exists k. split; [exact K0|].
  unfold one_day, krx_offset, day_nanos, hour_nanos, second_nanos in *. cbv zeta.
  repeat split; lia.
Qed.

Lemma stamp_total : forall m P dg, all_bytes P -> (49 <= s_cap P)%nat -> gen_ok dg ->
  exists t dg', parse_hhmmssuuuuuu m krx_offset (sub P 35 47) dg = Ret (t, dg').
Proof.
  intros m P dg A C G.
  destruct (clock_any m (sub P 35 47) dg) as [k [K0 [K1 _]]];
    [apply sub_bytes; exact A | reflexivity | rewrite sub_cap; lia | exact G |].
  eexists _, _. exact K1.
Qed.

(** ** Levels *)
Lemma overwrite_length : forall v new l, overwrite v new = Ret l -> length l = length v.
Proof.
  intros v new l. unfold overwrite. destruct (Nat.leb_spec (length new) (length v)); [|discriminate].
  intros E. injection E as <-. rewrite app_length, skipn_length. lia.
Qed.
Lemma fresh_levels_all : forall cut new, length new = cut -> fresh_levels cut new = Ret new.
Proof.
  intros cut new L. unfold fresh_levels, overwrite. rewrite repeat_length, L, Nat.leb_refl.
  rewrite skipn_all2 by (rewrite repeat_length; lia). rewrite app_nil_r. reflexivity.
Qed.
Lemma unroll_length : forall A (f : nat -> outcome A) is l, unroll f is = Ret l -> length l = length is.
Proof.
  intros A f is. induction is as [|i is IH]; intros l E; cbn [unroll] in E.
  - injection E as <-. reflexivity.
  - destruct (f i) as [x| |]; cbn [obind] in E; try discriminate.
    destruct (unroll f is) as [r| |]; cbn [obind] in E; try discriminate.
    injection E as <-. cbn [length]. rewrite (IH r); reflexivity.
Qed.
Lemma levels_length : forall f cut l, levels f cut = Ret l -> (cut <= 10)%nat -> length l = cut.
Proof.
  intros f cut l E C. apply unroll_length in E. rewrite seq_length in E. lia.
Qed.

Lemma levels_read : forall m p P start rows cut, all_bytes P -> (cut <= 10)%nat -> (cut <= length rows)%nat ->
  (start + cut * 46 + 16 <= s_cap P)%nat -> (start + cut * 46 <= s_len P)%nat ->
  shows P start (concat (map (row_text p) rows)) -> Forall (row_ok p) rows ->
  levels (parse_level m (deriv_conv p) cnt_cv start 46 9 9 5 P) cut
  = Ret (map (fun r => (ask_row r, bid_row r)) (firstn cut rows)).
Proof.
  intros m p P start rows cut A C10 Cr Cc Cl S F. unfold levels. rewrite Nat.min_l by exact C10.
  rewrite (unroll_map _ _ _ (fun r => (ask_row r, bid_row r)) rows 0 cut); [reflexivity | lia|].
  intros i r Hi E. apply level_read; try assumption; try nia.
  - apply (shows_rows _ (row_text p) 46 P rows start i r); [apply row_text_length | exact S | exact E].
  - rewrite Forall_forall in F. apply F. apply nth_error_In in E. exact E.
Qed.

Lemma levels_total : forall m p P start cut, all_bytes P -> (cut <= 10)%nat ->
  (start + cut * 46 + 16 <= s_cap P)%nat -> (start + cut * 46 <= s_len P)%nat ->
  exists l, levels (parse_level m (deriv_conv p) cnt_cv start 46 9 9 5 P) cut = Ret l /\ length l = cut.
Proof.
  intros m p P start cut A C10 Cc Cl. unfold levels. rewrite Nat.min_l by exact C10.
  destruct (unroll_total _ (parse_level m (deriv_conv p) cnt_cv start 46 9 9 5 P) (seq 0 cut)) as [l [E L]].
  - intros i Hi. apply in_seq in Hi. apply level_total; [exact A | nia | nia].
  - exists l. rewrite seq_length in L. split; assumption.
Qed.

Lemma stock_levels_read : forall m (lp : bool) P start rows cut, all_bytes P -> (cut <= 10)%nat -> (cut <= length rows)%nat ->
  let w := if lp then 70%nat else 46%nat in
  (start + cut * w + 16 <= s_cap P)%nat -> (start + cut * w <= s_len P)%nat ->
  shows P start (concat (map (stock_row_text lp) rows)) -> Forall stock_row_ok rows ->
  levels (parse_stock_level m lp stock_conv start w 11 12 P) cut
  = Ret (map (fun r => (stock_ask_row lp (fun v => v / 100) r, stock_bid_row lp (fun v => v / 100) r)) (firstn cut rows)).
Proof.
  intros m lp P start rows cut A C10 Cr w Cc Cl S F. unfold levels. rewrite Nat.min_l by exact C10.
  rewrite (unroll_map _ _ _ (fun r => (stock_ask_row lp (fun v => v / 100) r, stock_bid_row lp (fun v => v / 100) r)) rows 0 cut);
    [reflexivity | lia|].
  intros i r Hi E. apply stock_level_read; try assumption; fold w; try nia.
  - apply (shows_rows _ (stock_row_text lp) w P rows start i r); [apply stock_row_text_length | exact S | exact E].
  - rewrite Forall_forall in F. apply F. apply nth_error_In in E. exact E.
Qed.

Lemma stock_levels_total : forall m (lp : bool) P start cut, all_bytes P -> (cut <= 10)%nat ->
  let w := if lp then 70%nat else 46%nat in
  (start + cut * w + 16 <= s_cap P)%nat -> (start + cut * w <= s_len P)%nat ->
  exists l, levels (parse_stock_level m lp stock_conv start w 11 12 P) cut = Ret l /\ length l = cut.
Proof.
  intros m lp P start cut A C10 w Cc Cl. unfold levels. rewrite Nat.min_l by exact C10.
  destruct (unroll_total _ (parse_stock_level m lp stock_conv start w 11 12 P) (seq 0 cut)) as [l [E L]].
  - intros i Hi. apply in_seq in Hi. apply stock_level_total; [exact A | fold w; nia | fold w; nia].
  - exists l. rewrite seq_length in L. split; assumption.
Qed.

(** ** Derivative quotes *)

(** What the parsers of one format need to know about its numbers. *)
Definition quote_iface (f : iface) : Prop :=
  if_isin f = (17%nat, 29%nat) /\ if_time f = (35%nat, 47%nat) /\ (if_cut f <= 10)%nat /\
  (if_start f + if_cut f * 46 + 16 <= if_len f)%nat /\ (63 <= if_len f)%nat.

Lemma quote_read : forall m f now P h p rows dg,
  quote_iface f -> framed f P -> all_bytes P -> header_ok h -> format_of h p -> gen_ok dg ->
  shows P 0 (header_text h) -> shows P (if_start f) (concat (map (row_text p) rows)) ->
  Forall (row_ok p) rows -> (if_cut f <= length rows)%nat ->
  exists t date', stamped (9 * 3600 * 1000000000) (dg_date dg) (dg_prev dg) h t date' /\
    to_quote_snapshot m f now P dg
    = Ret (ROk (QuoteSnapshot (hd_isin h) t now (map ask_row (firstn (if_cut f) rows))
                 (map bid_row (firstn (if_cut f) rows)) (if_cut f) None cnt_cv (deriv_conv p), DateGen date' t)).
Proof.
  intros m f now P h p rows dg [Q1 [Q2 [Q3 [Q4 Q5]]]] Fr A H Fo G S Sr F Lr.
  destruct (header_parts P h H S) as [S1 [S2 S3]].
  pose proof Fr as [L [E C]].
  destruct (stamp_read m P h dg A ltac:(lia) H G S3) as [t [date' [St Es]]].
  exists t, date'. split; [exact St|].
  unfold to_quote_snapshot. rewrite framed_valid by (try assumption; lia). rewrite rbind_ok.
  unfold cut_slice. rewrite Q1, Q2. cbn [fst snd].
  rewrite (sub_ok P 17 29) by lia. cbn [obind].
  rewrite (isin_read P h) by (try assumption; lia). rewrite rbind_ok.
  rewrite (sub_ok P 0 5) by lia. cbn [obind].
  rewrite (converter_read P h p) by (try assumption; lia). cbn [obind]. rewrite counter_ok. cbn [obind].
  rewrite (sub_ok P 35 47) by lia. cbn [obind]. rewrite Es. cbn [obind].
  change (total_length (cv_cfg (oc_price (deriv_conv p)))) with 9%nat.
  change (total_length (cv_cfg (oc_quantity (deriv_conv p)))) with 9%nat.
  change (total_length (cv_cfg cnt_cv)) with 5%nat. cbv zeta.
  change (9 * 2 + 9 * 2 + 5 * 2)%nat with 46%nat.
  rewrite (levels_read m p P (if_start f) rows (if_cut f)) by (try assumption; lia). cbn [obind].
  rewrite !map_map. cbn [fst snd].
  rewrite !fresh_levels_all by (rewrite map_length, firstn_length; lia). reflexivity.
Qed.

Lemma quote_total : forall m f now P dg,
  quote_iface f -> framed f P -> all_bytes P -> gen_ok dg ->
  (isin_new (sub P 17 29) = RErr /\ to_quote_snapshot m f now P dg = Ret RErr) \/
  (exists isin q dg', isin_new (sub P 17 29) = ROk isin /\ to_quote_snapshot m f now P dg = Ret (ROk (q, dg')) /\ qs_id q = isin).
Proof.
  intros m f now P dg [Q1 [Q2 [Q3 [Q4 Q5]]]] Fr A G.
  pose proof Fr as [L [E C]].
  unfold to_quote_snapshot. rewrite framed_valid by (try assumption; lia). rewrite rbind_ok.
  unfold cut_slice. rewrite Q1, Q2. cbn [fst snd].
  rewrite (sub_ok P 17 29) by lia. cbn [obind].
  destruct (isin_new (sub P 17 29)) as [isin|] eqn:I; [right|left; split; reflexivity].
  rewrite rbind_ok. rewrite (sub_ok P 0 5) by lia. cbn [obind].
  destruct (converter_total P isin) as [p ->]; [lia|]. cbn [obind]. rewrite counter_ok. cbn [obind].
  rewrite (sub_ok P 35 47) by lia. cbn [obind].
  destruct (stamp_total m P dg A) as [t [dg' ->]]; [lia | exact G |]. cbn [obind].
  change (total_length (cv_cfg (oc_price (deriv_conv p)))) with 9%nat.
  change (total_length (cv_cfg (oc_quantity (deriv_conv p)))) with 9%nat.
  change (total_length (cv_cfg cnt_cv)) with 5%nat. cbv zeta.
  change (9 * 2 + 9 * 2 + 5 * 2)%nat with 46%nat.
  destruct (levels_total m p P (if_start f) (if_cut f)) as [l [-> Ll]]; [assumption | lia | lia | lia |]. cbn [obind].
  rewrite !fresh_levels_all by (rewrite map_length; exact Ll). cbn [obind].
  eexists _, _, _. repeat split.
Qed.

(** ** Buffers *)
Definition merge_quote (cut : nat) (q b : quote_snapshot) : quote_snapshot :=
  QuoteSnapshot (qs_id q) (qs_time q) (qs_system q) (qs_asks q ++ skipn cut (qs_asks b))
    (qs_bids q ++ skipn cut (qs_bids b)) (qs_cut b) (qs_lp_holdings b) (qs_counter q) (qs_conv q).

Lemma overwrite_all : forall v new, (length new <= length v)%nat -> overwrite v new = Ret (new ++ skipn (length new) v).
Proof. intros v new H. unfold overwrite. rewrite (proj2 (Nat.leb_le _ _) H). reflexivity. Qed.

Lemma buffer_valid : forall f P asks bids, (if_cut f <= length asks)%nat -> (if_cut f <= length bids)%nat ->
  is_valid_buffer f P asks bids = Ret (ROk tt).
Proof.
  intros f P asks bids H1 H2. unfold is_valid_buffer.
  rewrite (proj2 (Nat.ltb_ge _ _) H1), (proj2 (Nat.ltb_ge _ _) H2). reflexivity.
Qed.

Ltac both x := destruct x; cbn [obind rbind]; try reflexivity.

Lemma quote_buffer_is_fresh : forall m f now P b dg, (if_cut f <= 10)%nat ->
  (if_cut f <= length (qs_asks b))%nat -> (if_cut f <= length (qs_bids b))%nat ->
  to_quote_snapshot_buffer m f now P b dg
  = rbind (to_quote_snapshot m f now P dg) (fun x => Ret (ROk (merge_quote (if_cut f) (fst x) b, snd x))).
Proof.
  intros m f now P b dg C La Lb. unfold to_quote_snapshot_buffer, to_quote_snapshot.
  rewrite buffer_valid by assumption.
  destruct (is_valid_krx_payload f P) as [[[]|]| |]; try reflexivity. rewrite !rbind_ok.
  destruct (cut_slice P (if_isin f)) as [s| |]; try reflexivity. cbn [obind].
  destruct (isin_new s) as [isin|]; try reflexivity. rewrite !rbind_ok.
  destruct (subslice P 0 5) as [hd| |]; try reflexivity. cbn [obind].
  destruct (get_krx_derivative_converter hd isin) as [conv| |]; try reflexivity. cbn [obind].
  destruct krx_base_order_counter as [cnt| |]; try reflexivity. cbn [obind]. cbv zeta.
  destruct (cut_slice P (if_time f)) as [ts| |]; try reflexivity. cbn [obind].
  destruct (parse_hhmmssuuuuuu m krx_offset ts dg) as [[t dg']| |]; try reflexivity. cbn [obind].
  match goal with |- context [levels ?g ?c] => destruct (levels g c) as [l| |] eqn:E end; try reflexivity.
  cbn [obind]. apply levels_length in E; [|exact C].
  rewrite !fresh_levels_all by (rewrite map_length; exact E). cbn [obind].
  rewrite !overwrite_all by (rewrite map_length; lia). cbn [obind]. rewrite !map_length, E. reflexivity.
Qed.

Definition merge_stock (cut : nat) (q b : quote_snapshot) : quote_snapshot :=
  QuoteSnapshot (qs_id q) (qs_time q) (qs_system q) (qs_asks q ++ skipn cut (qs_asks b))
    (qs_bids q ++ skipn cut (qs_bids b)) (qs_cut b) (qs_lp_holdings b) (qs_counter b) (qs_conv q).

Lemma stock_buffer_is_fresh : forall m lp f now P b dg, (if_cut f <= 10)%nat ->
  (if_cut f <= length (qs_asks b))%nat -> (if_cut f <= length (qs_bids b))%nat ->
  to_stock_quote_buffer m lp f now P b dg
  = rbind (to_stock_quote m lp f now P dg) (fun x => Ret (ROk (merge_stock (if_cut f) (fst x) b, snd x))).
Proof.
  intros m lp f now P b dg C La Lb. unfold to_stock_quote_buffer, to_stock_quote.
  rewrite buffer_valid by assumption.
  destruct (is_valid_krx_payload f P) as [[[]|]| |]; try reflexivity. rewrite !rbind_ok.
  destruct (cut_slice P (if_isin f)) as [s| |]; try reflexivity. cbn [obind].
  destruct (isin_new s) as [isin|]; try reflexivity. rewrite !rbind_ok.
  destruct krx_stock_converter as [conv| |]; try reflexivity. cbn [obind]. cbv zeta.
  destruct (cut_slice P (if_time f)) as [ts| |]; try reflexivity. cbn [obind].
  destruct (parse_hhmmssuuuuuu m krx_offset ts dg) as [[t dg']| |]; try reflexivity. cbn [obind].
  match goal with |- context [levels ?g ?c] => destruct (levels g c) as [l| |] eqn:E end; try reflexivity.
  cbn [obind]. apply levels_length in E; [|exact C].
  rewrite !fresh_levels_all by (rewrite map_length; exact E). cbn [obind].
  rewrite !overwrite_all by (rewrite map_length; lia). cbn [obind]. rewrite !map_length, E. reflexivity.
Qed.

Definition merge_tq (full cum : bool) (cut : nat) (q b : trade_quote_snapshot) : trade_quote_snapshot :=
  TradeQuoteSnapshot (tq_id q) (tq_time q) (tq_system q) (tq_price q) (tq_quantity q) (tq_type q)
    (tq_asks q ++ skipn cut (tq_asks b)) (tq_bids q ++ skipn cut (tq_bids b)) (tq_cut b)
    (tq_cum q) (tq_lp_holdings b) (if full then tq_counter q else tq_counter b)
    (if full then tq_conv q else tq_conv b) (if full && cum then tq_cum_conv q else tq_cum_conv b).

(** (The buffer variant reads the cumulative quantity before the clock, the
    fresh one after it: the order matters only for which panic comes first.) *)
Lemma tq_buffer_is_fresh : forall m full f now P b dg, (if_cut f <= 10)%nat ->
  (if_cut f <= length (tq_asks b))%nat -> (if_cut f <= length (tq_bids b))%nat ->
  forall r, to_trade_quote m f now P dg = Ret r ->
  to_trade_quote_buffer m full f now P b dg
  = rbind (Ret r) (fun x => Ret (ROk (merge_tq full (if_parse_cum f) (if_cut f) (fst x) b, snd x))).
Proof.
  intros m full f now P b dg C La Lb r. unfold to_trade_quote_buffer, to_trade_quote.
  rewrite buffer_valid by assumption.
  destruct (is_valid_krx_payload f P) as [[[]|]| |]; try discriminate; [|intros R; injection R as <-; reflexivity].
  rewrite !rbind_ok.
  destruct (cut_slice P (if_isin f)) as [s| |]; try discriminate. cbn [obind].
  destruct (isin_new s) as [isin|]; try discriminate; [|intros R; injection R as <-; reflexivity]. rewrite !rbind_ok.
  destruct (subslice P 0 5) as [hd| |]; try discriminate. cbn [obind].
  destruct (get_krx_derivative_converter hd isin) as [conv| |]; try discriminate. cbn [obind].
  destruct krx_base_order_counter as [cnt| |]; try discriminate. cbn [obind]. cbv zeta.
  destruct (cut_slice P (if_time f)) as [ts| |]; try discriminate. cbn [obind].
  destruct (parse_hhmmssuuuuuu m krx_offset ts dg) as [[t dg']| |]; try discriminate. cbn [obind].
  destruct (cut_slice P (if_price f)) as [ps| |]; try discriminate. cbn [obind].
  destruct (to_i64 m (oc_price conv) ps) as [price| |]; try discriminate. cbn [obind].
  destruct (cut_slice P (if_qty f)) as [qs| |]; try discriminate. cbn [obind].
  destruct (to_u64_unchecked m (oc_quantity conv) qs) as [qty| |]; try discriminate. cbn [obind].
  destruct (cut_slice P (if_type f)) as [tys| |]; try discriminate. cbn [obind].
  destruct (parse_cum m f P) as [cum| |]; try discriminate. cbn [obind].
  rewrite cumconv_ok.
  match goal with |- context [levels ?g ?c] => destruct (levels g c) as [l| |] eqn:E end; try discriminate.
  cbn [obind]. apply levels_length in E; [|exact C].
  rewrite !fresh_levels_all by (rewrite map_length; exact E). cbn [obind].
  intros R. injection R as <-.
  rewrite !overwrite_all by (rewrite map_length; lia).
  destruct (full && if_parse_cum f) eqn:Ef; cbn [obind]; rewrite !map_length, E;
    unfold merge_tq; cbn [rbind fst snd]; rewrite Ef; reflexivity.
Qed.

(** ** Trades *)
Definition trade_iface (f : iface) : Prop :=
  if_isin f = (17%nat, 29%nat) /\ if_time f = (35%nat, 47%nat) /\ if_price f = (47%nat, 56%nat) /\
  if_qty f = (56%nat, 65%nat) /\ if_cumq f = (119%nat, 131%nat) /\ if_type f = (153%nat, 154%nat) /\
  (if_cut f <= 10)%nat /\ (if_start f + if_cut f * 46 + 16 <= if_len f)%nat /\ (154 <= if_len f)%nat.

Definition type_of_code (c : side_code) : trade_type :=
  match c with CodeNone => TUndefined | CodeSell => TSell | CodeBuy => TBuy end.

Lemma trade_text_length : forall p t, trade_ok p t -> length (trade_text p t) = 125%nat.
Proof.
  intros p t [_ [_ [[H1 _] [_ [[H2 _] [_ [H3 _]]]]]]]. unfold trade_text.
  rewrite !app_length, price_text_length, !digit_chars_length, H1, H2, H3. reflexivity.
Qed.

Lemma trade_parts : forall P p t, trade_ok p t -> shows P 47 (trade_text p t) ->
  shows P 47 (price_text p (tp_price t)) /\ shows P 56 (digit_chars 9 (tp_volume t)) /\
  shows P 119 (digit_chars 12 (tp_cumulative t)) /\ shows P 153 [tp_side t].
Proof.
  intros P p t [_ [_ [[H1 _] [_ [[H2 _] [_ [H3 _]]]]]]] S. unfold trade_text in S.
  repeat rewrite shows_app in S. rewrite price_text_length, !digit_chars_length, H1, H2 in S.
  cbn [Nat.add length] in S. tauto.
Qed.

Lemma type_read : forall P s, (154 <= s_len P)%nat -> shows P 153 [s] ->
  parse_trade_type (sub P 153 154) = Some (type_of_code (side_code_of s)).
Proof.
  intros P s L S. unfold parse_trade_type.
  assert (E : slice_list (sub P 153 154) = [s]).
  { apply shows_list; [apply sub_shows; exact S | reflexivity]. }
  rewrite E. cbn [bytes_eqb]. unfold side_code_of. rewrite !andb_true_r.
  destruct (s =? 48); [reflexivity|]. destruct (s =? 49); reflexivity.
Qed.

Lemma cum_read : forall m f P v, if_cumq f = (119%nat, 131%nat) -> (135 <= s_len P)%nat -> (s_len P <= s_cap P)%nat ->
  all_bytes P -> shows P 119 (digit_chars 12 v) -> 0 <= v < 10 ^ 12 ->
  parse_cum m f P = Ret (if if_parse_cum f then Some v else None).
Proof.
  intros m f P v Q L C A S H. unfold parse_cum.
  destruct (if_parse_cum f); [|reflexivity]. rewrite cumconv_ok. cbn [obind].
  unfold cut_slice. rewrite Q. cbn [fst snd]. rewrite (sub_ok P 119 131) by lia. cbn [obind].
  rewrite (digits_read m cum_cv (sub P 119 131) 12 v)
    by (try reflexivity; try apply sub_bytes; try apply sub_shows; try assumption; rewrite ?sub_cap; lia).
  reflexivity.
Qed.

Lemma cum_total : forall m f P, if_cumq f = (119%nat, 131%nat) -> (135 <= s_len P)%nat -> (s_len P <= s_cap P)%nat ->
  all_bytes P -> exists c, parse_cum m f P = Ret c.
Proof.
  intros m f P Q L C A. unfold parse_cum. destruct (if_parse_cum f); [|eexists; reflexivity].
  rewrite cumconv_ok. cbn [obind].
  unfold cut_slice. rewrite Q. cbn [fst snd]. rewrite (sub_ok P 119 131) by lia. cbn [obind].
  destruct (digits_total m cum_cv (sub P 119 131)) as [v ->];
    [cbn; lia | apply sub_bytes; exact A | rewrite sub_cap; lia | eexists; reflexivity].
Qed.

Lemma trade_quote_read : forall m f now P h p t rows dg,
  trade_iface f -> framed f P -> all_bytes P -> header_ok h -> format_of h p -> trade_ok p t -> gen_ok dg ->
  shows P 0 (header_text h) -> shows P 47 (trade_text p t) -> shows P (if_start f) (concat (map (row_text p) rows)) ->
  Forall (row_ok p) rows -> (if_cut f <= length rows)%nat ->
  exists stamp date', stamped (9 * 3600 * 1000000000) (dg_date dg) (dg_prev dg) h stamp date' /\
    to_trade_quote m f now P dg
    = Ret (ROk (TradeQuoteSnapshot (hd_isin h) stamp now (tp_price t) (tp_volume t)
                  (Some (type_of_code (side_code_of (tp_side t))))
                  (map ask_row (firstn (if_cut f) rows)) (map bid_row (firstn (if_cut f) rows)) (if_cut f)
                  (if if_parse_cum f then Some (tp_cumulative t) else None) None cnt_cv (deriv_conv p) cum_cv,
                DateGen date' stamp)).
Proof.
  intros m f now P h p t rows dg [Q1 [Q2 [Q3 [Q4 [Q5 [Q6 [Q7 [Q8 Q9]]]]]]]] Fr A H Fo T G S St Sr F Lr.
  destruct (header_parts P h H S) as [S1 [S2 S3]].
  destruct (trade_parts P p t T St) as [T1 [T2 [T3 T4]]].
  destruct T as [V1 [V2 [_ [V3 _]]]].
  pose proof Fr as [L [E C]].
  destruct (stamp_read m P h dg A ltac:(lia) H G S3) as [ts [date' [Sd Es]]].
  exists ts, date'. split; [exact Sd|].
  unfold to_trade_quote. rewrite framed_valid by (try assumption; lia). rewrite rbind_ok.
  unfold cut_slice. rewrite Q1, Q2, Q3, Q4, Q6. cbn [fst snd].
  rewrite (sub_ok P 17 29) by lia. cbn [obind].
  rewrite (isin_read P h) by (try assumption; lia). rewrite rbind_ok.
  rewrite (sub_ok P 0 5) by lia. cbn [obind].
  rewrite (converter_read P h p) by (try assumption; lia). cbn [obind]. rewrite counter_ok. cbn [obind].
  rewrite (sub_ok P 35 47) by lia. cbn [obind]. rewrite Es. cbn [obind].
  rewrite (sub_ok P 47 56) by lia. cbn [obind deriv_conv oc_price oc_quantity].
  rewrite (price_read m p (sub P 47 56) (tp_price t))
    by (try apply sub_bytes; try apply sub_shows; try assumption; rewrite ?sub_len, ?sub_cap; lia). cbn [obind].
  rewrite (sub_ok P 56 65) by lia. cbn [obind].
  rewrite (digits_read m qty_cv (sub P 56 65) 9 (tp_volume t))
    by (try reflexivity; try apply sub_bytes; try apply sub_shows; try assumption; rewrite ?sub_len, ?sub_cap; lia).
  cbn [obind]. rewrite (sub_ok P 153 154) by lia. cbn [obind].
  rewrite (type_read P (tp_side t)) by (try assumption; lia).
  rewrite (cum_read m f P (tp_cumulative t)) by (try assumption; lia). cbn [obind].
  change (total_length (cv_cfg (price_cv p))) with 9%nat.
  change (total_length (cv_cfg qty_cv)) with 9%nat.
  change (total_length (cv_cfg cnt_cv)) with 5%nat. cbv zeta.
  change (9 * 2 + 9 * 2 + 5 * 2)%nat with 46%nat. fold (deriv_conv p).
  rewrite (levels_read m p P (if_start f) rows (if_cut f)) by (try assumption; lia). cbn [obind].
  rewrite !map_map. cbn [fst snd].
  rewrite !fresh_levels_all by (rewrite map_length, firstn_length; lia). cbn [obind].
  rewrite cumconv_ok. reflexivity.
Qed.

Lemma trade_quote_total : forall m f now P dg,
  trade_iface f -> framed f P -> all_bytes P -> gen_ok dg ->
  (isin_new (sub P 17 29) = RErr /\ to_trade_quote m f now P dg = Ret RErr) \/
  (exists isin q dg', isin_new (sub P 17 29) = ROk isin /\ to_trade_quote m f now P dg = Ret (ROk (q, dg')) /\ tq_id q = isin).
Proof.
  intros m f now P dg [Q1 [Q2 [Q3 [Q4 [Q5 [Q6 [Q7 [Q8 Q9]]]]]]]] Fr A G.
  pose proof Fr as [L [E C]].
  unfold to_trade_quote. rewrite framed_valid by (try assumption; lia). rewrite rbind_ok.
  unfold cut_slice. rewrite Q1, Q2, Q3, Q4, Q6. cbn [fst snd].
  rewrite (sub_ok P 17 29) by lia. cbn [obind].
  destruct (isin_new (sub P 17 29)) as [isin|] eqn:I; [right|left; split; reflexivity].
  rewrite rbind_ok. rewrite (sub_ok P 0 5) by lia. cbn [obind].
  destruct (converter_total P isin) as [p ->]; [lia|]. cbn [obind]. rewrite counter_ok. cbn [obind].
  rewrite (sub_ok P 35 47) by lia. cbn [obind].
  destruct (stamp_total m P dg A) as [t [dg' ->]]; [lia | exact G |]. cbn [obind].
  rewrite (sub_ok P 47 56) by lia. cbn [obind deriv_conv oc_price oc_quantity].
  destruct (price_total m p (sub P 47 56)) as [pv ->];
    [apply sub_bytes; exact A | rewrite sub_len; lia | rewrite sub_cap; lia|]. cbn [obind].
  rewrite (sub_ok P 56 65) by lia. cbn [obind].
  destruct (digits_total m qty_cv (sub P 56 65)) as [qv ->];
    [cbn; lia | apply sub_bytes; exact A | rewrite sub_cap; lia|]. cbn [obind].
  rewrite (sub_ok P 153 154) by lia. cbn [obind].
  destruct (cum_total m f P) as [cv ->]; [assumption | lia | lia | assumption |]. cbn [obind].
  change (total_length (cv_cfg (price_cv p))) with 9%nat.
  change (total_length (cv_cfg qty_cv)) with 9%nat.
  change (total_length (cv_cfg cnt_cv)) with 5%nat. cbv zeta.
  change (9 * 2 + 9 * 2 + 5 * 2)%nat with 46%nat. fold (deriv_conv p).
  destruct (levels_total m p P (if_start f) (if_cut f)) as [l [-> Ll]]; [assumption | lia | lia | lia |]. cbn [obind].
  rewrite !fresh_levels_all by (rewrite map_length; exact Ll). cbn [obind]. rewrite cumconv_ok. cbn [obind].
  eexists _, _, _. repeat split.
Qed.

(** ** Trades alone *)
(** What the unchecked reader makes of a price column. *)
Definition misread (p : price_format) (v : Z) : Z := dec (firstn 8 (price_text p v)).

Lemma price_text_bytes : forall p v, Forall is_byte (price_text p v).
Proof.
  intros p v. unfold price_text, field_text. cbn [app]. constructor.
  - unfold is_byte, sign_char. destruct (v <? 0); lia.
  - unfold written. destruct (point_columns p).
    + eapply Forall_impl; [|apply digit_chars_digits]. unfold is_byte. lia.
    + apply Forall_app. split; [eapply Forall_impl; [|apply digit_chars_digits]; unfold is_byte; lia|].
      constructor; [unfold is_byte; lia|]. eapply Forall_impl; [|apply digit_chars_digits]. unfold is_byte. lia.
Qed.

Lemma misread_bound : forall p v, 0 <= misread p v < 10 ^ 9.
Proof.
  intros p v. unfold misread.
  pose proof (dec_bound (firstn 8 (price_text p v))) as B.
  rewrite firstn_length, price_text_length in B. cbn [Nat.min] in B. change (10 ^ Z.of_nat 8) with 100000000 in B.
  change (10 ^ 9) with 1000000000. destruct B; [|lia].
  pose proof (price_text_bytes p v) as F. rewrite <- (firstn_skipn 8 (price_text p v)) in F.
  apply Forall_app in F. apply F.
Qed.

Lemma price_misread : forall m p u v, all_bytes u -> (16 <= s_cap u)%nat ->
  shows u 0 (price_text p v) -> to_nonnegative_i64_unchecked m (price_cv p) u = Ret (misread p v).
Proof.
  intros m p u v A C S. unfold to_nonnegative_i64_unchecked, to_u64_unchecked.
  assert (Lp : cv_length (price_cv p) = 8%nat) by reflexivity. rewrite Lp.
  rewrite parse_under16_ok by (try assumption; lia). cbn [obind].
  unfold shows in S. rewrite price_text_length in S.
  assert (E : bytes_of u 0 8 = firstn 8 (price_text p v)).
  { rewrite <- S. symmetry. apply bytes_of_firstn. lia. }
  rewrite E. fold (misread p v). pose proof (misread_bound p v) as B. change (10 ^ 9) with 1000000000 in B.
  rewrite Z.mod_small by (unfold two64; lia). rewrite as_i64_small; [reflexivity|].
  change (2 ^ 63) with 9223372036854775808. lia.
Qed.

Lemma dec_cons : forall b l, dec (b :: l) = nib b * 10 ^ Z.of_nat (length l) + dec l.
Proof. intros b l. change (b :: l) with ([b] ++ l). rewrite dec_app. unfold dec at 1. cbn [fold_left]. ring. Qed.

(** Negative prices become large positive ones, and every other price but the
    decimal-free zero is misread too. *)
Lemma misread_wrong : forall p v, price_ok p v -> (p <> NoDecimals \/ v <> 0) -> misread p v <> v.
Proof.
  intros p v H N. pose proof (misread_bound p v) as B0. destruct (Z.ltb_spec v 0) as [Neg|Pos]; [lia|].
  unfold misread, price_text, field_text, price_ok, capacity in *. rewrite Z.abs_eq in * by exact Pos.
  unfold sign_char. rewrite (proj2 (Z.ltb_ge v 0) Pos). cbn [app]. rewrite firstn_cons.
  rewrite dec_cons. change (nib 48) with 0. rewrite Z.mul_0_l, Z.add_0_l.
  destruct p; cbn [integer_columns point_columns written Nat.sub Nat.add] in *.
  - destruct N as [N|N]; [congruence|].
    cbn [written]. rewrite (digit_chars_split 1 7). rewrite firstn_app, digit_chars_length.
    rewrite firstn_all2 by (rewrite digit_chars_length; lia). cbn [Nat.sub firstn]. rewrite app_nil_r.
    rewrite dec_digit_chars; [change (10 ^ Z.of_nat 1) with 10; pose proof (Z.mul_div_le v 10); lia|].
    change (10 ^ Z.of_nat 1) with 10. change (10 ^ Z.of_nat 7) with 10000000.
    change (10 ^ Z.of_nat (8 + (0 - 1))) with 100000000 in H.
    split; [apply Z.div_pos; lia | apply Z.div_lt_upper_bound; lia].
  - change (10 ^ Z.of_nat (4 + 3)) with 10000000 in H.
    rewrite firstn_app, digit_chars_length. rewrite firstn_all2 by (rewrite digit_chars_length; lia).
    cbn [Nat.sub app]. rewrite firstn_cons, (digit_chars_split 1 2). rewrite firstn_app, digit_chars_length.
    cbn [Nat.sub]. rewrite firstn_O, (firstn_all2 (n := 2)) by (rewrite digit_chars_length; lia). rewrite app_nil_r.
    rewrite dec_app, dec_cons. cbn [length]. rewrite !digit_chars_length. change (nib 46) with 14.
    change (10 ^ Z.of_nat 3) with 1000. change (10 ^ Z.of_nat 1) with 10. change (10 ^ Z.of_nat 2) with 100.
    rewrite !dec_digit_chars.
    + intros E. pose proof (Z.div_mod v 1000 ltac:(lia)). pose proof (Z.mod_pos_bound v 1000 ltac:(lia)).
      pose proof (Z.div_mod (v mod 1000) 10 ltac:(lia)). pose proof (Z.mod_pos_bound (v mod 1000) 10 ltac:(lia)). lia.
    + change (10 ^ Z.of_nat 2) with 100. pose proof (Z.mod_pos_bound v 1000 ltac:(lia)).
      split; [apply Z.div_pos; lia | apply Z.div_lt_upper_bound; lia].
    + change (10 ^ Z.of_nat 4) with 10000. split; [apply Z.div_pos; lia | apply Z.div_lt_upper_bound; lia].
  - change (10 ^ Z.of_nat (5 + 2)) with 10000000 in H.
    rewrite firstn_app, digit_chars_length. rewrite firstn_all2 by (rewrite digit_chars_length; lia).
    cbn [Nat.sub app]. rewrite firstn_cons, (digit_chars_split 1 1). rewrite firstn_app, digit_chars_length.
    cbn [Nat.sub]. rewrite firstn_O, (firstn_all2 (n := 1)) by (rewrite digit_chars_length; lia). rewrite app_nil_r.
    rewrite dec_app, dec_cons. cbn [length]. rewrite !digit_chars_length. change (nib 46) with 14.
    change (10 ^ Z.of_nat 1) with 10. change (10 ^ Z.of_nat 2) with 100.
    rewrite !dec_digit_chars.
    + intros E. pose proof (Z.div_mod v 100 ltac:(lia)). pose proof (Z.mod_pos_bound v 100 ltac:(lia)).
      pose proof (Z.div_mod (v mod 100) 10 ltac:(lia)). pose proof (Z.mod_pos_bound (v mod 100) 10 ltac:(lia)). lia.
    + change (10 ^ Z.of_nat 1) with 10. pose proof (Z.mod_pos_bound v 100 ltac:(lia)).
      split; [apply Z.div_pos; lia | apply Z.div_lt_upper_bound; lia].
    + change (10 ^ Z.of_nat 5) with 100000. split; [apply Z.div_pos; lia | apply Z.div_lt_upper_bound; lia].
Qed.

Lemma trade_data_both : forall m f now P h p t b dg,
  trade_iface f -> framed f P -> all_bytes P -> header_ok h -> format_of h p -> trade_ok p t -> gen_ok dg ->
  shows P 0 (header_text h) -> shows P 47 (trade_text p t) ->
  exists stamp date', stamped (9 * 3600 * 1000000000) (dg_date dg) (dg_prev dg) h stamp date' /\
    let result price cc := Ret (ROk (TradeData (hd_isin h) stamp now price (tp_volume t)
                  (Some (type_of_code (side_code_of (tp_side t))))
                  (if if_parse_cum f then Some (tp_cumulative t) else None) (deriv_conv p) cc,
                DateGen date' stamp)) in
    to_trade_data m f now P dg = result (misread p (tp_price t)) cum_cv /\
    to_trade_data_buffer m f now P b dg = result (tp_price t) (td_cum_conv b).
Proof.
  intros m f now P h p t b dg [Q1 [Q2 [Q3 [Q4 [Q5 [Q6 [Q7 [Q8 Q9]]]]]]]] Fr A H Fo T G S St.
  destruct (header_parts P h H S) as [S1 [S2 S3]].
  destruct (trade_parts P p t T St) as [T1 [T2 [T3 T4]]].
  destruct T as [V1 [V2 [_ [V3 _]]]].
  pose proof Fr as [L [E C]].
  destruct (stamp_read m P h dg A ltac:(lia) H G S3) as [ts [date' [Sd Es]]].
  exists ts, date'. split; [exact Sd|]. cbv zeta.
  unfold to_trade_data, to_trade_data_buffer. rewrite framed_valid by (try assumption; lia). rewrite !rbind_ok.
  unfold cut_slice. rewrite Q1, Q2, Q3, Q4, Q6. cbn [fst snd].
  rewrite (sub_ok P 17 29) by lia. cbn [obind].
  rewrite (isin_read P h) by (try assumption; lia). rewrite !rbind_ok.
  rewrite (sub_ok P 0 5) by lia. cbn [obind].
  rewrite (converter_read P h p) by (try assumption; lia). cbn [obind].
  rewrite (cum_read m f P (tp_cumulative t)) by (try assumption; lia). cbn [obind].
  rewrite (sub_ok P 35 47) by lia. cbn [obind]. rewrite Es. cbn [obind].
  rewrite (sub_ok P 47 56) by lia. cbn [obind deriv_conv oc_price oc_quantity].
  rewrite (price_read m p (sub P 47 56) (tp_price t))
    by (try apply sub_bytes; try apply sub_shows; try assumption; rewrite ?sub_len, ?sub_cap; lia).
  rewrite (price_misread m p (sub P 47 56) (tp_price t))
    by (try apply sub_bytes; try apply sub_shows; try assumption; rewrite ?sub_len, ?sub_cap; lia). cbn [obind].
  rewrite (sub_ok P 56 65) by lia. cbn [obind].
  rewrite (digits_read m qty_cv (sub P 56 65) 9 (tp_volume t))
    by (try reflexivity; try apply sub_bytes; try apply sub_shows; try assumption; rewrite ?sub_len, ?sub_cap; lia).
  cbn [obind]. rewrite (sub_ok P 153 154) by lia. cbn [obind].
  rewrite (type_read P (tp_side t)) by (try assumption; lia). rewrite cumconv_ok. split; reflexivity.
Qed.

Lemma trade_data_total : forall m f now P b dg,
  trade_iface f -> framed f P -> all_bytes P -> gen_ok dg ->
  (isin_new (sub P 17 29) = RErr /\ to_trade_data m f now P dg = Ret RErr /\ to_trade_data_buffer m f now P b dg = Ret RErr) \/
  (exists isin q dg' q', isin_new (sub P 17 29) = ROk isin /\ to_trade_data m f now P dg = Ret (ROk (q, dg')) /\ td_id q = isin /\
    to_trade_data_buffer m f now P b dg = Ret (ROk (q', dg')) /\ td_id q' = isin).
Proof.
  intros m f now P b dg [Q1 [Q2 [Q3 [Q4 [Q5 [Q6 [Q7 [Q8 Q9]]]]]]]] Fr A G.
  pose proof Fr as [L [E C]].
  unfold to_trade_data, to_trade_data_buffer. rewrite framed_valid by (try assumption; lia). rewrite !rbind_ok.
  unfold cut_slice. rewrite Q1, Q2, Q3, Q4, Q6. cbn [fst snd].
  rewrite (sub_ok P 17 29) by lia. cbn [obind].
  destruct (isin_new (sub P 17 29)) as [isin|] eqn:I; [right|left; repeat split].
  rewrite !rbind_ok. rewrite (sub_ok P 0 5) by lia. cbn [obind].
  destruct (converter_total P isin) as [p ->]; [lia|]. cbn [obind].
  destruct (cum_total m f P) as [cv ->]; [assumption | lia | lia | assumption |]. cbn [obind].
  rewrite (sub_ok P 35 47) by lia. cbn [obind].
  destruct (stamp_total m P dg A) as [t [dg' ->]]; [lia | exact G |]. cbn [obind].
  rewrite (sub_ok P 47 56) by lia. cbn [obind deriv_conv oc_price oc_quantity].
  destruct (price_total m p (sub P 47 56)) as [pv ->];
    [apply sub_bytes; exact A | rewrite sub_len; lia | rewrite sub_cap; lia|].
  destruct (digits_i64_total m (price_cv p) (sub P 47 56)) as [pv2 ->];
    [cbn; lia | apply sub_bytes; exact A | rewrite sub_cap; lia|]. cbn [obind].
  rewrite (sub_ok P 56 65) by lia. cbn [obind].
  destruct (digits_total m qty_cv (sub P 56 65)) as [qv ->];
    [cbn; lia | apply sub_bytes; exact A | rewrite sub_cap; lia|]. cbn [obind].
  rewrite (sub_ok P 153 154) by lia. cbn [obind]. rewrite cumconv_ok. cbn [obind].
  eexists _, _, _, _. repeat split.
Qed.

(** ** Stock quotes *)
Definition stock_iface (lp : bool) (f : iface) : Prop :=
  if_isin f = (17%nat, 29%nat) /\ if_time f = (35%nat, 47%nat) /\ (if_cut f <= 10)%nat /\
  (if_start f + if_cut f * (if lp then 70 else 46) + 16 <= if_len f)%nat /\ (63 <= if_len f)%nat.

Lemma stock_width : forall lp : bool,
  (11 * 2 + (if lp then 12 * 4 else 12 * 2))%nat = if lp then 70%nat else 46%nat.
Proof. intros []; reflexivity. Qed.

Lemma stock_read : forall m (lp : bool) f now P h rows dg,
  stock_iface lp f -> framed f P -> all_bytes P -> header_ok h -> gen_ok dg ->
  shows P 0 (header_text h) -> shows P (if_start f) (concat (map (stock_row_text lp) rows)) ->
  Forall stock_row_ok rows -> (if_cut f <= length rows)%nat ->
  exists t date', stamped (9 * 3600 * 1000000000) (dg_date dg) (dg_prev dg) h t date' /\
    to_stock_quote m lp f now P dg
    = Ret (ROk (QuoteSnapshot (hd_isin h) t now
                 (map (stock_ask_row lp (fun v => v / 100)) (firstn (if_cut f) rows))
                 (map (stock_bid_row lp (fun v => v / 100)) (firstn (if_cut f) rows))
                 (if_cut f) None cnt_cv stock_conv, DateGen date' t)).
Proof.
  intros m lp f now P h rows dg [Q1 [Q2 [Q3 [Q4 Q5]]]] Fr A H G S Sr F Lr.
  destruct (header_parts P h H S) as [S1 [S2 S3]].
  pose proof Fr as [L [E C]].
  destruct (stamp_read m P h dg A ltac:(lia) H G S3) as [t [date' [St Es]]].
  exists t, date'. split; [exact St|].
  unfold to_stock_quote. rewrite framed_valid by (try assumption; lia). rewrite rbind_ok.
  unfold cut_slice. rewrite Q1, Q2. cbn [fst snd].
  rewrite (sub_ok P 17 29) by lia. cbn [obind].
  rewrite (isin_read P h) by (try assumption; lia). rewrite rbind_ok.
  rewrite stock_conv_ok. cbn [obind].
  rewrite (sub_ok P 35 47) by lia. cbn [obind]. rewrite Es. cbn [obind].
  change (total_length (cv_cfg (oc_price stock_conv))) with 11%nat.
  change (total_length (cv_cfg (oc_quantity stock_conv))) with 12%nat. cbv zeta. rewrite stock_width.
  rewrite (stock_levels_read m lp P (if_start f) rows (if_cut f)) by (try assumption; lia). cbn [obind].
  rewrite !map_map. cbn [fst snd].
  rewrite !fresh_levels_all by (rewrite map_length, firstn_length; lia). cbn [obind]. rewrite counter_ok. reflexivity.
Qed.

Lemma stock_total : forall m (lp : bool) f now P dg,
  stock_iface lp f -> framed f P -> all_bytes P -> gen_ok dg ->
  (isin_new (sub P 17 29) = RErr /\ to_stock_quote m lp f now P dg = Ret RErr) \/
  (exists isin q dg', isin_new (sub P 17 29) = ROk isin /\ to_stock_quote m lp f now P dg = Ret (ROk (q, dg')) /\ qs_id q = isin).
Proof.
  intros m lp f now P dg [Q1 [Q2 [Q3 [Q4 Q5]]]] Fr A G.
  pose proof Fr as [L [E C]].
  unfold to_stock_quote. rewrite framed_valid by (try assumption; lia). rewrite rbind_ok.
  unfold cut_slice. rewrite Q1, Q2. cbn [fst snd].
  rewrite (sub_ok P 17 29) by lia. cbn [obind].
  destruct (isin_new (sub P 17 29)) as [isin|] eqn:I; [right|left; split; reflexivity].
  rewrite rbind_ok. rewrite stock_conv_ok. cbn [obind].
  rewrite (sub_ok P 35 47) by lia. cbn [obind].
  destruct (stamp_total m P dg A) as [t [dg' ->]]; [lia | exact G |]. cbn [obind].
  change (total_length (cv_cfg (oc_price stock_conv))) with 11%nat.
  change (total_length (cv_cfg (oc_quantity stock_conv))) with 12%nat. cbv zeta. rewrite stock_width.
  destruct (stock_levels_total m lp P (if_start f) (if_cut f)) as [l [-> Ll]]; [assumption | lia | lia | lia |]. cbn [obind].
  rewrite !fresh_levels_all by (rewrite map_length; exact Ll). cbn [obind]. rewrite counter_ok. cbn [obind].
  eexists _, _, _. repeat split.
Qed.
