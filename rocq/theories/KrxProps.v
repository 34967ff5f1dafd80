(** KrxProps.v -- properties C32-C41: KRX messages.

    A message is given by its contents (KrxSpec.v); its payload is the slice
    [slice_of (…_text …) rest extra]: the message bytes, followed in memory by
    arbitrary bytes [rest], [extra] of them inside the allocation. *)
From Coq Require Import ZArith List Lia Bool.
From Verif Require Import Base OBTypes NumModel NumSpec NumProofs NumConv NumProps KrxModel KrxSpec KrxProofs KrxMsg.
Import ListNotations.
Open Scope Z_scope.

(** ** Payloads made from messages *)
Ltac parts := match goal with |- Forall _ (_ ++ _) => apply Forall_app; split; parts | _ => idtac end.
Lemma text_bytes : forall n l, text n l -> Forall is_byte l.
Proof. intros n l [_ F]. exact F. Qed.
Lemma chars_bytes : forall n v, Forall is_byte (digit_chars n v).
Proof. intros. apply digits_bytes, digit_chars_digits. Qed.
Lemma header_bytes : forall h, header_ok h -> Forall is_byte (header_text h).
Proof.
  intros h [H1 [H2 [H3 [H4 [H5 [[_ H6] [H7 _]]]]]]]. unfold header_text, clock_text.
  parts; try (eapply text_bytes; eassumption); try apply chars_bytes.
  eapply Forall_impl; [|exact H6]. unfold ascii, is_byte. intros a [Ha _]. lia.
Qed.
Lemma concat_bytes : forall B (f : B -> list Z) rows, (forall r, Forall is_byte (f r)) -> Forall is_byte (concat (map f rows)).
Proof.
  intros B f rows H. induction rows as [|r rows IH]; [constructor|]. cbn [map concat]. apply Forall_app. split; [apply H | exact IH].
Qed.
Lemma row_bytes : forall p r, Forall is_byte (row_text p r).
Proof.
  intros p r. unfold row_text. parts; try apply chars_bytes; apply price_text_bytes.
Qed.
Lemma stock_row_bytes : forall lp r, Forall is_byte (stock_row_text lp r).
Proof.
  intros lp r. unfold stock_row_text. parts; try apply chars_bytes.
  destruct lp; [apply Forall_app; split; apply chars_bytes | constructor].
Qed.
Lemma trade_bytes : forall p t, trade_ok p t -> Forall is_byte (trade_text p t).
Proof.
  intros p t [_ [_ [H1 [_ [H2 [H3 H4]]]]]]. unfold trade_text.
  parts; try apply chars_bytes; try apply price_text_bytes; try (eapply text_bytes; eassumption).
  constructor; [exact H3 | constructor].
Qed.
Lemma end_keyword : Forall is_byte [255].
Proof. constructor; [unfold is_byte; lia | constructor]. Qed.

Lemma slice_framed : forall f body rest extra, length (body ++ [255]) = if_len f ->
  framed f (slice_of (body ++ [255]) rest extra).
Proof.
  intros f body rest extra L. unfold framed. cbn [slice_of s_len s_cap s_at].
  split; [exact L|]. split; [|lia]. rewrite app_length in L. cbn [length] in L.
  rewrite nth_error_app2 by lia. replace (if_len f - 1 - length body)%nat with 0%nat by lia. reflexivity.
Qed.

Lemma quote_payload : forall f h p rows totals rest extra,
  header_ok h -> text 46 totals -> memory rest -> if_start f = 47%nat ->
  (if_len f = 94 + length rows * 46)%nat ->
  let P := slice_of (quote_text h p rows totals) rest extra in
  framed f P /\ all_bytes P /\ shows P 0 (header_text h) /\ shows P (if_start f) (concat (map (row_text p) rows)).
Proof.
  intros f h p rows totals rest extra H T M Sf L P.
  assert (Lc : length (concat (map (row_text p) rows)) = (length rows * 46)%nat)
    by (apply concat_length; intros; apply row_text_length).
  assert (Lh := header_text_length h H). destruct T as [Lt Ft].
  split; [|split; [|split]].
  - unfold P, quote_text. rewrite !app_assoc. apply slice_framed. rewrite !app_length. cbn [length]. lia.
  - unfold P, quote_text. apply slice_of_bytes; [|exact M].
    parts; [apply header_bytes; exact H | apply concat_bytes; intros; apply row_bytes | exact Ft | apply end_keyword].
  - pose proof (slice_of_shows (quote_text h p rows totals) rest extra) as S. unfold quote_text at 2 in S.
    apply shows_app in S. apply S.
  - pose proof (slice_of_shows (quote_text h p rows totals) rest extra) as S. unfold quote_text at 2 in S.
    rewrite !shows_app in S. rewrite Lh in S. rewrite Sf. apply S.
Qed.

Lemma trade_quote_payload : forall f h p t rows totals rest extra,
  header_ok h -> trade_ok p t -> text 28 totals -> memory rest -> if_start f = 172%nat ->
  (if_len f = 201 + length rows * 46)%nat ->
  let P := slice_of (trade_quote_text h p t rows totals) rest extra in
  framed f P /\ all_bytes P /\ shows P 0 (header_text h) /\ shows P 47 (trade_text p t) /\
  shows P (if_start f) (concat (map (row_text p) rows)).
Proof.
  intros f h p t rows totals rest extra H Tr T M Sf L P.
  assert (Lc : length (concat (map (row_text p) rows)) = (length rows * 46)%nat)
    by (apply concat_length; intros; apply row_text_length).
  assert (Lh := header_text_length h H). assert (Ltr := trade_text_length p t Tr). destruct T as [Lt Ft].
  pose proof (slice_of_shows (trade_quote_text h p t rows totals) rest extra) as S.
  unfold trade_quote_text at 2 in S. rewrite !shows_app in S. rewrite Lh, Ltr in S.
  split; [|split; [|split; [|split]]].
  - unfold P, trade_quote_text. rewrite !app_assoc. apply slice_framed. rewrite !app_length. cbn [length]. lia.
  - unfold P, trade_quote_text. apply slice_of_bytes; [|exact M].
    parts;
      [apply header_bytes; exact H | apply trade_bytes; exact Tr | apply concat_bytes; intros; apply row_bytes | exact Ft | apply end_keyword].
  - apply S.
  - apply S.
  - rewrite Sf. apply S.
Qed.

Lemma trade_payload : forall f h p t rest extra,
  header_ok h -> trade_ok p t -> memory rest -> (if_len f = 173)%nat ->
  let P := slice_of (trade_only_text h p t) rest extra in
  framed f P /\ all_bytes P /\ shows P 0 (header_text h) /\ shows P 47 (trade_text p t).
Proof.
  intros f h p t rest extra H Tr M L P.
  assert (Lh := header_text_length h H). assert (Ltr := trade_text_length p t Tr).
  pose proof (slice_of_shows (trade_only_text h p t) rest extra) as S.
  unfold trade_only_text at 2 in S. rewrite !shows_app in S. rewrite Lh in S.
  split; [|split; [|split]].
  - unfold P, trade_only_text. rewrite !app_assoc. apply slice_framed. rewrite !app_length. cbn [length]. lia.
  - unfold P, trade_only_text. apply slice_of_bytes; [|exact M].
    parts; [apply header_bytes; exact H | apply trade_bytes; exact Tr | apply end_keyword].
  - apply S.
  - apply S.
Qed.

Lemma stock_payload : forall (lp : bool) f h rows totals rest extra,
  header_ok h -> text 47 totals -> memory rest -> if_start f = 47%nat ->
  (if_len f = 95 + length rows * (if lp then 70 else 46))%nat ->
  let P := slice_of (stock_quote_text lp h rows totals) rest extra in
  framed f P /\ all_bytes P /\ shows P 0 (header_text h) /\ shows P (if_start f) (concat (map (stock_row_text lp) rows)).
Proof.
  intros lp f h rows totals rest extra H T M Sf L P.
  assert (Lc : length (concat (map (stock_row_text lp) rows)) = (length rows * (if lp then 70 else 46))%nat)
    by (apply concat_length; intros; apply stock_row_text_length).
  assert (Lh := header_text_length h H). destruct T as [Lt Ft].
  pose proof (slice_of_shows (stock_quote_text lp h rows totals) rest extra) as S.
  unfold stock_quote_text at 2 in S. rewrite !shows_app in S. rewrite Lh in S.
  split; [|split; [|split]].
  - unfold P, stock_quote_text. rewrite !app_assoc. apply slice_framed. rewrite !app_length. cbn [length]. lia.
  - unfold P, stock_quote_text. apply slice_of_bytes; [|exact M].
    parts; [apply header_bytes; exact H | apply concat_bytes; intros; apply stock_row_bytes | exact Ft | apply end_keyword].
  - apply S.
  - rewrite Sf. apply S.
Qed.

(** Decimals a price converter announces (its integer and decimal columns). *)
Definition announces (c : converter) (p : price_format) : Prop :=
  digit_length (cv_cfg c) = integer_columns p /\ decimal_point_length (cv_cfg c) = point_columns p.

(** Width of the field a converter announces. *)
Definition columns (c : converter) (n : nat) : Prop := total_length (cv_cfg c) = n.

Definition sample_header : header :=
  Header [66; 54] [48; 49; 70] [48; 48; 48; 48; 48; 48; 48; 49] [71; 49] [52; 48]
         [75; 82; 52; 49; 48; 49; 86; 51; 48; 48; 48; 54] [48; 48; 48; 48; 48; 49] 9 0 1 123456.
Definition sample_rows : list quote_row :=
  [QuoteRow 35000 34995 17 3 4 1; QuoteRow 35005 34990 20 30 5 6; QuoteRow 35010 34985 0 0 0 0;
   QuoteRow (-5) 34980 999999999 1 99999 1; QuoteRow 35020 34975 2 2 2 2].
Definition sample_gen : date_gen := DateGen (19675 * day_nanos) 0.

Lemma sample_header_ok : header_ok sample_header.
Proof.
  unfold header_ok, text, isin_ok, byte, ascii, clock_ok. cbn -[Z.lt Z.le].
  repeat split; repeat constructor; try lia; discriminate.
Qed.
Lemma sample_format : format_of sample_header TwoDecimals.
Proof. cbn. split; [intros [H|[H|H]]; discriminate | discriminate]. Qed.
Lemma sample_rows_ok : Forall (row_ok TwoDecimals) sample_rows.
Proof. unfold sample_rows, row_ok, price_ok, capacity. repeat constructor; cbn; lia. Qed.
Lemma sample_gen_ok : gen_ok sample_gen.
Proof. unfold gen_ok, sample_gen, day_nanos, hour_nanos, second_nanos, two64. cbn. lia. Qed.
Lemma zeros_text : forall n, text n (repeat 48 n).
Proof.
  intros n. split; [apply repeat_length|]. apply Forall_forall. intros x H. apply repeat_spec in H. subst. unfold byte. lia.
Qed.

(** * C32  Derivative quotes (IFMSRPD0034: five levels, IFMSRPD0035: ten) *)
Theorem C32_derivative_quote_is_decoded : forall m now f n h p rows totals rest extra dg cut g,
  (f, n) = (ifmsrpd0034, 5%nat) \/ (f, n) = (ifmsrpd0035, 10%nat) ->
  header_ok h -> format_of h p -> length rows = n -> Forall (row_ok p) rows -> text 46 totals ->
  memory rest -> gen_ok dg -> with_quote_level_cut f cut = ROk g ->
  exists q stamp date',
    to_quote_snapshot m g now (slice_of (quote_text h p rows totals) rest extra) dg = Ret (ROk (q, DateGen date' stamp)) /\
    stamped (9 * 3600 * 1000000000) (dg_date dg) (dg_prev dg) h stamp date' /\
    qs_id q = hd_isin h /\ qs_time q = stamp /\ qs_system q = now /\
    qs_asks q = map ask_row (firstn cut rows) /\ qs_bids q = map bid_row (firstn cut rows) /\
    qs_cut q = cut /\ effective (qs_asks q) (qs_cut q) = Ret (map ask_row (firstn cut rows)) /\
    effective (qs_bids q) (qs_cut q) = Ret (map bid_row (firstn cut rows)) /\
    qs_lp_holdings q = None /\ announces (oc_price (qs_conv q)) p /\
    columns (oc_price (qs_conv q)) 9 /\ columns (oc_quantity (qs_conv q)) 9 /\ columns (qs_counter q) 5.
Proof.
  intros m now f n h p rows totals rest extra dg cut g Ff H Fo Lr F T M G W.
  assert (Wg : quote_iface g /\ if_start g = 47%nat /\ (if_len g = 94 + length rows * 46)%nat /\ if_cut g = cut /\ (cut <= length rows)%nat).
  { destruct Ff as [E|E]; injection E as -> ->; unfold with_quote_level_cut in W;
      match type of W with (if (?a <? ?b)%nat then _ else _) = _ => destruct (Nat.ltb_spec a b) as [X|X] end; try discriminate;
      injection W as <-; cbn [if_max ifmsrpd0034 ifmsrpd0035] in X; rewrite Lr; unfold quote_iface; cbn; repeat split; lia. }
  destruct Wg as [Q [Sg [Lg [Cg Cl]]]].
  destruct (quote_payload g h p rows totals rest extra H T M Sg Lg) as [Fr [A [S1 S2]]].
  destruct (quote_read m g now _ h p rows dg Q Fr A H Fo G S1 S2 F ltac:(lia)) as [t [date' [St E]]].
  rewrite Cg in E. eexists _, t, date'. split; [exact E|]. split; [exact St|].
  cbn [qs_id qs_time qs_system qs_asks qs_bids qs_cut qs_conv deriv_conv oc_price].
  unfold effective. rewrite !map_length, !firstn_length, Nat.min_l by lia. rewrite Nat.leb_refl.
  rewrite !firstn_all2 with (n := cut) (l := map _ _) by (rewrite map_length, firstn_length; lia).
  repeat split.
Qed.
Print Assumptions C32_derivative_quote_is_decoded.

Theorem C32_level_cut_accepted_iff : forall f n cut,
  (f, n) = (ifmsrpd0034, 5%nat) \/ (f, n) = (ifmsrpd0035, 10%nat) \/ (f, n) = (ifmsrpd0037, 5%nat) \/
  (f, n) = (ifmsrpd0038, 10%nat) \/ (f, n) = (ifmsrpd0002, 10%nat) \/ (f, n) = (ifmsrpd0003, 10%nat) ->
  (with_quote_level_cut f n = ROk f) /\
  ((cut <= n)%nat <-> exists g, with_quote_level_cut f cut = ROk g).
Proof.
  intros f n cut Ff.
  assert (E : if_max f = n /\ with_quote_level_cut f n = ROk f)
    by (repeat destruct Ff as [Ff|Ff]; injection Ff as -> ->; split; reflexivity).
  destruct E as [E1 E2]. split; [exact E2|]. unfold with_quote_level_cut. rewrite E1.
  destruct (Nat.ltb_spec n cut); split; intros X; try lia; [destruct X; discriminate | eexists; reflexivity].
Qed.
Print Assumptions C32_level_cut_accepted_iff.

Example C32_hypotheses_met :
  header_ok sample_header /\ format_of sample_header TwoDecimals /\ Forall (row_ok TwoDecimals) sample_rows /\
  text 46 (repeat 48 46) /\ gen_ok sample_gen /\
  match to_quote_snapshot Checked ifmsrpd0034 7
          (slice_of (quote_text sample_header TwoDecimals sample_rows (repeat 48 46)) (fun _ => 255) 0) sample_gen with
  | Ret (ROk (q, _)) => qs_asks q = map ask_row sample_rows /\ qs_bids q = map bid_row sample_rows
  | _ => False end.
Proof.
  split; [exact sample_header_ok|]. split; [exact sample_format|]. split; [exact sample_rows_ok|].
  split; [apply zeros_text|]. split; [exact sample_gen_ok|]. vm_compute. split; reflexivity.
Qed.

(** * C33  Derivative trades with quotes (IFMSRPD0037: five levels, IFMSRPD0038: ten) *)
Definition trade_type_of (side : Z) : trade_type :=
  match side_code_of side with CodeNone => TUndefined | CodeSell => TSell | CodeBuy => TBuy end.

Theorem C33_derivative_trade_quote_is_decoded : forall m now f n h p t rows totals rest extra dg cut g cum,
  (f, n) = (ifmsrpd0037, 5%nat) \/ (f, n) = (ifmsrpd0038, 10%nat) ->
  header_ok h -> format_of h p -> trade_ok p t -> length rows = n -> Forall (row_ok p) rows -> text 28 totals ->
  memory rest -> gen_ok dg -> with_quote_level_cut f cut = ROk g ->
  exists q stamp date',
    to_trade_quote m (with_cum_trd_qnt g cum) now (slice_of (trade_quote_text h p t rows totals) rest extra) dg
    = Ret (ROk (q, DateGen date' stamp)) /\
    stamped (9 * 3600 * 1000000000) (dg_date dg) (dg_prev dg) h stamp date' /\
    tq_id q = hd_isin h /\ tq_time q = stamp /\ tq_system q = now /\
    tq_price q = tp_price t /\ tq_quantity q = tp_volume t /\ tq_type q = Some (trade_type_of (tp_side t)) /\
    tq_cum q = (if cum then Some (tp_cumulative t) else None) /\
    tq_asks q = map ask_row (firstn cut rows) /\ tq_bids q = map bid_row (firstn cut rows) /\
    tq_cut q = cut /\ effective (tq_asks q) (tq_cut q) = Ret (map ask_row (firstn cut rows)) /\
    effective (tq_bids q) (tq_cut q) = Ret (map bid_row (firstn cut rows)) /\
    tq_lp_holdings q = None /\ announces (oc_price (tq_conv q)) p /\
    columns (oc_price (tq_conv q)) 9 /\ columns (oc_quantity (tq_conv q)) 9 /\ columns (tq_counter q) 5 /\
    columns (tq_cum_conv q) 12.
Proof.
  intros m now f n h p t rows totals rest extra dg cut g cum Ff H Fo Tr Lr F T M G W.
  assert (Wg : trade_iface (with_cum_trd_qnt g cum) /\ if_start (with_cum_trd_qnt g cum) = 172%nat /\
               (if_len (with_cum_trd_qnt g cum) = 201 + length rows * 46)%nat /\ if_cut (with_cum_trd_qnt g cum) = cut /\ (cut <= length rows)%nat).
  { destruct Ff as [E|E]; injection E as -> ->; unfold with_quote_level_cut in W;
      match type of W with (if (?a <? ?b)%nat then _ else _) = _ => destruct (Nat.ltb_spec a b) as [X|X] end; try discriminate;
      injection W as <-; cbn [if_max ifmsrpd0037 ifmsrpd0038] in X; rewrite Lr; unfold trade_iface; cbn; repeat split; lia. }
  destruct Wg as [Q [Sg [Lg [Cg Cl]]]].
  destruct (trade_quote_payload _ h p t rows totals rest extra H Tr T M Sg Lg) as [Fr [A [S1 [S2 S3]]]].
  destruct (trade_quote_read m _ now _ h p t rows dg Q Fr A H Fo Tr G S1 S2 S3 F ltac:(lia)) as [ts [date' [St E]]].
  rewrite Cg in E. eexists _, ts, date'. split; [exact E|]. split; [exact St|].
  cbn [tq_id tq_time tq_system tq_asks tq_bids tq_cut tq_conv tq_price tq_quantity tq_type tq_cum deriv_conv oc_price if_parse_cum with_cum_trd_qnt].
  unfold effective. rewrite !map_length, !firstn_length, Nat.min_l by lia. rewrite Nat.leb_refl.
  rewrite !firstn_all2 with (n := cut) (l := map _ _) by (rewrite map_length, firstn_length; lia).
  repeat split.
Qed.
Print Assumptions C33_derivative_trade_quote_is_decoded.

Definition sample_trade : trade_part :=
  TradePart 34999 12 (repeat 48 54) 123456789012 (repeat 48 22) 50 (repeat 48 18).
Lemma sample_trade_ok : trade_ok TwoDecimals sample_trade.
Proof.
  unfold trade_ok, price_ok, capacity, sample_trade, byte. cbn [tp_price tp_volume tp_other tp_cumulative tp_value tp_side tp_limits].
  pose proof (zeros_text 54). pose proof (zeros_text 22). pose proof (zeros_text 18).
  repeat split; try apply H; try apply H0; try apply H1; try lia; try (cbn; lia).
Qed.
Example C33_hypotheses_met :
  trade_ok TwoDecimals sample_trade /\
  match to_trade_quote Wrapping (with_cum_trd_qnt ifmsrpd0037 true) 7
          (slice_of (trade_quote_text sample_header TwoDecimals sample_trade sample_rows (repeat 48 28)) (fun _ => 255) 0) sample_gen with
  | Ret (ROk (q, _)) => tq_asks q = map ask_row sample_rows /\ tq_price q = 34999 /\ tq_quantity q = 12 /\
      tq_type q = Some TBuy /\ tq_cum q = Some 123456789012
  | _ => False end.
Proof. split; [exact sample_trade_ok|]. vm_compute. repeat split. Qed.

(** * C34  Derivative trades (IFMSRPD0036) *)

(** The buffer variant decodes the message. *)
Theorem C34_derivative_trade_buffer_is_decoded : forall m now h p t rest extra dg cum b,
  header_ok h -> format_of h p -> trade_ok p t -> memory rest -> gen_ok dg ->
  exists d stamp date',
    to_trade_data_buffer m (with_cum_trd_qnt ifmsrpd0036 cum) now (slice_of (trade_only_text h p t) rest extra) b dg
    = Ret (ROk (d, DateGen date' stamp)) /\
    stamped (9 * 3600 * 1000000000) (dg_date dg) (dg_prev dg) h stamp date' /\
    td_id d = hd_isin h /\ td_time d = stamp /\ td_system d = now /\
    td_price d = tp_price t /\ td_quantity d = tp_volume t /\ td_type d = Some (trade_type_of (tp_side t)) /\
    td_cum d = (if cum then Some (tp_cumulative t) else None) /\ announces (oc_price (td_conv d)) p.
Proof.
  intros m now h p t rest extra dg cum b H Fo Tr M G.
  assert (Q : trade_iface (with_cum_trd_qnt ifmsrpd0036 cum)) by (unfold trade_iface; cbn; repeat split; lia).
  destruct (trade_payload (with_cum_trd_qnt ifmsrpd0036 cum) h p t rest extra H Tr M eq_refl) as [Fr [A [S1 S2]]].
  destruct (trade_data_both m _ now _ h p t b dg Q Fr A H Fo Tr G S1 S2) as [ts [date' [St [_ E]]]].
  eexists _, ts, date'. split; [exact E|]. split; [exact St|]. repeat split.
Qed.
Print Assumptions C34_derivative_trade_buffer_is_decoded.

(** [to_trade_data] decodes everything but the price. *)
Theorem C34_derivative_trade_all_but_price_partial : forall m now h p t rest extra dg cum,
  header_ok h -> format_of h p -> trade_ok p t -> memory rest -> gen_ok dg ->
  exists d stamp date',
    to_trade_data m (with_cum_trd_qnt ifmsrpd0036 cum) now (slice_of (trade_only_text h p t) rest extra) dg
    = Ret (ROk (d, DateGen date' stamp)) /\
    stamped (9 * 3600 * 1000000000) (dg_date dg) (dg_prev dg) h stamp date' /\
    td_id d = hd_isin h /\ td_time d = stamp /\ td_system d = now /\
    td_quantity d = tp_volume t /\ td_type d = Some (trade_type_of (tp_side t)) /\
    td_cum d = (if cum then Some (tp_cumulative t) else None) /\ announces (oc_price (td_conv d)) p.
Proof.
  intros m now h p t rest extra dg cum H Fo Tr M G.
  assert (Q : trade_iface (with_cum_trd_qnt ifmsrpd0036 cum)) by (unfold trade_iface; cbn; repeat split; lia).
  destruct (trade_payload (with_cum_trd_qnt ifmsrpd0036 cum) h p t rest extra H Tr M eq_refl) as [Fr [A [S1 S2]]].
  destruct (trade_data_both m _ now _ h p t (TradeData [] 0 0 0 0 None None (deriv_conv p) cum_cv) dg Q Fr A H Fo Tr G S1 S2) as [ts [date' [St [E _]]]].
  eexists _, ts, date'. split; [exact E|]. split; [exact St|]. repeat split.
Qed.
Print Assumptions C34_derivative_trade_all_but_price_partial.

(** The price is wrong for every message except those with a decimal-free price 0. *)
Theorem C34_derivative_trade_price_refuted : forall m now h p t rest extra dg cum,
  header_ok h -> format_of h p -> trade_ok p t -> memory rest -> gen_ok dg ->
  p <> NoDecimals \/ tp_price t <> 0 ->
  exists d dg',
    to_trade_data m (with_cum_trd_qnt ifmsrpd0036 cum) now (slice_of (trade_only_text h p t) rest extra) dg
    = Ret (ROk (d, dg')) /\ td_price d <> tp_price t.
Proof.
  intros m now h p t rest extra dg cum H Fo Tr M G N.
  assert (Q : trade_iface (with_cum_trd_qnt ifmsrpd0036 cum)) by (unfold trade_iface; cbn; repeat split; lia).
  destruct (trade_payload (with_cum_trd_qnt ifmsrpd0036 cum) h p t rest extra H Tr M eq_refl) as [Fr [A [S1 S2]]].
  destruct (trade_data_both m _ now _ h p t (TradeData [] 0 0 0 0 None None (deriv_conv p) cum_cv) dg Q Fr A H Fo Tr G S1 S2) as [ts [date' [St [E _]]]].
  eexists _, _. split; [exact E|]. cbn [td_price]. apply misread_wrong; [apply Tr | exact N].
Qed.
Print Assumptions C34_derivative_trade_price_refuted.

(** "000349.99" is read as 35049 instead of 34999. *)
Example C34_hypotheses_met :
  match to_trade_data Checked ifmsrpd0036 7
          (slice_of (trade_only_text sample_header TwoDecimals sample_trade) (fun _ => 255) 0) sample_gen with
  | Ret (ROk (d, _)) => td_price d = 35049 /\ tp_price sample_trade = 34999
  | _ => False end.
Proof. vm_compute. split; reflexivity. Qed.

(** * C35  Stock quotes (IFMSRPD0002, IFMSRPD0003 with LP quantities) *)

(** Quantities, LP quantities, instrument and time are decoded; a price [v] is
    reported as [v / 100]. *)
Theorem C35_stock_quote_all_but_price_partial : forall m now (lp : bool) h rows totals rest extra dg cut g,
  header_ok h -> length rows = 10%nat -> Forall stock_row_ok rows -> text 47 totals -> memory rest -> gen_ok dg ->
  with_quote_level_cut (if lp then ifmsrpd0003 else ifmsrpd0002) cut = ROk g ->
  exists q stamp date',
    to_stock_quote m lp g now (slice_of (stock_quote_text lp h rows totals) rest extra) dg = Ret (ROk (q, DateGen date' stamp)) /\
    stamped (9 * 3600 * 1000000000) (dg_date dg) (dg_prev dg) h stamp date' /\
    qs_id q = hd_isin h /\ qs_time q = stamp /\ qs_system q = now /\ qs_cut q = cut /\
    qs_asks q = map (stock_ask_row lp (fun v => v / 100)) (firstn cut rows) /\
    qs_bids q = map (stock_bid_row lp (fun v => v / 100)) (firstn cut rows) /\
    qs_lp_holdings q = None /\ columns (oc_price (qs_conv q)) 11 /\ columns (oc_quantity (qs_conv q)) 12.
Proof.
  intros m now lp h rows totals rest extra dg cut g H Lr F T M G W.
  assert (Wg : stock_iface lp g /\ if_start g = 47%nat /\ (if_len g = 95 + length rows * (if lp then 70 else 46))%nat /\ if_cut g = cut /\ (cut <= length rows)%nat).
  { destruct lp; unfold with_quote_level_cut in W;
      match type of W with (if (?a <? ?b)%nat then _ else _) = _ => destruct (Nat.ltb_spec a b) as [X|X] end; try discriminate;
      injection W as <-; cbn [if_max ifmsrpd0002 ifmsrpd0003] in X; rewrite Lr; unfold stock_iface; cbn; repeat split; lia. }
  destruct Wg as [Q [Sg [Lg [Cg Cl]]]].
  destruct (stock_payload lp g h rows totals rest extra H T M Sg Lg) as [Fr [A [S1 S2]]].
  destruct (stock_read m lp g now _ h rows dg Q Fr A H G S1 S2 F ltac:(lia)) as [t [date' [St E]]].
  rewrite Cg in E. eexists _, t, date'. split; [exact E|]. split; [exact St|]. repeat split.
Qed.
Print Assumptions C35_stock_quote_all_but_price_partial.

(** Hence every positive price is reported wrongly: the first level's ask. *)
Theorem C35_stock_price_refuted : forall m now (lp : bool) h r rows totals rest extra dg,
  header_ok h -> length (r :: rows) = 10%nat -> Forall stock_row_ok (r :: rows) -> text 47 totals -> memory rest -> gen_ok dg ->
  0 < s_ask_price r ->
  exists q dg' l, to_stock_quote m lp (if lp then ifmsrpd0003 else ifmsrpd0002) now
                  (slice_of (stock_quote_text lp h (r :: rows) totals) rest extra) dg = Ret (ROk (q, dg')) /\
    nth_error (qs_asks q) 0 = Some l /\ sn_price l <> s_ask_price r.
Proof.
  intros m now lp h r rows totals rest extra dg H Lr F T M G Pos.
  destruct (C35_stock_quote_all_but_price_partial m now lp h (r :: rows) totals rest extra dg 10
              (if lp then ifmsrpd0003 else ifmsrpd0002) H Lr F T M G) as [q [st [d' [E [_ [_ [_ [_ [_ [Ea _]]]]]]]]]];
    [destruct lp; reflexivity|].
  eexists q, _, _. split; [exact E|]. rewrite Ea. split; [reflexivity|]. cbn [stock_ask_row sn_price].
  pose proof (Z.div_lt (s_ask_price r) 100). lia.
Qed.
Print Assumptions C35_stock_price_refuted.

Definition sample_stock : list stock_row :=
  map (fun i => StockRow (9375000 + i * 500) (9374500 - i * 500) (100 + i) (200 + i) i (2 * i)) [0;1;2;3;4;5;6;7;8;9].
Example C35_hypotheses_met :
  Forall stock_row_ok sample_stock /\ length sample_stock = 10%nat /\
  match to_stock_quote Checked true ifmsrpd0003 7
          (slice_of (stock_quote_text true sample_header sample_stock (repeat 48 47)) (fun _ => 255) 0) sample_gen with
  | Ret (ROk (q, _)) => nth_error (qs_asks q) 1 = Some (LevelSnapshot None 93755 101 (Some 1))
  | _ => False end.
Proof. split; [unfold sample_stock, stock_row_ok; repeat constructor; cbn; lia|]. split; [reflexivity|]. vm_compute. reflexivity. Qed.
