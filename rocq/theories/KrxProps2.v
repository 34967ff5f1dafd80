(** KrxProps2.v -- properties C36-C41: arbitrary payloads, buffers, level cuts,
    and messages applied to an order book. *)
From Coq Require Import ZArith List Lia Bool Permutation.
From Verif Require Import Base OBTypes NumModel NumSpec NumProofs NumConv NumProps KrxModel KrxSpec KrxProofs KrxMsg KrxUtf8 KrxProps.
From Verif Require OBModel OBSpec OBViews OBViews OBDecide OBProps OBProps3.
Import ListNotations.
Open Scope Z_scope.

(** * C36  Well-framed payloads never panic *)
Definition isin_columns (l : list Z) : list Z := firstn 12 (skipn 17 l).

Lemma isin_new_iff : forall u, all_bytes u ->
  (isin_ok (slice_list u) /\ isin_new u = ROk (slice_list u)) \/ (~ isin_ok (slice_list u) /\ isin_new u = RErr).
Proof.
  intros u A. unfold isin_new.
  assert (Lu : length (slice_list u) = s_len u) by (unfold slice_list; rewrite map_length, seq_length; reflexivity).
  assert (Bu : Forall is_byte (slice_list u)).
  { apply Forall_forall. intros x X. unfold slice_list in X. apply in_map_iff in X. destruct X as [i [<- _]]. apply A. }
  set (l := slice_list u) in *. rewrite <- Lu.
  destruct (existsb (Z.eqb 32) l) eqn:E1.
  { right. split; [|reflexivity]. intros [_ F]. apply existsb_exists in E1. destruct E1 as [x [X1 X2]].
    apply Z.eqb_eq in X2. subst x. rewrite Forall_forall in F. apply F in X1. tauto. }
  destruct (existsb (Z.eqb 9) l) eqn:E2.
  { right. split; [|reflexivity]. intros [_ F]. apply existsb_exists in E2. destruct E2 as [x [X1 X2]].
    apply Z.eqb_eq in X2. subst x. rewrite Forall_forall in F. apply F in X1. tauto. }
  cbn [orb]. destruct (forallb (fun c => c <? 128) l) eqn:E3; cbn [negb].
  2: { right. split; [|reflexivity]. intros [_ F].
       enough (forallb (fun c => c <? 128) l = true) by congruence.
       apply forallb_forall. intros x X. rewrite Forall_forall in F. apply F in X. destruct X as [[_ X] _]. apply Z.ltb_lt. exact X. }
  destruct (Nat.eqb_spec (length l) 12) as [E4|E4]; cbn [negb].
  - left. split; [|reflexivity]. split; [exact E4|]. rewrite Forall_forall. intros x X.
    rewrite forallb_forall in E3. specialize (E3 x X). apply Z.ltb_lt in E3.
    rewrite Forall_forall in Bu. specialize (Bu x X). unfold is_byte in Bu. unfold ascii. split; [lia|].
    split; intros ->.
    + enough (existsb (Z.eqb 32) l = true) by congruence. apply existsb_exists. exists 32. split; [exact X | reflexivity].
    + enough (existsb (Z.eqb 9) l = true) by congruence. apply existsb_exists. exists 9. split; [exact X | reflexivity].
  - right. split; [|reflexivity]. intros [E _]. contradiction.
Qed.

Lemma slice_list_slice_of : forall l rest extra a b, (a <= b <= length l)%nat ->
  slice_list (sub (slice_of l rest extra) a b) = firstn (b - a) (skipn a l).
Proof.
  intros l rest extra a b H. apply shows_list.
  - apply sub_shows. rewrite Nat.add_0_r.
    pose proof (slice_of_shows l rest extra) as S.
    rewrite <- (firstn_skipn a l) in S at 2. apply shows_app in S. destruct S as [_ S].
    rewrite firstn_length, Nat.min_l in S by lia. cbn [Nat.add] in S.
    rewrite <- (firstn_skipn (b - a) (skipn a l)) in S. apply shows_app in S. apply S.
  - rewrite sub_len, firstn_length, skipn_length. lia.
Qed.

(** [result] is [Ok] of something about instrument [isin columns], or [Err]
    exactly when these columns hold no ISIN; never a panic. *)
Definition total_on {A} (body : list Z) (id : A -> list Z) (result : outcome (rresult (A * date_gen))) : Prop :=
  (isin_ok (isin_columns body) -> exists q dg', result = Ret (ROk (q, dg')) /\ id q = isin_columns body) /\
  (~ isin_ok (isin_columns body) -> result = Ret RErr).

Theorem C36_well_framed_payload_never_panics : forall m now body rest extra dg cut cum b,
  Forall byte body -> memory rest -> gen_ok dg ->
  let payload := slice_of (body ++ [255]) rest extra in
  (forall f g, f = ifmsrpd0034 \/ f = ifmsrpd0035 -> with_quote_level_cut f cut = ROk g ->
     length (body ++ [255]) = if_len f -> total_on body qs_id (to_quote_snapshot m g now payload dg)) /\
  (forall f g, f = ifmsrpd0037 \/ f = ifmsrpd0038 -> with_quote_level_cut f cut = ROk g ->
     length (body ++ [255]) = if_len f -> total_on body tq_id (to_trade_quote m (with_cum_trd_qnt g cum) now payload dg)) /\
  (length (body ++ [255]) = if_len ifmsrpd0036 ->
     total_on body td_id (to_trade_data m (with_cum_trd_qnt ifmsrpd0036 cum) now payload dg) /\
     total_on body td_id (to_trade_data_buffer m (with_cum_trd_qnt ifmsrpd0036 cum) now payload b dg)) /\
  (forall lp g, let f := if lp : bool then ifmsrpd0003 else ifmsrpd0002 in with_quote_level_cut f cut = ROk g ->
     length (body ++ [255]) = if_len f -> total_on body qs_id (to_stock_quote m lp g now payload dg)).
Proof.
  intros m now body rest extra dg cut cum b B M G payload.
  assert (A : all_bytes payload).
  { apply slice_of_bytes; [|exact M]. apply Forall_app. split; [exact B | apply end_keyword]. }
  assert (I : (29 <= length body)%nat -> slice_list (sub payload 17 29) = isin_columns body).
  { intros L. unfold payload. rewrite slice_list_slice_of by (rewrite app_length; lia).
    unfold isin_columns. rewrite skipn_app, firstn_app, skipn_length.
    replace (29 - 17 - (length body - 17))%nat with 0%nat by lia. rewrite firstn_O, app_nil_r. reflexivity. }
  assert (D : forall g T (id : T -> list Z) r, (29 <= length body)%nat -> framed g payload ->
     (isin_new (sub payload 17 29) = RErr /\ r = Ret RErr) \/
     (exists isin q dg', isin_new (sub payload 17 29) = ROk isin /\ r = Ret (ROk (q, dg')) /\ id q = isin) ->
     @total_on T body id r).
  { intros g T id r L Fr C. destruct (isin_new_iff (sub payload 17 29) (sub_bytes _ _ _ A)) as [[X1 X2]|[X1 X2]];
      rewrite (I L) in *; rewrite X2 in C; split; intros Y; try contradiction.
    - destruct C as [[C _]|[isin [q [dg' [C1 [C2 C3]]]]]]; [discriminate|]. injection C1 as <-.
      exists q, dg'. split; assumption.
    - destruct C as [[_ C]|[isin [q [dg' [C1 _]]]]]; [exact C | discriminate]. }
  assert (Lb : length (body ++ [255]) = S (length body)) by (rewrite app_length; cbn [length]; lia).
  split; [|split; [|split]].
  - intros f g Ff W L.
    assert (Q : quote_iface g /\ if_len g = if_len f /\ (29 <= length body)%nat).
    { destruct Ff as [-> | ->]; unfold with_quote_level_cut in W;
      match type of W with (if (?a <? ?b)%nat then _ else _) = _ => destruct (Nat.ltb_spec a b) as [X|X] end; try discriminate;
      injection W as <-; cbn [if_max ifmsrpd0034 ifmsrpd0035] in X; unfold quote_iface; cbn in L; cbn; repeat split; lia. }
    destruct Q as [Q [L' L2]]. assert (Fr : framed g payload) by (apply slice_framed; rewrite L'; exact L).
    apply (D g); [exact L2 | exact Fr |]. apply quote_total; assumption.
  - intros f g Ff W L.
    assert (Q : trade_iface (with_cum_trd_qnt g cum) /\ if_len (with_cum_trd_qnt g cum) = if_len f /\ (29 <= length body)%nat).
    { destruct Ff as [-> | ->]; unfold with_quote_level_cut in W;
      match type of W with (if (?a <? ?b)%nat then _ else _) = _ => destruct (Nat.ltb_spec a b) as [X|X] end; try discriminate;
      injection W as <-; cbn [if_max ifmsrpd0037 ifmsrpd0038] in X; unfold trade_iface; cbn in L; cbn; repeat split; lia. }
    destruct Q as [Q [L' L2]]. assert (Fr : framed (with_cum_trd_qnt g cum) payload) by (apply slice_framed; rewrite L'; exact L).
    apply (D (with_cum_trd_qnt g cum)); [exact L2 | exact Fr |]. apply trade_quote_total; assumption.
  - intros L. assert (Q : trade_iface (with_cum_trd_qnt ifmsrpd0036 cum)) by (unfold trade_iface; cbn; repeat split; lia).
    assert (Fr : framed (with_cum_trd_qnt ifmsrpd0036 cum) payload) by (apply slice_framed; exact L).
    assert (L2 : (29 <= length body)%nat) by (cbn in L; lia).
    destruct (trade_data_total m _ now payload b dg Q Fr A G) as [[C1 [C2 C3]]|[isin [q [dg' [q' [C1 [C2 [C3 [C4 C5]]]]]]]]];
      split; apply (D _ _ _ _ L2 Fr).
    + left. split; assumption.
    + left. split; assumption.
    + right. exists isin, q, dg'. repeat split; assumption.
    + right. exists isin, q', dg'. repeat split; assumption.
  - intros lp g f W L.
    assert (Q : stock_iface lp g /\ if_len g = if_len f /\ (29 <= length body)%nat).
    { subst f. destruct lp; unfold with_quote_level_cut in W;
      match type of W with (if (?a <? ?b)%nat then _ else _) = _ => destruct (Nat.ltb_spec a b) as [X|X] end; try discriminate;
      injection W as <-; cbn [if_max ifmsrpd0002 ifmsrpd0003] in X; unfold stock_iface; cbn in L; cbn; repeat split; lia. }
    destruct Q as [Q [L' L2]]. assert (Fr : framed g payload) by (apply slice_framed; rewrite L'; exact L).
    apply (D g); [exact L2 | exact Fr |]. apply stock_total; assumption.
Qed.
Print Assumptions C36_well_framed_payload_never_panics.

(** Garbage in a well-formed frame: decoded without an error. *)
Example C36_hypotheses_met :
  let body := repeat 88 323 in
  length (body ++ [255]) = if_len ifmsrpd0034 /\ Forall byte body /\ isin_ok (isin_columns body) /\
  ~ isin_ok (isin_columns (repeat 32 323)).
Proof.
  split; [reflexivity|]. split; [cbn [repeat]; repeat constructor; unfold byte; lia|]. split.
  - split; [reflexivity|]. vm_compute. repeat constructor; discriminate.
  - intros [_ F]. vm_compute in F. inversion F as [|? ? [_ [X _]] _]. apply X. reflexivity.
Qed.

(** * C37  Badly framed payloads *)

(** What every parser does with a payload of the wrong length or without the
    end keyword: an error if the first [n - 1] bytes exist and are UTF-8 (they
    go into the error text), a panic otherwise. *)
Definition badly_framed (f : iface) (l : list Z) : Prop :=
  length l <> if_len f \/ nth_error l (if_len f - 1) <> Some 255.

Lemma badly_framed_result : forall f l rest extra, (1 <= if_len f)%nat -> badly_framed f l ->
  is_valid_krx_payload f (slice_of l rest extra)
  = if (if_len f - 1 <=? length l)%nat && utf8_valid (firstn (if_len f - 1) l) then Ret RErr else Panic.
Proof.
  intros f l rest extra N Bad. unfold is_valid_krx_payload.
  assert (E : framing_error (if_len f) (slice_of l rest extra)
     = if (if_len f - 1 <=? length l)%nat && utf8_valid (firstn (if_len f - 1) l) then Ret RErr else Panic).
  { unfold framing_error. destruct (Nat.leb_spec (if_len f - 1) (length l)) as [L|L].
    - rewrite sub_ok by (cbn [slice_of s_len]; lia). cbn [obind andb].
      rewrite slice_list_slice_of by lia. rewrite Nat.sub_0_r. cbn [skipn].
      destruct (utf8_valid _); reflexivity.
    - cbn [andb]. unfold subslice. cbn [slice_of s_len].
      rewrite (proj2 (Nat.leb_gt _ _) L). rewrite andb_false_r. reflexivity. }
  destruct (Nat.eqb_spec (s_len (slice_of l rest extra)) (if_len f)) as [E1|E1]; cbn [negb]; [|exact E].
  cbn [slice_of s_len] in E1. destruct Bad as [Bad|Bad]; [contradiction|].
  unfold index. cbn [slice_of s_len].
  rewrite (proj2 (Nat.ltb_lt (if_len f - 1) (length l))) by lia. cbn [obind s_at].
  destruct (nth_error l (if_len f - 1)) as [e|] eqn:Ne; [|apply nth_error_None in Ne; lia].
  change (s_at (slice_of l rest extra) (if_len f - 1)) with (match nth_error l (if_len f - 1) with Some b => b | None => rest (if_len f - 1 - length l)%nat end).
  rewrite Ne.
  destruct (Z.eqb_spec e 255) as [->|_]; [congruence|]. cbn [negb]. exact E.
Qed.

(** [result] of a parser of [n]-byte messages on the badly framed payload [l]. *)
Definition rejects {A} (n : nat) (l : list Z) (result : outcome (rresult A)) : Prop :=
  ((n - 1 <= length l)%nat /\ utf8_text (firstn (n - 1) l) -> result = Ret RErr) /\
  (~ ((n - 1 <= length l)%nat /\ utf8_text (firstn (n - 1) l)) -> result = Panic).

Theorem C37_badly_framed_payload : forall m now f l rest extra dg lp full bq bt bd,
  (1 <= if_len f)%nat -> Forall byte l -> badly_framed f l ->
  let payload := slice_of l rest extra in
  rejects (if_len f) l (to_quote_snapshot m f now payload dg) /\
  rejects (if_len f) l (to_quote_snapshot_buffer m f now payload bq dg) /\
  rejects (if_len f) l (to_trade_quote m f now payload dg) /\
  rejects (if_len f) l (to_trade_quote_buffer m full f now payload bt dg) /\
  rejects (if_len f) l (to_trade_data m f now payload dg) /\
  rejects (if_len f) l (to_trade_data_buffer m f now payload bd dg) /\
  rejects (if_len f) l (to_stock_quote m lp f now payload dg) /\
  rejects (if_len f) l (to_stock_quote_buffer m lp f now payload bq dg).
Proof.
  intros m now f l rest extra dg lp full bq bt bd N B Bad payload.
  assert (Bf : Forall byte (firstn (if_len f - 1) l)).
  { rewrite <- (firstn_skipn (if_len f - 1) l) in B. apply Forall_app in B. apply B. }
  assert (R : forall A (k : unit -> outcome (rresult A)), rejects (if_len f) l (rbind (is_valid_krx_payload f payload) k)).
  { intros A k. unfold payload. rewrite badly_framed_result by assumption.
    pose proof (utf8_valid_iff _ Bf) as U. split.
    - intros [L T]. apply U in T. rewrite T, (proj2 (Nat.leb_le _ _) L). reflexivity.
    - intros X. destruct (Nat.leb_spec (if_len f - 1) (length l)) as [L|L]; [|reflexivity].
      destruct (utf8_valid (firstn (if_len f - 1) l)) eqn:V; [|reflexivity].
      exfalso. apply X. split; [exact L | apply U; reflexivity]. }
  repeat match goal with |- rejects _ _ _ => apply R | |- _ /\ _ => split end.
Qed.
Print Assumptions C37_badly_framed_payload.

(** A truncated message (two bytes missing or more) is never reported as an
    error: the parser panics. *)
Theorem C37_truncated_payload_is_an_error_refuted : forall m now f l rest extra dg,
  In f [ifmsrpd0034; ifmsrpd0035] -> (length l + 2 <= if_len f)%nat ->
  to_quote_snapshot m f now (slice_of l rest extra) dg = Panic.
Proof.
  intros m now f l rest extra dg Ff L. unfold to_quote_snapshot.
  rewrite badly_framed_result; [|lia | left; lia].
  rewrite (proj2 (Nat.leb_gt (if_len f - 1) (length l))) by lia. reflexivity.
Qed.
Print Assumptions C37_truncated_payload_is_an_error_refuted.

Example C37_hypotheses_met :
  let good := quote_text sample_header TwoDecimals sample_rows (repeat 48 46) in
  badly_framed ifmsrpd0034 (firstn 300 good) /\ badly_framed ifmsrpd0034 (firstn 323 good ++ [65]) /\
  to_quote_snapshot Checked ifmsrpd0034 7 (slice_of (firstn 300 good) (fun _ => 0) 100) sample_gen = Panic /\
  to_quote_snapshot Checked ifmsrpd0034 7 (slice_of (firstn 323 good ++ [65]) (fun _ => 0) 100) sample_gen = Ret RErr.
Proof.
  split; [left; vm_compute; discriminate|]. split; [right; vm_compute; discriminate|]. split; vm_compute; reflexivity.
Qed.

(** * C38  Parsing into an existing buffer *)
Lemma quote_shape : forall m f now P dg q dg', (if_cut f <= 10)%nat ->
  to_quote_snapshot m f now P dg = Ret (ROk (q, dg')) ->
  length (qs_asks q) = if_cut f /\ length (qs_bids q) = if_cut f /\ qs_cut q = if_cut f.
Proof.
  intros m f now P dg q dg' C E. unfold to_quote_snapshot in E.
  destruct (is_valid_krx_payload f P) as [[[]|]| |]; try discriminate. rewrite rbind_ok in E.
  destruct (cut_slice P (if_isin f)) as [s| |]; try discriminate. cbn [obind] in E.
  destruct (isin_new s) as [isin|]; try discriminate. rewrite rbind_ok in E.
  destruct (subslice P 0 5) as [hd| |]; try discriminate. cbn [obind] in E.
  destruct (get_krx_derivative_converter hd isin) as [conv| |]; try discriminate. cbn [obind] in E.
  destruct krx_base_order_counter as [cnt| |]; try discriminate. cbn [obind] in E. cbv zeta in E.
  destruct (cut_slice P (if_time f)) as [ts| |]; try discriminate. cbn [obind] in E.
  destruct (parse_hhmmssuuuuuu m krx_offset ts dg) as [[t dg1]| |]; try discriminate. cbn [obind] in E.
  match type of E with context [levels ?g ?c] => destruct (levels g c) as [l| |] eqn:El end; try discriminate.
  cbn [obind] in E. apply levels_length in El; [|exact C].
  rewrite !fresh_levels_all in E by (rewrite map_length; exact El). cbn [obind] in E.
  injection E as <- _. cbn [qs_asks qs_bids qs_cut]. rewrite !map_length. repeat split; assumption.
Qed.

Lemma stock_shape : forall m lp f now P dg q dg', (if_cut f <= 10)%nat ->
  to_stock_quote m lp f now P dg = Ret (ROk (q, dg')) ->
  length (qs_asks q) = if_cut f /\ length (qs_bids q) = if_cut f /\ qs_cut q = if_cut f.
Proof.
  intros m lp f now P dg q dg' C E. unfold to_stock_quote in E.
  destruct (is_valid_krx_payload f P) as [[[]|]| |]; try discriminate. rewrite rbind_ok in E.
  destruct (cut_slice P (if_isin f)) as [s| |]; try discriminate. cbn [obind] in E.
  destruct (isin_new s) as [isin|]; try discriminate. rewrite rbind_ok in E.
  destruct krx_stock_converter as [conv| |]; try discriminate. cbn [obind] in E. cbv zeta in E.
  destruct (cut_slice P (if_time f)) as [ts| |]; try discriminate. cbn [obind] in E.
  destruct (parse_hhmmssuuuuuu m krx_offset ts dg) as [[t dg1]| |]; try discriminate. cbn [obind] in E.
  match type of E with context [levels ?g ?c] => destruct (levels g c) as [l| |] eqn:El end; try discriminate.
  cbn [obind] in E. apply levels_length in El; [|exact C].
  rewrite !fresh_levels_all in E by (rewrite map_length; exact El). cbn [obind] in E.
  destruct krx_base_order_counter as [cnt| |]; try discriminate. cbn [obind] in E.
  injection E as <- _. cbn [qs_asks qs_bids qs_cut]. rewrite !map_length. repeat split; assumption.
Qed.

Lemma tq_shape : forall m f now P dg q dg', (if_cut f <= 10)%nat ->
  to_trade_quote m f now P dg = Ret (ROk (q, dg')) ->
  length (tq_asks q) = if_cut f /\ length (tq_bids q) = if_cut f /\ tq_cut q = if_cut f.
Proof.
  intros m f now P dg q dg' C E. unfold to_trade_quote in E.
  destruct (is_valid_krx_payload f P) as [[[]|]| |]; try discriminate. rewrite rbind_ok in E.
  destruct (cut_slice P (if_isin f)) as [s| |]; try discriminate. cbn [obind] in E.
  destruct (isin_new s) as [isin|]; try discriminate. rewrite rbind_ok in E.
  destruct (subslice P 0 5) as [hd| |]; try discriminate. cbn [obind] in E.
  destruct (get_krx_derivative_converter hd isin) as [conv| |]; try discriminate. cbn [obind] in E.
  destruct krx_base_order_counter as [cnt| |]; try discriminate. cbn [obind] in E. cbv zeta in E.
  destruct (cut_slice P (if_time f)) as [ts| |]; try discriminate. cbn [obind] in E.
  destruct (parse_hhmmssuuuuuu m krx_offset ts dg) as [[t dg1]| |]; try discriminate. cbn [obind] in E.
  destruct (cut_slice P (if_price f)) as [ps| |]; try discriminate. cbn [obind] in E.
  destruct (to_i64 m (oc_price conv) ps) as [price| |]; try discriminate. cbn [obind] in E.
  destruct (cut_slice P (if_qty f)) as [qs| |]; try discriminate. cbn [obind] in E.
  destruct (to_u64_unchecked m (oc_quantity conv) qs) as [qty| |]; try discriminate. cbn [obind] in E.
  destruct (cut_slice P (if_type f)) as [tys| |]; try discriminate. cbn [obind] in E.
  destruct (parse_cum m f P) as [cum| |]; try discriminate. cbn [obind] in E.
  match type of E with context [levels ?g ?c] => destruct (levels g c) as [l| |] eqn:El end; try discriminate.
  cbn [obind] in E. apply levels_length in El; [|exact C].
  rewrite !fresh_levels_all in E by (rewrite map_length; exact El). cbn [obind] in E.
  destruct krx_base_cum_qnt_converter as [cc| |]; try discriminate. cbn [obind] in E.
  injection E as <- _. cbn [tq_asks tq_bids tq_cut]. rewrite !map_length. repeat split; assumption.
Qed.

Lemma firstn_skipn_app : forall A (l t : list A) k, length l = k -> firstn k (l ++ t) = l /\ skipn k (l ++ t) = t.
Proof.
  intros A l t k <-. rewrite firstn_app, skipn_app, Nat.sub_diag, firstn_all, skipn_all. cbn [firstn skipn app].
  rewrite app_nil_r. split; reflexivity.
Qed.

(** [b'] is buffer [b] after snapshot [q] of [cut] levels was parsed into it. *)
Definition holds (cut : nat) (q b b' : quote_snapshot) : Prop :=
  qs_id b' = qs_id q /\ qs_time b' = qs_time q /\ qs_system b' = qs_system q /\ qs_conv b' = qs_conv q /\
  firstn cut (qs_asks b') = qs_asks q /\ firstn cut (qs_bids b') = qs_bids q /\
  skipn cut (qs_asks b') = skipn cut (qs_asks b) /\ skipn cut (qs_bids b') = skipn cut (qs_bids b) /\
  qs_cut b' = qs_cut b.

(** The buffer variants succeed, fail and advance the clock exactly as the
    allocating ones, whatever the payload; on success the first [cut] levels
    are the message's and the others are left as they were. *)
Definition buffer_agrees (cut : nat) (b : quote_snapshot)
    (fresh buffered : outcome (rresult (quote_snapshot * date_gen))) : Prop :=
  match fresh with
  | Ret (ROk (q, dg')) => exists b', buffered = Ret (ROk (b', dg')) /\ holds cut q b b'
  | Ret RErr => buffered = Ret RErr
  | Panic => buffered = Panic
  | Diverge => buffered = Diverge
  end.

Theorem C38_buffer_holds_the_message_then_old_levels : forall m now payload b dg cut,
  (cut <= length (qs_asks b))%nat -> (cut <= length (qs_bids b))%nat ->
  (forall f g, f = ifmsrpd0034 \/ f = ifmsrpd0035 -> with_quote_level_cut f cut = ROk g ->
     buffer_agrees cut b (to_quote_snapshot m g now payload dg) (to_quote_snapshot_buffer m g now payload b dg)) /\
  (forall lp g, with_quote_level_cut (if lp : bool then ifmsrpd0003 else ifmsrpd0002) cut = ROk g ->
     buffer_agrees cut b (to_stock_quote m lp g now payload dg) (to_stock_quote_buffer m lp g now payload b dg)).
Proof.
  intros m now payload b dg cut La Lb.
  assert (W : forall f g, with_quote_level_cut f cut = ROk g -> (if_max f <= 10)%nat -> if_cut g = cut /\ (cut <= 10)%nat).
  { intros f g E M. unfold with_quote_level_cut in E. destruct (Nat.ltb_spec (if_max f) cut); [discriminate|].
    injection E as <-. cbn. lia. }
  split.
  - intros f g Ff E. apply W in E; [|destruct Ff as [-> | ->]; cbn; lia]. destruct E as [E C]. unfold buffer_agrees.
    rewrite quote_buffer_is_fresh by (rewrite E; assumption).
    destruct (to_quote_snapshot m g now payload dg) as [[[q dg']|]| |] eqn:R; cbn [rbind]; try reflexivity.
    apply quote_shape in R; [|rewrite E; exact C]. rewrite E in R. destruct R as [R1 [R2 _]].
    eexists. split; [reflexivity|]. unfold holds, merge_quote. cbn [fst snd qs_id qs_time qs_system qs_conv qs_asks qs_bids qs_cut]. rewrite E.
    destruct (firstn_skipn_app _ (qs_asks q) (skipn cut (qs_asks b)) cut R1) as [X1 X2].
    destruct (firstn_skipn_app _ (qs_bids q) (skipn cut (qs_bids b)) cut R2) as [X3 X4].
    repeat split; assumption.
  - intros lp g E. apply W in E; [|destruct lp; cbn; lia]. destruct E as [E C]. unfold buffer_agrees.
    rewrite stock_buffer_is_fresh by (rewrite E; assumption).
    destruct (to_stock_quote m lp g now payload dg) as [[[q dg']|]| |] eqn:R; cbn [rbind]; try reflexivity.
    apply stock_shape in R; [|rewrite E; exact C]. rewrite E in R. destruct R as [R1 [R2 _]].
    eexists. split; [reflexivity|]. unfold holds, merge_stock. cbn [fst snd qs_id qs_time qs_system qs_conv qs_asks qs_bids qs_cut]. rewrite E.
    destruct (firstn_skipn_app _ (qs_asks q) (skipn cut (qs_asks b)) cut R1) as [X1 X2].
    destruct (firstn_skipn_app _ (qs_bids q) (skipn cut (qs_bids b)) cut R2) as [X3 X4].
    repeat split; assumption.
Qed.
Print Assumptions C38_buffer_holds_the_message_then_old_levels.

(** A whole session of one parser into one buffer: each message is a receive
    time and a payload; a message that is an error is skipped. *)
Fixpoint session (m : build) (g : iface) (b : quote_snapshot) (dg : date_gen) (msgs : list (Z * slice))
  : outcome (quote_snapshot * date_gen) :=
  match msgs with
  | [] => Ret (b, dg)
  | (now, payload) :: rest =>
      let! r := to_quote_snapshot_buffer m g now payload b dg in
      match r with
      | ROk (b', dg') => session m g b' dg' rest
      | RErr => session m g b dg rest
      end
  end.

(** After any session the buffer is as parsed from the last message that was
    not an error (with the clock as it then stood), with the levels past the
    cut still those of the initial buffer. *)
Theorem C38_session_leaves_the_last_message : forall m f g cut msgs b dg b2 dg2,
  f = ifmsrpd0034 \/ f = ifmsrpd0035 -> with_quote_level_cut f cut = ROk g ->
  (cut <= length (qs_asks b))%nat -> (cut <= length (qs_bids b))%nat ->
  session m g b dg msgs = Ret (b2, dg2) ->
  (b2 = b /\ dg2 = dg /\ Forall (fun x => to_quote_snapshot m g (fst x) (snd x) dg = Ret RErr) msgs) \/
  exists before now payload after dg1 q,
    msgs = before ++ (now, payload) :: after /\
    to_quote_snapshot m g now payload dg1 = Ret (ROk (q, dg2)) /\
    Forall (fun x => to_quote_snapshot m g (fst x) (snd x) dg2 = Ret RErr) after /\
    holds cut q b b2.
Proof.
  intros m f g cut msgs. induction msgs as [|[now payload] msgs IH]; intros b dg b2 dg2 Ff W La Lb R; cbn [session] in R.
  { injection R as <- <-. left. repeat split. constructor. }
  pose proof (proj1 (C38_buffer_holds_the_message_then_old_levels m now payload b dg cut La Lb) f g Ff W) as A. unfold buffer_agrees in A.
  destruct (to_quote_snapshot m g now payload dg) as [[[q dg']|]| |] eqn:E; [| | rewrite A in R; discriminate | rewrite A in R; discriminate].
  - destruct A as [b' [A H]]. rewrite A in R. cbn [obind] in R.
    assert (L : length (qs_asks b') = length (qs_asks b) /\ length (qs_bids b') = length (qs_bids b)).
    { destruct H as [_ [_ [_ [_ [H1 [H2 [H3 [H4 _]]]]]]]].
      pose proof (f_equal (@length _) H3) as K3. pose proof (f_equal (@length _) H4) as K4. rewrite !skipn_length in K3, K4.
      pose proof (f_equal (@length _) H1) as K1. pose proof (f_equal (@length _) H2) as K2. rewrite !firstn_length in K1, K2.
      assert (C : if_cut g = cut /\ (cut <= 10)%nat).
      { unfold with_quote_level_cut in W. destruct Ff as [-> | ->]; cbn [if_max ifmsrpd0034 ifmsrpd0035] in W;
        match type of W with (if (?a <? ?b)%nat then _ else _) = _ => destruct (Nat.ltb_spec a b) as [X|X] end; try discriminate;
        injection W as <-; cbn; lia. }
      destruct C as [C1 C2]. apply quote_shape in E; [|rewrite C1; exact C2]. rewrite C1 in E. lia. }
    destruct (IH b' dg' b2 dg2 Ff W ltac:(lia) ltac:(lia) R) as [[-> [-> F]]|[before [now' [payload' [after [dg1 [q' [-> [E' [F H']]]]]]]]]].
    + right. exists [], now, payload, msgs, dg, q. repeat split; try assumption; apply H.
    + right. exists ((now, payload) :: before), now', payload', after, dg1, q'.
      split; [reflexivity|]. split; [exact E'|]. split; [exact F|].
      unfold holds in *. repeat split; try apply H'.
      * destruct H' as [_ [_ [_ [_ [_ [_ [-> _]]]]]]]. apply H.
      * destruct H' as [_ [_ [_ [_ [_ [_ [_ [-> _]]]]]]]]. apply H.
      * destruct H' as [_ [_ [_ [_ [_ [_ [_ [_ ->]]]]]]]]. apply H.
  - rewrite A in R. cbn [obind] in R.
    destruct (IH b dg b2 dg2 Ff W La Lb R) as [[-> [-> F]]|[before [now' [payload' [after [dg1 [q' [-> [E' [F H']]]]]]]]]].
    + left. repeat split. constructor; [exact E | exact F].
    + right. exists ((now, payload) :: before), now', payload', after, dg1, q'. repeat split; try assumption; apply H'.
Qed.
Print Assumptions C38_session_leaves_the_last_message.

Definition sample_msg34 : list Z := quote_text sample_header TwoDecimals sample_rows (repeat 48 46).
Definition sample_msg35 : list Z :=
  quote_text sample_header TwoDecimals
    (map (fun i => QuoteRow (40000 + i) (39999 - i) 7 8 1 1) [0;1;2;3;4;5;6;7;8;9]) (repeat 48 46).

Example C38_hypotheses_met :
  match (let! b := quote_with_level 10 in
         session Checked ifmsrpd0035 b sample_gen
           [(1, slice_of sample_msg35 (fun _ => 255) 0); (2, slice_of (firstn 553 sample_msg35 ++ [0]) (fun _ => 255) 0)]) with
  | Ret (b, dg) => qs_system b = 1 /\ length (qs_asks b) = 10%nat /\ nth_error (qs_asks b) 9 = Some (LevelSnapshot (Some 1) 40009 7 None)
  | _ => False end.
Proof. vm_compute. repeat split. Qed.

(** * C39  The effective levels of a buffer are those of its last message *)

(** The cut of the buffer is not updated: with a buffer of more levels than
    the message, the effective levels end in old ones. *)
Theorem C39_effective_levels_refuted : forall m now f g cut payload b dg q dg',
  f = ifmsrpd0034 \/ f = ifmsrpd0035 -> with_quote_level_cut f cut = ROk g ->
  qs_cut b = length (qs_asks b) -> length (qs_bids b) = length (qs_asks b) -> (cut < length (qs_asks b))%nat ->
  to_quote_snapshot m g now payload dg = Ret (ROk (q, dg')) ->
  exists b', to_quote_snapshot_buffer m g now payload b dg = Ret (ROk (b', dg')) /\
    effective (qs_asks b') (qs_cut b') = Ret (qs_asks q ++ skipn cut (qs_asks b)) /\
    effective (qs_asks q) (qs_cut q) = Ret (qs_asks q).
Proof.
  intros m now f g cut payload b dg q dg' Ff W Qc Lb Lc E.
  pose proof (proj1 (C38_buffer_holds_the_message_then_old_levels m now payload b dg cut ltac:(lia) ltac:(lia)) f g Ff W) as A. unfold buffer_agrees in A.
  rewrite E in A. destruct A as [b' [A [_ [_ [_ [_ [H1 [_ [H3 [_ H5]]]]]]]]]].
  assert (C : if_cut g = cut /\ (cut <= 10)%nat).
  { unfold with_quote_level_cut in W. destruct Ff as [-> | ->]; cbn [if_max ifmsrpd0034 ifmsrpd0035] in W;
    match type of W with (if (?a <? ?b)%nat then _ else _) = _ => destruct (Nat.ltb_spec a b) as [X|X] end; try discriminate;
    injection W as <-; cbn; lia. }
  destruct C as [C1 C2]. apply quote_shape in E; [|rewrite C1; exact C2]. rewrite C1 in E. destruct E as [E1 [E2 E3]].
  exists b'. split; [exact A|].
  assert (Eq : qs_asks b' = qs_asks q ++ skipn cut (qs_asks b)) by (rewrite <- H1, <- H3; symmetry; apply firstn_skipn).
  unfold effective. rewrite H5, Qc, E3, E1, Nat.leb_refl, Eq, app_length, skipn_length, E1.
  replace (cut + (length (qs_asks b) - cut))%nat with (length (qs_asks b)) by lia. rewrite Nat.leb_refl.
  rewrite !firstn_all2 by (rewrite ?app_length, ?skipn_length; lia). split; reflexivity.
Qed.
Print Assumptions C39_effective_levels_refuted.

(** IFMSRPD0038 leaves the converters of the buffer alone, so after
    [with_quote_level] they never announce the format of the prices stored. *)
Theorem C39_trade_quote_converter_refuted : forall m now payload dg b dg' b0 p,
  trade_quote_with_level 10 = Ret b0 ->
  to_trade_quote_buffer m false ifmsrpd0038 now payload b0 dg = Ret (ROk (b, dg')) ->
  ~ announces (oc_price (tq_conv b)) p.
Proof.
  intros m now payload dg b dg' b0 p E0 E.
  assert (X : tq_conv b = tq_conv b0).
  { unfold to_trade_quote_buffer in E.
    repeat match type of E with
    | rbind ?x _ = _ => destruct x as [[?|]| |]; cbn [rbind] in E; try discriminate
    | obind ?x _ = _ => destruct x as [?| |]; cbn [obind] in E; try discriminate
    | (let '(_, _) := ?x in _) = _ => destruct x
    | (let _ := _ in _) = _ => cbv zeta in E
    | match isin_new ?x with ROk _ => _ | RErr => _ end = _ => destruct (isin_new x); try discriminate
    end. injection E as <- _. reflexivity. }
  rewrite X. vm_compute in E0. injection E0 as <-. intros [D _]. destruct p; discriminate.
Qed.
Print Assumptions C39_trade_quote_converter_refuted.

(** Ten-level message, then five-level message, same buffer: ten effective
    levels, the last five from the first message; a book updated from it holds
    ten ask levels, and a fresh parse of the second message has five. *)
Example C39_hypotheses_met :
  match (let! b := quote_with_level 10 in
         let? (b1, dg1) := to_quote_snapshot_buffer Checked ifmsrpd0035 1 (slice_of sample_msg35 (fun _ => 255) 0) b sample_gen in
         to_quote_snapshot_buffer Checked ifmsrpd0034 2 (slice_of sample_msg34 (fun _ => 255) 0) b1 dg1) with
  | Ret (ROk (b, _)) =>
      effective (qs_bids b) (qs_cut b)
      = Ret (map bid_row sample_rows ++ map (fun i => LevelSnapshot (Some 1) (39999 - i) 8 None) [5;6;7;8;9])
  | _ => False end /\
  match (let! b := trade_quote_with_level 10 in
         to_trade_quote_buffer Checked false ifmsrpd0038 1
           (slice_of (trade_quote_text sample_header TwoDecimals sample_trade (sample_rows ++ sample_rows) (repeat 48 28)) (fun _ => 255) 0)
           b sample_gen) with
  | Ret (ROk (b, _)) => tq_price b = 34999 /\ digit_length (cv_cfg (oc_price (tq_conv b))) = 7%nat
  | _ => False end.
Proof. split; vm_compute; repeat split. Qed.

(** * C40  Parsing fewer levels *)
Lemma unroll_firstn : forall A (f : nat -> outcome A) n a l k, unroll f (seq a n) = Ret l -> (k <= n)%nat ->
  unroll f (seq a k) = Ret (firstn k l).
Proof.
  intros A f n. induction n as [|n IH]; intros a l k E H.
  - replace k with 0%nat by lia. reflexivity.
  - destruct k as [|k]; [reflexivity|]. cbn [seq unroll] in *.
    destruct (f a) as [x| |]; try discriminate. cbn [obind] in *.
    destruct (unroll f (seq (S a) n)) as [r| |] eqn:R; try discriminate. cbn [obind] in E. injection E as <-.
    rewrite (IH _ _ k R) by lia. reflexivity.
Qed.
Lemma levels_firstn : forall f n l k, levels f n = Ret l -> (k <= n)%nat -> (n <= 10)%nat -> levels f k = Ret (firstn k l).
Proof.
  intros f n l k E H N. unfold levels in *. rewrite Nat.min_l in * by lia. apply unroll_firstn with (n := n); assumption.
Qed.

(** Parsing with a level cut is parsing the whole message and keeping the
    first levels, for every payload the whole-message parser returns on. *)
Theorem C40_level_cut_keeps_the_first_levels : forall m now payload dg cut g,
  (forall f q dg', f = ifmsrpd0034 \/ f = ifmsrpd0035 -> with_quote_level_cut f cut = ROk g ->
     to_quote_snapshot m f now payload dg = Ret (ROk (q, dg')) ->
     to_quote_snapshot m g now payload dg
     = Ret (ROk (QuoteSnapshot (qs_id q) (qs_time q) (qs_system q) (firstn cut (qs_asks q)) (firstn cut (qs_bids q))
                   cut (qs_lp_holdings q) (qs_counter q) (qs_conv q), dg'))) /\
  (forall f q dg', f = ifmsrpd0037 \/ f = ifmsrpd0038 -> with_quote_level_cut f cut = ROk g ->
     to_trade_quote m f now payload dg = Ret (ROk (q, dg')) ->
     to_trade_quote m g now payload dg
     = Ret (ROk (TradeQuoteSnapshot (tq_id q) (tq_time q) (tq_system q) (tq_price q) (tq_quantity q) (tq_type q)
                   (firstn cut (tq_asks q)) (firstn cut (tq_bids q)) cut (tq_cum q) (tq_lp_holdings q)
                   (tq_counter q) (tq_conv q) (tq_cum_conv q), dg'))).
Proof.
  intros m now payload dg cut g.
  assert (W : forall f, with_quote_level_cut f cut = ROk g -> (cut <= if_max f)%nat /\ g =
    Iface (if_len f) (if_isin f) (if_time f) (if_price f) (if_qty f) (if_cumq f) (if_type f) cut (if_max f) (if_start f) (if_parse_cum f)).
  { intros f E. unfold with_quote_level_cut in E. destruct (Nat.ltb_spec (if_max f) cut); [discriminate|].
    injection E as <-. split; [lia | reflexivity]. }
  split; intros f q dg' Ff Wf E; apply W in Wf; destruct Wf as [Wm Wg].
  - assert (Cf : if_cut f = if_max f /\ (if_cut f <= 10)%nat) by (destruct Ff as [-> | ->]; cbn; lia). destruct Cf as [Cf C10].
    unfold to_quote_snapshot in *.
    assert (V : is_valid_krx_payload g payload = is_valid_krx_payload f payload) by (rewrite Wg; reflexivity). rewrite V.
    destruct (is_valid_krx_payload f payload) as [[[]|]| |]; try discriminate. rewrite rbind_ok in *.
    replace (if_isin g) with (if_isin f) by (rewrite Wg; reflexivity). replace (if_time g) with (if_time f) by (rewrite Wg; reflexivity).
    replace (if_start g) with (if_start f) by (rewrite Wg; reflexivity). replace (if_cut g) with cut by (rewrite Wg; reflexivity).
    destruct (cut_slice payload (if_isin f)) as [s| |]; try discriminate. cbn [obind] in *.
    destruct (isin_new s) as [isin|]; try discriminate. rewrite rbind_ok in *.
    destruct (subslice payload 0 5) as [hd| |]; try discriminate. cbn [obind] in *.
    destruct (get_krx_derivative_converter hd isin) as [conv| |]; try discriminate. cbn [obind] in *.
    destruct krx_base_order_counter as [cnt| |]; try discriminate. cbn [obind] in *. cbv zeta in *.
    destruct (cut_slice payload (if_time f)) as [ts| |]; try discriminate. cbn [obind] in *.
    destruct (parse_hhmmssuuuuuu m krx_offset ts dg) as [[t dg1]| |]; try discriminate. cbn [obind] in *.
    match type of E with context [levels ?h ?c] => destruct (levels h c) as [l| |] eqn:El end; try discriminate.
    rewrite (levels_firstn _ _ _ cut El) by lia. cbn [obind] in *. apply levels_length in El; [|exact C10].
    rewrite !fresh_levels_all in E by (rewrite map_length; exact El). cbn [obind] in E.
    rewrite !fresh_levels_all by (rewrite map_length, firstn_length; lia). cbn [obind].
    injection E as <- <-. cbn [qs_id qs_time qs_system qs_asks qs_bids qs_lp_holdings qs_counter qs_conv].
    rewrite !firstn_map. reflexivity.
  - assert (Cf : if_cut f = if_max f /\ (if_cut f <= 10)%nat) by (destruct Ff as [-> | ->]; cbn; lia). destruct Cf as [Cf C10].
    unfold to_trade_quote in *.
    assert (V : is_valid_krx_payload g payload = is_valid_krx_payload f payload) by (rewrite Wg; reflexivity). rewrite V.
    destruct (is_valid_krx_payload f payload) as [[[]|]| |]; try discriminate. rewrite rbind_ok in *.
    replace (if_isin g) with (if_isin f) by (rewrite Wg; reflexivity). replace (if_time g) with (if_time f) by (rewrite Wg; reflexivity).
    replace (if_price g) with (if_price f) by (rewrite Wg; reflexivity). replace (if_qty g) with (if_qty f) by (rewrite Wg; reflexivity).
    replace (if_type g) with (if_type f) by (rewrite Wg; reflexivity).
    assert (V2 : parse_cum m g payload = parse_cum m f payload) by (rewrite Wg; reflexivity). rewrite V2.
    replace (if_start g) with (if_start f) by (rewrite Wg; reflexivity). replace (if_cut g) with cut by (rewrite Wg; reflexivity).
    destruct (cut_slice payload (if_isin f)) as [s| |]; try discriminate. cbn [obind] in *.
    destruct (isin_new s) as [isin|]; try discriminate. rewrite rbind_ok in *.
    destruct (subslice payload 0 5) as [hd| |]; try discriminate. cbn [obind] in *.
    destruct (get_krx_derivative_converter hd isin) as [conv| |]; try discriminate. cbn [obind] in *.
    destruct krx_base_order_counter as [cnt| |]; try discriminate. cbn [obind] in *. cbv zeta in *.
    destruct (cut_slice payload (if_time f)) as [ts| |]; try discriminate. cbn [obind] in *.
    destruct (parse_hhmmssuuuuuu m krx_offset ts dg) as [[t dg1]| |]; try discriminate. cbn [obind] in *.
    destruct (cut_slice payload (if_price f)) as [ps| |]; try discriminate. cbn [obind] in *.
    destruct (to_i64 m (oc_price conv) ps) as [price| |]; try discriminate. cbn [obind] in *.
    destruct (cut_slice payload (if_qty f)) as [qs| |]; try discriminate. cbn [obind] in *.
    destruct (to_u64_unchecked m (oc_quantity conv) qs) as [qty| |]; try discriminate. cbn [obind] in *.
    destruct (cut_slice payload (if_type f)) as [tys| |]; try discriminate. cbn [obind] in *.
    destruct (parse_cum m f payload) as [cum| |]; try discriminate. cbn [obind] in *.
    match type of E with context [levels ?h ?c] => destruct (levels h c) as [l| |] eqn:El end; try discriminate.
    rewrite (levels_firstn _ _ _ cut El) by lia. cbn [obind] in *. apply levels_length in El; [|exact C10].
    rewrite !fresh_levels_all in E by (rewrite map_length; exact El). cbn [obind] in E.
    rewrite !fresh_levels_all by (rewrite map_length, firstn_length; lia). cbn [obind].
    destruct krx_base_cum_qnt_converter as [cc| |]; try discriminate. cbn [obind] in *.
    injection E as <- <-. cbn [tq_id tq_time tq_system tq_price tq_quantity tq_type tq_asks tq_bids tq_cum tq_lp_holdings tq_counter tq_conv tq_cum_conv].
    rewrite !firstn_map. reflexivity.
Qed.
Print Assumptions C40_level_cut_keeps_the_first_levels.

Example C40_hypotheses_met :
  match with_quote_level_cut ifmsrpd0034 2 with
  | ROk g => match to_quote_snapshot Checked g 7 (slice_of sample_msg34 (fun _ => 255) 0) sample_gen with
             | Ret (ROk (q, _)) => qs_asks q = map ask_row (firstn 2 sample_rows) /\ qs_cut q = 2%nat
             | _ => False end
  | RErr => False end.
Proof. vm_compute. split; reflexivity. Qed.

(** * C41  From a message to the order book *)

(** Decode a quote message and apply it to the book of its instrument.
    [inst] is any assignment of ids to ISINs; the book is any book reachable
    by valid requests with at most one order per level. *)
Theorem C41_message_sets_the_book : forall m now f n h p rows totals rest extra dg cut g b mk c (inst : list Z -> Z),
  (f, n) = (ifmsrpd0034, 5%nat) \/ (f, n) = (ifmsrpd0035, 10%nat) ->
  header_ok h -> format_of h p -> length rows = n -> Forall (row_ok p) rows -> text 46 totals ->
  memory rest -> gen_ok dg -> with_quote_level_cut f cut = ROk g ->
  OBViews.reachable m b mk c -> OBModel.b_id b = inst (hd_isin h) ->
  OBSpec.valid (mk, c) (OBSpec.QSnapshot (map ask_row (firstn cut rows)) (map bid_row (firstn cut rows))) ->
  exists q dg' b',
    to_quote_snapshot m g now (slice_of (quote_text h p rows totals) rest extra) dg = Ret (ROk (q, dg')) /\
    OBModel.book_update_from_snapshot m b (inst (qs_id q)) (qs_asks q) (qs_bids q) = Ret (b', true) /\
    Permutation (map (fun l => (sn_price l, sn_quantity l)) (OBModel.half_to_snapshot (OBModel.b_asks b')))
                (map (fun r => (ask_price r, ask_volume r)) (firstn cut rows)) /\
    Permutation (map (fun l => (sn_price l, sn_quantity l)) (OBModel.half_to_snapshot (OBModel.b_bids b')))
                (map (fun r => (bid_price r, bid_volume r)) (firstn cut rows)).
Proof.
  intros m now f n h p rows totals rest extra dg cut g b mk c inst Ff H Fo Lr F T M G W R I V.
  destruct (C32_derivative_quote_is_decoded m now f n h p rows totals rest extra dg cut g Ff H Fo Lr F T M G W)
    as [q [st [d' [E [_ [Eid [_ [_ [Ea [Eb _]]]]]]]]]].
  destruct (OBProps3.C16_snapshot_update_equals_snapshot m b mk c _ _ R V) as [b' [U [_ P]]].
  exists q, (DateGen d' st), b'. split; [exact E|]. rewrite Eid, <- I, Ea, Eb. split; [exact U|].
  split.
  - destruct (P Ask) as [Pa _]. unfold OBProps3.price_qty in Pa. rewrite map_map in Pa. exact Pa.
  - destruct (P Bid) as [Pb _]. unfold OBProps3.price_qty in Pb. rewrite map_map in Pb. exact Pb.
Qed.
Print Assumptions C41_message_sets_the_book.

Example C41_hypotheses_met : forall m, exists b mk c,
  OBViews.reachable m b mk c /\ OBModel.b_id b = 7 /\ mk <> [] /\
  OBSpec.valid (mk, c) (OBSpec.QSnapshot (map ask_row (firstn 2 sample_rows)) (map bid_row (firstn 2 sample_rows))).
Proof.
  intros m. destruct (OBProps.reachable_of m 7 [OBSpec.QSnapshot OBProps.ex_rows_ask OBProps.ex_rows_bid]
    [OBSpec.Rest 0 Ask 102 6; OBSpec.Rest 1 Ask 104 9; OBSpec.Rest 2 Bid 100 2; OBSpec.Rest 3 Bid 99 5] 4 _
    ltac:(apply OBDecide.valid_historyb_ok; vm_compute; reflexivity) eq_refl) as (b & H & _ & I).
  eexists _, _, _. split; [exact H|]. split; [exact I|]. split; [discriminate|]. apply OBDecide.validb_ok. vm_compute. reflexivity.
Qed.
