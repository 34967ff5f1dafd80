(** TickProps.v -- property theorems about the tick features (C68-C74). *)
From Coq Require Import ZArith Reals List Bool Lia Lra Psatz.
From Flocq Require Import Core.
From Flocq Require Import IEEE754.BinarySingleNaN.
From Verif Require Import Base KrxModel FloatModel FloatFacts TickModel TickProofs TickSpec.
Import ListNotations.
Open Scope R_scope.

(** A converter as [IntegerConverter::new] makes it, dividing by 10^[k]. *)
Definition divides_by (c : float_conv) (k : Z) : Prop :=
  (0 <= nc_dec c)%Z /\ k = (match nc_norm c with Some n => n + nc_dec c | None => nc_dec c end)%Z.

Lemma divides_exp : forall c k, divides_by c k -> conv_exp c = k.
Proof. intros c k [_ ->]. unfold conv_exp. destruct (nc_norm c); lia. Qed.

(** ** C68: normalised prices keep the order and value of the book prices. *)

Theorem C68_price_order : forall m c k v w x y,
  divides_by c k -> (0 <= k <= 18)%Z -> is_i64 v -> is_i64 w ->
  normalized_i64 m c v = Ret x -> normalized_i64 m c w = Ret y ->
  (v <= w)%Z -> gle x y = true.
Proof.
  intros m c k v w x y D Hk Hv Hw Ex Ey H. pose proof (divides_exp c k D) as Dk. destruct D as [D _].
  destruct (normalized_i64_value m c v D ltac:(lia) Hv) as (x' & Ex' & Fx).
  destruct (normalized_i64_value m c w D ltac:(lia) Hw) as (y' & Ey' & Fy).
  assert (x' = x) by congruence. assert (y' = y) by congruence. subst x' y'.
  apply (fin_le 53 1024 x y (nval c v) (nval c w)); auto.
  unfold is_i64, i64_min, i64_max in *. apply nval_mono; lia.
Qed.

Theorem C68_price_order_strict : forall m c k v w x y,
  divides_by c k -> (0 <= k <= 15)%Z -> (Z.abs v <= 2 ^ 50)%Z -> (Z.abs w <= 2 ^ 50)%Z ->
  normalized_i64 m c v = Ret x -> normalized_i64 m c w = Ret y ->
  (glt x y = true <-> (v < w)%Z) /\ (geq x y = true <-> v = w).
Proof.
  intros m c k v w x y D Hk Hv Hw Ex Ey. pose proof (divides_exp c k D) as Dk. destruct D as [D _].
  assert (is_i64 v) by (unfold is_i64, i64_min, i64_max; lia).
  assert (is_i64 w) by (unfold is_i64, i64_min, i64_max; lia).
  destruct (normalized_i64_value m c v D ltac:(lia) ltac:(assumption)) as (x' & Ex' & Fx).
  destruct (normalized_i64_value m c w D ltac:(lia) ltac:(assumption)) as (y' & Ey' & Fy).
  assert (x' = x) by congruence. assert (y' = y) by congruence. subst x' y'.
  rewrite (fin_lt 53 1024 _ _ _ _ Fx Fy), (fin_eq 53 1024 _ _ _ _ Fx Fy).
  destruct (Z.lt_trichotomy v w) as [L|[E|G]].
  - pose proof (nval_strict c v w ltac:(lia) Hv Hw L). split; split; intros; try lia; try lra.
  - subst w. split; split; intros; try lia; try lra; reflexivity.
  - pose proof (nval_strict c w v ltac:(lia) Hw Hv G). split; split; intros; try lia; try lra.
Qed.

Theorem C68_price_accuracy : forall m c k v,
  divides_by c k -> (0 <= k <= 18)%Z -> is_i64 v ->
  exists x, normalized_i64 m c v = Ret x /\ is_finite x = true /\
    Rabs (B2R x - decimal k v) <= / IZR (2 ^ 51) * Rabs (decimal k v).
Proof.
  intros m c k v D Hk Hv. pose proof (divides_exp c k D) as Dk. destruct D as [D _].
  destruct (normalized_i64_value m c v D ltac:(lia) Hv) as (x & Ex & F1 & F2).
  exists x. split; [exact Ex|]. split; [exact F1|]. rewrite F2. unfold decimal. rewrite <- Dk.
  unfold is_i64, i64_min, i64_max in Hv. apply nval_accurate; lia.
Qed.

(** Beyond 2^53 two prices one tick apart become the same float. *)
Theorem C68_large_prices_collide_refuted : exists v w,
  is_i64 v /\ is_i64 w /\ (v < w)%Z /\ (w < 10 ^ 16)%Z /\
  exists x y, normalized_i64 Checked (FloatConv None 0) v = Ret x /\
    normalized_i64 Checked (FloatConv None 0) w = Ret y /\ geq x y = true.
Proof.
  exists (2 ^ 53)%Z, (2 ^ 53 + 1)%Z.
  split; [|split; [|split; [|split]]]; try (unfold is_i64, i64_min, i64_max; lia).
  exists (to_f64 (FloatConv None 0) (2 ^ 53)), (to_f64 (FloatConv None 0) (2 ^ 53 + 1)).
  split; [reflexivity|]. split; [reflexivity|]. vm_compute. reflexivity.
Qed.

(** The seven KRX order converters have at most nine digits and three
    decimals. *)
Example C68_hypotheses_met :
  divides_by (FloatConv (Some 1%Z) 0) 1 /\ divides_by (FloatConv None 3) 3 /\ is_i64 (-99999999) /\
  (Z.abs 999999999 <= 2 ^ 50)%Z /\
  (match normalized_i64 Checked (FloatConv (Some 1%Z) 0) 12345 with
   | Ret x => geq (gmul x (gof_Z 2)) (gof_Z 2469)   (* 1234.5 *)
   | _ => false end) = true.
Proof.
  split; [unfold divides_by; cbn; split; lia|]. split; [unfold divides_by; cbn; split; lia|]. split; [unfold is_i64, i64_min, i64_max; lia|].
  split; [lia|]. vm_compute. reflexivity.
Qed.

(** ** Snapshots *)

(** What market data may contain: at most 15 digits, quantities are counts. *)
Definition book_ok (l : list book_level) : Prop :=
  List.Forall (fun x => (Z.abs (fst x) <= 2 ^ 50)%Z /\ (0 <= snd x <= 2 ^ 50)%Z) l.
(** The data holds as many levels as it declares (data/checker.rs). *)
Definition snapshot_ok (d : book_snapshot) : Prop :=
  (bs_cut d <= length (bs_bids d))%nat /\ (bs_cut d <= length (bs_asks d))%nat /\
  book_ok (bs_bids d) /\ book_ok (bs_asks d).
Definition conv_ok (c : order_fconv) (k : Z) : Prop :=
  divides_by (fc_price c) k /\ (0 <= k <= 15)%Z /\ fc_quantity c = FloatConv None 0.

(** A float level stands for a book level. *)
Definition stands (c : order_fconv) (x : book_level) (y : slevel) : Prop :=
  fin64 (sl_price y) (nval (fc_price c) (fst x)) /\ fin64 (sl_qty y) (IZR (snd x)).

Lemma nval_count : forall v, (0 <= v <= 2 ^ 50)%Z -> nval (FloatConv None 0) v = IZR v.
Proof.
  intros v H. unfold nval, conv_exp. cbn [nc_norm nc_dec]. change (10 ^ (0 + 0))%Z with 1%Z.
  unfold Rdiv. rewrite Rinv_1, !Rmult_1_r. rewrite !(rnd_int 53 1024) by lia. reflexivity.
Qed.

Lemma conv_level_stands : forall m c k x, conv_ok c k ->
  (Z.abs (fst x) <= 2 ^ 50)%Z -> (0 <= snd x <= 2 ^ 50)%Z ->
  exists y, conv_level m c x = Ret y /\ stands c x y.
Proof.
  intros m c k x (D & Hk & Hq) Hp Hs. pose proof (divides_exp _ k D) as Dk. destruct D as [D _].
  destruct (normalized_i64_value m (fc_price c) (fst x) D ltac:(lia)) as (p & Ep & Fp);
    [unfold is_i64, i64_min, i64_max; lia|].
  destruct (normalized_u64_value m (fc_quantity c) (snd x)) as (q & Eq & Fq);
    [rewrite Hq; cbn; lia|rewrite Hq; cbn; lia|unfold is_u64, two64; lia|].
  exists (SLevel p q). unfold conv_level. rewrite Ep, Eq. split; [reflexivity|].
  split; [exact Fp|]. rewrite Hq, nval_count in Fq by lia. exact Fq.
Qed.

Definition conv_rel (m : build) (c : order_fconv) (x : book_level) (y : slevel) : Prop := conv_level m c x = Ret y.

Lemma conv_levels_stands : forall m c k l, conv_ok c k -> book_ok l ->
  exists ys, conv_levels m c l = Ret ys /\ Forall2 (conv_rel m c) l ys.
Proof.
  intros m c k l Hc. induction l as [|x l IH]; intros Hl.
  - exists []. split; [reflexivity|constructor].
  - inversion Hl as [|x' l' [H1 H2] H3]; subst. destruct (IH H3) as (ys & E & F).
    destruct (conv_level_stands m c k x Hc H1 H2) as (y & Ey & Sy).
    exists (y :: ys). cbn [conv_levels]. rewrite Ey. cbn [obind]. rewrite E. split; [reflexivity|]. now constructor.
Qed.

Lemma book_ok_firstn : forall n l, book_ok l -> book_ok (firstn n l).
Proof.
  unfold book_ok. intros n l H. rewrite List.Forall_forall in *. intros x Hx. apply H.
  rewrite <- (firstn_skipn n l). apply in_or_app. now left.
Qed.

(** What [new_from_*] builds. *)
Definition represents (m : build) (d : book_snapshot) (n : nat) (s : squotes) : Prop :=
  sq_cut s = n /\ sq_conv s = bs_conv d /\ sq_time s = bs_time d /\
  Forall2 (conv_rel m (bs_conv d)) (firstn n (bs_bids d)) (sq_bids s) /\
  Forall2 (conv_rel m (bs_conv d)) (firstn n (bs_asks d)) (sq_asks s).

Lemma new_from_quote_represents : forall m d k, snapshot_ok d -> conv_ok (bs_conv d) k ->
  exists s, new_from_quote m d = Ret s /\ represents m d (bs_cut d) s /\ sq_sys s = bs_sys d.
Proof.
  intros m d k (Lb & La & Ob & Oa) Hc. unfold new_from_quote, effective.
  destruct (Nat.leb_spec (bs_cut d) (length (bs_bids d))); [|lia].
  destruct (Nat.leb_spec (bs_cut d) (length (bs_asks d))); [|lia]. cbn [obind].
  rewrite firstn_length_le by assumption. rewrite Nat.min_id, !firstn_firstn, !Nat.min_id.
  destruct (conv_levels_stands m _ k (firstn (bs_cut d) (bs_bids d)) Hc (book_ok_firstn _ _ Ob)) as (ys & E & F).
  destruct (conv_levels_stands m _ k (firstn (bs_cut d) (bs_asks d)) Hc (book_ok_firstn _ _ Oa)) as (zs & E' & F').
  rewrite E. cbn [obind]. rewrite E'. cbn [obind]. eexists. split; [reflexivity|].
  repeat split; cbn; auto.
Qed.

Lemma new_from_trade_quote_represents : forall m d k, snapshot_ok d -> conv_ok (bs_conv d) k ->
  exists s, new_from_trade_quote m d = Ret s /\ represents m d (bs_cut d) s /\ sq_sys s = bs_sys d.
Proof.
  intros m d k (Lb & La & Ob & Oa) Hc. unfold new_from_trade_quote.
  rewrite Nat.min_r by assumption.
  destruct (conv_levels_stands m _ k (firstn (bs_cut d) (bs_bids d)) Hc (book_ok_firstn _ _ Ob)) as (ys & E & F).
  destruct (conv_levels_stands m _ k (firstn (bs_cut d) (bs_asks d)) Hc (book_ok_firstn _ _ Oa)) as (zs & E' & F').
  rewrite E. cbn [obind]. rewrite E'. cbn [obind]. eexists. split; [reflexivity|].
  repeat split; cbn; auto.
Qed.

Lemma overwrite_stands : forall m c k n old new, conv_ok c k -> book_ok new ->
  length old = n -> (n <= length new)%nat ->
  exists ys, overwrite m c n old new = Ret ys /\ Forall2 (conv_rel m c) (firstn n new) ys.
Proof.
  intros m c k n. induction n as [|n IH]; intros old new Hc Ho Hl Hn.
  - destruct old; [|discriminate]. exists []. split; [reflexivity|constructor].
  - destruct old as [|o old]; [discriminate|]. destruct new as [|x new]; [cbn in Hn; lia|].
    inversion Ho as [|x' l' [H1 H2] H3]; subst. cbn in Hl, Hn.
    destruct (IH old new Hc H3 ltac:(lia) ltac:(lia)) as (ys & E & F).
    destruct (conv_level_stands m c k x Hc H1 H2) as (y & Ey & Sy).
    exists (y :: ys). cbn [overwrite]. rewrite Ey. cbn [obind]. rewrite E. split; [reflexivity|]. cbn. now constructor.
Qed.

Lemma overwrite_firstn : forall m c n old new j, (n <= j)%nat ->
  overwrite m c n old (firstn j new) = overwrite m c n old new.
Proof.
  intros m c n. induction n as [|n IH]; intros old new j Hj; [reflexivity|].
  destruct j as [|j]; [lia|]. destruct old as [|o old]; [reflexivity|]. destruct new as [|x new]; [reflexivity|].
  cbn [overwrite firstn]. rewrite IH by lia. reflexivity.
Qed.

Lemma Forall2_len : forall {A B} (P : A -> B -> Prop) l l', Forall2 P l l' -> length l = length l'.
Proof. intros A B P l l' F. induction F; cbn; congruence. Qed.
Lemma nth_error_firstn_lt : forall {A} i n (l : list A), (i < n)%nat -> nth_error (firstn n l) i = nth_error l i.
Proof.
  intros A i. induction i as [|i IH]; intros [|n] [|x l] H; try lia; try reflexivity. cbn. apply IH. lia.
Qed.
Lemma Forall2_nth_l : forall {A B} (P : A -> B -> Prop) l l', Forall2 P l l' -> forall i x, nth_error l i = Some x ->
  exists y, nth_error l' i = Some y /\ P x y.
Proof.
  intros A B P l l' F. induction F as [|a b l l' H F IH]; intros [|i] x E; try discriminate.
  - injection E as <-. exists b. auto.
  - cbn in E. destruct (IH i x E) as (y & Y1 & Y2). exists y. auto.
Qed.

(** ** C71: an update makes the feature show the new data. *)

(** The ways to feed a feature. *)
Inductive feed : Type := FQuote (d : book_snapshot) | FTradeQuote (d : book_snapshot).
Definition feed_data (f : feed) : book_snapshot := match f with FQuote d => d | FTradeQuote d => d end.
Definition create (m : build) (f : feed) : outcome squotes :=
  match f with FQuote d => new_from_quote m d | FTradeQuote d => new_from_trade_quote m d end.
Definition update (m : build) (s : squotes) (f : feed) : outcome (rresult squotes) :=
  match f with FQuote d => update_quote m s d | FTradeQuote d => update_trade_quote m s d end.
(** A feature fed with a sequence of snapshots; a refused one changes nothing. *)
Fixpoint feed_all (m : build) (s : squotes) (l : list feed) : outcome squotes :=
  match l with
  | [] => Ret s
  | f :: r => let! x := update m s f in
              feed_all m (match x with ROk s' => s' | RErr => s end) r
  end.

Lemma create_represents : forall m f k, snapshot_ok (feed_data f) -> conv_ok (bs_conv (feed_data f)) k ->
  exists s, create m f = Ret s /\ represents m (feed_data f) (bs_cut (feed_data f)) s /\ sq_sys s = bs_sys (feed_data f).
Proof. intros m [d|d] k H C; [now apply (new_from_quote_represents m d k)|now apply (new_from_trade_quote_represents m d k)]. Qed.

Lemma represents_length : forall m d n s, snapshot_ok d -> (n <= bs_cut d)%nat -> represents m d n s ->
  length (sq_bids s) = n /\ length (sq_asks s) = n.
Proof.
  intros m d n s (Lb & La & _) Hn (_ & _ & _ & Fb & Fa).
  apply Forall2_len in Fb. apply Forall2_len in Fa.
  rewrite firstn_length_le in Fb, Fa by lia. lia.
Qed.

Lemma update_represents : forall m s f k, snapshot_ok (feed_data f) -> conv_ok (bs_conv (feed_data f)) k ->
  length (sq_bids s) = sq_cut s -> length (sq_asks s) = sq_cut s ->
  ((bs_cut (feed_data f) < sq_cut s)%nat /\ update m s f = Ret RErr) \/
  ((sq_cut s <= bs_cut (feed_data f))%nat /\
   exists s', update m s f = Ret (ROk s') /\ represents m (feed_data f) (sq_cut s) s' /\ sq_sys s' = sq_sys s).
Proof.
  intros m s f k Ok Hc Lb La. destruct f as [d|d]; cbn [update feed_data] in *.
  - unfold update_quote. destruct (Nat.ltb_spec (bs_cut d) (sq_cut s)); [left; auto|right].
    split; [assumption|]. destruct Ok as (Kb & Ka & Ob & Oa).
    destruct (overwrite_stands m (bs_conv d) k (sq_cut s) (sq_bids s) (bs_bids d) Hc Ob Lb ltac:(lia)) as (ys & E & F).
    destruct (overwrite_stands m (bs_conv d) k (sq_cut s) (sq_asks s) (bs_asks d) Hc Oa La ltac:(lia)) as (zs & E' & F').
    unfold effective. destruct (Nat.leb_spec (bs_cut d) (length (bs_bids d))); [|lia].
    destruct (Nat.leb_spec (bs_cut d) (length (bs_asks d))); [|lia].
    destruct (sq_cut s) as [|n] eqn:En.
    + cbn [obind]. destruct (sq_bids s); [|discriminate]. destruct (sq_asks s); [|discriminate].
      cbn [overwrite obind]. eexists. split; [reflexivity|]. repeat split; cbn; auto.
    + cbn [obind]. rewrite !overwrite_firstn by lia. rewrite E. cbn [obind]. rewrite E'. cbn [obind].
      eexists. split; [reflexivity|]. repeat split; cbn [sq_cut sq_conv sq_time sq_bids sq_asks]; auto.
  - unfold update_trade_quote. destruct (Nat.ltb_spec (bs_cut d) (sq_cut s)); [left; auto|right].
    split; [assumption|]. destruct Ok as (Kb & Ka & Ob & Oa).
    destruct (overwrite_stands m (bs_conv d) k (sq_cut s) (sq_bids s) (bs_bids d) Hc Ob Lb ltac:(lia)) as (ys & E & F).
    destruct (overwrite_stands m (bs_conv d) k (sq_cut s) (sq_asks s) (bs_asks d) Hc Oa La ltac:(lia)) as (zs & E' & F').
    rewrite E. cbn [obind]. rewrite E'. cbn [obind].
    eexists. split; [reflexivity|]. repeat split; cbn [sq_cut sq_conv sq_time sq_bids sq_asks]; auto.
Qed.

(** The last snapshot of a history that declares at least [n] levels. *)
Fixpoint latest (n : nat) (cur : book_snapshot) (l : list feed) : book_snapshot :=
  match l with
  | [] => cur
  | f :: r => latest n (if (n <=? bs_cut (feed_data f))%nat then feed_data f else cur) r
  end.

Lemma feed_all_represents : forall m k n l s cur,
  (forall f, In f l -> snapshot_ok (feed_data f) /\ conv_ok (bs_conv (feed_data f)) k) ->
  snapshot_ok cur -> (n <= bs_cut cur)%nat -> represents m cur n s ->
  exists s', feed_all m s l = Ret s' /\ represents m (latest n cur l) n s' /\ sq_sys s' = sq_sys s /\
    snapshot_ok (latest n cur l) /\ (n <= bs_cut (latest n cur l))%nat.
Proof.
  intros m k n l. induction l as [|f l IH]; intros s cur Hl Hok Hn Hr; cbn [feed_all latest].
  - exists s. auto.
  - destruct (Hl f (or_introl eq_refl)) as [Of Cf].
    destruct (represents_length m cur n s Hok Hn Hr) as [Lb La]. pose proof (proj1 Hr) as Ec.
    destruct (update_represents m s f k Of Cf ltac:(congruence) ltac:(congruence)) as [[H E]|[H (s1 & E & R1 & S1)]];
      rewrite E; cbn [obind]; rewrite Ec in H.
    + destruct (Nat.leb_spec n (bs_cut (feed_data f))); [lia|]. apply IH; auto. intros; apply Hl; now right.
    + destruct (Nat.leb_spec n (bs_cut (feed_data f))); [|lia]. rewrite Ec in R1. rewrite <- S1. apply IH; auto.
      intros; apply Hl; now right.
Qed.

Theorem C71_feature_shows_latest_snapshot : forall m k f0 l,
  (forall f, In f (f0 :: l) -> snapshot_ok (feed_data f) /\ conv_ok (bs_conv (feed_data f)) k) ->
  exists s s',
    create m f0 = Ret s /\ feed_all m s l = Ret s' /\
    let n := bs_cut (feed_data f0) in
    let d := latest n (feed_data f0) l in
    sq_cut s' = n /\ sq_time s' = bs_time d /\ sq_conv s' = bs_conv d /\
    length (sq_bids s') = n /\ length (sq_asks s') = n /\
    (forall i p q, (i < n)%nat -> nth_error (bs_bids d) i = Some (p, q) ->
       exists y, nth_error (sq_bids s') i = Some y /\ conv_level m (bs_conv d) (p, q) = Ret y) /\
    (forall i p q, (i < n)%nat -> nth_error (bs_asks d) i = Some (p, q) ->
       exists y, nth_error (sq_asks s') i = Some y /\ conv_level m (bs_conv d) (p, q) = Ret y).
Proof.
  intros m k f0 l H. destruct (H f0 (or_introl eq_refl)) as [O0 C0].
  destruct (create_represents m f0 k O0 C0) as (s & E & R & _).
  destruct (feed_all_represents m k (bs_cut (feed_data f0)) l s (feed_data f0)) as (s' & E' & R' & _ & O' & L');
    [intros; apply H; now right|assumption|lia|exact R|].
  exists s, s'. split; [exact E|]. split; [exact E'|]. cbn zeta.
  set (n := bs_cut (feed_data f0)) in *. set (d := latest n (feed_data f0) l) in *.
  destruct (represents_length m d n s' O' L' R') as [Lb La].
  destruct R' as (R1 & R2 & R3 & Fb & Fa).
  assert (G : forall b (ys : list slevel), Forall2 (conv_rel m (bs_conv d)) (firstn n b) ys ->
     forall i p q, (i < n)%nat -> nth_error b i = Some (p, q) ->
     exists y, nth_error ys i = Some y /\ conv_level m (bs_conv d) (p, q) = Ret y).
  { intros b ys F i p q Hi Hx. rewrite <- (nth_error_firstn_lt i n b Hi) in Hx.
    destruct (Forall2_nth_l _ _ _ F _ _ Hx) as (y & Hy & Cy). exists y. split; [exact Hy|exact Cy]. }
  repeat split; auto; eapply G; eassumption.
Qed.

(** The receive time is not updated. *)
Theorem C71_system_time_refuted : exists f0 f1 s s',
  snapshot_ok (feed_data f0) /\ snapshot_ok (feed_data f1) /\
  create Checked f0 = Ret s /\ update Checked s f1 = Ret (ROk s') /\
  sq_time s' = bs_time (feed_data f1) /\ sq_sys s' <> bs_sys (feed_data f1).
Proof.
  set (c := OrderFConv (FloatConv None 0) (FloatConv None 0)).
  exists (FQuote (BookSnapshot [] [] 0 10 11 c)), (FQuote (BookSnapshot [] [] 0 20 21 c)).
  eexists. eexists. unfold snapshot_ok, book_ok. cbn [feed_data bs_cut bs_bids bs_asks length].
  split; [repeat split; try lia; constructor|]. split; [repeat split; try lia; constructor|].
  split; [reflexivity|]. split; [reflexivity|]. cbn. split; [reflexivity|discriminate].
Qed.

(** ** C69: the order flow imbalance is the book's. *)

Lemma stands_of_rel : forall m c k x y, conv_ok c k -> (Z.abs (fst x) <= 2 ^ 50)%Z -> (0 <= snd x <= 2 ^ 50)%Z ->
  conv_rel m c x y -> stands c x y.
Proof.
  intros m c k x y Hc Hp Hq H. destruct (conv_level_stands m c k x Hc Hp Hq) as (y' & E & S).
  unfold conv_rel in H. assert (y' = y) by congruence. now subst.
Qed.

Lemma fin_diff : forall x y a b, fin64 x (IZR a) -> fin64 y (IZR b) -> (Z.abs (a - b) <= 2 ^ 53)%Z ->
  fin64 (gsub x y) (IZR (a - b)).
Proof.
  intros x y a b Fx Fy H. pose proof (fin_sub 53 1024 x y _ _ Fx Fy) as F.
  rewrite <- minus_IZR in F. rewrite (rnd_int 53 1024 (a - b)) in F by exact H. apply F.
  apply huge64. rewrite <- abs_IZR. apply IZR_le. apply Z.le_trans with (1 := H). apply Z.pow_le_mono_r; lia.
Qed.

Lemma fin_Zneg : forall x a, fin64 x (IZR a) -> fin64 (gneg x) (IZR (- a)).
Proof. intros x a F. rewrite opp_IZR. now apply fin_neg. Qed.

Section Levels.
Variables (c : order_fconv) (k : Z).
Hypothesis (Hc : conv_ok c k).
Variables (p0 q0 p1 q1 : Z) (y0 y1 : slevel).
Hypothesis (Hp0 : (Z.abs p0 <= 2 ^ 50)%Z) (Hp1 : (Z.abs p1 <= 2 ^ 50)%Z).
Hypothesis (Hq0 : (0 <= q0 <= 2 ^ 50)%Z) (Hq1 : (0 <= q1 <= 2 ^ 50)%Z).
Hypothesis (S0 : stands c (p0, q0) y0) (S1 : stands c (p1, q1) y1).

Lemma level_lt : glt (sl_price y0) (sl_price y1) = (p0 <? p1)%Z.
Proof.
  destruct S0 as [F0 _]. destruct S1 as [F1 _]. destruct Hc as (D & Hk & _). cbn [fst] in F0, F1.
  pose proof (divides_exp _ _ D) as De.
  destruct (Z.ltb_spec p0 p1) as [H|H].
  - apply (fin_lt 53 1024 _ _ _ _ F0 F1). apply nval_strict; lia.
  - apply (fin_lt_false 53 1024 _ _ _ _ F0 F1). apply nval_mono; lia.
Qed.
Lemma level_eq : geq (sl_price y1) (sl_price y0) = (p1 =? p0)%Z.
Proof.
  destruct S0 as [F0 _]. destruct S1 as [F1 _]. destruct Hc as (D & Hk & _). cbn [fst] in F0, F1.
  pose proof (divides_exp _ _ D) as De.
  destruct (Z.eqb_spec p1 p0) as [H|H].
  - apply (fin_eq 53 1024 _ _ _ _ F1 F0). now subst.
  - apply (fin_eq_false 53 1024 _ _ _ _ F1 F0). destruct (Z_lt_le_dec p1 p0).
    + pose proof (nval_strict (fc_price c) p1 p0). intros ?. assert (nval (fc_price c) p1 < nval (fc_price c) p0) by (apply H0; lia). lra.
    + pose proof (nval_strict (fc_price c) p0 p1). intros ?. assert (nval (fc_price c) p0 < nval (fc_price c) p1) by (apply H0; lia). lra.
Qed.

Lemma bid_level_flow : fin64
  (if glt (sl_price y0) (sl_price y1) then sl_qty y1
   else if geq (sl_price y1) (sl_price y0) then gsub (sl_qty y1) (sl_qty y0)
   else gneg (sl_qty y0)) (IZR (bid_flow p0 q0 p1 q1)).
Proof.
  rewrite level_lt, level_eq. destruct S0 as [_ F0]. destruct S1 as [_ F1]. cbn [snd] in F0, F1.
  unfold bid_flow. destruct (Z.ltb_spec p0 p1).
  - destruct (Z.leb_spec p0 p1); [|lia]. destruct (Z.leb_spec p1 p0); [lia|]. now rewrite Z.sub_0_r.
  - destruct (Z.eqb_spec p1 p0).
    + destruct (Z.leb_spec p0 p1); [|lia]. destruct (Z.leb_spec p1 p0); [|lia]. apply fin_diff; auto. lia.
    + destruct (Z.leb_spec p0 p1); [lia|]. destruct (Z.leb_spec p1 p0); [|lia].
      replace (0 - q0)%Z with (- q0)%Z by lia. now apply fin_Zneg.
Qed.
Lemma ask_level_flow : fin64
  (if glt (sl_price y0) (sl_price y1) then gneg (sl_qty y0)
   else if geq (sl_price y1) (sl_price y0) then gsub (sl_qty y1) (sl_qty y0)
   else sl_qty y1) (IZR (ask_flow p0 q0 p1 q1)).
Proof.
  rewrite level_lt, level_eq. destruct S0 as [_ F0]. destruct S1 as [_ F1]. cbn [snd] in F0, F1.
  unfold ask_flow. destruct (Z.ltb_spec p0 p1).
  - destruct (Z.leb_spec p0 p1); [|lia]. destruct (Z.leb_spec p1 p0); [lia|].
    replace (0 - q0)%Z with (- q0)%Z by lia. now apply fin_Zneg.
  - destruct (Z.eqb_spec p1 p0).
    + destruct (Z.leb_spec p0 p1); [|lia]. destruct (Z.leb_spec p1 p0); [|lia]. apply fin_diff; auto. lia.
    + destruct (Z.leb_spec p0 p1); [lia|]. destruct (Z.leb_spec p1 p0); [|lia]. now rewrite Z.sub_0_r.
Qed.
End Levels.

Lemma flow_bound : forall p0 q0 p1 q1, (0 <= q0 <= 2 ^ 50)%Z -> (0 <= q1 <= 2 ^ 50)%Z ->
  (Z.abs (bid_flow p0 q0 p1 q1) <= 2 ^ 50)%Z /\ (Z.abs (ask_flow p0 q0 p1 q1) <= 2 ^ 50)%Z.
Proof.
  intros. unfold bid_flow, ask_flow. destruct (Z.leb_spec p0 p1); destruct (Z.leb_spec p1 p0); lia.
Qed.

(** A feature created from [f0] and fed with [l], compared with one created
    from [g0] and fed with [l']. *)
Definition history_ok (k : Z) (c : float_conv) (f0 : feed) (l : list feed) : Prop :=
  forall f, In f (f0 :: l) ->
    snapshot_ok (feed_data f) /\ conv_ok (bs_conv (feed_data f)) k /\ fc_price (bs_conv (feed_data f)) = c.

Lemma latest_in : forall n l cur, latest n cur l = cur \/ exists f, In f l /\ latest n cur l = feed_data f.
Proof.
  intros n l. induction l as [|f l IH]; intros cur; cbn [latest]; [now left|].
  destruct (n <=? bs_cut (feed_data f))%nat.
  - destruct (IH (feed_data f)) as [E|(g & G & E)]; right.
    + exists f. split; [now left|exact E].
    + exists g. split; [now right|exact E].
  - destruct (IH cur) as [E|(g & G & E)]; [now left|right]. exists g. split; [now right|exact E].
Qed.

Lemma history_represents : forall m k c f0 l, history_ok k c f0 l ->
  exists s s', create m f0 = Ret s /\ feed_all m s l = Ret s' /\
    represents m (latest (bs_cut (feed_data f0)) (feed_data f0) l) (bs_cut (feed_data f0)) s' /\
    snapshot_ok (latest (bs_cut (feed_data f0)) (feed_data f0) l) /\
    (bs_cut (feed_data f0) <= bs_cut (latest (bs_cut (feed_data f0)) (feed_data f0) l))%nat /\
    conv_ok (bs_conv (latest (bs_cut (feed_data f0)) (feed_data f0) l)) k /\
    fc_price (bs_conv (latest (bs_cut (feed_data f0)) (feed_data f0) l)) = c.
Proof.
  intros m k c f0 l H. destruct (H f0 (or_introl eq_refl)) as (O0 & C0 & K0).
  destruct (create_represents m f0 k O0 C0) as (s & E & R & _).
  destruct (feed_all_represents m k (bs_cut (feed_data f0)) l s (feed_data f0)) as (s' & E' & R' & _ & O' & L');
    [intros f Hf; destruct (H f (or_intror Hf)) as (? & ? & ?); auto|assumption|lia|exact R|].
  exists s, s'. repeat (split; [assumption|]).
  destruct (latest_in (bs_cut (feed_data f0)) l (feed_data f0)) as [->|(g & G & ->)]; [auto|].
  destruct (H g (or_intror G)) as (? & ? & ?). auto.
Qed.

Lemma book_ok_nth : forall l i p q, book_ok l -> nth_error l i = Some (p, q) ->
  (Z.abs p <= 2 ^ 50)%Z /\ (0 <= q <= 2 ^ 50)%Z.
Proof.
  intros l i p q H E. unfold book_ok in H. rewrite List.Forall_forall in H. apply (H (p, q)). eapply nth_error_In, E.
Qed.

Lemma represents_nth : forall m d n s k i p q, represents m d n s -> conv_ok (bs_conv d) k -> snapshot_ok d ->
  (i < n)%nat ->
  (nth_error (bs_bids d) i = Some (p, q) -> exists y, nth_error (sq_bids s) i = Some y /\ stands (bs_conv d) (p, q) y) /\
  (nth_error (bs_asks d) i = Some (p, q) -> exists y, nth_error (sq_asks s) i = Some y /\ stands (bs_conv d) (p, q) y).
Proof.
  intros m d n s k i p q (R1 & R2 & R3 & Fb & Fa) Hc (Lb & La & Ob & Oa) Hi.
  split; intros E.
  - pose proof E as E0. rewrite <- (nth_error_firstn_lt i n _ Hi) in E. destruct (Forall2_nth_l _ _ _ Fb _ _ E) as (y & Y & Ry).
    exists y. split; [exact Y|]. destruct (book_ok_nth _ _ _ _ Ob E0). eapply stands_of_rel; eauto.
  - pose proof E as E0. rewrite <- (nth_error_firstn_lt i n _ Hi) in E. destruct (Forall2_nth_l _ _ _ Fa _ _ E) as (y & Y & Ry).
    exists y. split; [exact Y|]. destruct (book_ok_nth _ _ _ _ Oa E0). eapply stands_of_rel; eauto.
Qed.

Lemma stands_price : forall c c' x y, fc_price c = fc_price c' -> stands c x y -> stands c' x y.
Proof. intros c c' x y E [A B]. split; [now rewrite <- E|exact B]. Qed.

Theorem C69_imbalance_is_the_book_formula : forall m k c f0 l g0 l',
  history_ok k c f0 l -> history_ok k c g0 l' ->
  exists s0 s s0' s',
    create m f0 = Ret s0 /\ feed_all m s0 l = Ret s /\ create m g0 = Ret s0' /\ feed_all m s0' l' = Ret s' /\
    let n := bs_cut (feed_data f0) in let n' := bs_cut (feed_data g0) in
    let d := latest n (feed_data f0) l in let d' := latest n' (feed_data g0) l' in
    forall i b0 b1 a0 a1, (i < n)%nat -> (i < n')%nat ->
      nth_error (bs_bids d) i = Some b0 -> nth_error (bs_bids d') i = Some b1 ->
      nth_error (bs_asks d) i = Some a0 -> nth_error (bs_asks d') i = Some a1 ->
      exists x, ofi s (S i) s' = Ret (ROk x) /\ is_finite x = true /\
        B2R x = IZR (order_flow_imbalance b0 b1 a0 a1).
Proof.
  intros m k c f0 l g0 l' H H'.
  destruct (history_represents m k c f0 l H) as (s0 & s & E0 & E1 & R & O & L & C & P).
  destruct (history_represents m k c g0 l' H') as (s0' & s' & E0' & E1' & R' & O' & L' & C' & P').
  exists s0, s, s0', s'. repeat (split; [assumption|]). cbn zeta.
  set (n := bs_cut (feed_data f0)) in *. set (n' := bs_cut (feed_data g0)) in *.
  set (d := latest n (feed_data f0) l) in *. set (d' := latest n' (feed_data g0) l') in *.
  intros i [p0 q0] [p1 q1] [r0 t0] [r1 t1] Hi Hi' B0 B1 A0 A1.
  destruct (proj1 (represents_nth m d n s k i p0 q0 R C O Hi) B0) as (yb0 & Nb0 & Sb0).
  destruct (proj1 (represents_nth m d' n' s' k i p1 q1 R' C' O' Hi') B1) as (yb1 & Nb1 & Sb1).
  destruct (proj2 (represents_nth m d n s k i r0 t0 R C O Hi) A0) as (ya0 & Na0 & Sa0).
  destruct (proj2 (represents_nth m d' n' s' k i r1 t1 R' C' O' Hi') A1) as (ya1 & Na1 & Sa1).
  destruct O as (_ & _ & Ob & Oa). destruct O' as (_ & _ & Ob' & Oa').
  destruct (book_ok_nth _ _ _ _ Ob B0). destruct (book_ok_nth _ _ _ _ Ob' B1).
  destruct (book_ok_nth _ _ _ _ Oa A0). destruct (book_ok_nth _ _ _ _ Oa' A1).
  apply (stands_price _ (bs_conv d)) in Sb1; [|congruence]. apply (stands_price _ (bs_conv d)) in Sa1; [|congruence].
  pose proof (bid_level_flow (bs_conv d) k C p0 q0 p1 q1 yb0 yb1 ltac:(assumption) ltac:(assumption) ltac:(assumption) ltac:(assumption) Sb0 Sb1) as FB.
  pose proof (ask_level_flow (bs_conv d) k C r0 t0 r1 t1 ya0 ya1 ltac:(assumption) ltac:(assumption) ltac:(assumption) ltac:(assumption) Sa0 Sa1) as FA.
  unfold ofi, bid_ofi, ask_ofi, ofi_levels. rewrite (proj1 R), (proj1 R').
  destruct (Nat.ltb_spec n (S i)); [lia|]. destruct (Nat.ltb_spec n' (S i)); [lia|]. cbn [orb].
  rewrite Nb0, Nb1, Na0, Na1. cbn [rbind]. eexists. split; [reflexivity|].
  unfold order_flow_imbalance. cbn [fst snd].
  apply fin_diff; [exact FB|exact FA|].
  pose proof (proj1 (flow_bound p0 q0 p1 q1 ltac:(assumption) ltac:(assumption))).
  pose proof (proj2 (flow_bound r0 t0 r1 t1 ltac:(assumption) ltac:(assumption))). lia.
Qed.

(** ** C70: the level argument. *)

Theorem C70_bad_levels_are_errors : forall s a level,
  (level = O \/ (sq_cut s < level)%nat \/ (sq_cut a < level)%nat) ->
  bid_ofi s level a = Ret RErr /\ ask_ofi s level a = Ret RErr /\ ofi s level a = Ret RErr.
Proof.
  intros s a level H. unfold ofi, bid_ofi, ask_ofi, ofi_levels. destruct level as [|i]; [auto|].
  assert (E : ((sq_cut s <? S i)%nat || (sq_cut a <? S i)%nat) = true).
  { apply orb_true_iff. destruct H as [H|[H|H]]; [discriminate| |]; [left|right]; now apply Nat.ltb_lt. }
  rewrite E. auto.
Qed.

(** A feature made with [with_capacity] panics at the first update. *)
Theorem C70_with_capacity_panics_refuted : forall m n c s f, (0 < n)%nat ->
  s = sq_with_capacity c n -> (n <= bs_cut (feed_data f))%nat -> snapshot_ok (feed_data f) ->
  update m s f = Panic /\ (forall a level, (0 < level <= n)%nat -> (level <= sq_cut a)%nat -> ofi s level a = Panic).
Proof.
  intros m n c s f Hn -> Hf (Lb & La & _). split.
  - destruct f as [d|d]; cbn [update feed_data] in *; unfold update_quote, update_trade_quote, sq_with_capacity, effective;
      cbn [sq_cut sq_bids sq_asks]; destruct (Nat.ltb_spec (bs_cut d) n); try lia; destruct n as [|n]; try lia; [|reflexivity].
    destruct (Nat.leb_spec (bs_cut d) (length (bs_bids d))); [|lia].
    destruct (Nat.leb_spec (bs_cut d) (length (bs_asks d))); [|lia]. reflexivity.
  - intros a [|i] Hl Ha; [lia|]. unfold ofi, bid_ofi, ofi_levels, sq_with_capacity. cbn [sq_cut sq_bids].
    destruct (Nat.ltb_spec n (S i)); [lia|]. destruct (Nat.ltb_spec (sq_cut a) (S i)); [lia|].
    cbn [orb]. destruct i; reflexivity.
Qed.

(** A trade-quote snapshot with fewer levels than it declares is accepted and
    the imbalance then panics. *)
Theorem C70_short_snapshot_panics_refuted : exists d s,
  new_from_trade_quote Checked d = Ret s /\ sq_cut s = 1%nat /\ ofi s 1 s = Panic.
Proof.
  exists (BookSnapshot [] [] 1 0 0 (OrderFConv (FloatConv None 0) (FloatConv None 0))).
  eexists. split; [reflexivity|]. split; reflexivity.
Qed.

(** ** C72: best prices and mid price. *)

Lemma first_traded_spec : forall l x, first_traded l = Some x ->
  exists i y, nth_error l i = Some y /\ sl_price y = x /\ glt gzero (sl_qty y) = true /\
    forall j z, (j < i)%nat -> nth_error l j = Some z -> glt gzero (sl_qty z) = false.
Proof.
  induction l as [|a l IH]; intros x E; [discriminate|]. cbn [first_traded] in E.
  destruct (glt gzero (sl_qty a)) eqn:G.
  - injection E as <-. exists O, a. repeat split; auto. intros; lia.
  - destruct (IH x E) as (i & y & A & B & C & D). exists (S i), y. repeat split; auto.
    intros [|j] z Hj Hz; [injection Hz as <-; exact G|]. apply (D j); [lia|exact Hz].
Qed.
Lemma first_traded_none : forall l, first_traded l = None <-> List.Forall (fun y => glt gzero (sl_qty y) = false) l.
Proof.
  induction l as [|a l IH]; cbn [first_traded]; [split; auto|].
  destruct (glt gzero (sl_qty a)) eqn:G; split; intros H; try discriminate.
  - inversion H; congruence.
  - constructor; [exact G|now apply IH].
  - inversion H; now apply IH.
Qed.

(** The book a feature shows. *)
Definition shows (m : build) (k : Z) (d : book_snapshot) (s : squotes) : Prop :=
  exists c f0 l s0, history_ok k c f0 l /\ create m f0 = Ret s0 /\ feed_all m s0 l = Ret s /\
    bs_bids d = firstn (bs_cut (feed_data f0)) (bs_bids (latest (bs_cut (feed_data f0)) (feed_data f0) l)) /\
    bs_asks d = firstn (bs_cut (feed_data f0)) (bs_asks (latest (bs_cut (feed_data f0)) (feed_data f0) l)) /\
    bs_conv d = bs_conv (latest (bs_cut (feed_data f0)) (feed_data f0) l).

Lemma shows_stands : forall m k d s, shows m k d s ->
  conv_ok (bs_conv d) k /\ book_ok (bs_bids d) /\ book_ok (bs_asks d) /\
  Forall2 (conv_rel m (bs_conv d)) (bs_bids d) (sq_bids s) /\ Forall2 (conv_rel m (bs_conv d)) (bs_asks d) (sq_asks s) /\
  Forall2 (stands (bs_conv d)) (bs_bids d) (sq_bids s) /\ Forall2 (stands (bs_conv d)) (bs_asks d) (sq_asks s).
Proof.
  intros m k d s (c & f0 & l & s0 & H & E & E1 & Eb & Ea & Ec).
  destruct (history_represents m k c f0 l H) as (s1 & s' & E0 & E1' & R & O & L & C & P).
  assert (s1 = s0) by congruence. subst s1. assert (s' = s) by congruence. subst s'.
  destruct R as (R1 & R2 & R3 & Fb & Fa). rewrite Eb, Ea, Ec.
  destruct O as (_ & _ & Ob & Oa).
  apply (book_ok_firstn (bs_cut (feed_data f0))) in Ob. apply (book_ok_firstn (bs_cut (feed_data f0))) in Oa.
  assert (G : forall c0 l0 ys, conv_ok c0 k -> book_ok l0 -> Forall2 (conv_rel m c0) l0 ys -> Forall2 (stands c0) l0 ys).
  { intros c0 l0 ys Hc Ho F. induction F as [|x y l0 ys Hx F IH]; [constructor|].
    inversion Ho as [|x' l' [A B] Ho']; subst. constructor; [eapply stands_of_rel; eauto|auto]. }
  split; [exact C|]. split; [exact Ob|]. split; [exact Oa|]. split; [exact Fb|]. split; [exact Fa|].
  split; apply G; assumption.
Qed.

Lemma stands_traded : forall c x y, stands c x y -> glt gzero (sl_qty y) = (0 <? snd x)%Z.
Proof.
  intros c x y [_ F]. destruct (Z.ltb_spec 0 (snd x)).
  - apply (fin_lt 53 1024 _ _ _ _ (fin_zero 53 1024) F). now apply IZR_lt.
  - apply (fin_lt_false 53 1024 _ _ _ _ (fin_zero 53 1024) F). now apply IZR_le.
Qed.

(** The first level with quantity. *)
Definition first_level (l : list book_level) : option book_level := find (fun x => (0 <? snd x)%Z) l.

Lemma first_traded_find : forall m c l ys, Forall2 (conv_rel m c) l ys -> Forall2 (stands c) l ys ->
  match first_level l with
  | Some x => exists y, conv_level m c x = Ret y /\ first_traded ys = Some (sl_price y)
  | None => first_traded ys = None
  end.
Proof.
  intros m c l ys F. induction F as [|x y l ys H F IH]; intros G; [reflexivity|].
  inversion G; subst. unfold first_level. cbn [find first_traded].
  rewrite (stands_traded c x y) by assumption. destruct (0 <? snd x)%Z.
  - exists y. auto.
  - apply IH. assumption.
Qed.

Lemma mid_inner_spec : forall a bids, mid_inner a bids =
  if glt gzero (sl_qty a)
  then match first_traded bids with Some b => Some (gdiv (gadd (sl_price a) b) (gof_Z 2)) | None => None end
  else None.
Proof.
  intros a bids. induction bids as [|b r IH]; cbn [mid_inner first_traded].
  - destruct (glt gzero (sl_qty a)); reflexivity.
  - destruct (glt gzero (sl_qty a)); cbn [andb]; [|exact IH].
    destruct (glt gzero (sl_qty b)); [reflexivity|exact IH].
Qed.

Lemma mid_spec : forall s, mid_price s =
  match best_ask_price s, best_bid_price s with
  | Some a, Some b => Some (gdiv (gadd a b) (gof_Z 2))
  | _, _ => None
  end.
Proof.
  intros s. unfold mid_price, best_ask_price, best_bid_price. induction (sq_asks s) as [|a r IH]; [reflexivity|].
  cbn [mid_outer first_traded]. rewrite mid_inner_spec. destruct (glt gzero (sl_qty a)); [|exact IH].
  destruct (first_traded (sq_bids s)); [reflexivity|]. rewrite IH. destruct (first_traded r); reflexivity.
Qed.

Lemma fmt_double : forall x, generic_format radix2 fx x -> generic_format radix2 fx (2 * x).
Proof.
  intros x H. apply (FLT_format_generic radix2 (SpecFloat.emin 53 1024) 53) in H. destruct H as [f Hx Hm He].
  apply (generic_format_FLT radix2 (SpecFloat.emin 53 1024) 53).
  exists (Float radix2 (Fnum f) (Fexp f + 1)); cbn [Fnum Fexp]; [|exact Hm|lia].
  rewrite Hx. unfold F2R; cbn [Fnum Fexp]. rewrite bpow_plus. change (bpow radix2 1) with 2. lra.
Qed.

Lemma mid_between : forall x y a b, fin64 x a -> fin64 y b -> b <= a -> Rabs a <= IZR (2 ^ 64) -> Rabs b <= IZR (2 ^ 64) ->
  exists r, fin64 (gdiv (gadd x y) (gof_Z 2)) r /\ b <= r <= a.
Proof.
  intros x y a b Fx Fy H Ba Bb.
  pose proof (fin_rnd 53 1024 _ _ Fx) as Ra. pose proof (fin_rnd 53 1024 _ _ Fy) as Rb.
  assert (Ga : rd (2 * a) = 2 * a).
  { apply rnd_fix; try typeclasses eauto. apply fmt_double. rewrite <- Ra. apply generic_format_round; typeclasses eauto. }
  assert (Gb : rd (2 * b) = 2 * b).
  { apply rnd_fix; try typeclasses eauto. apply fmt_double. rewrite <- Rb. apply generic_format_round; typeclasses eauto. }
  assert (Hs : 2 * b <= rd (a + b) <= 2 * a).
  { rewrite <- Ga, <- Gb. split; apply rnd_le; try typeclasses eauto; lra. }
  apply Rabs_le_inv in Ba. apply Rabs_le_inv in Bb.
  assert (Big : forall z, Rabs z <= 4 * IZR (2 ^ 64) -> Rabs z <= huge 1024).
  { intros z Hz. apply huge64. apply Rle_trans with (1 := Hz). rewrite <- mult_IZR. apply IZR_le. apply Z.leb_le. reflexivity. }
  pose proof (fin_add 53 1024 x y a b Fx Fy ltac:(apply Big, Rabs_le; lra)) as Fs.
  pose proof (fin_Z 2 ltac:(lia)) as F2. rewrite (rnd_int 53 1024 2) in F2 by lia.
  exists (rd (rd (a + b) / 2)). split.
  - apply (fin_div 53 1024 _ _ _ _ Fs F2); [lra|]. apply Big, Rabs_le. lra.
  - split.
    + rewrite <- Rb at 1. apply rnd_le; try typeclasses eauto. lra.
    + rewrite <- Ra at 2. apply rnd_le; try typeclasses eauto. lra.
Qed.

Lemma nval_bound : forall c v, (0 <= conv_exp c <= 18)%Z -> (Z.abs v <= 2 ^ 50)%Z -> Rabs (nval c v) <= IZR (2 ^ 64).
Proof.
  intros c v Hk Hv. pose proof (nval_accurate c v Hk ltac:(lia)) as A.
  set (x := IZR v / IZR (10 ^ conv_exp c)) in *.
  assert (Bx : Rabs x <= IZR (2 ^ 50)).
  { unfold x, Rdiv. pose proof (pow10_pos (conv_exp c) ltac:(lia)) as P.
    assert (0 < IZR (10 ^ conv_exp c)) by (apply IZR_lt; lia).
    rewrite Rabs_mult, (Rabs_pos_eq (/ _)) by (left; now apply Rinv_0_lt_compat).
    rewrite <- (Rmult_1_r (IZR (2 ^ 50))). apply Rmult_le_compat; [apply Rabs_pos| | |].
    - left. now apply Rinv_0_lt_compat.
    - rewrite <- abs_IZR. now apply IZR_le.
    - rewrite <- Rinv_1. apply Rinv_le; [lra|]. apply (IZR_le 1). lia. }
  pose proof (Rabs_triang (nval c v - x) x) as T. replace (nval c v - x + x) with (nval c v) in T by lra.
  assert (bpow radix2 (-51) * Rabs x <= 1 * Rabs x).
  { apply Rmult_le_compat_r; [apply Rabs_pos|]. change 1 with (bpow radix2 0). apply bpow_le. lia. }
  apply Rle_trans with (2 * IZR (2 ^ 50)); [lra|]. rewrite <- mult_IZR. apply IZR_le. lia.
Qed.

Theorem C72_best_and_mid : forall m k d s, shows m k d s ->
  (* the best price is the price of the first level that has quantity *)
  match first_level (bs_asks d) with
  | Some a => exists y, conv_level m (bs_conv d) a = Ret y /\ best_ask_price s = Some (sl_price y)
  | None => best_ask_price s = None
  end /\
  match first_level (bs_bids d) with
  | Some b => exists y, conv_level m (bs_conv d) b = Ret y /\ best_bid_price s = Some (sl_price y)
  | None => best_bid_price s = None
  end /\
  (* a mid price exists iff both do, and lies between them unless they cross *)
  match first_level (bs_asks d), first_level (bs_bids d) with
  | Some a, Some b => exists x xa xb, mid_price s = Some x /\ best_ask_price s = Some xa /\ best_bid_price s = Some xb /\
      ((fst b <= fst a)%Z -> gle xb x = true /\ gle x xa = true)
  | _, _ => mid_price s = None
  end.
Proof.
  intros m k d s H. destruct (shows_stands m k d s H) as (C & Ob & Oa & Fb & Fa & Sb & Sa).
  pose proof (first_traded_find m (bs_conv d) (bs_asks d) (sq_asks s) Fa Sa) as HA.
  pose proof (first_traded_find m (bs_conv d) (bs_bids d) (sq_bids s) Fb Sb) as HB.
  rewrite mid_spec. unfold best_ask_price, best_bid_price.
  split; [exact HA|]. split; [exact HB|].
  destruct (first_level (bs_asks d)) as [a|] eqn:Ea; [|rewrite HA; reflexivity].
  destruct HA as (ya & Ca & HA). rewrite HA.
  destruct (first_level (bs_bids d)) as [b|] eqn:Eb; [|rewrite HB; reflexivity].
  destruct HB as (yb & Cb & HB). rewrite HB.
  exists (gdiv (gadd (sl_price ya) (sl_price yb)) (gof_Z 2)), (sl_price ya), (sl_price yb).
  repeat (split; [reflexivity|]). intros Hab.
  unfold first_level in Ea, Eb. apply find_some in Ea. apply find_some in Eb.
  unfold book_ok in Ob, Oa. rewrite List.Forall_forall in Ob, Oa.
  destruct (Oa a (proj1 Ea)) as [P1 P2]. destruct (Ob b (proj1 Eb)) as [P3 P4].
  destruct (stands_of_rel m (bs_conv d) k a ya C P1 P2 Ca) as [Ga _].
  destruct (stands_of_rel m (bs_conv d) k b yb C P3 P4 Cb) as [Gb _].
  destruct C as (D & Hk & _). pose proof (divides_exp _ _ D) as De.
  destruct (mid_between _ _ _ _ Ga Gb) as (r & Fr & Hr).
  - apply nval_mono; lia.
  - apply nval_bound; lia.
  - apply nval_bound; lia.
  - split; [apply (fin_le 53 1024 _ _ _ _ Gb Fr)|apply (fin_le 53 1024 _ _ _ _ Fr Ga)]; lra.
Qed.

(** ** C73: vwap *)

(** [x] is [y] up to [n] relative errors of 2^-52. *)
Definition g52 : R := 1 + / IZR (2 ^ 52).
Definition rel (n : nat) (x y : R) : Prop := 0 <= y /\ y <= x * g52 ^ n /\ x <= y * g52 ^ n.

Lemma g_pos : 1 <= g52.
Proof. unfold g52. assert (0 < / IZR (2 ^ 52)) by (apply Rinv_0_lt_compat, IZR_lt; lia). lra. Qed.
Lemma g_pow : forall n, 1 <= g52 ^ n.
Proof. intros. apply pow_R1_Rle, g_pos. Qed.
Lemma g_mono : forall n m, (n <= m)%nat -> g52 ^ n <= g52 ^ m.
Proof. intros. apply Rle_pow; [apply g_pos|assumption]. Qed.
Lemma rel_nonneg : forall n x y, rel n x y -> 0 <= x.
Proof.
  intros n x y (H1 & H2 & _). pose proof (g_pow n). destruct (Rle_or_lt 0 x); [assumption|].
  assert (x * g52 ^ n <= x * 1) by (apply Rmult_le_compat_neg_l; lra). lra.
Qed.
Lemma rel_weaken : forall n m x y, (n <= m)%nat -> rel n x y -> rel m x y.
Proof.
  intros n m x y L H. pose proof (rel_nonneg _ _ _ H). destruct H as (H1 & H2 & H3). pose proof (g_mono n m L).
  split; [assumption|]. split.
  - apply Rle_trans with (1 := H2). apply Rmult_le_compat_l; assumption.
  - apply Rle_trans with (1 := H3). apply Rmult_le_compat_l; assumption.
Qed.
Lemma rel_exact : forall x, 0 <= x -> rel 0 x x.
Proof. intros x H. unfold rel. cbn. repeat split; lra. Qed.
Lemma rel_add : forall n x y x' y', rel n x y -> rel n x' y' -> rel n (x + x') (y + y').
Proof. intros n x y x' y' (A & B & C) (A' & B' & C'). unfold rel. rewrite !Rmult_plus_distr_r. repeat split; lra. Qed.
Lemma rel_mul : forall n m x y x' y', rel n x y -> rel m x' y' -> rel (n + m) (x * x') (y * y').
Proof.
  intros n m x y x' y' H H'. pose proof (rel_nonneg _ _ _ H). pose proof (rel_nonneg _ _ _ H').
  destruct H as (A & B & C). destruct H' as (A' & B' & C'). pose proof (g_pow n). pose proof (g_pow m).
  unfold rel. rewrite pow_add. split; [now apply Rmult_le_pos|]. split.
  - replace (x * x' * (g52 ^ n * g52 ^ m)) with ((x * g52 ^ n) * (x' * g52 ^ m)) by ring.
    apply Rmult_le_compat; assumption.
  - replace (y * y' * (g52 ^ n * g52 ^ m)) with ((y * g52 ^ n) * (y' * g52 ^ m)) by ring.
    apply Rmult_le_compat; assumption.
Qed.
Lemma rel_scale : forall n x y c, 0 <= c -> rel n x y -> rel n (x * c) (y * c).
Proof. intros n x y c Hc H. rewrite <- (Nat.add_0_r n). apply rel_mul; [exact H|now apply rel_exact]. Qed.
Lemma rel_rnd : forall n x y, rel n x y -> x = 0 \/ bpow radix2 (-1000) <= x -> rel (S n) (rd x) y.
Proof.
  intros n x y H Hx. pose proof (rel_nonneg _ _ _ H) as Px. destruct H as (A & B & C).
  pose proof (rd_rel x) as R. rewrite (Rabs_pos_eq x Px) in R. specialize (R Hx). apply Rabs_le_inv in R.
  set (u := bpow radix2 (-53)) in *.
  assert (Eg : g52 = 1 + 2 * u).
  { unfold g52, u. f_equal. change (/ IZR (2 ^ 52)) with (bpow radix2 (-52)).
    change (bpow radix2 (-52)) with (bpow radix2 (1 + -53)). rewrite bpow_plus. reflexivity. }
  assert (Hu : 0 < u <= / 2).
  { split; [apply bpow_gt_0|]. unfold u. change (/ 2) with (bpow radix2 (-1)). apply bpow_le. lia. }
  pose proof (g_pow n) as Gn. split; [exact A|]. cbn [pow]. split.
  - apply Rle_trans with (1 := B). rewrite <- Rmult_assoc. apply Rmult_le_compat_r; [lra|]. rewrite Eg.
    assert (x * (1 - u) <= rd x) by lra.
    apply Rle_trans with (x * (1 - u) * (1 + 2 * u)); [|apply Rmult_le_compat_r; lra].
    rewrite Rmult_assoc. rewrite <- (Rmult_1_r x) at 1. apply Rmult_le_compat_l; [exact Px|]. nra.
  - apply Rle_trans with (x * g52); [rewrite Eg; nra|].
    rewrite (Rmult_comm g52), <- Rmult_assoc. apply Rmult_le_compat_r; [pose proof g_pos; lra|exact C].
Qed.
Lemma g_small : forall n, (n <= 2000)%nat -> g52 ^ n <= 2.
Proof.
  intros n Hn. set (e := / IZR (2 ^ 52)).
  assert (He : 0 < e) by (apply Rinv_0_lt_compat, IZR_lt; lia).
  assert (He2 : 4000 * e <= 1).
  { unfold e. apply Rmult_le_reg_r with (IZR (2 ^ 52)); [apply IZR_lt; lia|].
    rewrite Rmult_assoc, Rinv_l, Rmult_1_r, Rmult_1_l by (apply IZR_neq; lia). apply IZR_le. lia. }
  assert (G : forall j, (j <= 2000)%nat -> g52 ^ j <= 1 + 2 * INR j * e).
  { induction j as [|j IH]; intros Hj; [cbn; lra|]. cbn [pow]. rewrite S_INR. specialize (IH ltac:(lia)).
    assert (INR j <= 2000) by (replace 2000 with (INR 2000) by (rewrite INR_IZR_INZ; reflexivity); apply le_INR; lia).
    pose proof (pos_INR j). apply Rle_trans with (g52 * (1 + 2 * INR j * e)).
    - apply Rmult_le_compat_l; [pose proof g_pos; lra|exact IH].
    - unfold g52. fold e.
      assert (2 * INR j * e <= 1).
      { apply Rle_trans with (2 * 2000 * e); [|lra]. apply Rmult_le_compat_r; lra. }
      nra. }
  apply Rle_trans with (1 := G n Hn).
  assert (INR n <= 2000) by (replace 2000 with (INR 2000) by (rewrite INR_IZR_INZ; reflexivity); apply le_INR; lia).
  pose proof (pos_INR n). assert (2 * INR n * e <= 2 * 2000 * e) by (apply Rmult_le_compat_r; lra). lra.
Qed.

Lemma nval_rel : forall c v, (0 <= conv_exp c <= 18)%Z -> (0 <= v <= 2 ^ 50)%Z ->
  rel 3 (nval c v) (decimal (conv_exp c) v).
Proof.
  intros c v Hk Hv. pose proof (nval_accurate c v Hk ltac:(lia)) as A. fold (decimal (conv_exp c) v) in A.
  set (x := decimal (conv_exp c) v) in *.
  assert (Px : 0 <= x).
  { unfold x, decimal. pose proof (pow10_pos (conv_exp c) ltac:(lia)) as P.
    apply Rmult_le_pos; [apply IZR_le; lia|]. left. apply Rinv_0_lt_compat, IZR_lt. lia. }
  rewrite (Rabs_pos_eq x Px) in A. apply Rabs_le_inv in A. change (bpow radix2 (-51)) with (/ IZR (2 ^ 51)) in A.
  assert (E : / IZR (2 ^ 51) = 2 * / IZR (2 ^ 52)).
  { change (2 ^ 52)%Z with (2 * 2 ^ 51)%Z. rewrite mult_IZR. field. apply IZR_neq. lia. }
  rewrite E in A. set (e := / IZR (2 ^ 52)) in *.
  assert (He : 0 < e <= / 1000).
  { split; [apply Rinv_0_lt_compat, IZR_lt; lia|]. apply Rinv_le; [lra|]. apply IZR_le. lia. }
  split; [exact Px|]. unfold g52. fold e. cbn [pow]. rewrite Rmult_1_r. split.
  - apply Rle_trans with ((x * (1 - 2 * e)) * ((1 + e) * ((1 + e) * (1 + e)))).
    + rewrite Rmult_assoc. rewrite <- (Rmult_1_r x) at 1. apply Rmult_le_compat_l; [exact Px|]. nra.
    + apply Rmult_le_compat_r; [nra|lra].
  - apply Rle_trans with (x * (1 + 2 * e)); [lra|]. apply Rmult_le_compat_l; [exact Px|]. nra.
Qed.

Lemma decimal_small : forall k v, (0 <= k <= 19)%Z -> (v <> 0)%Z -> bpow radix2 (-70) <= Rabs (decimal k v).
Proof.
  intros k v Hk Hv. apply small_ok; [exact Hv|]. split; [apply pow10_pos; lia|apply pow10_le; lia].
Qed.
Lemma nval_small : forall c v, (0 <= conv_exp c <= 18)%Z -> (0 < v <= 2 ^ 50)%Z -> bpow radix2 (-71) <= nval c v.
Proof.
  intros c v Hk Hv. destruct (nval_rel c v Hk ltac:(lia)) as (A & B & _).
  pose proof (decimal_small (conv_exp c) v ltac:(lia) ltac:(lia)) as S. rewrite Rabs_pos_eq in S by exact A.
  pose proof (g_small 3 ltac:(lia)) as G. pose proof (g_pow 3).
  change (-70)%Z with (-71 + 1)%Z in S. rewrite bpow_plus in S. change (bpow radix2 1) with 2 in S.
  pose proof (nval_nonneg c v ltac:(lia) ltac:(lia)).
  assert (nval c v * g52 ^ 3 <= nval c v * 2) by (apply Rmult_le_compat_l; lra). lra.
Qed.

Lemma rd_ge_bpow : forall e x, (-1000 <= e)%Z -> bpow radix2 e <= x -> bpow radix2 e <= rd x.
Proof.
  intros e x He H. rewrite <- (rnd_fix 53 1024 (bpow radix2 e)).
  - apply rnd_le; try typeclasses eauto. exact H.
  - apply fmt_bpow; [typeclasses eauto|]. unfold SpecFloat.emin. lia.
Qed.

(** One term of the sum: price times quantity over 100. *)
Lemma term_rel : forall c k x y, conv_ok c k -> stands c x y ->
  (0 <= fst x <= 2 ^ 50)%Z -> (0 <= snd x <= 2 ^ 50)%Z ->
  exists t, fin64 (gdiv (gmul (sl_price y) (sl_qty y)) vwap_norm) t /\
    rel 5 t (decimal k (fst x * snd x) * / 100) /\ (t = 0 \/ bpow radix2 (-79) <= t).
Proof.
  intros c k x y (D & Hk & _) [Fp Fq] Hp Hq. pose proof (divides_exp _ _ D) as De.
  pose proof (nval_rel (fc_price c) (fst x) ltac:(lia) Hp) as R1. rewrite De in R1.
  set (a := nval (fc_price c) (fst x)) in *.
  assert (Hqr : 0 <= IZR (snd x)) by (apply IZR_le; lia).
  assert (Hqu : IZR (snd x) <= IZR (2 ^ 50)) by (apply IZR_le; lia).
  pose proof (nval_bound (fc_price c) (fst x) ltac:(lia) ltac:(lia)) as Ba. fold a in Ba.
  pose proof (nval_nonneg (fc_price c) (fst x) ltac:(lia) ltac:(lia)) as Pa. fold a in Pa.
  rewrite (Rabs_pos_eq a Pa) in Ba.
  assert (Hm : 0 <= a * IZR (snd x) <= IZR (2 ^ 114)).
  { split; [now apply Rmult_le_pos|]. change (2 ^ 114)%Z with (2 ^ 64 * 2 ^ 50)%Z. rewrite mult_IZR.
    apply Rmult_le_compat; assumption. }
  assert (Hh : forall z, 0 <= z <= IZR (2 ^ 115) -> Rabs z <= huge 1024).
  { intros z Hz. apply huge64. rewrite Rabs_pos_eq by lra. apply Rle_trans with (IZR (2 ^ 115)); [lra|].
    apply IZR_le. apply Z.pow_le_mono_r; lia. }
  pose proof (fin_mul 53 1024 _ _ _ _ Fp Fq) as Fm. fold a in Fm.
  assert (Hle : IZR (2 ^ 114) <= IZR (2 ^ 115)) by (apply IZR_le, Z.pow_le_mono_r; lia).
  specialize (Fm (Hh (a * IZR (snd x)) ltac:(lra))).
  assert (Hz : a * IZR (snd x) = 0 \/ bpow radix2 (-71) <= a * IZR (snd x)).
  { destruct (Z.eq_dec (snd x) 0) as [->|Nq]; [left; lra|].
    destruct (Z.eq_dec (fst x) 0) as [Zp|Np].
    - left. assert (a = 0); [|nra]. destruct R1 as (_ & _ & U). unfold decimal in U. rewrite Zp in U.
      unfold Rdiv in U. rewrite !Rmult_0_l in U. lra.
    - right. pose proof (nval_small (fc_price c) (fst x) ltac:(lia) ltac:(lia)) as S. fold a in S.
      apply Rle_trans with (1 := S). rewrite <- (Rmult_1_r a) at 1. apply Rmult_le_compat_l; [exact Pa|].
      apply (IZR_le 1). lia. }
  assert (R2 : rel 3 (a * IZR (snd x)) (decimal k (fst x * snd x))).
  { replace (decimal k (fst x * snd x)) with (decimal k (fst x) * IZR (snd x)).
    - apply rel_scale; assumption.
    - unfold decimal. rewrite mult_IZR. unfold Rdiv. ring. }
  assert (R3 : rel 4 (rd (a * IZR (snd x))) (decimal k (fst x * snd x))).
  { apply rel_rnd; [exact R2|]. destruct Hz as [H|H]; [now left|right].
    apply Rle_trans with (2 := H). apply bpow_le. lia. }
  set (b := rd (a * IZR (snd x))) in *.
  assert (Pb : 0 <= b) by (apply (rel_nonneg _ _ _ R3)).
  assert (Bb : b <= IZR (2 ^ 115)).
  { unfold b. apply Rle_trans with (rd (IZR (2 ^ 115))).
    - apply rnd_le; try typeclasses eauto. lra.
    - rewrite rnd_fix; [lra|]. change (2 ^ 115)%Z with (radix2 ^ 115)%Z. rewrite IZR_Zpower by lia.
      apply fmt_bpow; [typeclasses eauto|]. unfold SpecFloat.emin; lia. }
  pose proof (fin_Z 100 ltac:(lia)) as F100. rewrite (rnd_int 53 1024 100) in F100 by lia.
  pose proof (fin_div 53 1024 _ _ _ _ Fm F100 ltac:(lra) (Hh (b / 100) ltac:(lra))) as Fd.
  exists (rd (b / 100)). split; [exact Fd|].
  assert (Hz2 : b / 100 = 0 \/ bpow radix2 (-79) <= b / 100).
  { destruct Hz as [H|H].
    - left. unfold b. rewrite H, rnd_0 by typeclasses eauto. lra.
    - right. assert (bpow radix2 (-71) <= b) by (apply rd_ge_bpow; [lia|exact H]).
      change (-71)%Z with (8 + -79)%Z in H0. rewrite bpow_plus in H0. change (bpow radix2 8) with 256 in H0.
      pose proof (bpow_gt_0 radix2 (-79)). lra. }
  split.
  - apply rel_rnd; [apply rel_scale; [lra|exact R3]|]. destruct Hz2 as [H|H]; [now left|right].
    apply Rle_trans with (2 := H). apply bpow_le. lia.
  - destruct Hz2 as [H|H]; [left; rewrite H; apply rnd_0; typeclasses eauto|right].
    apply rd_ge_bpow; [lia|exact H].
Qed.

Lemma volume_nonneg : forall l, book_ok l -> (0 <= volume l)%Z.
Proof. induction l as [|x l IH]; intros H; cbn; [lia|]. inversion H as [|? ? [? ?] ?]; subst. specialize (IH ltac:(assumption)). unfold volume in IH. lia. Qed.

Lemma decimal_add : forall k a b, decimal k (a + b) = decimal k a + decimal k b.
Proof. intros. unfold decimal. rewrite plus_IZR. unfold Rdiv. ring. Qed.

Lemma vwap_sum_rel : forall c k l ys, conv_ok c k -> Forall2 (stands c) l ys -> book_ok l ->
  List.Forall (fun x => (0 <= fst x)%Z) l ->
  forall n qty value Q T v, fin64 qty (IZR Q) -> fin64 value v -> (0 <= Q)%Z -> (Q + volume l <= 2 ^ 53)%Z ->
    (0 <= T <= 2 ^ 50 * Q)%Z -> (5 <= n)%nat -> (n + length l <= 2000)%nat ->
    rel n v (decimal k T * / 100) -> (v = 0 \/ bpow radix2 (-79) <= v) ->
    exists q' v' r, vwap_sum ys qty value = (q', v') /\ fin64 q' (IZR (Q + volume l)) /\ fin64 v' r /\
      rel (n + length l) r (decimal k (T + turnover l) * / 100) /\ (r = 0 \/ bpow radix2 (-79) <= r) /\
      (0 <= T + turnover l <= 2 ^ 50 * (Q + volume l))%Z.
Proof.
  intros c k l ys Hc F. induction F as [|x y l ys Hx F IH];
    intros Ho Hp n qty value Q T v Fq Fv HQ HV HT Hn Hl Hr Hz; cbn [vwap_sum].
  - exists qty, value, v. cbn [volume turnover fold_right length]. rewrite !Z.add_0_r, Nat.add_0_r. auto 8.
  - inversion Ho as [|x' l' [O1 O2] O3]; subst. inversion Hp as [|? ? P1 P2]; subst.
    destruct (term_rel c k x y Hc Hx ltac:(lia) O2) as (t & Ft & Rt & Zt).
    pose proof (volume_nonneg l O3) as VN.
    assert (EV : volume (x :: l) = (snd x + volume l)%Z) by reflexivity. rewrite EV in HV |- *.
    assert (ET : turnover (x :: l) = (fst x * snd x + turnover l)%Z) by reflexivity. rewrite ET.
    (* quantity *)
    assert (Fq' : fin64 (gadd qty (sl_qty y)) (IZR (Q + snd x))).
    { pose proof (fin_add 53 1024 _ _ _ _ Fq (proj2 Hx)) as A. rewrite <- plus_IZR in A.
      rewrite (rnd_int 53 1024 (Q + snd x)) in A by lia. apply A. apply huge64. rewrite <- abs_IZR.
      apply IZR_le. apply Z.le_trans with (2 ^ 53)%Z; [lia|]. apply Z.pow_le_mono_r; lia. }
    (* value *)
    assert (T2 : (0 <= T + fst x * snd x <= 2 ^ 50 * (Q + snd x))%Z) by nia.
    assert (RS : rel n (v + t) (decimal k (T + fst x * snd x) * / 100)).
    { rewrite decimal_add, Rmult_plus_distr_r. apply rel_add; [exact Hr|]. apply rel_weaken with 5%nat; auto. }
    pose proof (rel_nonneg _ _ _ Hr) as Pv. pose proof (rel_nonneg _ _ _ Rt) as Pt.
    assert (Zs : v + t = 0 \/ bpow radix2 (-79) <= v + t).
    { destruct Hz as [H|H], Zt as [H'|H']; [left; lra|right; lra..]. }
    assert (Bs : Rabs (v + t) <= huge 1024).
    { apply huge64. rewrite Rabs_pos_eq by lra. destruct RS as (_ & _ & U). apply Rle_trans with (1 := U).
      pose proof (g_small n ltac:(lia)) as G. pose proof (g_pow n).
      assert (U1 : decimal k (T + fst x * snd x) <= IZR (2 ^ 103)).
      { unfold decimal. destruct Hc as (_ & Hk & _). pose proof (pow10_pos k ltac:(lia)) as P.
        apply Rle_trans with (IZR (T + fst x * snd x) * / 1).
        - apply Rmult_le_compat_l; [apply IZR_le; lia|]. apply Rinv_le; [lra|]. apply (IZR_le 1). lia.
        - rewrite Rinv_1, Rmult_1_r. apply IZR_le. apply Z.le_trans with (2 ^ 50 * 2 ^ 53)%Z; [lia|]. apply Z.leb_le. reflexivity. }
      assert (U0 : 0 <= decimal k (T + fst x * snd x)).
      { unfold decimal. destruct Hc as (_ & Hk & _). pose proof (pow10_pos k ltac:(lia)) as P.
        apply Rmult_le_pos; [apply IZR_le; lia|]. left. apply Rinv_0_lt_compat, IZR_lt. lia. }
      apply Rle_trans with (decimal k (T + fst x * snd x) * / 100 * 2).
      - apply Rmult_le_compat_l; lra.
      - apply Rle_trans with (IZR (2 ^ 103)); [lra|]. apply IZR_le, Z.pow_le_mono_r; lia. }
    pose proof (fin_add 53 1024 _ _ _ _ Fv Ft Bs) as Fv'.
    assert (RS' : rel (S n) (rd (v + t)) (decimal k (T + fst x * snd x) * / 100)).
    { apply rel_rnd; [exact RS|]. destruct Zs as [H|H]; [now left|right]. apply Rle_trans with (2 := H). apply bpow_le. lia. }
    assert (Zs' : rd (v + t) = 0 \/ bpow radix2 (-79) <= rd (v + t)).
    { destruct Zs as [H|H]; [left; rewrite H; apply rnd_0; typeclasses eauto|right]. apply rd_ge_bpow; [lia|exact H]. }
    cbn [length] in Hl.
    destruct (IH O3 P2 (S n) _ _ (Q + snd x)%Z (T + fst x * snd x)%Z _ Fq' Fv' ltac:(clear - HQ O2; lia) ltac:(clear - HV; lia) T2 ltac:(clear - Hn; lia) ltac:(clear - Hl; lia) RS' Zs')
      as (q' & v' & r & E & G1 & G2 & G3 & G4 & G5).
    exists q', v', r. split; [exact E|].
    replace (Q + (snd x + volume l))%Z with (Q + snd x + volume l)%Z by lia.
    replace (T + (fst x * snd x + turnover l))%Z with (T + fst x * snd x + turnover l)%Z by lia.
    replace (n + length (x :: l))%nat with (S n + length l)%nat by (cbn; lia).
    auto 8.
Qed.

Lemma volume_app : forall a b, volume (a ++ b) = (volume a + volume b)%Z.
Proof. induction a as [|x a IH]; intros b; [reflexivity|]. change (volume ((x :: a) ++ b)) with (snd x + volume (a ++ b))%Z. change (volume (x :: a)) with (snd x + volume a)%Z. rewrite IH. lia. Qed.
Lemma turnover_app : forall a b, turnover (a ++ b) = (turnover a + turnover b)%Z.
Proof. induction a as [|x a IH]; intros b; [reflexivity|]. change (turnover ((x :: a) ++ b)) with (fst x * snd x + turnover (a ++ b))%Z. change (turnover (x :: a)) with (fst x * snd x + turnover a)%Z. rewrite IH. lia. Qed.

(** The vwap is the volume weighted average price of all levels shown, up to
    a factor (1 + 2^-52)^(levels + 7). *)
Theorem C73_vwap_is_the_average_partial : forall m k d s, shows m k d s ->
  let l := bs_asks d ++ bs_bids d in
  List.Forall (fun x => (0 <= fst x)%Z) l -> (volume l <= 2 ^ 53)%Z -> (length l <= 1000)%nat ->
  (0 < volume (bs_asks d))%Z ->
  exists x, vwap s = Some x /\ is_finite x = true /\
    let G := (1 + / IZR (2 ^ 52)) ^ (length l + 7) in
    average_price k l / G <= B2R x <= average_price k l * G.
Proof.
  intros m k d s H l Hp HV Hl Ha. destruct (shows_stands m k d s H) as (C & Ob & Oa & _ & _ & Sb & Sa).
  unfold l in *. rewrite app_length in *. rewrite volume_app in HV. apply Forall_app in Hp. destruct Hp as [Pa Pb].
  pose proof (volume_nonneg _ Ob) as Vb.
  destruct (vwap_sum_rel (bs_conv d) k (bs_asks d) (sq_asks s) C Sa Oa Pa 5 gzero gzero 0%Z 0%Z 0)
    as (q1 & v1 & r1 & E1 & Fq1 & Fv1 & R1 & Z1 & T1); try lia; try apply fin_zero.
  { replace (decimal k 0 * / 100) with 0 by (unfold decimal, Rdiv; ring). apply rel_weaken with O; [lia|apply rel_exact; lra]. }
  { now left. }
  rewrite !Z.add_0_l in *.
  destruct (vwap_sum_rel (bs_conv d) k (bs_bids d) (sq_bids s) C Sb Ob Pb (5 + length (bs_asks d)) q1 v1 (volume (bs_asks d)) (turnover (bs_asks d)) r1)
    as (q2 & v2 & r2 & E2 & Fq2 & Fv2 & R2 & Z2 & T2); auto; try lia.
  unfold vwap. rewrite E1.
  assert (Feps : fin64 f64_epsilon (bpow radix2 (-52))).
  { pose proof (binary_normalize_correct 53 1024 p53 e1024 mode_NE 1 (-52) false) as B. cbn zeta in B.
    assert (EF : F2R (Float radix2 1 (-52)) = bpow radix2 (-52)) by (unfold F2R; cbn [Fnum Fexp]; lra).
    rewrite EF in B. cbn [round_mode] in B. change (round radix2 fx ZnearestE) with rd in B.
    assert (ER : rd (bpow radix2 (-52)) = bpow radix2 (-52)).
    { apply rnd_fix; try typeclasses eauto. apply fmt_bpow; [typeclasses eauto|]. unfold SpecFloat.emin; lia. }
    rewrite ER in B. rewrite Rlt_bool_true in B.
    - destruct B as (B1 & B2 & _). split; [exact B2|exact B1].
    - rewrite Rabs_pos_eq by apply bpow_ge_0. apply bpow_lt. lia. }
  assert (HQ : forall q Q, fin64 q (IZR Q) -> (0 < Q)%Z -> glt q f64_epsilon = false).
  { intros q Q Fq HQ. apply (fin_lt_false 53 1024 _ _ _ _ Fq Feps).
    apply Rle_trans with 1; [change 1 with (bpow radix2 0); apply bpow_le; lia|]. apply (IZR_le 1). lia. }
  rewrite (HQ _ _ Fq1 Ha), E2, (HQ _ _ Fq2) by lia.
  set (V := (volume (bs_asks d) + volume (bs_bids d))%Z) in *.
  set (TT := (turnover (bs_asks d) + turnover (bs_bids d))%Z) in *.
  assert (PV : 0 < IZR V) by (apply IZR_lt; lia).
  assert (PV1 : 1 <= IZR V) by (apply (IZR_le 1); lia).
  assert (PI : 0 < / IZR V) by now apply Rinv_0_lt_compat.
  pose proof (rel_nonneg _ _ _ R2) as Pr2.
  set (N := (5 + length (bs_asks d) + length (bs_bids d))%nat) in *.
  assert (DT0 : 0 <= decimal k TT).
  { destruct R2 as (A & _ & _). fold TT in A. nra. }
  assert (DT : decimal k TT <= IZR (2 ^ 103)).
  { unfold decimal. destruct C as (_ & Hk & _). pose proof (pow10_pos k ltac:(lia)) as P.
    apply Rle_trans with (IZR TT * / 1).
    - apply Rmult_le_compat_l; [apply IZR_le; lia|]. apply Rinv_le; [lra|]. apply (IZR_le 1). lia.
    - rewrite Rinv_1, Rmult_1_r. apply IZR_le. apply Z.le_trans with (2 ^ 50 * 2 ^ 53)%Z; [lia|]. apply Z.leb_le. reflexivity. }
  assert (Br2 : r2 <= IZR (2 ^ 103)).
  { destruct R2 as (_ & _ & U). apply Rle_trans with (1 := U). pose proof (g_small N ltac:(unfold N; lia)). pose proof (g_pow N).
    apply Rle_trans with (decimal k TT * / 100 * 2); [apply Rmult_le_compat_l; lra|lra]. }
  assert (Hh : forall z, 0 <= z <= IZR (2 ^ 115) -> Rabs z <= huge 1024).
  { intros z Hz. apply huge64. rewrite Rabs_pos_eq by lra. apply Rle_trans with (IZR (2 ^ 115)); [lra|].
    apply IZR_le. apply Z.pow_le_mono_r; lia. }
  assert (B103 : IZR (2 ^ 103) * 200 <= IZR (2 ^ 115)) by (rewrite <- mult_IZR; apply IZR_le; apply Z.leb_le; reflexivity).
  assert (B0 : 0 < IZR (2 ^ 103)) by (apply IZR_lt; reflexivity).
  assert (Dv : 0 <= r2 / IZR V <= IZR (2 ^ 103)).
  { split; [apply Rmult_le_pos; lra|]. apply Rle_trans with (r2 * / 1); [|rewrite Rinv_1; lra].
    apply Rmult_le_compat_l; [exact Pr2|]. apply Rinv_le; lra. }
  pose proof (fin_div 53 1024 _ _ _ _ Fv2 Fq2 ltac:(lra) (Hh (r2 / IZR V) ltac:(lra))) as Fd.
  set (b := r2 / IZR V) in *.
  assert (Zb : b = 0 \/ bpow radix2 (-132) <= b).
  { destruct Z2 as [Hz|Hz]; [left; unfold b; rewrite Hz; unfold Rdiv; ring|right].
    unfold b, Rdiv. change (-132)%Z with (-79 + - (53))%Z. rewrite bpow_plus.
    apply Rmult_le_compat; try apply bpow_ge_0; [exact Hz|]. rewrite bpow_opp. apply Rinv_le; [exact PV|].
    rewrite <- (IZR_Zpower radix2) by lia. apply IZR_le. change (radix_val radix2) with 2%Z. lia. }
  assert (Rb : rel (S N) (rd b) (decimal k TT * / 100 * / IZR V)).
  { apply rel_rnd; [apply rel_scale; [lra|exact R2]|]. destruct Zb as [Hz|Hz]; [now left|right].
    apply Rle_trans with (2 := Hz). apply bpow_le. lia. }
  assert (Prb : 0 <= rd b <= IZR (2 ^ 103)).
  { split; [now apply (rel_nonneg _ _ _ Rb)|].
    rewrite <- (rnd_fix 53 1024 (IZR (2 ^ 103))).
    - apply rnd_le; try typeclasses eauto. lra.
    - change (2 ^ 103)%Z with (radix2 ^ 103)%Z. rewrite IZR_Zpower by lia.
      apply fmt_bpow; [typeclasses eauto|]. unfold SpecFloat.emin; lia. }
  pose proof (fin_Z 100 ltac:(lia)) as F100. rewrite (rnd_int 53 1024 100) in F100 by lia.
  pose proof (fin_mul 53 1024 _ _ _ _ Fd F100 (Hh (rd b * 100) ltac:(lra))) as Fx.
  eexists. split; [reflexivity|]. unfold vwap_norm. split; [exact (proj1 Fx)|]. cbn zeta.
  rewrite (proj2 Fx).
  assert (Rx : rel (S (S N)) (rd (rd b * 100)) (decimal k TT * / 100 * / IZR V * 100)).
  { apply rel_rnd; [apply rel_scale; [lra|exact Rb]|].
    destruct Zb as [Hz|Hz]; [left; rewrite Hz, rnd_0 by typeclasses eauto; ring|right].
    assert (bpow radix2 (-132) <= rd b) by (apply rd_ge_bpow; [lia|exact Hz]).
    apply Rle_trans with (bpow radix2 (-132)); [apply bpow_le; lia|]. lra. }
  assert (EA : decimal k TT * / 100 * / IZR V * 100 = average_price k (bs_asks d ++ bs_bids d)).
  { unfold average_price. rewrite turnover_app, volume_app. fold TT. fold V. field. lra. }
  rewrite EA in Rx. destruct Rx as (A & B & D).
  replace (length (bs_asks d) + length (bs_bids d) + 7)%nat with (S (S N)) by (unfold N; lia).
  fold g52. pose proof (g_pow (S (S N))). split; [|exact D].
  apply Rmult_le_reg_r with (g52 ^ S (S N)); [lra|]. unfold Rdiv. rewrite Rmult_assoc, Rinv_l, Rmult_1_r by lra. exact B.
Qed.

(** Only bids: no vwap; the same levels as asks: a vwap. *)
Theorem C73_bids_only_refuted : exists s s' x,
  sq_asks s' = sq_bids s /\ sq_bids s' = sq_asks s /\ vwap s = None /\ vwap s' = Some x.
Proof.
  set (l := SLevel (gof_Z 100) (gof_Z 5)).
  set (c := OrderFConv (FloatConv None 0) (FloatConv None 0)).
  exists (SQuotes [l] [] 1 0 0 c), (SQuotes [] [l] 1 0 0 c).
  assert (B : (match vwap (SQuotes [] [l] 1 0 0 c) with Some _ => true | None => false end) = true)
    by (vm_compute; reflexivity).
  destruct (vwap (SQuotes [] [l] 1 0 0 c)) as [x|]; [|discriminate B].
  exists x. split; [reflexivity|]. split; [reflexivity|]. split; [vm_compute; reflexivity|reflexivity].
Qed.

(** ** C74: the logarithmic imbalance *)

(** With IEEE [ln] (ln 0 = -oo), an emptied level yields an infinite value. *)
Theorem C74_log_imbalance_infinite_refuted : forall ln : f64 -> f64,
  ln (B754_zero false) = B754_infinity true ->
  exists m f0 f1 s0 s1 x,
    snapshot_ok (feed_data f0) /\ snapshot_ok (feed_data f1) /\
    create m f0 = Ret s0 /\ create m f1 = Ret s1 /\
    bid_ln_ofi ln s0 1 s1 = Ret (ROk x) /\ is_finite x = false.
Proof.
  intros ln Hln. set (c := OrderFConv (FloatConv None 0) (FloatConv None 0)).
  exists Checked, (FQuote (BookSnapshot [(100, 5)%Z] [(101, 5)%Z] 1 0 0 c)), (FQuote (BookSnapshot [(100, 0)%Z] [(101, 5)%Z] 1 0 0 c)).
  set (t := to_f64 (FloatConv None 0)).
  exists (SQuotes [SLevel (t 100%Z) (t 5%Z)] [SLevel (t 101%Z) (t 5%Z)] 1 0 0 c).
  exists (SQuotes [SLevel (t 100%Z) (t 0%Z)] [SLevel (t 101%Z) (t 5%Z)] 1 0 0 c).
  exists (B754_infinity true).
  split; [unfold snapshot_ok, book_ok; cbn; repeat split; try lia; repeat constructor; cbn; lia|].
  split; [unfold snapshot_ok, book_ok; cbn; repeat split; try lia; repeat constructor; cbn; lia|].
  split; [reflexivity|]. split; [reflexivity|]. split; [|reflexivity].
  unfold bid_ln_ofi, ofi_levels. cbn [sq_cut Nat.ltb Nat.leb orb sq_bids nth_error rbind sl_price sl_qty].
  assert (E1 : glt (t 100%Z) (t 100%Z) = false) by (vm_compute; reflexivity).
  assert (E2 : geq (t 100%Z) (t 100%Z) = true) by (vm_compute; reflexivity).
  assert (E3 : glt gzero (t 5%Z) = true) by (vm_compute; reflexivity).
  assert (E4 : gdiv (t 0%Z) (t 5%Z) = B754_zero false) by (vm_compute; reflexivity).
  rewrite E1, E2, E3, E4, Hln. reflexivity.
Qed.

(** The logarithmic imbalance is finite when every quantity is positive and
    [ln] is finite on positive finite numbers. *)
Theorem C74_log_imbalance_partial : forall (ln : f64 -> f64) m k c f0 l g0 l',
  (forall x r, fin64 x r -> 0 < r -> is_finite (ln x) = true /\ Rabs (B2R (ln x)) <= 1000) ->
  history_ok k c f0 l -> history_ok k c g0 l' ->
  exists s0 s s0' s',
    create m f0 = Ret s0 /\ feed_all m s0 l = Ret s /\ create m g0 = Ret s0' /\ feed_all m s0' l' = Ret s' /\
    let n := bs_cut (feed_data f0) in let n' := bs_cut (feed_data g0) in
    let d := latest n (feed_data f0) l in let d' := latest n' (feed_data g0) l' in
    forall i b0 b1 a0 a1, (i < n)%nat -> (i < n')%nat ->
      nth_error (bs_bids d) i = Some b0 -> nth_error (bs_bids d') i = Some b1 ->
      nth_error (bs_asks d) i = Some a0 -> nth_error (bs_asks d') i = Some a1 ->
      (0 < snd b0)%Z -> (0 < snd b1)%Z -> (0 < snd a0)%Z -> (0 < snd a1)%Z ->
      exists x, ln_ofi ln s (S i) s' = Ret (ROk x) /\ is_finite x = true.
Proof.
  intros ln m k c f0 l g0 l' Hln H H'.
  destruct (history_represents m k c f0 l H) as (s0 & s & E0 & E1 & R & O & L & C & P).
  destruct (history_represents m k c g0 l' H') as (s0' & s' & E0' & E1' & R' & O' & L' & C' & P').
  exists s0, s, s0', s'. repeat (split; [assumption|]). cbn zeta.
  set (n := bs_cut (feed_data f0)) in *. set (n' := bs_cut (feed_data g0)) in *.
  set (d := latest n (feed_data f0) l) in *. set (d' := latest n' (feed_data g0) l') in *.
  intros i [p0 q0] [p1 q1] [r0 t0] [r1 t1] Hi Hi' B0 B1 A0 A1 Q0 Q1 T0 T1. cbn [snd] in *.
  destruct (proj1 (represents_nth m d n s k i p0 q0 R C O Hi) B0) as (yb0 & Nb0 & [_ Sb0]).
  destruct (proj1 (represents_nth m d' n' s' k i p1 q1 R' C' O' Hi') B1) as (yb1 & Nb1 & [_ Sb1]).
  destruct (proj2 (represents_nth m d n s k i r0 t0 R C O Hi) A0) as (ya0 & Na0 & [_ Sa0]).
  destruct (proj2 (represents_nth m d' n' s' k i r1 t1 R' C' O' Hi') A1) as (ya1 & Na1 & [_ Sa1]).
  destruct O as (_ & _ & Ob & Oa). destruct O' as (_ & _ & Ob' & Oa').
  destruct (book_ok_nth _ _ _ _ Ob B0). destruct (book_ok_nth _ _ _ _ Ob' B1).
  destruct (book_ok_nth _ _ _ _ Oa A0). destruct (book_ok_nth _ _ _ _ Oa' A1).
  cbn [snd] in *.
  assert (Pos : forall q y, (0 < q)%Z -> fin64 y (IZR q) -> glt gzero y = true).
  { intros q y Hq F. apply (fin_lt 53 1024 _ _ _ _ (fin_zero 53 1024) F). now apply IZR_lt. }
  assert (Q : forall a b x y, (0 < a <= 2 ^ 50)%Z -> (0 < b <= 2 ^ 50)%Z -> fin64 x (IZR a) -> fin64 y (IZR b) ->
     exists r, fin64 (gdiv x y) r /\ 0 < r).
  { intros a b x y Ha Hb Fx Fy. assert (0 < IZR b) by (apply IZR_lt; lia). assert (0 < IZR a) by (apply IZR_lt; lia).
    assert (1 <= IZR b) by (apply (IZR_le 1); lia).
    exists (rd (IZR a / IZR b)). split.
    - apply fin_div; auto; [lra|]. apply huge64. rewrite Rabs_pos_eq.
      + apply Rle_trans with (IZR a * / 1).
        * apply Rmult_le_compat_l; [lra|]. apply Rinv_le; lra.
        * rewrite Rinv_1, Rmult_1_r. apply IZR_le. apply Z.le_trans with (2 ^ 50)%Z; [lia|]. apply Z.pow_le_mono_r; lia.
      + apply Rmult_le_pos; [lra|]. left. now apply Rinv_0_lt_compat.
    - apply Rlt_le_trans with (bpow radix2 (-50)); [apply bpow_gt_0|]. apply rd_ge_bpow; [lia|].
      change (-50)%Z with (- (50))%Z. rewrite bpow_opp. rewrite <- (Rmult_1_l (/ bpow _ _)).
      apply Rmult_le_compat; [lra|left; apply Rinv_0_lt_compat, bpow_gt_0|apply (IZR_le 1); lia|].
      apply Rinv_le; [assumption|]. rewrite <- (IZR_Zpower radix2) by lia. apply IZR_le. change (radix_val radix2) with 2%Z. lia. }
  assert (Neg : forall z : f64, is_finite z = true /\ Rabs (B2R z) <= 1000 -> is_finite (gneg z) = true /\ Rabs (B2R (gneg z)) <= 1000).
  { intros z [Z1 Z2]. unfold gneg. rewrite is_finite_Bopp, B2R_Bopp, Rabs_Ropp. split; assumption. }
  unfold ln_ofi, bid_ln_ofi, ask_ln_ofi, ofi_levels. rewrite (proj1 R), (proj1 R').
  destruct (Nat.ltb_spec n (S i)); [lia|]. destruct (Nat.ltb_spec n' (S i)); [lia|]. cbn [orb].
  rewrite Nb0, Nb1, Na0, Na1. cbn [rbind].
  rewrite (Pos q0 _ Q0 Sb0), (Pos q1 _ Q1 Sb1), (Pos t0 _ T0 Sa0), (Pos t1 _ T1 Sa1).
  eexists. split; [reflexivity|].
  match goal with |- is_finite (gsub ?x ?y) = true =>
    assert (X : is_finite x = true /\ Rabs (B2R x) <= 1000); [|assert (Y : is_finite y = true /\ Rabs (B2R y) <= 1000)] end.
  - destruct (glt (sl_price yb0) (sl_price yb1)); [apply (Hln _ _ Sb1), IZR_lt, Q1|].
    destruct (geq (sl_price yb1) (sl_price yb0)).
    + destruct (Q q1 q0 _ _ ltac:(lia) ltac:(lia) Sb1 Sb0) as (r & Fr & Hr). apply (Hln _ _ Fr Hr).
    + apply Neg, (Hln _ _ Sb0), IZR_lt, Q0.
  - destruct (glt (sl_price ya0) (sl_price ya1)); [apply Neg, (Hln _ _ Sa0), IZR_lt, T0|].
    destruct (geq (sl_price ya1) (sl_price ya0)).
    + destruct (Q t1 t0 _ _ ltac:(lia) ltac:(lia) Sa1 Sa0) as (r & Fr & Hr). apply (Hln _ _ Fr Hr).
    + apply (Hln _ _ Sa1), IZR_lt, T1.
  - destruct X as [X1 X2]. destruct Y as [Y1 Y2].
    refine (proj1 (fin_sub 53 1024 _ _ _ _ (fin_B2R 53 1024 _ X1) (fin_B2R 53 1024 _ Y1) _)).
    apply huge64. apply Rabs_le_inv in X2. apply Rabs_le_inv in Y2. apply Rle_trans with 2000; [apply Rabs_le; lra|].
    apply IZR_le. apply Z.leb_le. reflexivity.
Qed.

(** A concrete history: two KOSPI-like snapshots with three decimals. *)
Definition ex_conv : order_fconv := OrderFConv (FloatConv None 3) (FloatConv None 0).
Definition ex_feed0 : feed := FQuote (BookSnapshot [(350100, 10); (350050, 7)]%Z [(350150, 3); (350200, 4)]%Z 2 100 101 ex_conv).
Definition ex_feed1 : feed := FTradeQuote (BookSnapshot [(350150, 2); (350100, 9)]%Z [(350200, 6); (350250, 1)]%Z 2 200 201 ex_conv).
Example C69_hypotheses_met : history_ok 3 (FloatConv None 3) ex_feed0 [ex_feed1] /\
  (order_flow_imbalance (350100, 10) (350150, 2) (350150, 3) (350200, 6) = 5)%Z /\
  (match create Checked ex_feed0, create Checked ex_feed1 with
   | Ret s, Ret s' => match ofi s 1 s' with Ret (ROk x) => geq x (gof_Z 5) | _ => false end
   | _, _ => false end) = true.
Proof.
  split.
  - intros f [<-|[<-|[]]]; cbn [feed_data ex_feed0 ex_feed1]; (split; [|split; [|reflexivity]]);
      try (unfold conv_ok, divides_by; cbn; repeat split; lia);
      unfold snapshot_ok, book_ok; cbn; repeat split; try lia; repeat constructor; cbn; lia.
  - split; [reflexivity|]. vm_compute. reflexivity.
Qed.
Definition ex_state : squotes :=
  let t := to_f64 (FloatConv None 3) in let u := to_f64 (FloatConv None 0) in
  SQuotes [SLevel (t 350150%Z) (u 2%Z); SLevel (t 350100%Z) (u 9%Z)]
          [SLevel (t 350200%Z) (u 6%Z); SLevel (t 350250%Z) (u 1%Z)] 2 200 101 ex_conv.
Definition ex_state0 : squotes :=
  let t := to_f64 (FloatConv None 3) in let u := to_f64 (FloatConv None 0) in
  SQuotes [SLevel (t 350100%Z) (u 10%Z); SLevel (t 350050%Z) (u 7%Z)]
          [SLevel (t 350150%Z) (u 3%Z); SLevel (t 350200%Z) (u 4%Z)] 2 100 101 ex_conv.
Example C73_hypotheses_met :
  shows Checked 3 (feed_data ex_feed1) ex_state /\ (volume (bs_asks (feed_data ex_feed1)) = 7)%Z /\ (match vwap ex_state with Some x => (glt (gof_Z 350) x && glt x (gof_Z 351))%bool | None => false end) = true.
Proof.
  split.
  - exists (FloatConv None 3), ex_feed0, [ex_feed1], ex_state0. split; [apply C69_hypotheses_met|].
    do 4 (split; [reflexivity|]). reflexivity.
  - split; [reflexivity|]. vm_compute. reflexivity.
Qed.
Example C74_hypotheses_met : forall x r, fin64 x r -> 0 < r ->
  is_finite (gzero : f64) = true /\ Rabs (B2R (gzero : f64)) <= 1000.
Proof. intros. split; [reflexivity|]. cbn. rewrite Rabs_R0. lra. Qed.

Print Assumptions C68_price_order.
Print Assumptions C68_price_order_strict.
Print Assumptions C68_price_accuracy.
Print Assumptions C68_large_prices_collide_refuted.
Print Assumptions C69_imbalance_is_the_book_formula.
Print Assumptions C70_bad_levels_are_errors.
Print Assumptions C70_with_capacity_panics_refuted.
Print Assumptions C70_short_snapshot_panics_refuted.
Print Assumptions C71_feature_shows_latest_snapshot.
Print Assumptions C71_system_time_refuted.
Print Assumptions C72_best_and_mid.
Print Assumptions C73_vwap_is_the_average_partial.
Print Assumptions C73_bids_only_refuted.
Print Assumptions C74_log_imbalance_partial.
Print Assumptions C74_log_imbalance_infinite_refuted.
