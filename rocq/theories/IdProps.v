(** IdProps.v -- properties C57-C59: instrument identities. *)
From Coq Require Import ZArith List Bool Lia.
From Verif Require Import Base KrxModel KrxSpec KrxUtf8 IdModel.
Import ListNotations.
Open Scope Z_scope.

(** ** C57: interning *)

(** What an operation asks for. *)
Definition asked (op : id_op) : id_data :=
  match op with OpNew s v => IdData s v | OpDeserialize d => d | OpDefault => default_id end.

(** The cache and the heap describe the same one-to-one correspondence. *)
Definition reg_ok (r : registry) : Prop :=
  NoDup (heap r) /\ In default_id (heap r) /\
  (forall d a, cache_find d (cache r) = Some a <-> nth_error (heap r) a = Some d).

Lemma reg_init_ok : reg_ok registry_init.
Proof.
  split; [repeat constructor; cbn; tauto|]. split; [left; reflexivity|].
  intros d a. unfold registry_init. cbn [cache heap cache_find].
  destruct (id_eq_dec d default_id) as [->|N].
  - split; intro H.
    + inversion H; subst. reflexivity.
    + destruct a as [|a]; [reflexivity|]. cbn in H. destruct a; discriminate.
  - split; intro H; [discriminate|]. destruct a as [|a]; cbn in H; [congruence|destruct a; discriminate].
Qed.

Lemma cache_none : forall r d, reg_ok r -> cache_find d (cache r) = None -> ~ In d (heap r).
Proof.
  intros r d (_ & _ & C) H HI. apply In_nth_error in HI. destruct HI as [a E]. apply C in E. congruence.
Qed.

Lemma intern_ok : forall d r a r', reg_ok r -> intern d r = (a, r') ->
  reg_ok r' /\ nth_error (heap r') a = Some d /\ (exists l, heap r' = heap r ++ l) /\
  (forall x, In x (heap r') <-> In x (heap r) \/ x = d).
Proof.
  intros d r a r' R H. unfold intern in H. destruct (cache_find d (cache r)) as [b|] eqn:E.
  - inversion H; subst. destruct R as (N & D & C). split; [split; [exact N|split; assumption]|].
    assert (Q : nth_error (heap r') a = Some d) by (apply C; exact E).
    split; [exact Q|]. split; [exists []; rewrite app_nil_r; reflexivity|].
    intro x. split; [auto|]. intros [X| ->]; [exact X|]. eapply nth_error_In; eauto.
  - inversion H; subst. pose proof (cache_none _ _ R E) as NI. destruct R as (N & D & C).
    cbn [heap cache]. split; [|split; [|split]].
    + split; [|split].
      * cbn [heap]. clear - N NI. induction (heap r) as [|x l IH]; cbn; [repeat constructor; tauto|].
        inversion N; subst. constructor.
        -- intro HI. apply in_app_or in HI. destruct HI as [HI|[HI|[]]]; [contradiction|]. apply NI. left; auto.
        -- apply IH; [assumption|]. intro HI; apply NI; right; exact HI.
      * cbn [heap]. apply in_or_app. left; exact D.
      * cbn [heap cache]. intros k a. cbn [cache_find]. destruct (id_eq_dec k d) as [->|NE].
        -- split; intro Q.
           ++ inversion Q; subst. rewrite nth_error_app2 by lia. rewrite Nat.sub_diag. reflexivity.
           ++ destruct (Nat.lt_ge_cases a (length (heap r))) as [L|L].
              ** rewrite nth_error_app1 in Q by exact L. apply nth_error_In in Q. contradiction.
              ** rewrite nth_error_app2 in Q by exact L. remember (a - length (heap r))%nat as j eqn:Ej.
                 destruct j as [|j]; [f_equal; lia|]. cbn in Q. destruct j; discriminate.
        -- rewrite C. split; intro Q.
           ++ rewrite nth_error_app1; [exact Q|]. apply nth_error_Some. congruence.
           ++ destruct (Nat.lt_ge_cases a (length (heap r))) as [L|L].
              ** rewrite nth_error_app1 in Q by exact L. exact Q.
              ** rewrite nth_error_app2 in Q by exact L. remember (a - length (heap r))%nat as j eqn:Ej.
                 destruct j as [|j]; cbn in Q; [congruence|destruct j; discriminate].
    + rewrite nth_error_app2 by lia. rewrite Nat.sub_diag. reflexivity.
    + exists [d]. reflexivity.
    + intro x. rewrite in_app_iff. cbn. intuition congruence.
Qed.

Lemma step_ok : forall op r, reg_ok r -> exists a r', id_step op r = Ret (a, r') /\
  reg_ok r' /\ nth_error (heap r') a = Some (asked op) /\ (exists l, heap r' = heap r ++ l) /\
  (forall x, In x (heap r') <-> In x (heap r) \/ x = asked op).
Proof.
  intros op r R. destruct op as [s v|d|]; cbn [id_step asked].
  - destruct (intern (IdData s v) r) as [a r'] eqn:E. exists a, r'. split; [reflexivity|].
    exact (intern_ok _ _ _ _ R E).
  - destruct (intern d r) as [a r'] eqn:E. exists a, r'. split; [reflexivity|]. exact (intern_ok _ _ _ _ R E).
  - pose proof R as (N & D & C). apply In_nth_error in D. destruct D as [a D].
    pose proof (proj2 (C default_id a) D) as F. rewrite F. exists a, r. split; [reflexivity|].
    split; [exact R|]. split; [exact D|]. split; [exists []; rewrite app_nil_r; reflexivity|].
    intro x. split; [auto|]. intros [X| ->]; [exact X|]. eapply nth_error_In; eauto.
Qed.

Lemma nth_error_app_keep : forall A (l l2 : list A) i x, nth_error l i = Some x -> nth_error (l ++ l2) i = Some x.
Proof.
  intros A l l2 i x H. rewrite nth_error_app1; [exact H|]. apply nth_error_Some. congruence.
Qed.

Lemma run_ok : forall ops r, reg_ok r -> exists l r', id_run ops r = Ret (l, r') /\ reg_ok r' /\
  length l = length ops /\ (exists k, heap r' = heap r ++ k) /\
  (forall i op a, nth_error ops i = Some op -> nth_error l i = Some a -> nth_error (heap r') a = Some (asked op)) /\
  (forall x, In x (heap r') <-> In x (heap r) \/ In x (map asked ops)).
Proof.
  induction ops as [|op ops IH]; intros r R; cbn [id_run].
  - exists [], r. split; [reflexivity|]. split; [exact R|]. split; [reflexivity|].
    split; [exists []; rewrite app_nil_r; reflexivity|]. split.
    + intros i op a H. destruct i; discriminate.
    + intro x. cbn. tauto.
  - destruct (step_ok op r R) as (a & r1 & E & R1 & A & [k1 K1] & M1). rewrite E. cbn [obind].
    destruct (IH r1 R1) as (l & r2 & E2 & R2 & L & [k2 K2] & A2 & M2). rewrite E2. cbn [obind].
    exists (a :: l), r2. split; [reflexivity|]. split; [exact R2|]. split; [cbn; lia|].
    split; [exists (k1 ++ k2); rewrite K2, K1, app_assoc; reflexivity|]. split.
    + intros [|i] op' a' H H'; cbn in H, H'.
      * inversion H; inversion H'; subst. rewrite K2. apply nth_error_app_keep. exact A.
      * eapply A2; eauto.
    + intro x. rewrite M2, M1. cbn. intuition congruence.
Qed.

(** For every history of calls from the start of the process: none panics;
    every id ever returned denotes exactly what was asked for; and two ids
    compare equal exactly when their symbol and venue are the same, whoever
    made them, when, and how. *)
Theorem C57_equal_iff_same_instrument : forall ops, exists ids r,
  id_run ops registry_init = Ret (ids, r) /\ length ids = length ops /\
  (forall i op a, nth_error ops i = Some op -> nth_error ids i = Some a -> get_id r a = Some (asked op)) /\
  (forall i j op1 op2 a b, nth_error ops i = Some op1 -> nth_error ops j = Some op2 ->
     nth_error ids i = Some a -> nth_error ids j = Some b ->
     (id_eqb a b = true <-> asked op1 = asked op2)).
Proof.
  intro ops. destruct (run_ok ops registry_init reg_init_ok) as (l & r & E & R & L & _ & A & _).
  exists l, r. split; [exact E|]. split; [exact L|]. split; [exact A|].
  intros i j op1 op2 a b H1 H2 Ha Hb. pose proof (A _ _ _ H1 Ha) as D1. pose proof (A _ _ _ H2 Hb) as D2.
  unfold id_eqb. rewrite Nat.eqb_eq. split.
  - intros ->. congruence.
  - intro Q. destruct R as (N & _). rewrite NoDup_nth_error in N. apply N.
    + apply nth_error_Some. congruence.
    + congruence.
Qed.
Print Assumptions C57_equal_iff_same_instrument.

Definition samsung : id_data := IdData (SIsin [75; 82; 55; 48; 48; 53; 57; 51; 48; 48; 48; 51]) VKRX.
Example C57_hypotheses_met :
  exists r, id_run [OpNew (id_symbol samsung) VKRX; OpDefault; OpDeserialize samsung; OpNew (id_symbol samsung) VKIS]
              registry_init = Ret ([1; 0; 1; 2]%nat, r).
Proof. eexists. vm_compute. reflexivity. Qed.

(** Ids stay what they were: later calls never change what an id denotes. *)
Theorem C57_ids_are_permanent : forall ops more ids1 r1 ids2 r2 a d,
  id_run ops registry_init = Ret (ids1, r1) -> id_run more r1 = Ret (ids2, r2) ->
  get_id r1 a = Some d -> get_id r2 a = Some d.
Proof.
  intros ops more ids1 r1 ids2 r2 a d E1 E2 H.
  destruct (run_ok ops registry_init reg_init_ok) as (l & r & E & R & _). rewrite E1 in E. inversion E; subst.
  destruct (run_ok more r R) as (l2 & r' & E' & _ & _ & [k K] & _). rewrite E2 in E'. inversion E'; subst.
  unfold get_id in *. rewrite K. apply nth_error_app_keep. exact H.
Qed.
Print Assumptions C57_ids_are_permanent.

Example C57_permanent_hypotheses_met : exists r1, id_run [OpDeserialize samsung] registry_init = Ret ([1%nat], r1) /\
  get_id r1 1%nat = Some samsung.
Proof. eexists. vm_compute. split; reflexivity. Qed.

(** Memory: the leaked allocations are one per distinct instrument ever used,
    plus the default. *)
Theorem C57_one_allocation_each : forall ops ids r,
  id_run ops registry_init = Ret (ids, r) ->
  NoDup (heap r) /\ (forall d, In d (heap r) <-> d = default_id \/ In d (map asked ops)).
Proof.
  intros ops ids r E. destruct (run_ok ops registry_init reg_init_ok) as (l & r' & E' & R & _ & _ & _ & M).
  rewrite E in E'. inversion E'; subst. split; [exact (proj1 R)|].
  intro d. rewrite M. cbn. intuition congruence.
Qed.
Print Assumptions C57_one_allocation_each.

Example C57_allocation_hypotheses_met : exists r,
  id_run [OpDeserialize samsung; OpDefault; OpDeserialize samsung] registry_init = Ret ([1; 0; 1]%nat, r) /\
  heap r = [default_id; samsung].
Proof. eexists. vm_compute. split; reflexivity. Qed.

(** ** C58: ISIN codes *)

Definition blank (c : Z) : Prop := c = 32 \/ c = 9.
Definition isin_like (b : list Z) : Prop :=
  length b = 12%nat /\ Forall (fun c => 0 <= c < 128 /\ ~ blank c) b.

Lemma existsb_eq_in : forall c b, existsb (Z.eqb c) b = true <-> In c b.
Proof.
  intros c b. rewrite existsb_exists. split.
  - intros (x & H & E). apply Z.eqb_eq in E. subst; exact H.
  - intro H. exists c. split; [exact H|apply Z.eqb_refl].
Qed.

(** [IsinCode::new] accepts exactly the strings of twelve ASCII characters
    without blank or tab, keeps them unchanged, and a code compares equal to
    exactly the text it was made from; its text is valid UTF-8. *)
Theorem C58_isin_accepts : forall b, Forall byte b ->
  (isin_like b -> exists i, isin_of_bytes b = ROk i /\ isin_bytes i = b /\ utf8_text (isin_bytes i) /\
     forall b', isin_eq_bytes i b' = true <-> b' = b) /\
  (~ isin_like b -> isin_of_bytes b = RErr).
Proof.
  intros b HB. unfold isin_of_bytes.
  assert (A : Forall (fun c => 0 <= c < 128) b <-> forallb (fun c => c <? 128) b = true).
  { rewrite forallb_forall, Forall_forall. split.
    - intros H x Hx. apply Z.ltb_lt. apply (H x Hx).
    - intros H x Hx. specialize (H x Hx). apply Z.ltb_lt in H. rewrite Forall_forall in HB.
      specialize (HB x Hx). unfold byte in HB. lia. }
  split.
  - intros [L F]. 
    assert (N1 : existsb (Z.eqb 32) b = false).
    { apply not_true_is_false. intro H. apply existsb_eq_in in H. rewrite Forall_forall in F.
      destruct (F _ H) as [_ Q]. apply Q. left; reflexivity. }
    assert (N2 : existsb (Z.eqb 9) b = false).
    { apply not_true_is_false. intro H. apply existsb_eq_in in H. rewrite Forall_forall in F.
      destruct (F _ H) as [_ Q]. apply Q. right; reflexivity. }
    assert (F' : Forall (fun c => 0 <= c < 128) b) by (eapply Forall_impl; [|exact F]; cbn; tauto).
    rewrite N1, N2, (proj1 A F'), L. cbn. exists b. split; [reflexivity|]. split; [reflexivity|]. split.
    + clear -F'. unfold isin_bytes. exists b. split.
      * eapply Forall_impl; [|exact F']. cbn. unfold scalar. intros; lia.
      * induction F' as [|c b Hc F IH]; [reflexivity|]. cbn [map concat].
        assert (Ec : encode c = [c]) by (unfold encode; destruct (Z.ltb_spec c 128); [reflexivity|lia]).
        rewrite Ec. cbn [app]. f_equal. exact IH.
    + intro b'. unfold isin_eq_bytes. destruct (bytes_eq_dec b b'); split; intro; congruence.
  - intro N. destruct (existsb (Z.eqb 32) b) eqn:E1; [reflexivity|].
    destruct (existsb (Z.eqb 9) b) eqn:E2; [reflexivity|]. cbn [orb].
    destruct (forallb (fun c => c <? 128) b) eqn:E3; [|reflexivity]. cbn [negb].
    destruct (Nat.eqb_spec (length b) 12) as [L|L]; [|reflexivity]. exfalso. apply N. split; [exact L|].
    pose proof (proj2 A eq_refl) as E4. clear A E3. rewrite Forall_forall in *. intros x Hx. split; [apply E4; exact Hx|].
    intros [->| ->]; [|].
    + apply existsb_eq_in in Hx. congruence.
    + apply existsb_eq_in in Hx. congruence.
Qed.
Print Assumptions C58_isin_accepts.

Example C58_hypotheses_met :
  isin_like [75; 82; 55; 48; 48; 53; 57; 51; 48; 48; 48; 51] /\ ~ isin_like [75; 82; 55] /\
  Forall byte [75; 82; 55; 48; 48; 53; 57; 51; 48; 48; 48; 51].
Proof.
  split; [split; [reflexivity|repeat constructor; unfold blank; lia]|].
  split; [intros [L _]; discriminate|repeat constructor; unfold byte; lia].
Qed.

(** Refuted for codes that come out of [Deserialize], which checks nothing:
    twelve bytes that are not UTF-8 become a code, and [as_str] would hand
    them out as a [&str] (undefined behaviour). *)
Theorem C58_deserialized_isin_refuted : forall b, length b = 12%nat ->
  isin_deserialize b = ROk b /\
  (Forall byte b -> hd 0 b = 255 -> ~ utf8_text (isin_bytes b) /\ isin_of_bytes b = RErr).
Proof.
  intros b L. unfold isin_deserialize. rewrite L. split; [reflexivity|].
  intros HB H. destruct b as [|c b]; [discriminate|]. cbn in H. subst c. split.
  - intro U. apply utf8_text_valid in U. unfold isin_bytes in U. cbn in U. discriminate.
  - unfold isin_of_bytes. cbn [existsb forallb]. 
    match goal with |- (if ?g then _ else _) = _ => destruct g end; reflexivity.
Qed.
Print Assumptions C58_deserialized_isin_refuted.

Example C58_refuted_hypotheses_met :
  length (repeat 255 12) = 12%nat /\ Forall byte (repeat 255 12) /\ hd 0 (repeat 255 12) = 255.
Proof. split; [reflexivity|]. split; [repeat constructor; unfold byte; lia|reflexivity]. Qed.

(** Currency codes are ISINs (no [expect] fails) and different for different
    currencies. *)
Theorem C58_currency_codes : forall c, exists i, currency_isin c = Ret i /\
  isin_bytes i = currency_str c ++ repeat 48 9 /\
  forall c', currency_isin c' = Ret i -> c' = c.
Proof.
  intro c. exists (currency_isin_bytes c). split; [destruct c; reflexivity|].
  split; [destruct c; reflexivity|]. intros c' H. destruct c, c'; try reflexivity; vm_compute in H; discriminate.
Qed.
Print Assumptions C58_currency_codes.

Example C58_currency_hypotheses_met : currency_isin KRW = Ret [75; 82; 87; 48; 48; 48; 48; 48; 48; 48; 48; 48].
Proof. reflexivity. Qed.

(** ** C59: tickers *)

Fixpoint drop_zeros (l : list Z) : list Z :=
  match l with [] => [] | c :: r => if c =? 0 then drop_zeros r else l end.
(** A text without its trailing NULs. *)
Definition trimmed (b : list Z) : list Z := rev (drop_zeros (rev b)).

Lemma drop_zeros_repeat : forall n l, drop_zeros (repeat 0 n ++ l) = drop_zeros l.
Proof. induction n; intros; cbn; auto. Qed.
Lemma drop_zeros_split : forall l, exists n, l = repeat 0 n ++ drop_zeros l.
Proof.
  induction l as [|c l [n IH]]; [exists O; reflexivity|]. cbn. destruct (Z.eqb_spec c 0) as [->|].
  - exists (S n). cbn. f_equal. exact IH.
  - exists O. reflexivity.
Qed.
Lemma repeat_comm : forall n, rev (repeat 0 n) = repeat 0 n.
Proof.
  induction n as [|n IH]; [reflexivity|]. cbn. rewrite IH.
  clear. induction n as [|n IH]; [reflexivity|]. cbn. f_equal. exact IH.
Qed.
Lemma trimmed_pad : forall b n, trimmed (b ++ repeat 0 n) = trimmed b.
Proof. intros. unfold trimmed. rewrite rev_app_distr, repeat_comm, drop_zeros_repeat. reflexivity. Qed.
Lemma trimmed_split : forall b, exists n, b = trimmed b ++ repeat 0 n.
Proof.
  intro b. destruct (drop_zeros_split (rev b)) as [n E]. exists n. unfold trimmed.
  rewrite <- (rev_involutive b) at 1. rewrite E at 1. rewrite rev_app_distr, repeat_comm. reflexivity.
Qed.

(** [Ticker::new] accepts exactly the texts of at most 32 bytes, and two
    tickers are equal exactly when the texts agree up to trailing NULs -- in
    particular, for texts that do not end in NUL, exactly when they agree. *)
Theorem C59_ticker_identity : forall a b,
  ((length a <= 32)%nat <-> exists t, ticker_of_bytes a = ROk t) /\
  (forall ta tb, ticker_of_bytes a = ROk ta -> ticker_of_bytes b = ROk tb ->
     (ticker_eqb ta tb = true <-> trimmed a = trimmed b)).
Proof.
  intros a b. unfold ticker_of_bytes. split.
  - destruct (Nat.ltb_spec 32 (length a)); split; intro H0; try lia.
    + destruct H0; discriminate.
    + eexists; reflexivity.
  - intros ta tb. destruct (Nat.ltb_spec 32 (length a)); [discriminate|].
    destruct (Nat.ltb_spec 32 (length b)); [discriminate|]. intros Ha Hb.
    assert (Qa : ta = a ++ repeat 0 (32 - length a)) by congruence.
    assert (Qb : tb = b ++ repeat 0 (32 - length b)) by congruence. clear Ha Hb. subst ta tb.
    unfold ticker_eqb. destruct (bytes_eq_dec (a ++ repeat 0 (32 - length a)) (b ++ repeat 0 (32 - length b))) as [E|N].
    + split; [|reflexivity]. intros _. rewrite <- (trimmed_pad a (32 - length a)), E, trimmed_pad. reflexivity.
    + split; [discriminate|]. intro T. exfalso. apply N.
      destruct (trimmed_split a) as [x Ea]. destruct (trimmed_split b) as [y Eb].
      rewrite <- T in Eb. set (t := trimmed a) in *. clearbody t. subst a b.
      rewrite !app_length, !repeat_length in *. rewrite <- !app_assoc, <- !repeat_app. do 2 f_equal. lia.
Qed.
Print Assumptions C59_ticker_identity.

Example C59_hypotheses_met :
  trimmed [48; 48; 53; 57; 51; 48] = [48; 48; 53; 57; 51; 48] /\ trimmed [65; 0] = trimmed [65].
Proof. split; reflexivity. Qed.

(** Refuted: [as_str] does not return the text the ticker was made from --
    for every text shorter than 32 bytes it returns 32 bytes --, different
    texts become the same ticker, and bytes that are not UTF-8 are accepted
    although [as_str] presents them as [&str]. *)
Theorem C59_ticker_text_refuted :
  (forall b t, (length b < 32)%nat -> ticker_of_bytes b = ROk t ->
     ticker_bytes t <> b /\ length (ticker_bytes t) = 32%nat) /\
  (forall b t t', (length b < 32)%nat -> ticker_of_bytes b = ROk t -> ticker_of_bytes (b ++ [0]) = ROk t' ->
     ticker_eqb t t' = true) /\
  (exists t, ticker_of_bytes [255] = ROk t /\ ~ utf8_text (ticker_bytes t)).
Proof.
  split; [|split].
  - intros b t L H. unfold ticker_of_bytes in H. destruct (Nat.ltb_spec 32 (length b)); [discriminate|].
    assert (Qb : t = b ++ repeat 0 (32 - length b)) by congruence. subst t. unfold ticker_bytes.
    assert (Q : length (b ++ repeat 0 (32 - length b)) = 32%nat) by (rewrite app_length, repeat_length; lia).
    split; [|exact Q]. intro E. rewrite E in Q. lia.
  - intros b t t' L H H'. destruct (C59_ticker_identity b (b ++ [0])) as [_ T].
    apply (T t t' H H'). change [0] with (repeat 0 1). rewrite trimmed_pad. reflexivity.
  - eexists. split; [reflexivity|]. intro U. apply utf8_text_valid in U. vm_compute in U. discriminate.
Qed.
Print Assumptions C59_ticker_text_refuted.

Example C59_refuted_hypotheses_met : exists t, (length [65] < 32)%nat /\ ticker_of_bytes [65] = ROk t.
Proof. eexists. split; [cbn; lia|reflexivity]. Qed.
