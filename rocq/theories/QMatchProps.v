(** QMatchProps.v -- C173 to C175: which curves a portfolio needs, rates of
    exchange, the distribution over engines. *)
From Coq Require Import ZArith String List Bool Lia Reals Lra Permutation Sorting.Sorted.
From Flocq Require Import Core IEEE754.BinarySingleNaN.
From Verif Require Import Base FloatModel FloatFacts KrxModel QDateModel QInterpSpec QFloatErr QMoneyModel QMoneyProps QSwapModel QFutModel QOptProofs QInstModel QInstSpec QInstProps QCurveSpec.
Import ListNotations.
Open Scope Z_scope.

(** ** C173: the curves of a portfolio *)
Lemma collect_ok : forall A B (f : A -> option B) l,
  match collect (fun x => found (f x)) l with
  | ROk ys => (forall x, In x l -> f x <> None) /\ forall y, In y ys <-> exists x, In x l /\ f x = Some y
  | RErr => exists x, In x l /\ f x = None
  end.
Proof.
  intros A B f l. induction l as [|x l IH]; cbn [collect].
  - split; [intros x []|]. intro y. split; [intros []|intros (x & [] & _)].
  - destruct (f x) as [y|] eqn:E; cbn [found]; [|exists x; split; [left; reflexivity|exact E]].
    destruct (collect (fun x => found (f x)) l) as [ys|].
    + destruct IH as [IH1 IH2]. split.
      * intros z [<-|H]; [congruence|exact (IH1 z H)].
      * intro z. cbn [In]. rewrite IH2. split.
        -- intros [<-|(w & H1 & H2)]; [exists x; auto|exists w; auto].
        -- intros (w & [<-|H1] & H2); [left; congruence|right; exists w; auto].
    + destruct IH as (z & H1 & H2). exists z. split; [right; exact H1|exact H2].
Qed.
Definition all_names (m : match_parameter) (i : instrument) : rresult (list string) :=
  match discount_name m i, collateral_names m i, index_name m i, crs_name m i, float_crs_name m i with
  | ROk a, ROk bs, ROk c, ROk d, ROk e => ROk ((a :: bs) ++ [c; d; e])
  | _, _, _, _, _ => RErr
  end.
Lemma need_cases : forall m i o, needs m i o <->
  (exists c, index_of i = Some c /\ o = mp_index m c) \/ (unsettled i /\ o = mp_funding m (in_ccy i)) \/ (exists u, In u (underlyings i) /\ o = mp_collateral m u) \/
  (exists a b, two_ccys i = Some (a, b) /\ (o = mp_crs m a \/ o = mp_crs m b)) \/ (exists is t r x n, in_kind i = KBond is t r x /\ mp_bond m (is, t, r, in_ccy i) = Some n /\ o = Some n).
Proof.
  intros m i o. split.
  - intro H. destruct H as [c H|H|u H|a b H|a b H|is t r x n H1 H2]; [left; eauto|right; left; auto|right; right; left; eauto|right; right; right; left; eauto 6|right; right; right; left; eauto 6|].
    right; right; right; right. eauto 10.
  - intros [(c & H & ->)|[(H & ->)|[(u & H & ->)|[(a & b & H & [-> | ->])|(is & t & r & x & n & H1 & H2 & ->)]]]].
    + exact (need_index m i c H).
    + exact (need_funding m i H).
    + exact (need_collateral m i u H).
    + exact (need_first m i a b H).
    + exact (need_second m i a b H).
    + exact (need_issuer m i is t r x n H1 H2).
Qed.
(** every lookup of an instrument, at once *)
Lemma names_ok : forall m i,
  match all_names m i with
  | ROk l => ~ needs m i None /\ forall n, n <> dummy -> (In n l <-> needs m i (Some n))
  | RErr => needs m i None
  end.
Proof.
  intros m i. unfold all_names. pose proof (collect_ok _ _ (mp_collateral m) (underlyings i)) as C. fold (collateral_names m i) in C.
  assert (D : dummy = dummy) by reflexivity.
  destruct (collateral_names m i) as [bs|].
  2:{ destruct C as (u & C1 & C2). assert (N : needs m i None) by (rewrite <- C2; exact (need_collateral m i u C1)).
      destruct (discount_name m i); [|exact N]. exact N. }
  destruct C as [C1 C2].
  assert (K : forall n, In n bs <-> exists u, In u (underlyings i) /\ Some n = mp_collateral m u).
  { intro n. rewrite C2. split; intros (u & A & B); exists u; auto. }
  assert (K0 : forall u, In u (underlyings i) -> None <> mp_collateral m u) by (intros u U E; exact (C1 u U (eq_sym E))).
  clear C1 C2.
  unfold discount_name, index_name, crs_name, float_crs_name.
  destruct i as [nm cd cy nt mt kd]. cbn [in_kind in_ccy] in *.
  destruct kd as [us uc|is t r x|?|tag|t fc x fx|uc fx|k u uc settled q|u|];
    [| | | |destruct t| | | |]; try destruct x as [x|]; try destruct settled; cbn [found];
    repeat match goal with |- context [match ?e with Some _ => _ | None => _ end] => destruct e eqn:? end;
    repeat match goal with |- context [found ?e] => destruct e eqn:?; cbn [found] end;
    try (apply need_cases; unfold index_of, unsettled, two_ccys; cbn [in_kind in_ccy];
         first [left; eexists; split; [reflexivity|congruence] | right; left; split; [exact I|congruence] | right; right; right; left; eexists _, _; split; [reflexivity|first [left; congruence|right; congruence]]]);
    (split;
     [rewrite need_cases; unfold index_of, unsettled, two_ccys; cbn [in_kind in_ccy];
      intros [(c & H & E)|[(H & E)|[(w & H & E)|[(a & b & H & [E|E])|(js & t' & r' & x' & n' & H1 & H2 & E)]]]];
      first [discriminate H | discriminate E | contradiction H | exact (K0 w H E) | (injection H as <-; congruence) | (injection H as <- <-; congruence) | congruence]
     |intros n N; rewrite need_cases; rewrite in_app_iff; cbn [In]; rewrite K; unfold index_of, unsettled, two_ccys; cbn [in_kind in_ccy]; split;
      [intros [[<-|H]|[<-|[<-|[<-|[]]]]];
       first [congruence | right; right; left; exact H | left; eexists; split; [reflexivity|congruence] | right; left; split; [exact I|congruence]
             | right; right; right; left; eexists _, _; split; [reflexivity|first [left; congruence|right; congruence]] | right; right; right; right; eexists _, _, _, _, _; split; [reflexivity|split; [eassumption|reflexivity]]]
      |intros [(c & H & E)|[(H & E)|[(w & H & E)|[(a & b & H & [E|E])|(js & t' & r' & x' & n' & H1 & H2 & E)]]]];
       first [discriminate H | contradiction H | discriminate H1 | (left; right; exists w; split; [exact H|exact E])
             | (injection H as <- <-; first [right; right; left; congruence | right; right; right; left; congruence])
             | (injection H as <-; first [left; left; congruence | right; left; congruence])
             | (left; left; congruence) | (injection H1 as <- <- <- <-; first [congruence | left; left; congruence])]]]).
Qed.

Lemma push_name_in : forall l n x, In x (push_name l n) <-> In x l \/ (x = n /\ n <> dummy).
Proof.
  intros l n x. unfold push_name. destruct (has String.eqb n l) eqn:E.
  - apply (has_in _ _ string_decides) in E. split; [tauto|]. intros [H|[-> _]]; assumption.
  - destruct (String.eqb n dummy) eqn:D.
    + apply String.eqb_eq in D. split; [tauto|]. intros [H|[_ H]]; [exact H|contradiction].
    + apply String.eqb_neq in D. rewrite in_app_iff. cbn [In]. split; [intros [H|[<-|[]]]; auto|intros [H|[-> _]]; auto].
Qed.
Lemma push_name_nodup : forall l n, NoDup l -> NoDup (push_name l n).
Proof.
  intros l n H. unfold push_name. destruct (has String.eqb n l) eqn:E; [exact H|]. destruct (String.eqb n dummy); [exact H|].
  apply (has_not _ _ string_decides) in E. apply (Permutation_NoDup (l := n :: l)); [apply Permutation_cons_append|constructor; assumption].
Qed.
Lemma push_names : forall ns l, (NoDup l -> NoDup (fold_left push_name ns l)) /\ forall x, In x (fold_left push_name ns l) <-> In x l \/ (In x ns /\ x <> dummy).
Proof.
  induction ns as [|n ns IH]; intro l; cbn [fold_left].
  - split; [auto|]. intro x. cbn [In]. tauto.
  - destruct (IH (push_name l n)) as [A B]. split; [intro H; apply A, push_name_nodup, H|].
    intro x. rewrite B, push_name_in. cbn [In]. split.
    + intros [[H|[-> H]]|[H1 H2]]; auto.
    + intros [H|[[<-|H1] H2]]; auto.
Qed.
Lemma names_fold : forall m i l is, curve_names_from l m (i :: is) = match all_names m i with ROk ns => curve_names_from (fold_left push_name ns l) m is | RErr => RErr end.
Proof.
  intros m i l is. cbn [curve_names_from]. unfold all_names.
  destruct (discount_name m i) as [a|]; [|reflexivity]. destruct (collateral_names m i) as [bs|]; [|reflexivity].
  destruct (index_name m i) as [c|]; [|reflexivity]. destruct (crs_name m i) as [d|]; [|reflexivity]. destruct (float_crs_name m i) as [e|]; [|reflexivity].
  rewrite fold_left_app. reflexivity.
Qed.
(** the names are those needed, each once *)
Theorem c173_names : forall m is,
  match all_curve_names m is with
  | ROk l => NoDup l /\ ~ In dummy l /\ (forall i, In i is -> ~ needs m i None) /\ forall n, n <> dummy -> (In n l <-> exists i, In i is /\ needs m i (Some n))
  | RErr => exists i, In i is /\ needs m i None
  end.
Proof.
  intros m is. unfold all_curve_names.
  assert (G : forall is l0, NoDup l0 -> ~ In dummy l0 ->
     match curve_names_from l0 m is with
     | ROk l => NoDup l /\ ~ In dummy l /\ (forall i, In i is -> ~ needs m i None) /\ forall n, n <> dummy -> (In n l <-> In n l0 \/ exists i, In i is /\ needs m i (Some n))
     | RErr => exists i, In i is /\ needs m i None end).
  { clear is. induction is as [|i is IH]; intros l0 D0 N0.
    - cbn [curve_names_from]. split; [exact D0|]. split; [exact N0|]. split; [intros i []|]. intros n _. split; [auto|].
      intros [H|(i & [] & _)]; exact H.
    - rewrite names_fold. pose proof (names_ok m i) as K. destruct (all_names m i) as [ns|]; [|exists i; split; [left; reflexivity|exact K]].
      destruct K as [K1 K2]. destruct (push_names ns l0) as [P1 P2].
      assert (N1 : ~ In dummy (fold_left push_name ns l0)) by (rewrite P2; intros [H|[_ H]]; [exact (N0 H)|apply H; reflexivity]).
      specialize (IH _ (P1 D0) N1). destruct (curve_names_from (fold_left push_name ns l0) m is) as [l|].
      + destruct IH as (A & B & C & E). split; [exact A|]. split; [exact B|]. split; [intros j [<-|H]; [exact K1|exact (C j H)]|].
        intros n N. rewrite (E n N), P2. split.
        * intros [[H|[H H']]|(j & H1 & H2)]; [left; exact H|right; exists i; split; [left; reflexivity|apply K2; assumption]|right; exists j; split; [right; exact H1|exact H2]].
        * intros [H|(j & [<-|H1] & H2)]; [left; left; exact H|left; right; split; [apply K2; assumption|assumption]|right; exists j; auto].
      + destruct IH as (j & H1 & H2). exists j. split; [right; exact H1|exact H2]. }
  specialize (G is [] (NoDup_nil _) (fun H => H)). destruct (curve_names_from [] m is) as [l|]; [|exact G].
  destruct G as (A & B & C & E). split; [exact A|]. split; [exact B|]. split; [exact C|]. intros n N. rewrite (E n N). split; [intros [[]|H]; exact H|auto].
Qed.
(** the users of a curve are those that need it *)
Theorem c173_users : forall m is n ex, n <> dummy ->
  match using_curve is n m ex with
  | ROk l => (forall i, In i is -> ~ In (type_name i) ex -> ~ needs m i None) /\ forall i, In i l <-> In i is /\ ~ In (type_name i) ex /\ needs m i (Some n)
  | RErr => exists i, In i is /\ ~ In (type_name i) ex /\ needs m i None
  end.
Proof.
  intros m is n ex N. induction is as [|i is IH]; cbn [using_curve].
  - split; [intros i []|]. intro i. split; [intros []|intros ([] & _)].
  - destruct (has String.eqb (type_name i) ex) eqn:X.
    + apply (has_in _ _ string_decides) in X. destruct (using_curve is n m ex) as [l|].
      * destruct IH as [A B]. split; [intros j [<-|H]; [contradiction|exact (A j H)]|]. intro j. rewrite B. cbn [In]. split; [tauto|].
        intros ([<-|H] & H1 & H2); [contradiction|tauto].
      * destruct IH as (j & H1 & H2 & H3). exists j. cbn [In]. tauto.
    + apply (has_not _ _ string_decides) in X. pose proof (names_ok m i) as K. unfold all_names in K.
      destruct (discount_name m i) as [a|]; [|exists i; cbn [In]; tauto]. destruct (collateral_names m i) as [bs|]; [|exists i; cbn [In]; tauto].
      destruct (index_name m i) as [c|]; [|exists i; cbn [In]; tauto]. destruct (crs_name m i) as [d|]; [|exists i; cbn [In]; tauto].
      destruct (float_crs_name m i) as [e|]; [|exists i; cbn [In]; tauto].
      destruct K as [K1 K2]. specialize (K2 n N). rewrite in_app_iff in K2. cbn [In] in K2.
      destruct (using_curve is n m ex) as [l|].
      * destruct IH as [A B]. split; [intros j [<-|H]; [auto|exact (A j H)]|]. intro j.
        assert (W : forall b : bool, In j (if b then [i] else []) <-> b = true /\ j = i) by (intros []; cbn [In]; split; [intros [<-|[]]; auto|intros [_ ->]; auto|intros []|intros [H _]; discriminate H]).
        rewrite !in_app_iff, !W, !String.eqb_eq, (has_in _ _ string_decides), B. cbn [In]. rewrite <- ?K2. split.
        -- intros [[-> ->]|[[H ->]|[[-> ->]|[[-> ->]|[[-> ->]|(H1 & H2 & H3)]]]]]; try (repeat split; [left; reflexivity|exact X|apply K2; tauto]). tauto.
        -- intros ([<-|H1] & H2 & H3); [apply K2 in H3|tauto]. tauto.
      * destruct IH as (j & H1 & H2 & H3). exists j. cbn [In]. tauto.
Qed.
(** an interest rate swap is listed twice for the curve of its index *)
Theorem c173_repeated_refuted : forall m i c x fx n, in_kind i = KSwap IRS c (Some x) fx -> mp_index m (fst x) = Some n -> n <> dummy ->
  using_curve [i] n m [] = ROk [i; i].
Proof.
  intros m i c x fx n K E N. cbn [using_curve has]. unfold discount_name, collateral_names, index_name, crs_name, float_crs_name, underlyings. rewrite K, E.
  cbn [collect found has]. rewrite String.eqb_refl. assert (Q : String.eqb dummy n = false) by (apply String.eqb_neq; congruence). rewrite Q. reflexivity.
Qed.
Definition ex_match : match_parameter :=
  MatchParameter (fun u => if String.eqb u "a" then Some "KSD"%string else None) (fun _ => None) (fun k => match k with (is, _, _, _) => if String.eqb is "ktb" then Some "KRWGOV"%string else None end)
    (fun x => if String.eqb x "CD91" then Some "KRWIRS"%string else None) (fun c => match c with Ccy_KRW => Some "KRWCRS"%string | Ccy_USD => Some "USDOIS"%string | _ => None end) (fun _ => None).
Example c173_hypotheses_met :
  all_curve_names ex_match [ex_future "a" an_odt; ex_crs an_odt; ex_bond an_odt; ex_future "a" an_odt] = ROk ["KSD"; "KRWIRS"; "KRWCRS"; "USDOIS"; "KRWGOV"]%string /\
  all_curve_names ex_match [ex_stock] = RErr /\
  using_curve [ex_future "a" an_odt; ex_crs an_odt] "USDOIS" ex_match [] = ROk [ex_crs an_odt].
Proof. repeat split; reflexivity. Qed.

(** ** C174: the rate of exchange for a pair.  [level] gives every currency a true
    value, and the data quote true rates within [eps]. *)
Open Scope R_scope.
Definition quotes (data : fx_code -> option f32) (level : currency -> R) (eps : R) : Prop :=
  (forall c, 0 < level c) /\
  forall a b v, data (FxCode a b) = Some v -> finite v /\ / 2 ^ 40 <= value v <= 2 ^ 40 /\ Rabs (value v * level b / level a - 1) <= eps.
Lemma close_inv : forall x eps, 0 <= eps <= / 8 -> Rabs (x - 1) <= eps -> Rabs (/ x - 1) <= 8 / 7 * eps /\ 0 < x.
Proof.
  intros x eps E H. apply Rabs_le_inv in H. assert (P : 0 < x) by lra. split; [|exact P].
  replace (/ x - 1) with ((1 - x) * / x) by (field; lra). rewrite Rabs_mult, (Rabs_pos_eq (/ x)) by (left; apply Rinv_0_lt_compat; exact P).
  assert (I : / x <= 8 / 7) by (replace (8 / 7) with (/ (7 / 8)) by lra; apply Rinv_le; lra).
  assert (0 < / x) by (apply Rinv_0_lt_compat; exact P).
  assert (A : Rabs (1 - x) <= eps) by (apply Rabs_le; lra). pose proof (Rabs_pos (1 - x)). nra.
Qed.
Lemma range40 : forall a b, / 2 ^ 40 <= a <= 2 ^ 40 -> / 2 ^ 40 <= b <= 2 ^ 40 -> / two100 <= Rabs (a / b) <= two100.
Proof.
  intros a b A B. assert (P : 0 < 2 ^ 40) by lra.
  assert (I : 0 < / 2 ^ 40) by (apply Rinv_0_lt_compat; exact P).
  assert (IB : / 2 ^ 40 <= / b <= 2 ^ 40).
  { split; [apply Rinv_le; lra|]. replace (2 ^ 40) with (/ / 2 ^ 40) by (rewrite Rinv_inv; reflexivity). apply Rinv_le; lra. }
  assert (T : 2 ^ 40 * 2 ^ 40 <= two100) by (unfold two100; lra).
  assert (T' : / two100 <= / 2 ^ 40 * / 2 ^ 40) by (rewrite <- Rinv_mult; apply Rinv_le; [lra|exact T]).
  rewrite Rabs_pos_eq by (unfold Rdiv; apply Rmult_le_pos; lra). unfold Rdiv. split.
  - apply Rle_trans with (1 := T'). apply Rmult_le_compat; lra.
  - apply Rle_trans with (2 := T). apply Rmult_le_compat; lra.
Qed.
Lemma fn_of : forall x : f32, finite x -> fn x (value x). Proof. intros x F. split; [exact F|reflexivity]. Qed.
Lemma some_inj : forall A (a b : A), Some a = Some b -> a = b.
Proof. intros A a b H. injection H as H. exact H. Qed.
Lemma rok_inj : forall A (a b : A), ROk a = ROk b -> a = b.
Proof. intros A a b H. injection H as H. exact H. Qed.
Theorem c174_rate : forall data level eps a b r, quotes data level eps -> 0 <= eps <= / 16 -> market_fx data (FxCode a b) = ROk r ->
  finite r /\ Rabs (value r * level b / level a - 1) <= 3 * eps + / 2 ^ 23.
Proof.
  intros data level eps a b r [L Q] E H. unfold market_fx, fx_reciprocal in H. cbn [fx_one fx_two] in H.
  assert (La : 0 < level a) by apply L. assert (Lb : 0 < level b) by apply L. assert (Lk : 0 < level Ccy_KRW) by apply L.
  assert (p23 : / 2 ^ 23 > 0) by (apply Rinv_0_lt_compat; lra).
  destruct (data (FxCode a b)) as [v|] eqn:D1.
  - apply rok_inj in H; subst r. destruct (Q a b v D1) as (F & _ & C). split; [exact F|]. lra.
  - destruct (data (FxCode b a)) as [v|] eqn:D2.
    + apply rok_inj in H; subst r. destruct (Q b a v D2) as (F & R & C).
      assert (V0 : value v <> 0) by (assert (0 < / 2 ^ 40) by (apply Rinv_0_lt_compat; lra); lra).
      destruct (div_rel (gof_Z 1) v 1 (value v) one_fn (fn_of v F) V0) as (d & Dd & [F2 V2]).
      { apply range40; [|exact R]. split; [|lra]. apply Rle_trans with (/ 1); [apply Rinv_le; lra|lra]. }
      split; [exact F2|]. match type of V2 with B2R ?x = ?z => change (value x = z) in V2 end. rewrite V2.
      destruct (close_inv _ eps ltac:(lra) C) as [I P].
      replace (1 / value v * (1 + d) * level b / level a - 1) with ((/ (value v * level a / level b) - 1) * (1 + d) + d) by (field; repeat split; lra).
      eapply Rle_trans; [apply Rabs_triang|]. rewrite Rabs_mult.
      assert (Rabs (1 + d) <= 1 + e24) by (eapply Rle_trans; [apply Rabs_triang|]; rewrite Rabs_R1; lra).
      assert (e24 <= / 2 ^ 24) by (unfold e24; lra). pose proof (Rabs_pos (1 + d)). pose proof (Rabs_pos (/ (value v * level a / level b) - 1)).
      assert (Rabs (/ (value v * level a / level b) - 1) * Rabs (1 + d) <= 8 / 7 * eps * (1 + / 2 ^ 24)) by (apply Rmult_le_compat; lra).
      lra.
    + destruct (data (FxCode a Ccy_KRW)) as [v1|] eqn:D3; [|discriminate H]. destruct (data (FxCode b Ccy_KRW)) as [v2|] eqn:D4; [|discriminate H].
      apply rok_inj in H; subst r. destruct (Q _ _ _ D3) as (F1 & R1 & C1). destruct (Q _ _ _ D4) as (F2 & R2 & C2).
      assert (I40 : 0 < / 2 ^ 40) by (apply Rinv_0_lt_compat; lra).
      destruct (div_rel v1 v2 (value v1) (value v2) (fn_of v1 F1) (fn_of v2 F2) ltac:(lra) (range40 _ _ R1 R2)) as (d & Dd & [F3 V3]).
      split; [exact F3|]. match type of V3 with B2R ?x = ?z => change (value x = z) in V3 end. rewrite V3.
      destruct (close_inv _ eps ltac:(lra) C2) as [I P].
      set (x := value v1 * level Ccy_KRW / level a) in *. set (y := value v2 * level Ccy_KRW / level b) in *.
      replace (value v1 / value v2 * (1 + d) * level b / level a - 1) with ((x - 1) * (/ y * (1 + d)) + ((/ y - 1) * (1 + d) + d)) by (unfold x, y; field; repeat split; lra).
      eapply Rle_trans; [apply Rabs_triang|]. rewrite Rabs_mult.
      assert (G2 : Rabs ((/ y - 1) * (1 + d) + d) <= 8 / 7 * eps * (1 + / 2 ^ 24) + / 2 ^ 24).
      { assert (e24 <= / 2 ^ 24) by (unfold e24; lra).
        assert (Rabs (1 + d) <= 1 + / 2 ^ 24) by (eapply Rle_trans; [apply Rabs_triang|]; rewrite Rabs_R1; lra).
        eapply Rle_trans; [apply Rabs_triang|]. rewrite Rabs_mult. apply Rplus_le_compat; [|lra].
        apply Rmult_le_compat; try apply Rabs_pos; lra. }
      assert (G1 : Rabs (/ y * (1 + d)) <= 12 / 10).
      { replace (/ y * (1 + d)) with (1 + ((/ y - 1) * (1 + d) + d)) by ring. eapply Rle_trans; [apply Rabs_triang|]. rewrite Rabs_R1. lra. }
      assert (Rabs (x - 1) * Rabs (/ y * (1 + d)) <= eps * (12 / 10)) by (apply Rmult_le_compat; try apply Rabs_pos; lra).
      lra.
Qed.
(** there is none exactly if the pair, its reverse and one of the two rates
    against the won are missing *)
Theorem c174_missing : forall data a b, market_fx data (FxCode a b) = RErr <->
  data (FxCode a b) = None /\ data (FxCode b a) = None /\ (data (FxCode a Ccy_KRW) = None \/ data (FxCode b Ccy_KRW) = None).
Proof.
  intros data a b. unfold market_fx, fx_reciprocal. cbn [fx_one fx_two].
  destruct (data (FxCode a b)); [split; [discriminate|intros (H & _); discriminate H]|].
  destruct (data (FxCode b a)); [split; [discriminate|intros (_ & H & _); discriminate H]|].
  destruct (data (FxCode a Ccy_KRW)); destruct (data (FxCode b Ccy_KRW)); (split; [intro H; try discriminate H; auto|intros (_ & _ & [H|H]); try discriminate H; reflexivity]).
Qed.
(** a rate that is quoted is used as it is *)
Theorem c174_direct : forall data x v, data x = Some v -> market_fx data x = ROk v.
Proof. intros data x v H. unfold market_fx. rewrite H. reflexivity. Qed.
Definition ex_fx (x : fx_code) : option f32 :=
  if fx_eqb x (FxCode Ccy_USD Ccy_KRW) then Some (gof_Z 1024) else if fx_eqb x (FxCode Ccy_EUR Ccy_KRW) then Some (gof_Z 2048) else None.
Lemma ex_level : value (gof_Z 1024 : f32) = 1024 /\ value (gof_Z 2048 : f32) = 2048.
Proof.
  split; [pose proof (fin_of_Z 24 128 1024) as H; rewrite (rnd_int 24 128 1024) in H by (apply Z.leb_le; reflexivity)|pose proof (fin_of_Z 24 128 2048) as H; rewrite (rnd_int 24 128 2048) in H by (apply Z.leb_le; reflexivity)];
    apply H; rewrite hug; apply two100_127; unfold two100; rewrite Rabs_pos_eq; lra.
Qed.
Example c174_hypotheses_met :
  quotes ex_fx (fun c => match c with Ccy_USD => 1024 | Ccy_EUR => 2048 | _ => 1 end) 0 /\
  (exists r, market_fx ex_fx (FxCode Ccy_EUR Ccy_USD) = ROk r) /\ (exists r, market_fx ex_fx (FxCode Ccy_KRW Ccy_USD) = ROk r) /\ market_fx ex_fx (FxCode Ccy_JPY Ccy_USD) = RErr.
Proof.
  split; [|split; [eexists; reflexivity|split; [eexists; reflexivity|reflexivity]]].
  destruct ex_level as [V1 V2].
  assert (I40 : / 2 ^ 40 <= 1) by (apply Rle_trans with (/ 1); [apply Rinv_le; lra|lra]).
  split; [intros []; lra|]. intros a b v H. unfold ex_fx in H.
  destruct (fx_eqb (FxCode a b) (FxCode Ccy_USD Ccy_KRW)) eqn:E1.
  - apply fx_decides in E1. injection E1 as -> ->. apply some_inj in H; subst v. rewrite V1. split; [reflexivity|]. split; [lra|]. replace (1024 * 1 / 1024 - 1) with 0 by field. rewrite Rabs_R0. lra.
  - destruct (fx_eqb (FxCode a b) (FxCode Ccy_EUR Ccy_KRW)) eqn:E2; [|discriminate H].
    apply fx_decides in E2. injection E2 as -> ->. apply some_inj in H; subst v. rewrite V2. split; [reflexivity|]. split; [lra|]. replace (2048 * 1 / 2048 - 1) with 0 by field. rewrite Rabs_R0. lra.
Qed.
Close Scope R_scope.

(** ** C175: the distribution of instruments over engines *)
Lemma same_strings_eq : forall a b, same_strings a b = true <-> a = b.
Proof.
  induction a as [|x a IH]; intros [|y b]; cbn [same_strings]; split; intro H; try reflexivity; try discriminate H.
  - apply andb_true_iff in H. destruct H as [H1 H2]. apply String.eqb_eq in H1. apply IH in H2. congruence.
  - injection H as -> ->. rewrite String.eqb_refl. apply IH. reflexivity.
Qed.
Lemma category_ok : forall g i, in_category g i = true <-> belongs g i.
Proof.
  intros g i. unfold in_category, belongs. rewrite !andb_true_iff.
  assert (A : match ca_types g with Some ts => has String.eqb (type_name i) ts | None => true end = true <-> forall ts, ca_types g = Some ts -> In (type_name i) ts).
  { destruct (ca_types g) as [ts|]; [rewrite (has_in _ _ string_decides); split; [intros H t E; injection E as <-; exact H|auto]|split; [intros _ t E; discriminate E|reflexivity]]. }
  assert (B : match ca_ccys g with Some cs => has ccy_eqb (ccy i) cs | None => true end = true <-> forall cs, ca_ccys g = Some cs -> In (ccy i) cs).
  { destruct (ca_ccys g) as [ts|]; [rewrite (has_in _ _ ccy_decides); split; [intros H t E; injection E as <-; exact H|auto]|split; [intros _ t E; discriminate E|reflexivity]]. }
  assert (C : match ca_unds g with Some us => (match underlyings i with [] => true | _ => false end) || same_strings us (underlyings i) | None => true end = true <-> forall us, ca_unds g = Some us -> underlyings i = [] \/ underlyings i = us).
  { destruct (ca_unds g) as [us|]; [|split; [intros _ t E; discriminate E|reflexivity]]. rewrite orb_true_iff, same_strings_eq. split.
    - intros H t E. injection E as <-. destruct H as [H|H]; [left; destruct (underlyings i); [reflexivity|discriminate H]|right; congruence].
    - intro H. destruct (H us eq_refl) as [E|E]; [left; rewrite E; reflexivity|right; congruence]. }
  rewrite A, B, C. tauto.
Qed.
Lemma take_spec : forall g is, take_for g is = (map snd (filter (fun p => negb (fst p) && in_category g (snd p)) is), map (fun p => (fst p || in_category g (snd p), snd p)) is).
Proof.
  intros g is. induction is as [|[f i] is IH]; cbn [take_for filter map fst snd]; [reflexivity|].
  rewrite IH. cbn [fst snd]. destruct f; cbn [negb andb orb]; [reflexivity|]. destruct (in_category g i); reflexivity.
Qed.
Definition free (is : list (bool * instrument)) : list instrument := map snd (filter (fun p => negb (fst p)) is).
Lemma take_all : forall g is, Permutation (fst (take_for g is) ++ free (snd (take_for g is))) (free is).
Proof.
  intros g is. rewrite take_spec. cbn [fst snd]. unfold free. induction is as [|[f i] is IH]; cbn [filter map fst snd]; [constructor|].
  destruct f; cbn [negb andb orb]; [exact IH|]. destruct (in_category g i); cbn [negb map app snd fst filter].
  - constructor. exact IH.
  - apply Permutation_sym, Permutation_cons_app, Permutation_sym, IH.
Qed.
Lemma distribute_all : forall gs is, Permutation (concat (fst (distribute_from gs is)) ++ free (snd (distribute_from gs is))) (free is).
Proof.
  induction gs as [|g gs IH]; intro is; cbn [distribute_from fst snd]; [apply Permutation_refl|].
  rewrite concat_app. assert (E : concat (match fst (take_for g is) with [] => [] | _ => [fst (take_for g is)] end) = fst (take_for g is)) by (destruct (fst (take_for g is)); cbn [concat]; rewrite ?app_nil_r; reflexivity).
  rewrite E, <- app_assoc. apply Permutation_trans with (2 := take_all g is). apply Permutation_app_head. apply IH.
Qed.
Lemma free_in : forall is i, In i (free is) <-> In (false, i) is.
Proof.
  intros is i. unfold free. rewrite in_map_iff. split.
  - intros ([f j] & E & H). cbn [snd] in E. subst j. apply filter_In in H. destruct H as [H N]. cbn [fst] in N. destruct f; [discriminate N|exact H].
  - intro H. exists (false, i). split; [reflexivity|]. apply filter_In. split; [exact H|reflexivity].
Qed.
Lemma taken_in : forall g is i, In (false, i) (snd (take_for g is)) <-> In (false, i) is /\ ~ belongs g i.
Proof.
  intros g is i. rewrite take_spec. cbn [snd]. rewrite in_map_iff, <- category_ok. split.
  - intros ([f j] & E & H). cbn [fst snd] in E. injection E as E1 ->. apply orb_false_iff in E1. destruct E1 as [-> E1]. split; [exact H|congruence].
  - intros [H N]. exists (false, i). split; [|exact H]. cbn [fst snd orb]. destruct (in_category g i); [exfalso; apply N; reflexivity|reflexivity].
Qed.
Lemma took_in : forall g is i, In i (fst (take_for g is)) <-> In (false, i) is /\ belongs g i.
Proof.
  intros g is i. rewrite take_spec. cbn [fst]. rewrite in_map_iff, <- category_ok. split.
  - intros ([f j] & E & H). cbn [snd] in E. subst j. apply filter_In in H. cbn [fst snd] in H. destruct H as [H N]. destruct f; [discriminate N|]. split; [exact H|exact N].
  - intros [H N]. exists (false, i). split; [reflexivity|]. apply filter_In. split; [exact H|]. cbn [fst snd negb andb]. exact N.
Qed.
Lemma home_first : forall g gs i, home (g :: gs) i 0 <-> belongs g i.
Proof.
  intros g gs i. unfold home. cbn [nth_error]. split; [intros [(h & E & H) _]; injection E as <-; exact H|]. intro H. split; [exists g; auto|]. intros j h L. lia.
Qed.
Lemma home_next : forall g gs i k, home (g :: gs) i (Datatypes.S k) <-> ~ belongs g i /\ home gs i k.
Proof.
  intros g gs i k. unfold home. cbn [nth_error]. split.
  - intros [H N]. split; [exact (N 0%nat g ltac:(lia) eq_refl)|]. split; [exact H|]. intros j h L E. exact (N (Datatypes.S j) h ltac:(lia) E).
  - intros [N0 [H N]]. split; [exact H|]. intros [|j] h L E; [cbn [nth_error] in E; injection E as <-; exact N0|]. exact (N j h ltac:(lia) E).
Qed.
Definition group_of (gs : list category) (is : list instrument) (k : nat) (grp : list instrument) : Prop :=
  grp <> [] /\ picked is grp /\ forall i, In i grp <-> In i is /\ home gs i k.
Lemma picked_map : forall (f : bool * instrument -> bool) is, picked (map snd is) (map snd (filter f is)).
Proof. intros f is. induction is as [|p is IH]; cbn [map filter]; [constructor|]. destruct (f p); constructor; exact IH. Qed.
Lemma groups_ok : forall gs is, exists homes, StronglySorted lt homes /\
  Forall2 (fun k grp => grp <> [] /\ picked (map snd is) grp /\ forall i, In i grp <-> In (false, i) is /\ home gs i k) homes (fst (distribute_from gs is)).
Proof.
  induction gs as [|g gs IH]; intro is; cbn [distribute_from fst].
  - exists []. split; constructor.
  - destruct (IH (snd (take_for g is))) as (homes & St & F).
    assert (Q : map snd (snd (take_for g is)) = map snd is) by (rewrite take_spec; cbn [snd]; rewrite map_map; reflexivity).
    assert (F' : Forall2 (fun k grp => grp <> [] /\ picked (map snd is) grp /\ forall i, In i grp <-> In (false, i) is /\ home (g :: gs) i k) (map Datatypes.S homes) (fst (distribute_from gs (snd (take_for g is))))).
    { clear St. induction F as [|k grp homes groups H F IHF]; cbn [map]; constructor; [|exact IHF]. destruct H as (H1 & H2 & H3). split; [exact H1|]. split; [rewrite <- Q; exact H2|].
      intro i. rewrite H3, taken_in, home_next. tauto. }
    assert (S' : StronglySorted lt (map Datatypes.S homes)).
    { clear -St. induction St as [|k homes S1 IHs A]; cbn [map]; constructor; [exact IHs|]. apply List.Forall_forall. intros x H. apply in_map_iff in H. destruct H as (y & <- & H). rewrite List.Forall_forall in A. specialize (A y H). lia. }
    destruct (fst (take_for g is)) as [|i0 t] eqn:E.
    + cbn [app]. exists (map Datatypes.S homes). split; assumption.
    + cbn [app]. exists (0%nat :: map Datatypes.S homes). split.
      * constructor; [exact S'|]. apply List.Forall_forall. intros x H. apply in_map_iff in H. destruct H as (y & <- & _). lia.
      * constructor; [|exact F']. split; [discriminate|]. split; [rewrite <- E, take_spec; cbn [fst]; apply picked_map|].
        intro i. rewrite <- E, took_in, home_first. tauto.
Qed.
(** every instrument is in exactly one group, that of its first category; groups
    come in the order of the categories, instruments in their own; groups are
    never empty *)
Theorem c175_groups : forall gs is groups, distribute_insts gs is = ROk groups ->
  Permutation (concat groups) is /\ exists homes, StronglySorted lt homes /\ Forall2 (group_of gs is) homes groups.
Proof.
  intros gs is groups H. unfold distribute_insts in H. set (fl := map (fun i => (false, i)) is) in *.
  destruct (forallb fst (snd (distribute_from gs fl))) eqn:E; [|discriminate H]. apply rok_inj in H. subst groups.
  assert (Fr : free fl = is) by (unfold fl, free; clear; induction is as [|i is IH]; [reflexivity|cbn; f_equal; exact IH]).
  assert (Sn : map snd fl = is) by (unfold fl; rewrite map_map; cbn [snd]; apply map_id).
  split.
  - pose proof (distribute_all gs fl) as P. rewrite Fr in P.
    assert (Z : free (snd (distribute_from gs fl)) = []).
    { unfold free. assert (W : filter (fun p : bool * instrument => negb (fst p)) (snd (distribute_from gs fl)) = []).
      { clear -E. induction (snd (distribute_from gs fl)) as [|[f i] l IH]; [reflexivity|]. cbn [forallb fst filter] in *. apply andb_true_iff in E. destruct E as [-> E]. cbn [negb]. exact (IH E). }
      rewrite W. reflexivity. }
    rewrite Z, app_nil_r in P. exact P.
  - destruct (groups_ok gs fl) as (homes & St & F). exists homes. split; [exact St|]. rewrite Sn in F.
    induction F as [|k grp homes groups H F IHF]; constructor; [|apply IHF; inversion St; assumption]. destruct H as (H1 & H2 & H3). split; [exact H1|]. split; [exact H2|].
    intro i. rewrite H3. rewrite <- free_in, Fr. reflexivity.
Qed.
(** it fails exactly if some instrument is in no category *)
Theorem c175_fails : forall gs is, distribute_insts gs is = RErr <-> exists i, In i is /\ forall g, In g gs -> ~ belongs g i.
Proof.
  intros gs is. unfold distribute_insts. set (fl := map (fun i => (false, i)) is).
  assert (K : forall gs is i, In (false, i) (snd (distribute_from gs is)) <-> In (false, i) is /\ forall g, In g gs -> ~ belongs g i).
  { clear. induction gs as [|g gs IH]; intros is i; cbn [distribute_from snd]; [split; [intro H; split; [exact H|intros g []]|tauto]|].
    rewrite IH, taken_in. split.
    - intros [[H N] A]. split; [exact H|]. intros h [<-|I]; [exact N|exact (A h I)].
    - intros [H A]. split; [split; [exact H|apply A; left; reflexivity]|]. intros h I. apply A. right. exact I. }
  assert (I : forall i, In (false, i) fl <-> In i is).
  { intro i. unfold fl. rewrite in_map_iff. split; [intros (j & E & H); injection E as ->; exact H|intro H; exists i; auto]. }
  destruct (forallb fst (snd (distribute_from gs fl))) eqn:E.
  - split; [discriminate|]. intros (i & H & N). exfalso. assert (X : In (false, i) (snd (distribute_from gs fl))) by (apply K; rewrite I; auto).
    rewrite forallb_forall in E. specialize (E _ X). discriminate E.
  - split; [intros _|reflexivity]. assert (X : exists p, In p (snd (distribute_from gs fl)) /\ fst p = false).
    { clear -E. induction (snd (distribute_from gs fl)) as [|p l IH]; cbn [forallb] in E; [discriminate E|]. destruct (fst p) eqn:F.
      - cbn [andb] in E. destruct (IH E) as (q & H1 & H2). exists q. split; [right; exact H1|exact H2].
      - exists p. split; [left; reflexivity|exact F]. }
    destruct X as ([f i] & H & F). cbn [fst] in F. subst f. exists i. apply K in H. rewrite I in H. exact H.
Qed.
Example c175_hypotheses_met :
  distribute_insts [Category (Some ["Bond"]%string) None None; Category None (Some [Ccy_KRW]) (Some ["a"]%string); Category None None None]
    [ex_stock; ex_bond an_odt; ex_future "a" an_odt; ex_crs an_odt] = ROk [[ex_bond an_odt]; [ex_future "a" an_odt; ex_crs an_odt]; [ex_stock]] /\
  distribute_insts [Category (Some ["Bond"]%string) None None] [ex_stock] = RErr.
Proof. split; reflexivity. Qed.
Print Assumptions c173_names.
Print Assumptions c173_users.
Print Assumptions c173_repeated_refuted.
Print Assumptions c174_rate.
Print Assumptions c174_missing.
Print Assumptions c174_direct.
Print Assumptions c175_groups.
Print Assumptions c175_fails.
