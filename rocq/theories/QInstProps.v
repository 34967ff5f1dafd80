(** QInstProps.v -- C169 to C175: what a portfolio says about its instruments,
    which curves they need, rates of exchange, the distribution over engines. *)
From Coq Require Import ZArith String List Bool Lia Reals Lra Permutation Sorting.Sorted.
From Flocq Require Import Core IEEE754.BinarySingleNaN.
From Verif Require Import Base FloatModel FloatFacts KrxModel QDateModel QInterpSpec QFloatErr QMoneyModel QMoneyProps QSwapModel QFutModel QInstModel QInstSpec.
Import ListNotations.
Open Scope Z_scope.

(** ** lists without repetition *)
Definition decides {A} (eqb : A -> A -> bool) : Prop := forall a b, eqb a b = true <-> a = b.
Lemma string_decides : decides String.eqb. Proof. exact String.eqb_eq. Qed.
Lemma ccy_decides : decides ccy_eqb. Proof. exact c153_equal. Qed.
Lemma fx_decides : decides fx_eqb.
Proof.
  intros [a b] [c d]. unfold fx_eqb. cbn [fx_one fx_two]. rewrite andb_true_iff, !c153_equal. split.
  - intros [-> ->]; reflexivity.
  - intro H; injection H as -> ->; split; reflexivity.
Qed.
Lemma pair_decides : decides pair_eqb.
Proof.
  intros [a b] [c d]. unfold pair_eqb. cbn [fst snd]. rewrite andb_true_iff, String.eqb_eq, (fx_decides b d). split.
  - intros [-> ->]; reflexivity.
  - intro H; injection H as -> ->; split; reflexivity.
Qed.
Lemma has_in : forall A (eqb : A -> A -> bool), decides eqb -> forall x l, has eqb x l = true <-> In x l.
Proof.
  intros A eqb D x l. induction l as [|y l IH]; cbn [has In].
  - split; [discriminate|intros []].
  - rewrite orb_true_iff, IH, (D x y). split; intros [H|H]; auto.
Qed.
Lemma has_not : forall A (eqb : A -> A -> bool), decides eqb -> forall x l, has eqb x l = false <-> ~ In x l.
Proof.
  intros A eqb D x l. rewrite <- (has_in A eqb D x l). destruct (has eqb x l); split; intro H; try discriminate; try reflexivity.
  - exfalso; apply H; reflexivity.
Qed.
Lemma firsts_in : forall A (l r : list A), firsts l r -> forall x, In x r <-> In x l.
Proof.
  intros A l r F. induction F as [|l r x F IH N|l r x F IH I]; intro y.
  - reflexivity.
  - rewrite !in_app_iff, IH. reflexivity.
  - rewrite in_app_iff, IH. cbn [In]. split; [tauto|]. intros [H|[<-|[]]]; [exact H|exact I].
Qed.
Lemma firsts_nodup : forall A (l r : list A), firsts l r -> NoDup r.
Proof.
  intros A l r F. induction F as [|l r x F IH N|l r x F IH I]; [constructor| |exact IH].
  apply (Permutation_NoDup (l := x :: r)).
  - apply Permutation_cons_append.
  - constructor; [|exact IH]. rewrite (firsts_in _ _ _ F). exact N.
Qed.
Lemma firsts_push : forall A (eqb : A -> A -> bool), decides eqb -> forall l r x, firsts l r -> firsts (l ++ [x]) (push_new eqb r x).
Proof.
  intros A eqb D l r x F. unfold push_new. destruct (has eqb x r) eqn:E.
  - apply firsts_old; [exact F|]. apply (firsts_in _ _ _ F). apply (has_in _ _ D). exact E.
  - apply firsts_new; [exact F|]. rewrite <- (firsts_in _ _ _ F). apply (has_not _ _ D). exact E.
Qed.
Lemma firsts_push_all : forall A (eqb : A -> A -> bool), decides eqb -> forall xs l r, firsts l r -> firsts (l ++ xs) (push_all eqb r xs).
Proof.
  intros A eqb D xs. unfold push_all. induction xs as [|x xs IH]; intros l r F; cbn [fold_left].
  - rewrite app_nil_r. exact F.
  - specialize (IH _ _ (firsts_push A eqb D l r x F)). rewrite <- app_assoc in IH. exact IH.
Qed.
Lemma firsts_fold : forall A (eqb : A -> A -> bool) (f : instrument -> list A), decides eqb ->
  forall is l r, firsts l r -> firsts (l ++ flat_map f is) (fold_left (fun r i => push_all eqb r (f i)) is r).
Proof.
  intros A eqb f D is. induction is as [|i is IH]; intros l r F; cbn [fold_left flat_map].
  - rewrite app_nil_r. exact F.
  - specialize (IH _ _ (firsts_push_all A eqb D (f i) l r F)). rewrite <- app_assoc in IH. exact IH.
Qed.

(** ** C169: each code is listed once, in the order of first appearance *)
Theorem c169_underlyings : forall is, firsts (flat_map underlyings is) (all_underlyings is).
Proof. intro is. exact (firsts_fold _ _ _ string_decides is [] [] firsts_nil). Qed.
Theorem c169_fx_codes : forall is, firsts (flat_map fx_codes is) (all_fx_codes is).
Proof. intro is. exact (firsts_fold _ _ _ fx_decides is [] [] firsts_nil). Qed.
Theorem c169_quanto_pairs : forall is, firsts (flat_map quanto_pairs is) (all_quanto_pairs is).
Proof. intro is. exact (firsts_fold _ _ _ pair_decides is [] [] firsts_nil). Qed.
Theorem c169_vol_underlyings : forall is, firsts (flat_map vol_underlyings is) (all_vol_underlyings is).
Proof. intro is. exact (firsts_fold _ _ _ string_decides is [] [] firsts_nil). Qed.
Theorem c169_types : forall is, firsts (map type_name is) (all_type_names is).
Proof.
  intro is. assert (E : map type_name is = flat_map (fun i => [type_name i]) is) by (induction is as [|i is IH]; [reflexivity|cbn; f_equal; exact IH]).
  rewrite E. exact (firsts_fold _ _ _ string_decides is [] [] firsts_nil).
Qed.
(** which codes each kind of instrument has: futures, options and stocks their
    underlyings, of which options need the volatility; FX futures and cross
    currency swaps an exchange rate; quanto options a pair *)
Theorem c169_kinds : forall i,
  (forall us c, in_kind i = KFutures us c -> underlyings i = us) /\
  (forall k u c s q, in_kind i = KOption k u c s q -> underlyings i = [u] /\ vol_underlyings i = [u]) /\
  (forall u, in_kind i = KStock u -> underlyings i = [u]) /\
  ((forall us c, in_kind i <> KFutures us c) -> (forall k u c s q, in_kind i <> KOption k u c s q) -> (forall u, in_kind i <> KStock u) -> underlyings i = []) /\
  ((forall k u c s q, in_kind i <> KOption k u c s q) -> vol_underlyings i = [] /\ quanto_pairs i = []) /\
  (forall k u c s x, in_kind i = KOption k u c s (Some x) -> quanto_pairs i = [(u, x)]) /\ (forall k u c s, in_kind i = KOption k u c s None -> quanto_pairs i = []) /\
  (forall c x, in_kind i = KFxFutures c x -> fx_codes i = [x]) /\ (forall t c n x, in_kind i = KSwap t c n (Some x) -> fx_codes i = [x]) /\
  ((forall c x, in_kind i <> KFxFutures c x) -> (forall t c n x, in_kind i <> KSwap t c n (Some x)) -> fx_codes i = []).
Proof.
  intro i. unfold underlyings, vol_underlyings, quanto_pairs, fx_codes. destruct (in_kind i) as [us uc|a b c d| |tag|t c n fx|uc x|k u uc st qx|u|] eqn:K; repeat split; intros;
    repeat match goal with H : _ = _ |- _ => discriminate H || (injection H; intros; subst; clear H) end; try reflexivity;
    repeat match goal with |- context [match ?z with Some _ => _ | None => _ end] => destruct z end; try reflexivity;
    exfalso; match goal with H : forall _, _ |- _ => eapply H; reflexivity end.
Qed.
(** what being listed so means *)
Theorem c169_meaning : forall A (l r : list A), firsts l r -> NoDup r /\ (forall x, In x r <-> In x l) /\ forall p q, l = p ++ q -> exists r1 r2, r = r1 ++ r2 /\ firsts p r1.
Proof.
  intros A l r F. split; [exact (firsts_nodup _ _ _ F)|]. split; [exact (firsts_in _ _ _ F)|].
  induction F as [|l r x F IH N|l r x F IH I]; intros p q E.
  - symmetry in E. apply app_eq_nil in E. destruct E as [-> ->]. exists [], []. split; [reflexivity|constructor].
  - destruct q as [|y q _] using rev_ind.
    + rewrite app_nil_r in E. subst p. exists (r ++ [x]), []. split; [rewrite app_nil_r; reflexivity|apply firsts_new; assumption].
    + rewrite app_assoc in E. apply app_inj_tail in E. destruct E as [E ->]. destruct (IH p q E) as (r1 & r2 & -> & F1).
      exists r1, (r2 ++ [y]). split; [rewrite app_assoc; reflexivity|exact F1].
  - destruct q as [|y q _] using rev_ind.
    + rewrite app_nil_r in E. subst p. exists r, []. split; [rewrite app_nil_r; reflexivity|apply firsts_old; assumption].
    + rewrite app_assoc in E. apply app_inj_tail in E. destruct E as [E ->]. exact (IH p q E).
Qed.

(** ** examples *)
Definition an_odt : odt := Odt 19797 0 0.
Definition ex_future (u : string) (d : odt) : instrument := Inst "future" ("F" ++ u)%string Ccy_KRW (gof_Z 2) d (KFutures [u] Ccy_USD).
Definition ex_crs (d : odt) : instrument := Inst "crs" "C1" Ccy_KRW (gof_Z 1) d (KSwap CRS Ccy_USD (Some ("CD91", "CD91 fixing")%string) (Some (FxCode Ccy_USD Ccy_KRW))).
Definition ex_stock : instrument := Inst "stock" "A005930" Ccy_KRW (gof_Z 1) an_odt (KStock "A005930").
Definition ex_bond (d : odt) : instrument := Inst "bond" "B1" Ccy_KRW (gof_Z 1) d (KBond "ktb" 1 1 None).
Example c169_hypotheses_met :
  all_underlyings [ex_future "b" an_odt; ex_stock; ex_future "a" an_odt; ex_future "b" an_odt] = ["b"; "A005930"; "a"]%string /\
  all_type_names [ex_future "b" an_odt; ex_stock; ex_future "a" an_odt] = ["Futures"; "Stock"]%string /\
  all_fx_codes [ex_crs an_odt; ex_crs an_odt] = [FxCode Ccy_USD Ccy_KRW].
Proof. repeat split; reflexivity. Qed.

(** ** C170: currencies *)
Theorem c170_listed_partial : forall is, exists l, all_currencies is = ROk l /\ firsts (flat_map (fun i => ccy i :: futures_ccy i) is) l.
Proof.
  intro is. unfold all_currencies.
  assert (G : forall is l r, firsts l r -> exists z, currencies_from r is = ROk z /\ firsts (l ++ flat_map (fun i => ccy i :: futures_ccy i) is) z).
  { clear is. induction is as [|i is IH]; intros l r F; cbn [currencies_from flat_map].
    - exists r. rewrite app_nil_r. split; [reflexivity|exact F].
    - assert (F1 : firsts (l ++ [ccy i]) (push_new ccy_eqb r (ccy i))) by (apply firsts_push; [exact ccy_decides|exact F]).
      assert (X : (exists us c, in_kind i = KFutures us c) \/ (exists c x, in_kind i = KFxFutures c x) \/
                  (futures_ccy i = [] /\ String.eqb (type_name i) "Futures" = false /\ String.eqb (type_name i) "FxFutures" = false /\ String.eqb (type_name i) "PlainSwap" = false)).
      { unfold futures_ccy, type_name. destruct (in_kind i) as [us c|? ? ? ?|?|?|[] ? ? ?|c x|[] ? ? ? ?|?|]; eauto; right; right; repeat split; reflexivity. }
      destruct X as [(us & c & K)|[(c & x & K)|(Z & E1 & E2 & E3)]].
      + assert (T : type_name i = "Futures"%string) by (unfold type_name; rewrite K; reflexivity).
        assert (U : und_ccy i = ROk c) by (unfold und_ccy; rewrite K; reflexivity).
        assert (Q : futures_ccy i = [c]) by (unfold futures_ccy; rewrite K; reflexivity).
        rewrite T, U, Q. cbn [String.eqb Ascii.eqb Bool.eqb orb].
        destruct (IH _ _ (firsts_push _ _ ccy_decides _ _ c F1)) as (z & H1 & H2). exists z. split; [exact H1|].
        rewrite <- !app_assoc in H2. exact H2.
      + assert (T : type_name i = "FxFutures"%string) by (unfold type_name; rewrite K; reflexivity).
        assert (U : und_ccy i = ROk c) by (unfold und_ccy; rewrite K; reflexivity).
        assert (Q : futures_ccy i = [c]) by (unfold futures_ccy; rewrite K; reflexivity).
        rewrite T, U, Q. cbn [String.eqb Ascii.eqb Bool.eqb orb].
        destruct (IH _ _ (firsts_push _ _ ccy_decides _ _ c F1)) as (z & H1 & H2). exists z. split; [exact H1|].
        rewrite <- !app_assoc in H2. exact H2.
      + rewrite E1, E2, E3, Z. cbn [orb]. destruct (IH _ _ F1) as (z & H1 & H2). exists z. split; [exact H1|].
        rewrite <- !app_assoc in H2. exact H2. }
  exact (G is [] [] firsts_nil).
Qed.
(** the currency of a swap's floating leg is never listed for its sake *)
Theorem c170_swap_refuted : exists i c l, swap_ccy i = [c] /\ all_currencies [i] = ROk l /\ ~ In c l.
Proof.
  exists (ex_crs an_odt), Ccy_USD, [Ccy_KRW]. split; [reflexivity|]. split; [reflexivity|]. intros [H|[]]. discriminate H.
Qed.
Example c170_hypotheses_met : all_currencies [ex_stock; ex_future "a" an_odt; ex_crs an_odt] = ROk [Ccy_KRW; Ccy_USD].
Proof. reflexivity. Qed.

(** ** C171: selections *)
Lemma picked_filter : forall A (f : A -> bool) l, picked l (filter f l).
Proof. intros A f l. induction l as [|x l IH]; cbn [filter]; [constructor|]. destruct (f x); constructor; exact IH. Qed.
Theorem c171_underlying : forall is u ex, picked is (with_underlying is u ex) /\
  forall i, In i (with_underlying is u ex) <-> In i is /\ In u (underlyings i) /\ ~ In (type_name i) ex.
Proof.
  intros is u ex. split; [apply picked_filter|]. intro i. unfold with_underlying.
  rewrite filter_In, andb_true_iff, negb_true_iff, (has_in _ _ string_decides), (has_not _ _ string_decides). reflexivity.
Qed.
Theorem c171_currency : forall is c, picked is (with_currency is c) /\ forall i, In i (with_currency is c) <-> In i is /\ ccy i = c.
Proof. intros is c. split; [apply picked_filter|]. intro i. unfold with_currency. rewrite filter_In, c153_equal. reflexivity. Qed.
Theorem c171_types : forall is ts, picked is (with_types is ts) /\ forall i, In i (with_types is ts) <-> In i is /\ In (type_name i) ts.
Proof. intros is ts. split; [apply picked_filter|]. intro i. unfold with_types. rewrite filter_In, (has_in _ _ string_decides). reflexivity. Qed.
Theorem c171_upto : forall is d ex, picked is (maturing_upto is d ex) /\
  forall i, In i (maturing_upto is d ex) <-> In i is /\ ~ In (type_name i) ex /\ exists m, maturity i = Some m /\ instant m <= instant d.
Proof.
  intros is d ex. split; [apply picked_filter|]. intro i. unfold maturing_upto.
  rewrite filter_In, andb_true_iff, negb_true_iff, (has_not _ _ string_decides).
  destruct (maturity i) as [m|].
  - rewrite Z.leb_le. split; [intros (A & B & C); eauto|]. intros (A & B & m' & C & D). injection C as <-. auto.
  - split; [intros (_ & _ & C); discriminate C|intros (_ & _ & m & C & _); discriminate C].
Qed.
Theorem c171_over : forall is d ex, picked is (maturing_over is d ex) /\
  forall i, In i (maturing_over is d ex) <-> In i is /\ ~ In (type_name i) ex /\ forall m, maturity i = Some m -> instant d < instant m.
Proof.
  intros is d ex. split; [apply picked_filter|]. intro i. unfold maturing_over.
  rewrite filter_In, andb_true_iff, negb_true_iff, (has_not _ _ string_decides).
  destruct (maturity i) as [m|].
  - rewrite Z.ltb_lt. split; [intros (A & B & C); repeat split; auto; intros m' H; injection H as <-; exact C|]. intros (A & B & C). auto.
  - split; [intros (A & B & _); repeat split; auto; intros m H; discriminate H|tauto].
Qed.
(** the two halves make up the whole *)
Theorem c171_halves : forall is d, Permutation (maturing_upto is d [] ++ maturing_over is d []) is.
Proof.
  intros is d. unfold maturing_upto, maturing_over. cbn [has negb andb].
  induction is as [|i is IH]; cbn [filter]; [constructor|].
  destruct (maturity i) as [m|].
  - destruct (instant m <=? instant d) eqn:E.
    + assert (F : (instant d <? instant m) = false) by (apply Z.ltb_ge; apply Z.leb_le; exact E). rewrite F. cbn [app]. constructor. exact IH.
    + assert (F : (instant d <? instant m) = true) by (apply Z.ltb_lt; apply Z.leb_gt; exact E). rewrite F.
      apply Permutation_sym, Permutation_cons_app, Permutation_sym, IH.
  - apply Permutation_sym, Permutation_cons_app, Permutation_sym, IH.
Qed.
Example c171_hypotheses_met : exists d, maturing_upto [ex_stock; ex_future "a" an_odt] d [] = [ex_future "a" an_odt] /\ maturing_over [ex_stock; ex_future "a" an_odt] d [] = [ex_stock].
Proof. exists an_odt. split; reflexivity. Qed.

(** ** C172: the shortest and the longest maturity *)
Theorem c172_shortest : forall is,
  match shortest_maturity is with
  | Some m => (exists i, In i is /\ maturity i = Some m) /\ forall i m', In i is -> maturity i = Some m' -> instant m <= instant m'
  | None => forall i, In i is -> maturity i = None
  end.
Proof.
  intro is. unfold shortest_maturity.
  assert (G : forall is acc, match shortest_from acc is with
     | Some m => (acc = Some m \/ exists i, In i is /\ maturity i = Some m) /\ (forall a, acc = Some a -> instant m <= instant a) /\ forall i m', In i is -> maturity i = Some m' -> instant m <= instant m'
     | None => acc = None /\ forall i, In i is -> maturity i = None end).
  { clear is. induction is as [|i is IH]; intro acc; cbn [shortest_from].
    - destruct acc as [m|]; [|split; [reflexivity|intros i []]]. split; [left; reflexivity|]. split; [intros a H; injection H as <-; lia|intros i m' []].
    - destruct (maturity i) as [m0|] eqn:M.
      + destruct acc as [s|].
        * destruct (instant m0 <? instant s) eqn:L.
          -- specialize (IH (Some m0)). destruct (shortest_from (Some m0) is) as [m|]; [|destruct IH; discriminate].
             destruct IH as (A & B & C). apply Z.ltb_lt in L. specialize (B _ eq_refl) as B1. repeat split.
             ++ destruct A as [A|(j & A1 & A2)]; [injection A as <-; right; exists i; split; [left; reflexivity|exact M]|right; exists j; split; [right; exact A1|exact A2]].
             ++ intros a H; injection H as <-; lia.
             ++ intros j m' [<-|H] Q; [rewrite M in Q; injection Q as <-; exact B1|exact (C j m' H Q)].
          -- specialize (IH (Some s)). destruct (shortest_from (Some s) is) as [m|]; [|destruct IH; discriminate].
             destruct IH as (A & B & C). apply Z.ltb_ge in L. specialize (B _ eq_refl) as B1. repeat split.
             ++ destruct A as [A|(j & A1 & A2)]; [left; exact A|right; exists j; split; [right; exact A1|exact A2]].
             ++ exact B.
             ++ intros j m' [<-|H] Q; [rewrite M in Q; injection Q as <-; lia|exact (C j m' H Q)].
        * specialize (IH (Some m0)). destruct (shortest_from (Some m0) is) as [m|]; [|destruct IH; discriminate].
          destruct IH as (A & B & C). specialize (B _ eq_refl) as B1. repeat split.
          -- destruct A as [A|(j & A1 & A2)]; [injection A as <-; right; exists i; split; [left; reflexivity|exact M]|right; exists j; split; [right; exact A1|exact A2]].
          -- intros a H; discriminate H.
          -- intros j m' [<-|H] Q; [rewrite M in Q; injection Q as <-; exact B1|exact (C j m' H Q)].
      + specialize (IH acc). destruct (shortest_from acc is) as [m|].
        * destruct IH as (A & B & C). repeat split; [|exact B|].
          -- destruct A as [A|(j & A1 & A2)]; [left; exact A|right; exists j; split; [right; exact A1|exact A2]].
          -- intros j m' [<-|H] Q; [rewrite M in Q; discriminate Q|exact (C j m' H Q)].
        * destruct IH as [A B]. split; [exact A|]. intros j [<-|H]; [exact M|exact (B j H)]. }
  specialize (G is None). destruct (shortest_from None is) as [m|].
  - destruct G as (A & _ & C). split; [|exact C]. destruct A as [A|A]; [discriminate A|exact A].
  - exact (proj2 G).
Qed.
(** an instrument without maturity counts as everlasting: then there is no
    longest maturity; otherwise it is one, and none is later *)
Theorem c172_longest : forall is,
  (longest_maturity is = None <-> is = [] \/ exists i, In i is /\ maturity i = None) /\
  forall m, longest_maturity is = Some m -> (exists i, In i is /\ maturity i = Some m) /\ forall i m', In i is -> maturity i = Some m' -> instant m' <= instant m.
Proof.
  intro is. unfold longest_maturity.
  assert (G : forall is acc, match longest_from acc is with
     | Some m => (acc = Some m \/ exists i, In i is /\ maturity i = Some m) /\ (forall a, acc = Some a -> instant a <= instant m) /\ (forall i, In i is -> exists m', maturity i = Some m' /\ instant m' <= instant m)
     | None => (acc = None /\ is = []) \/ exists i, In i is /\ maturity i = None end).
  { clear is. induction is as [|i is IH]; intro acc; cbn [longest_from].
    - destruct acc as [m|]; [|left; split; reflexivity]. split; [left; reflexivity|]. split; [intros a H; injection H as <-; lia|intros i []].
    - destruct (maturity i) as [m0|] eqn:M; [|right; exists i; split; [left; reflexivity|exact M]].
      set (acc' := match acc with Some s => if instant s <? instant m0 then Some m0 else acc | None => Some m0 end).
      assert (K : exists a', acc' = Some a' /\ (acc = Some a' \/ a' = m0) /\ instant m0 <= instant a' /\ forall a, acc = Some a -> instant a <= instant a').
      { unfold acc'. destruct acc as [s|].
        - destruct (instant s <? instant m0) eqn:L; [apply Z.ltb_lt in L|apply Z.ltb_ge in L].
          + exists m0. repeat split; [right; reflexivity|lia|intros a H; injection H as <-; lia].
          + exists s. repeat split; [left; reflexivity|lia|intros a H; injection H as <-; lia].
        - exists m0. repeat split; [right; reflexivity|lia|intros a H; discriminate H]. }
      destruct K as (a' & K0 & K1 & K2 & K3). rewrite K0. specialize (IH (Some a')). destruct (longest_from (Some a') is) as [m|].
      + destruct IH as (A & B & C). specialize (B _ eq_refl) as B1. repeat split.
        * destruct A as [A|(j & A1 & A2)].
          -- injection A as <-. destruct K1 as [K1|K1]; [left; exact K1|right; exists i; split; [left; reflexivity|congruence]].
          -- right; exists j; split; [right; exact A1|exact A2].
        * intros a H. specialize (K3 a H). lia.
        * intros j [<-|H]; [exists m0; split; [exact M|lia]|exact (C j H)].
      + destruct IH as [[H _]|(j & A1 & A2)]; [discriminate H|]. right. exists j. split; [right; exact A1|exact A2]. }
  specialize (G is None). destruct (longest_from None is) as [m|] eqn:E.
  - destruct G as (A & _ & C). split.
    + split; [discriminate|]. intros [->|(i & I & N)]; [discriminate E|]. destruct (C i I) as (m' & Q & _). congruence.
    + intros m1 H. injection H as <-. split; [destruct A as [A|A]; [discriminate A|exact A]|].
      intros i m' I Q. destruct (C i I) as (m2 & Q2 & L). congruence.
  - split; [|intros m H; discriminate H]. split; [intros _|reflexivity]. destruct G as [[_ G]|G]; [left; exact G|right; exact G].
Qed.
Example c172_hypotheses_met : shortest_maturity [ex_stock; ex_future "a" an_odt] = Some an_odt /\ longest_maturity [ex_stock; ex_future "a" an_odt] = None /\ longest_maturity [ex_future "a" an_odt] = Some an_odt.
Proof. repeat split; reflexivity. Qed.
Print Assumptions c169_underlyings.
Print Assumptions c169_fx_codes.
Print Assumptions c169_quanto_pairs.
Print Assumptions c169_vol_underlyings.
Print Assumptions c169_types.
Print Assumptions c169_kinds.
Print Assumptions c169_meaning.
Print Assumptions c170_listed_partial.
Print Assumptions c170_swap_refuted.
Print Assumptions c171_underlying.
Print Assumptions c171_currency.
Print Assumptions c171_types.
Print Assumptions c171_upto.
Print Assumptions c171_over.
Print Assumptions c171_halves.
Print Assumptions c172_shortest.
Print Assumptions c172_longest.
