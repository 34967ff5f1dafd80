(** QEngProofs.v -- how the methods of the engine run. *)
From Coq Require Import ZArith Arith Ascii String.
From Coq Require Import List Bool Lia.
From Flocq Require Import Core IEEE754.BinarySingleNaN.
From Verif Require Import Base FloatModel KrxModel QDateModel QYearModel QPeriodModel QFindModel QInterpModel QDivModel QCurveModel QMoneyModel QBondModel QFutModel QInstModel QVolModel QEngModel QEngSpec.
Import ListNotations.
Open Scope Z_scope.

(** ** Running *)
Lemma andthen_ok : forall A B (a : act A) (f : A -> act B) s y s', andthen a f s = Ret (ROk y, s') -> exists x s1, a s = Ret (ROk x, s1) /\ f x s1 = Ret (ROk y, s').
Proof. intros A B a f s y s' H. unfold andthen in H. destruct (a s) as [[[x|] s1]| |] eqn:E; [|discriminate H|discriminate H|discriminate H]. exists x, s1. split; [reflexivity|exact H]. Qed.
Lemma need_ok : forall A (o : option A) s y s', need o s = Ret (ROk y, s') -> o = Some y /\ s' = s.
Proof. intros A o s y s' H. destruct o as [x|]; cbn in H; [|discriminate H]. injection H as <- <-. auto. Qed.
Lemma pure_ok : forall A (o : outcome (rresult A)) s y s', pure o s = Ret (ROk y, s') -> o = Ret (ROk y) /\ s' = s.
Proof. intros A o s y s' H. unfold pure in H. destruct o as [r| |]; [|discriminate H|discriminate H]. injection H as -> <-. auto. Qed.
Lemma total_ok : forall A (o : outcome A) s y s', total o s = Ret (ROk y, s') -> o = Ret y /\ s' = s.
Proof. intros A o s y s' H. unfold total in H. destruct o as [r| |]; [|discriminate H|discriminate H]. injection H as -> <-. auto. Qed.
Lemma done_ok : forall A (x : A) s y s', done x s = Ret (ROk y, s') -> x = y /\ s' = s.
Proof. intros A x s y s' H. unfold done in H. injection H as -> <-. auto. Qed.
Lemma get_ok : forall s y s', get_state s = Ret (ROk y, s') -> y = s /\ s' = s.
Proof. intros s y s' H. unfold get_state in H. injection H as <- <-. auto. Qed.
Lemma set_market_ok : forall m s y s', set_market m s = Ret (ROk y, s') -> s' = State m (st_results s) (st_action s).
Proof. intros m s y s' H. unfold set_market in H. injection H as _ <-. reflexivity. Qed.
Lemma set_action_ok : forall is s y s', set_action is s = Ret (ROk y, s') -> s' = State (st_market s) (st_results s) is.
Proof. intros is s y s' H. unfold set_action in H. injection H as _ <-. reflexivity. Qed.
Lemma result_ok : forall k s y s', result_of k s = Ret (ROk y, s') -> st_results s k = Some y /\ s' = s.
Proof. intros k s y s' H. unfold result_of in H. destruct (st_results s k) as [c|]; [|discriminate H]. injection H as <- <-. auto. Qed.
Lemma npv_of_ok : forall k s y s', npv_of k s = Ret (ROk y, s') -> (exists c r, st_results s k = Some c /\ ca_npv c = Some r /\ nr_npv r = y) /\ s' = s.
Proof.
  intros k s y s' H. unfold npv_of in H. apply andthen_ok in H. destruct H as (c & s1 & H1 & H). apply result_ok in H1. destruct H1 as [H1 ->].
  apply andthen_ok in H. destruct H as (r & s2 & H2 & H). apply need_ok in H2. destruct H2 as [H2 ->]. apply done_ok in H. destruct H as [<- ->]. split; [exists c, r; auto|reflexivity].
Qed.
Lemma edit_ok : forall k f s y s', edit k f s = Ret (ROk y, s') -> exists c, st_results s k = Some c /\ s' = State (st_market s) (put (st_results s) k (f c)) (st_action s).
Proof. intros k f s y s' H. unfold edit in H. destruct (st_results s k) as [c|] eqn:E; [|discriminate H]. injection H as _ <-. exists c. auto. Qed.

Ltac step H x s1 E := apply andthen_ok in H; destruct H as (x & s1 & E & H).

(** [for]: what holds before it, with none visited, holds after it with all *)
Lemma each_trace : forall A (f : A -> act unit) (J : list A -> state -> Prop) l,
  (forall pre x post s s', l = pre ++ x :: post -> J pre s -> f x s = Ret (ROk tt, s') -> J (pre ++ [x]) s') ->
  forall s s', J [] s -> each f l s = Ret (ROk tt, s') -> J l s'.
Proof.
  intros A f J l ST. assert (G : forall post pre s s', l = pre ++ post -> J pre s -> each f post s = Ret (ROk tt, s') -> J l s').
  { induction post as [|x post IH]; intros pre s s' E Hs H; cbn [each] in H.
    - apply done_ok in H. destruct H as [_ ->]. rewrite app_nil_r in E. subst l. exact Hs.
    - step H u s1 E1. destruct u. refine (IH (pre ++ [x]) s1 s' _ _ H); [rewrite <- app_assoc; exact E|]. exact (ST pre x post s s1 E Hs E1). }
  intros s s' H0 H. exact (G l [] s s' eq_refl H0 H).
Qed.

Lemma each_run : forall A (f : A -> act unit) l s s', each f l s = Ret (ROk tt, s') -> forall (J : list A -> state -> Prop), J [] s ->
  (forall pre x post t t', l = pre ++ x :: post -> J pre t -> f x t = Ret (ROk tt, t') -> J (pre ++ [x]) t') -> J l s'.
Proof. intros A f l s s' H J H0 ST. exact (each_trace A f J l ST s s' H0 H). Qed.

(** ** Reports *)
Lemma put_same : forall A (m : string -> option A) k v, put m k v k = Some v.
Proof. intros. unfold put. rewrite String.eqb_refl. reflexivity. Qed.
Lemma put_other : forall A (m : string -> option A) k v j, j <> k -> put m k v j = m j.
Proof. intros A m k v j N. unfold put. destruct (String.eqb_spec j k); [contradiction|reflexivity]. Qed.
Lemma only_refl : forall P s, only P s s.
Proof. intros P s k. destruct (st_results s k) as [c|]; [|exact I]. split; [reflexivity|]. intros x _. destruct x; reflexivity. Qed.
Lemma only_results : forall P s s', st_results s' = st_results s -> only P s s'.
Proof. intros P s s' E k. rewrite E. exact (only_refl P s k). Qed.
Lemma same_at_trans : forall a b c x, same_at a b x -> same_at b c x -> same_at a c x.
Proof. intros a b c x H1 H2. destruct x; cbn in *; congruence. Qed.
Lemma only_trans : forall P a b c, only P a b -> only P b c -> only P a c.
Proof.
  intros P a b c H1 H2 k. specialize (H1 k). specialize (H2 k). destruct (st_results a k) as [x|], (st_results b k) as [y|], (st_results c k) as [z|]; try contradiction; [|exact I].
  destruct H1 as [U1 S1], H2 as [U2 S2]. split; [congruence|]. intros w N. exact (same_at_trans x y z w (S1 w N) (S2 w N)).
Qed.
Lemma only_weaken : forall (P Q : string -> cell -> Prop) s s', (forall k x, P k x -> Q k x) -> only P s s' -> only Q s s'.
Proof.
  intros P Q s s' W H k. specialize (H k). destruct (st_results s k), (st_results s' k); try contradiction; [|exact I]. destruct H as [U R]. split; [exact U|]. intros x N. apply R. intro. apply N. apply W. assumption.
Qed.
Lemma only_edit : forall k f s s' (P : string -> cell -> Prop), edit k f s = Ret (ROk tt, s') -> (forall c, ca_unit (f c) = ca_unit c) -> (forall c x, ~ P k x -> same_at c (f c) x) -> only P s s'.
Proof.
  intros k f s s' P H U R. apply edit_ok in H. destruct H as (c & E & ->). intro j. cbn [st_results]. destruct (String.eqb_spec j k) as [->|N].
  - rewrite put_same, E. split; [apply U|]. intros x Hx. exact (R c x Hx).
  - rewrite put_other by exact N. exact (only_refl P s j).
Qed.
Lemma greek_eqb_eq : forall a b, greek_eqb a b = true <-> a = b.
Proof. intros [] []; cbn; split; congruence. Qed.
Lemma ladder_eqb_eq : forall a b, ladder_eqb a b = true <-> a = b.
Proof. intros [] []; cbn; split; congruence. Qed.
Lemma set_greek_at : forall g k v c, ca_greek (set_greek g k v c) g k = Some v.
Proof. intros. cbn. rewrite (proj2 (greek_eqb_eq g g) eq_refl). apply put_same. Qed.
Lemma set_greek_else : forall g k v c x, x <> GreekCell g k -> same_at c (set_greek g k v c) x.
Proof.
  intros g k v c x N. destruct x as [| | |g' k'| | | |]; try reflexivity. cbn. destruct (greek_eqb g' g) eqn:E; [|reflexivity]. apply greek_eqb_eq in E. subst. apply put_other. congruence.
Qed.
Lemma set_ladder_at : forall g k v c, ca_ladder (set_ladder g k v c) g k = Some v.
Proof. intros. cbn. rewrite (proj2 (ladder_eqb_eq g g) eq_refl). apply put_same. Qed.
Lemma set_ladder_else : forall g k v c x, x <> LadderCell g k -> same_at c (set_ladder g k v c) x.
Proof.
  intros g k v c x N. destruct x as [| | | |g' k'| | |]; try reflexivity. cbn. destruct (ladder_eqb g' g) eqn:E; [|reflexivity]. apply ladder_eqb_eq in E. subst. apply put_other. congruence.
Qed.
(** an unchanged cell reads the same *)
Lemma only_reads : forall P s s' k c, only P s s' -> st_results s k = Some c -> exists c', st_results s' k = Some c' /\ ca_unit c' = ca_unit c /\ forall x, ~ P k x -> same_at c c' x.
Proof. intros P s s' k c H E. specialize (H k). rewrite E in H. destruct (st_results s' k) as [c'|]; [|contradiction]. exists c'. split; [reflexivity|exact H]. Qed.
Lemma only_back : forall P s s' k c', only P s s' -> st_results s' k = Some c' -> exists c, st_results s k = Some c /\ ca_unit c' = ca_unit c /\ forall x, ~ P k x -> same_at c c' x.
Proof. intros P s s' k c' H E. specialize (H k). rewrite E in H. destruct (st_results s k) as [c|]; [|contradiction]. exists c. split; [reflexivity|exact H]. Qed.
Lemma only_npv : forall (P : string -> cell -> Prop) s s' i x, only P s s' -> ~ P (code i) NpvCell -> reported_npv s' i x <-> reported_npv s i x.
Proof.
  intros P s s' i x H N. split; intros (c & E & r & R & V).
  - destruct (only_back P s s' _ _ H E) as (c' & E' & _ & S). exists c'. split; [exact E'|]. exists r. split; [|exact V]. specialize (S NpvCell N). cbn in S. congruence.
  - destruct (only_reads P s s' _ _ H E) as (c' & E' & _ & S). exists c'. split; [exact E'|]. exists r. split; [|exact V]. specialize (S NpvCell N). cbn in S. congruence.
Qed.
Lemma only_greek : forall (P : string -> cell -> Prop) s s' i g k x, only P s s' -> ~ P (code i) (GreekCell g k) -> reported_greek s i g k x -> reported_greek s' i g k x.
Proof.
  intros P s s' i g k x H N (c & E & V). destruct (only_reads P s s' _ _ H E) as (c' & E' & _ & S). exists c'. split; [exact E'|]. specialize (S (GreekCell g k) N). cbn in S. congruence.
Qed.
Lemma reported_fun : forall s i x y, reported_npv s i x -> reported_npv s i y -> x = y.
Proof. intros s i x y (c & E & r & R & V) (c' & E' & r' & R' & V'). congruence. Qed.

(** ** Prices *)
Section Prices.
Context (cx : context).
Lemma npvs_from_ok : forall m is acc f, npvs_from cx m acc is = Ret (ROk f) -> coded is ->
  (forall i, In i is -> exists x, priced cx m i x /\ f (code i) = Some x) /\ (forall k, (forall i, In i is -> code i <> k) -> f k = acc k).
Proof.
  intros m is. induction is as [|i is IH]; intros acc f H C.
  - cbn in H. injection H as <-. split; [intros i []|reflexivity].
  - cbn [npvs_from] in H. destruct (cx_pricer cx (code i)) as [p|] eqn:P; [|discriminate H]. destruct (pr_npv p m i) as [[x|]| |] eqn:N; cbn [rbind] in H; [|discriminate H|discriminate H|discriminate H].
    assert (C' : coded is) by (intros a b A B; apply C; right; assumption). destruct (IH _ _ H C') as [I1 I2]. split.
    + intros j [<-|J]; [|exact (I1 j J)]. destruct (in_dec string_dec (code i) (map code is)) as [M|M].
      * apply in_map_iff in M. destruct M as (j & E & J). assert (j = i) by (apply C; [right; exact J|left; reflexivity|exact E]). subst j. exact (I1 i J).
      * exists x. split; [exists p; auto|]. rewrite I2; [apply put_same|]. intros j J E. apply M. rewrite <- E. apply in_map. exact J.
    + intros k K. rewrite I2; [|intros j J; apply K; right; exact J]. apply put_other. intro. subst k. apply (K i); [left; reflexivity|reflexivity].
Qed.
Lemma get_npvs_ok : forall s f s', get_npvs cx s = Ret (ROk f, s') -> coded (st_action s) -> s' = s /\ forall i, In i (st_action s) -> exists x, priced cx (st_market s) i x /\ f (code i) = Some x.
Proof.
  intros s f s' H C. unfold get_npvs in H. step H s0 s1 E. apply get_ok in E. destruct E as [-> ->]. apply pure_ok in H. destruct H as [H ->]. split; [reflexivity|]. exact (proj1 (npvs_from_ok _ _ _ _ H C)).
Qed.
Lemma results_from_ok : forall m is acc f, results_from cx m acc is = Ret (ROk f) -> coded is ->
  (forall i, In i is -> exists x, priced_result cx m i x /\ f (code i) = Some x) /\ (forall k, (forall i, In i is -> code i <> k) -> f k = acc k).
Proof.
  intros m is. induction is as [|i is IH]; intros acc f H C.
  - cbn in H. injection H as <-. split; [intros i []|reflexivity].
  - cbn [results_from] in H. destruct (cx_pricer cx (code i)) as [p|] eqn:P; [|discriminate H]. destruct (pr_result p m i) as [[x|]| |] eqn:N; cbn [rbind] in H; [|discriminate H|discriminate H|discriminate H].
    assert (C' : coded is) by (intros a b A B; apply C; right; assumption). destruct (IH _ _ H C') as [I1 I2]. split.
    + intros j [<-|J]; [|exact (I1 j J)]. destruct (in_dec string_dec (code i) (map code is)) as [M|M].
      * apply in_map_iff in M. destruct M as (j & E & J). assert (j = i) by (apply C; [right; exact J|left; reflexivity|exact E]). subst j. exact (I1 i J).
      * exists x. split; [exists p; auto|]. rewrite I2; [apply put_same|]. intros j J E. apply M. rewrite <- E. apply in_map. exact J.
    + intros k K. rewrite I2; [|intros j J; apply K; right; exact J]. apply put_other. intro. subst k. apply (K i); [left; reflexivity|reflexivity].
Qed.
End Prices.
Lemma priced_fun : forall cx m i x y, priced cx m i x -> priced cx m i y -> x = y.
Proof. intros cx m i x y (p & P & X) (q & Q & Y). congruence. Qed.
Lemma coded_sub : forall is js, coded is -> (forall i, In i js -> In i is) -> coded js.
Proof. intros is js C S i j I J. apply C; apply S; assumption. Qed.
Lemma coded_nodup : forall is, NoDup (map code is) -> coded is.
Proof.
  induction is as [|x is IH]; intros N i j I J E; [contradiction I|]. cbn in N. inversion N as [|? ? X N']; subst. destruct I as [<-|I], J as [<-|J].
  - reflexivity.
  - exfalso. apply X. rewrite E. apply in_map. exact J.
  - exfalso. apply X. rewrite <- E. apply in_map. exact I.
  - exact (IH N' i j I J E).
Qed.

(** ** Markets *)
Lemma market_eta : forall m, Market (mk_world m) (mk_equity m) (mk_dividend m) (mk_curve m) (mk_vol m) = m.
Proof. intros []. reflexivity. Qed.
Lemma world_eta : forall w, World (w_date w) (w_prices w) (w_dividends w) (w_pobs w) (w_dobs w) = w.
Proof. intros []. reflexivity. Qed.
Lemma set_nth_id : forall A (l : list A) k x, nth_error l k = Some x -> set_nth l k x = l.
Proof. induction l as [|a l IH]; intros k x H; destruct k; cbn in *; try congruence. f_equal. apply IH. exact H. Qed.
Lemma set_nth_twice : forall A (l : list A) k x y, set_nth (set_nth l k x) k y = set_nth l k y.
Proof. induction l as [|a l IH]; intros k x y; destruct k; cbn; try reflexivity. f_equal. apply IH. Qed.
Lemma nth_set_same : forall A (l : list A) k x y, nth_error l k = Some y -> nth_error (set_nth l k x) k = Some x.
Proof. induction l as [|a l IH]; intros k x y H; destruct k; cbn in *; try congruence. exact (IH _ _ _ H). Qed.
Lemma with_price_equity : forall m u x p, equity m u = Some p -> equity (with_price m u x) u = Some (MarketPrice x (mp_dt p) (mp_div p)).
Proof.
  intros m u x p E. unfold with_price. rewrite E. unfold equity in E |- *. destruct (mk_equity m u) as [k|] eqn:K; [|discriminate E]. cbn. rewrite K. exact (nth_set_same _ _ _ _ _ E).
Qed.
Lemma with_price_again : forall m u x y, with_price (with_price m u x) u y = with_price m u y.
Proof.
  intros m u x y. unfold with_price at 2 3. destruct (mk_equity m u) as [k|] eqn:K; [|unfold with_price; rewrite K; reflexivity]. destruct (equity m u) as [p|] eqn:E.
  - unfold with_price, equity in *. cbn. rewrite K in *. rewrite (nth_set_same _ _ _ _ _ E). cbn. rewrite set_nth_twice. reflexivity.
  - unfold with_price. rewrite K, E. reflexivity.
Qed.
Lemma with_price_back : forall m u p, equity m u = Some p -> with_price m u (mp_value p) = m.
Proof.
  intros m u [v d o] E. unfold with_price. rewrite E. unfold equity in E. destruct (mk_equity m u) as [k|] eqn:K; [|reflexivity]. destruct m as [[a b c e f] g h x y]. cbn in *. unfold with_world. cbn. rewrite (set_nth_id _ _ _ _ E). reflexivity.
Qed.
Lemma nth_set : forall A (l : list A) k x y j, nth_error l k = Some y -> nth_error (set_nth l k x) j = if Nat.eqb j k then Some x else nth_error l j.
Proof. induction l as [|a l IH]; intros k x y j H; destruct k, j; cbn in *; try congruence. exact (IH _ _ _ _ H). Qed.
Lemma with_price_set : forall m u x p, equity m u = Some p -> price_set m u x (with_price m u x).
Proof. intros m u x p E. unfold with_price. rewrite E. unfold equity in E. destruct (mk_equity m u) as [k|] eqn:K; [|discriminate E]. exists k, p. split; [exact K|]. split; [exact E|]. split; [intro j; exact (nth_set _ _ _ _ _ j E)|]. repeat split. Qed.
