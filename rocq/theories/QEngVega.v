(** QEngVega.v -- how vega by tenor runs. *)
From Coq Require Import ZArith Arith Ascii String.
From Coq Require Import List Bool Lia.
From Flocq Require Import Core IEEE754.BinarySingleNaN.
From Verif Require Import Base FloatModel KrxModel QDateModel QYearModel QPeriodModel QFindModel QFindProofs QInterpModel QDivModel QCurveModel QMoneyModel QBondModel QFutModel QInstModel QInstSpec QInstProps QMatchProps QVolModel QEngModel QEngSpec QEngProofs QEngBump QEngLadder.
Import ListNotations.
Open Scope Z_scope.

Lemma at_ret : forall A (v : list A) i x, at_ v i = Ret x -> nth_error v i = Some x.
Proof. intros A v i x H. destruct (lt_dec i (length v)) as [L|L]; [destruct (at_lt A v i L) as (y & N & E); congruence|]. unfold at_ in H. destruct (nth_error v i) eqn:E; [congruence|discriminate H]. Qed.
Lemma nth_error_same : forall A (l r : list A), (forall n, nth_error l n = nth_error r n) -> l = r.
Proof. induction l as [|x l IH]; intros [|y r] H; [reflexivity|discriminate (H 0%nat)|discriminate (H 0%nat)|]. pose proof (H 0%nat) as Q. cbn in Q. injection Q as ->. f_equal. apply IH. intro n. exact (H (S n)). Qed.
Lemma windows_nth : forall W (ws : list W) i from w, nth_error ws i = Some w -> nth_error (windows from ws) i = Some (match i with O => from | S j => nth_error ws j end, Some w).
Proof.
  intros W ws. induction ws as [|x ws IH]; intros i from w H; [destruct i; discriminate H|]. destruct i as [|i]; cbn in *; [congruence|]. rewrite (IH i (Some x) w H). destruct i; reflexivity.
Qed.
Lemma windows_inv : forall W (ws : list W) i from a b, nth_error (windows from ws) i = Some (a, b) -> exists w, nth_error ws i = Some w /\ b = Some w /\ a = match i with O => from | S j => nth_error ws j end.
Proof.
  intros W ws i from a b H. destruct (nth_error ws i) as [w|] eqn:E; [rewrite (windows_nth W ws i from w E) in H; injection H as <- <-; exists w; auto|].
  apply nth_error_None in E. assert (nth_error (windows from ws) i = None) by (apply nth_error_None; rewrite windows_len; exact E). congruence.
Qed.
Lemma before_ok : forall l i start stop, before l i = Ret start -> at_ l i = Ret stop -> nth_error (windows None l) i = Some (start, Some stop).
Proof.
  intros l i start stop B A. apply at_ret in A. rewrite (windows_nth _ l i None stop A). f_equal. f_equal. destruct i as [|i]; cbn [before] in B; [congruence|]. destruct (at_ l i) as [x| |] eqn:E; cbn [obind] in B; try discriminate B. apply at_ret in E. congruence.
Qed.
Lemma skips_iff : forall times last i start stop, nth_error (windows None times) i = Some (start, stop) -> skips last start = true <-> tenor_skipped times last i.
Proof.
  intros times last i start stop N. unfold skips, tenor_skipped. split.
  - destruct start as [t|]; [|discriminate]. intro H. exists t, stop. auto.
  - intros (t & st & N' & H). assert (start = Some t) by congruence. subst start. exact H.
Qed.
Lemma first_not_skipped : forall times last, ~ tenor_skipped times last 0.
Proof. intros times last (t & st & N & _). destruct times; discriminate N. Qed.

Section Vega.
Context (cx : context) (is : list instrument) (C : coded is) (u : string) (b last : f32) (times : list f32).
Lemma npv_map_ok : forall l, incl l is -> forall acc s f s', npv_map acc l s = Ret (ROk f, s') -> s' = s /\ (forall c, ~ In c (map code l) -> f c = acc c) /\ forall x, In x l -> exists p, f (code x) = Some p /\ reported_npv s x p.
Proof using C.
  induction l as [|y l IH]; intros IN acc s f s' H; cbn [npv_map] in H.
  - apply done_ok in H. destruct H as [-> ->]. split; [reflexivity|]. split; [reflexivity|intros x []].
  - step H p s1 E. apply npv_of_ok in E. destruct E as [N ->]. assert (IN' : incl l is) by (intros z Z; apply IN; right; exact Z). destruct (IH IN' _ _ _ _ H) as (-> & A1 & A2). split; [reflexivity|]. split.
    + intros c NI. cbn [map] in NI. rewrite A1 by (intro; apply NI; right; assumption). apply put_other. intro. apply NI. left. congruence.
    + intros x I. destruct (in_dec string_dec (code x) (map code l)) as [J|J].
      * apply in_map_iff in J. destruct J as (z & EZ & J). assert (z = x) by (apply C; [apply IN; right; exact J|apply IN; exact I|exact EZ]). subst z. exact (A2 x J).
      * destruct I as [<-|I]; [|exfalso; apply J; apply in_map; exact I]. exists p. split; [rewrite A1 by exact J; apply put_same|]. destruct N as (c0 & r & Q1 & Q2 & Q3). exists c0. split; [exact Q1|]. exists r. auto.
Qed.
Lemma vega_rungs_ok : forall i ups prevs l, incl l is -> forall acc s acc' s', vega_rungs i b ups prevs acc l s = Ret (ROk acc', s') ->
  s' = s /\ (forall c, ~ In c (map code l) -> acc' c = acc c) /\
  forall x, In x l -> forall v, acc (code x) = Some v -> exists v' up npv, acc' (code x) = Some v' /\ length v' = length v /\ ups (code x) = Some up /\ prevs (code x) = Some npv /\
    ((i < length v)%nat -> nth_error v' i = Some (slope up npv b pct (notional x))) /\ (forall j, j <> i -> nth_error v' j = nth_error v j).
Proof using C.
  intros i ups prevs l. induction l as [|y l IH]; intros IN acc s acc' s' H; cbn [vega_rungs] in H.
  - apply done_ok in H. destruct H as [-> ->]. split; [reflexivity|]. split; [reflexivity|]. intros x [].
  - step H up s1 E. apply need_ok in E. destruct E as [U ->]. step H npv s1 E. apply need_ok in E. destruct E as [N ->]. step H v0 s1 E. apply need_ok in E. destruct E as [V ->].
    assert (IN' : incl l is) by (intros z Z; apply IN; right; exact Z). destruct (IH IN' _ _ _ _ H) as (-> & A1 & A2). split; [reflexivity|]. split.
    + intros c NI. cbn [map] in NI. rewrite A1 by (intro; apply NI; right; assumption). apply put_other. intro. apply NI. left. congruence.
    + intros x I v AV. destruct (in_dec string_dec (code x) (map code l)) as [J|J].
      * apply in_map_iff in J. destruct J as (z & EZ & J). assert (z = x) by (apply C; [apply IN; right; exact J|apply IN; exact I|exact EZ]). subst z.
        destruct (string_dec (code x) (code y)) as [Q|Q].
        -- assert (x = y) by (apply C; [apply IN; exact I|apply IN; left; reflexivity|exact Q]). subst y. assert (v0 = v) by congruence. subst v0.
           destruct (A2 x J _ (put_same _ _ _ _)) as (v' & up' & npv' & R1 & R2 & R3 & R4 & R5 & R6). exists v', up', npv'. rewrite set_nth_len in *. do 5 (split; [auto|]). intros j NJ. rewrite R6 by exact NJ. apply nth_set_out. exact NJ.
        -- apply (A2 x J v). rewrite put_other by exact Q. exact AV.
      * destruct I as [<-|I]; [|exfalso; apply J; apply in_map; exact I]. assert (v0 = v) by congruence. subst v0. rewrite A1 by exact J. eexists. exists up, npv. split; [apply put_same|]. split; [apply set_nth_len|]. split; [exact U|]. split; [exact N|].
        split; [intro L; apply nth_set_in; exact L|intros j NJ; apply nth_set_out; exact NJ].
Qed.
Definition vega_cells (c : string) (x : cell) : Prop := x = LadderCell VegaLadder u /\ exists i, In i is /\ code i = c.
Lemma store_ladders : forall acc s s', each (fun x => let* v := need (acc (code x)) in edit (code x) (set_ladder VegaLadder u v)) is s = Ret (ROk tt, s') ->
  st_market s' = st_market s /\ st_action s' = st_action s /\ only vega_cells s s' /\ forall i, In i is -> exists v, acc (code i) = Some v /\ reported_ladder s' i VegaLadder u v.
Proof using C.
  intros acc s s' H. refine (each_run _ _ _ _ _ H (fun pre t => st_market t = st_market s /\ st_action t = st_action s /\ only vega_cells s t /\ forall i, In i pre -> exists v, acc (code i) = Some v /\ reported_ladder t i VegaLadder u v) _ _); [split; [reflexivity|split; [reflexivity|split; [apply only_refl|intros ? []]]]|].
  intros pre i post t t' L (M & A & O & J) ST. step ST v t1 E. apply need_ok in E. destruct E as [V ->]. pose proof (edit_ok _ _ _ _ _ ST) as (c & CC & Q). assert (II : In i is) by (rewrite L; apply in_or_app; right; left; reflexivity).
  assert (O' : only vega_cells t t') by (apply (only_edit _ _ _ _ _ ST); [reflexivity|]; intros c0 x X; apply set_ladder_else; intro; apply X; split; [assumption|exists i; auto]).
  assert (RI : reported_ladder t' i VegaLadder u v) by (exists (set_ladder VegaLadder u v c); subst t'; cbn [st_results]; split; [apply put_same|apply set_ladder_at]).
  split; [subst t'; exact M|]. split; [subst t'; exact A|]. split; [exact (only_trans _ _ _ _ O O')|]. intros j J'. apply in_app_or in J'. destruct J' as [J'|[<-|[]]]; [|exists v; auto]. destruct (J j J') as (vj & P1 & P2). exists vj. split; [exact P1|].
  destruct (string_dec (code j) (code i)) as [Q'|Q']; [assert (j = i) by (apply C; [rewrite L; apply in_or_app; left; exact J'|exact II|exact Q']); subst j; assert (vj = v) by congruence; subst vj; exact RI|].
  destruct P2 as (cj & P3 & P4). exists cj. subst t'. cbn [st_results]. rewrite put_other by exact Q'. auto.
Qed.
(** where the change at [j] is counted from, when the tenors from [k] on are done *)
Definition counted_from (k : nat) (prevs : string -> option f32) (ms : nat -> market) (i : instrument) (j : nat) (x : f32) : Prop :=
  (exists l, (j < l < k)%nat /\ ~ tenor_skipped times last l /\ (forall h, (j < h < l)%nat -> tenor_skipped times last h) /\ priced cx (ms l) i x) \/
  ((forall h, (j < h < k)%nat -> tenor_skipped times last h) /\ prevs (code i) = Some x).
Lemma vega_down_ok : forall k, (k <= length times)%nat -> forall s prevs acc s', st_action s = is -> vega_down cx u b last times is (rev (seq 0 k)) prevs acc s = Ret (ROk tt, s') ->
  st_action s' = is /\ only vega_cells s s' /\ exists ms, ms k = st_market s /\ ms 0%nat = st_market s' /\ (forall i start stop, (i < k)%nat -> nth_error (windows None times) i = Some (start, stop) -> vol_bumped u start stop None None b (ms (S i)) (ms i)) /\
  forall x, In x is -> forall v, acc (code x) = Some v -> (k <= length v)%nat -> exists v', length v' = length v /\ ((0 < k)%nat -> reported_ladder s' x VegaLadder u v') /\
    (forall j, (j < k)%nat -> tenor_skipped times last j -> nth_error v' j = nth_error v j) /\ (forall j, (k <= j)%nat -> nth_error v' j = nth_error v j) /\
    forall j, (j < k)%nat -> ~ tenor_skipped times last j -> exists up down, priced cx (ms j) x up /\ counted_from k prevs ms x j down /\ nth_error v' j = Some (slope up down b pct (notional x)).
Proof using C.
  induction k as [|k IH]; intros LK s prevs acc s' AC H.
  - cbn in H. apply done_ok in H. destruct H as [_ ->]. split; [exact AC|]. split; [apply only_refl|]. exists (fun _ => st_market s). split; [reflexivity|]. split; [reflexivity|]. split; [intros; lia|]. intros x I v AV _. exists v. split; [reflexivity|]. split; [lia|]. split; [intros; lia|]. split; [reflexivity|intros; lia].
  - rewrite seq_S, rev_app_distr in H. cbn [rev app vega_down Nat.add] in H. step H start s1 E. apply total_ok in E. destruct E as [EB ->]. step H stop s1 E. apply total_ok in E. destruct E as [EA ->]. pose proof (before_ok _ _ _ _ EB EA) as WN.
    step H x0 s1 E1. destruct x0. destruct (bump_vol_ok _ _ _ _ _ _ _ _ _ E1) as (B1 & R1 & A1). pose proof (skips_iff times last k start (Some stop) WN) as SK. destruct (skips last start) eqn:ES.
    + assert (SKk : tenor_skipped times last k) by (apply SK; reflexivity). destruct (IH ltac:(lia) s1 prevs acc s' ltac:(congruence) H) as (A2 & O2 & ms & M1 & M2 & M3 & M4). split; [exact A2|]. split; [intro c; pose proof (O2 c) as Q; rewrite R1 in Q; exact Q|].
      exists (fun i => if Nat.eqb i (S k) then st_market s else ms i). split; [rewrite Nat.eqb_refl; reflexivity|]. split; [exact M2|]. split.
      { intros i st sp I N. cbv beta. destruct (Nat.eqb_spec i (S k)) as [->|_]; [lia|]. destruct (Nat.eqb_spec (S i) (S k)) as [Q|Q]; [|apply M3; [lia|exact N]]. injection Q as ->. rewrite WN in N. injection N as <- <-. rewrite M1. exact B1. }
      intros x I v AV L. destruct (M4 x I v AV ltac:(lia)) as (v' & L' & P1 & P2 & P3 & P4). exists v'. split; [exact L'|].
      assert (K0 : (0 < k)%nat) by (destruct k; [exfalso; exact (first_not_skipped _ _ SKk)|lia]). split; [intros _; exact (P1 K0)|].
      split; [intros j J SJ; destruct (Nat.eq_dec j k) as [->|N]; [apply P3; lia|apply P2; [lia|exact SJ]]|]. split; [intros j J; apply P3; lia|].
      intros j J NS. assert (j <> k) by (intros ->; contradiction). destruct (P4 j ltac:(lia) NS) as (up & down & Q1 & Q2 & Q3). exists up, down. destruct (Nat.eqb_spec j (S k)) as [Q|_]; [lia|]. split; [exact Q1|]. split; [|exact Q3].
      destruct Q2 as [(l & Ll & NSl & BT & PR)|[AS PR]]; [left; exists l; split; [lia|]; split; [exact NSl|]; split; [exact BT|]; destruct (Nat.eqb_spec l (S k)) as [Q|_]; [lia|exact PR]|].
      right. split; [|exact PR]. intros h Hh. destruct (Nat.eq_dec h k) as [->|N]; [exact SKk|apply AS; lia].
    + assert (NSk : ~ tenor_skipped times last k) by (intro Q; apply SK in Q; discriminate Q). step H ups s2 E2. apply get_npvs_ok in E2; [|rewrite A1, AC; exact C]. destruct E2 as [-> F]. rewrite A1, AC in F. step H acc1 s2 E3. destruct (vega_rungs_ok k ups prevs is (incl_refl is) _ _ _ _ E3) as (-> & _ & RG).
      step H x0 s2 E4. destruct x0. destruct (store_ladders _ _ _ E4) as (M2' & A2' & O2' & J2'). destruct (IH ltac:(lia) s2 ups acc1 s' ltac:(congruence) H) as (A2 & O2 & ms & M1 & M2 & M3 & M4). split; [exact A2|]. split; [apply (only_trans _ _ s2 _); [|exact O2]; intro c; pose proof (O2' c) as Q; rewrite R1 in Q; exact Q|].
      exists (fun i => if Nat.eqb i (S k) then st_market s else ms i). split; [rewrite Nat.eqb_refl; reflexivity|]. split; [exact M2|]. split.
      { intros i st sp I N. cbv beta. destruct (Nat.eqb_spec i (S k)) as [->|_]; [lia|]. destruct (Nat.eqb_spec (S i) (S k)) as [Q|Q]; [|apply M3; [lia|exact N]]. injection Q as ->. rewrite WN in N. injection N as <- <-. rewrite M1, M2'. exact B1. }
      intros x I v AV L. destruct (RG x I v AV) as (v1 & up & npv & Q1 & Q2 & Q3 & Q4 & Q5 & Q6). destruct (F x I) as (up' & P & U). assert (up' = up) by congruence. subst up'. destruct (M4 x I v1 Q1 ltac:(lia)) as (v' & L' & P1 & P2 & P3 & P4).
      assert (PK : priced cx (ms k) x up) by (rewrite M1, M2'; exact P).
      assert (HK : nth_error v' k = Some (slope up npv b pct (notional x))) by (rewrite (P3 k ltac:(lia)); apply Q5; lia).
      exists v'. split; [congruence|]. split.
      { intros _. destruct k as [|k']; [|apply P1; lia]. cbn in H. apply done_ok in H. destruct H as [_ ->]. destruct (J2' x I) as (v2 & V2 & RV). assert (v2 = v1) by congruence. subst v2.
        assert (EQ : v' = v1); [|rewrite EQ; exact RV]. apply nth_error_same. intro n. apply P3. lia. }
      split; [intros j J SJ; assert (j <> k) by (intros ->; contradiction); rewrite (P2 j ltac:(lia) SJ); apply Q6; lia|]. split; [intros j J; rewrite (P3 j ltac:(lia)); apply Q6; lia|].
      intros j J NS. destruct (Nat.eqb_spec j (S k)) as [Q|_]; [lia|]. destruct (Nat.eq_dec j k) as [->|N].
      * exists up, npv. split; [exact PK|]. split; [|exact HK]. right. split; [intros h Hh; lia|exact Q4].
      * destruct (P4 j ltac:(lia) NS) as (up2 & down & T1 & T2 & T3). exists up2, down. split; [exact T1|]. split; [|exact T3]. destruct T2 as [(l & Ll & NSl & BT & PR)|[AS PR]].
        -- left. exists l. split; [lia|]. split; [exact NSl|]. split; [exact BT|]. destruct (Nat.eqb_spec l (S k)) as [Q|_]; [lia|exact PR].
        -- left. exists k. split; [lia|]. split; [exact NSk|]. split; [intros h Hh; apply AS; lia|]. destruct (Nat.eqb_spec k (S k)) as [Q|_]; [lia|]. assert (down = up) by congruence. subst down. exact PK.
Qed.
End Vega.

Section Underlyings.
Context (cx : context) (eval : odt) (b : f32) (times : list f32).
Definition vega_users (u : string) (i : instrument) : Prop := In i (cx_insts cx) /\ ~ In (type_name i) ["Cash"; "Stock"; "Futures"]%string /\ In u (underlyings i).
Lemma vega_sel : forall u i, In i (with_underlying (cx_insts cx) u ["Cash"; "Stock"; "Futures"]%string) <-> vega_users u i.
Proof using Type. intros u i. unfold with_underlying. rewrite filter_In, andb_true_iff, negb_true_iff, (has_in _ _ string_decides), (has_not _ _ string_decides). unfold vega_users. tauto. Qed.
Lemma longest_time_ok : forall is l U, (forall i, In i is <-> U i) -> is <> [] -> longest_time eval is = Ret l -> last_time U eval l.
Proof using Type.
  intros is l U HU NE H. unfold longest_time in H. destruct (c172_longest is) as [N S]. destruct (longest_maturity is) as [m|] eqn:E.
  - destruct (S m eq_refl) as ((i & I & M) & L). right. exists i, m. split; [apply HU; exact I|]. split; [exact M|]. split; [exact H|]. intros j J. apply HU in J. destruct (maturity j) as [m'|] eqn:MJ; [exists m'; split; [reflexivity|exact (L j m' J MJ)]|].
    exfalso. assert (Q : longest_maturity is = None) by (rewrite E; apply N; right; exists j; auto). congruence.
  - left. destruct (proj1 N eq_refl) as [Q|(i & I & M)]; [contradiction|]. split; [exists i; split; [apply HU; exact I|exact M]|congruence].
Qed.
Definition vega_reported (s s' : state) (u : string) (m0 m1 : market) (i : instrument) (v : list f32) (last : f32) (ms : nat -> market) : Prop :=
  last_time (vega_users u) eval last /\ descent u b times ms m0 m1 /\ length v = length times /\ (times <> [] -> reported_ladder s' i VegaLadder u v) /\
  forall j, (j < length times)%nat -> (tenor_skipped times last j -> nth_error v j = Some (gof_Z 0)) /\
    (~ tenor_skipped times last j -> exists up down, priced cx (ms j) i up /\ price_before cx s times last ms i j down /\ nth_error v j = Some (slope up down b pct (notional i))).
Lemma vega_structure_of_ok : coded (cx_insts cx) -> forall u s s', vega_structure_of cx eval b times u s = Ret (ROk tt, s') ->
  only (fun c x => x = LadderCell VegaLadder u /\ exists i, vega_users u i /\ code i = c) s s' /\ ((forall i, ~ vega_users u i) -> st_market s' = st_market s) /\
  ((exists i, vega_users u i) -> exists ms, descent u b times ms (st_market s) (st_market s')) /\
  forall i, vega_users u i -> exists v last ms, vega_reported s s' u (st_market s) (st_market s') i v last ms.
Proof using Type.
  intros CI u s s' H. unfold vega_structure_of in H. pose proof (vega_sel u) as SEL. set (is := with_underlying (cx_insts cx) u ["Cash"; "Stock"; "Futures"]%string) in *. assert (C : coded is) by (apply (coded_sub (cx_insts cx)); [exact CI|]; intros i J; apply SEL in J; destruct J as [J _]; exact J).
  step H x s1 E. destruct x. apply set_action_ok in E. step H longest s2 E2. apply total_ok in E2. destruct E2 as [EL ->]. destruct is as [|i0 is0] eqn:ISE.
  { apply done_ok in H. destruct H as [_ ->]. subst s1. split; [apply only_results; reflexivity|]. split; [reflexivity|]. split; intros; [destruct H as (i & U)|rename H into U]; apply SEL in U; contradiction U. }
  rewrite <- ISE in *. assert (NE : is <> []) by (rewrite ISE; discriminate). assert (U0 : vega_users u i0) by (apply SEL; rewrite ISE; left; reflexivity). clear is0 ISE. pose proof (longest_time_ok is longest _ SEL NE EL) as LT.
  step H prevs s2 E2. destruct (npv_map_ok is C is (incl_refl is) _ _ _ _ E2) as (-> & _ & NP). step H x s2 E3. destruct x. destruct (vega_down_ok cx is C u b longest times (length times) ltac:(lia) s1 prevs _ s2 ltac:(subst s1; reflexivity) E3) as (A2 & O2 & ms & M1 & M2 & M3 & M4).
  destruct (bump_vol_ok _ _ _ _ _ _ _ _ _ H) as (B2 & R2 & _). subst s1. cbn [st_market st_results] in *. assert (D : descent u b times ms (st_market s) (st_market s')).
  { split; [exact M1|]. split; [|rewrite M2; exact B2]. intros i st sp N. apply M3; [|exact N]. rewrite <- (windows_len _ times None). apply nth_error_Some. congruence. }
  split; [|split; [intro Q; exfalso; exact (Q i0 U0)|split; [intros _; exists ms; exact D|]]].
  - apply (only_weaken (vega_cells is u)); [intros c x (-> & i & I & Q); split; [reflexivity|exists i; split; [apply SEL; exact I|exact Q]]|]. intro c. pose proof (O2 c) as Q. cbn [st_results] in Q. rewrite R2. exact Q.
  - intros i U. assert (I : In i is) by (apply SEL; exact U). destruct (M4 i I _ (zeros_at (length times) is (fun _ => None) i I) ltac:(rewrite repeat_length; lia)) as (v & L & P1 & P2 & P3 & P4). rewrite repeat_length in L. exists v, longest, ms. split; [exact LT|]. split; [exact D|]. split; [exact L|]. split.
    + intro NT. unfold reported_ladder, reported. rewrite R2. apply P1. destruct times; [contradiction NT; reflexivity|cbn; lia].
    + intros j J. split; [intro SJ; rewrite (P2 j J SJ); apply nth_error_repeat; exact J|]. intro NS. destruct (P4 j J NS) as (up & down & Q1 & Q2 & Q3). exists up, down. split; [exact Q1|]. split; [|exact Q3]. destruct Q2 as [Q2|[Q2 Q4]]; [left; exact Q2|right]. split; [exact Q2|].
      destruct (NP i I) as (p & Np & Rp). assert (p = down) by congruence. subst p. exact Rp.
Qed.
Definition vega_used (u : string) : bool := negb (match with_underlying (cx_insts cx) u ["Cash"; "Stock"; "Futures"]%string with [] => true | _ => false end).
Lemma vega_used_iff : forall u, vega_used u = true <-> exists i, vega_users u i.
Proof using Type.
  intro u. unfold vega_used. pose proof (vega_sel u) as SEL. destruct (with_underlying _ _ _) as [|i l]; cbn; split; intro H; try discriminate; [destruct H as (i & U); apply SEL in U; contradiction U|exists i; apply SEL; left; reflexivity|reflexivity].
Qed.
Lemma vegas_ok : coded (cx_insts cx) -> forall us, NoDup us -> forall s s', each (vega_structure_of cx eval b times) us s = Ret (ROk tt, s') ->
  descents b times (List.filter vega_used us) (st_market s) (st_market s') /\ only (fun c x => exists u i, In u us /\ vega_users u i /\ c = code i /\ x = LadderCell VegaLadder u) s s' /\
  forall u i, In u us -> vega_users u i -> exists pre m0 m1 v last ms, ~ In u pre /\ descents b times pre (st_market s) m0 /\ vega_reported s s' u m0 m1 i v last ms.
Proof using Type.
  intros CI us ND s s' H. set (P := fun c x => exists u i, In u us /\ vega_users u i /\ c = code i /\ x = LadderCell VegaLadder u).
  refine (each_run _ _ _ _ _ H (fun pre t => descents b times (List.filter vega_used pre) (st_market s) (st_market t) /\ only P s t /\
    forall u i, In u pre -> vega_users u i -> exists pre' m0 m1 v last ms, ~ In u pre' /\ descents b times pre' (st_market s) m0 /\ vega_reported s t u m0 m1 i v last ms) _ _); [split; [constructor|split; [apply only_refl|intros ? ? []]]|].
  intros pre u post t t' L (T & O & J) ST. assert (IU : In u us) by (rewrite L; apply in_or_app; right; left; reflexivity). assert (NU : ~ In u pre) by (rewrite L in ND; apply NoDup_remove_2 in ND; intro; apply ND; apply in_or_app; left; assumption).
  destruct (vega_structure_of_ok CI u t t' ST) as (O' & N1 & N2 & N3). assert (OP : only P t t') by (apply (only_weaken (fun c x => x = LadderCell VegaLadder u /\ exists i, vega_users u i /\ code i = c)); [intros c x (-> & i & U & <-); exists u, i; auto|exact O']).
  split; [|split; [exact (only_trans _ _ _ _ O OP)|]].
  - rewrite filter_app. cbn [List.filter]. destruct (vega_used u) eqn:VU.
    + destruct (N2 (proj1 (vega_used_iff u) VU)) as (ms & D). exact (DescMore b times _ u ms _ _ _ T D).
    + rewrite app_nil_r, N1; [exact T|]. intros i U. assert (vega_used u = true) by (apply vega_used_iff; eauto). congruence.
  - intros u' i I U. apply in_app_or in I. destruct I as [I|[<-|[]]].
    + destruct (J u' i I U) as (pre' & m0 & m1 & v & last & ms & NI & D & LT & DD & LV & RL & RJ). exists pre', m0, m1, v, last, ms. split; [exact NI|]. split; [exact D|]. split; [exact LT|]. split; [exact DD|]. split; [exact LV|]. split; [|exact RJ]. intro NT. destruct (RL NT) as (c & V1 & V2). specialize (O' (code i)). rewrite V1 in O'. unfold reported_ladder, reported. destruct (st_results t' (code i)) as [c'|]; [|contradiction O'].
      exists c'. split; [reflexivity|]. rewrite <- V2. destruct O' as [_ O']. apply (O' (LadderCell VegaLadder u')). intros [Q' _]. apply NU. congruence.
    + destruct (N3 i U) as (v & last & ms & LT & DD & LV & RL & RJ). exists (List.filter vega_used pre), (st_market t), (st_market t'), v, last, ms. split; [intro Q; apply filter_In in Q; destruct Q; contradiction|]. split; [exact T|]. split; [exact LT|]. split; [exact DD|]. split; [exact LV|]. split; [exact RL|].
      intros j Jl. destruct (RJ j Jl) as [R1 R2]. split; [exact R1|]. intro NS. destruct (R2 NS) as (up & down & Q1 & Q2 & Q3). exists up, down. split; [exact Q1|]. split; [|exact Q3]. destruct Q2 as [Q2|[Q2 Q4]]; [left; exact Q2|right; split; [exact Q2|]].
      apply (only_npv _ _ _ i down O); [|exact Q4]. intros (u0 & i0 & _ & _ & _ & Q'). discriminate Q'.
Qed.
End Underlyings.
