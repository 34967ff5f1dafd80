(** QEngVegaProps.v -- C191: vega by tenor. *)
From Coq Require Import ZArith Arith Ascii String.
From Coq Require Import List Bool Lia Reals Lra.
From Flocq Require Import Core IEEE754.BinarySingleNaN.
From Verif Require Import Base FloatModel FloatFacts KrxModel QDateModel QYearModel QPeriodModel QPeriodSpec QFindModel QInterpModel QInterpSpec QFloatErr QLinProps QDivModel QCurveModel QMoneyModel QBondModel QSwapModel QFutModel QInstModel QInstSpec QInstProps QMatchProps QVolModel QVolSpec QVolProofs QVolBumpProps QEngModel QEngSpec QEngProofs QEngFrame QEngProps QEngDeltaProps QEngBump QEngBumpProps QEngLadder QEngLadderProps QEngVega QCurveSpec.
Import ListNotations.
Open Scope Z_scope.

(** C191: the tenors are counted from the evaluation date.  Underlying by underlying
    the windows of the surface are bumped, the last first, one on top of the other;
    entry [j] of the ladder of an instrument is the change of its price by the window
    [j], for a percent; windows that start after the last maturity get zero, their
    effect if any is in the entry of the tenor below; at the end the whole surface is
    lowered *)
Theorem c191_vega_ladder : forall cx s s', coded (cx_insts cx) -> runs (set_vega_structure cx) s s' -> let b := cf_vega_structure_bump (cx_config cx) in let eval := w_date (mk_world (st_market s)) in let users := fun u i => on_underlying cx ["Cash"; "Stock"; "Futures"]%string i u in
  exists times, Forall2 (fun tenor t => exists d, add_period eval tenor = Ret d /\ get_time_difference eval d = Ret t) (cf_vega_tenors (cx_config cx)) times /\
  (exists us, NoDup us /\ (forall u, In u us <-> exists i, users u i) /\ descents b times us (st_market s) (st_market s')) /\
  only (fun c x => exists u i, users u i /\ c = code i /\ x = LadderCell VegaLadder u) s s' /\
  forall u i, users u i -> exists us m0 m1 v last ms, ~ In u us /\ descents b times us (st_market s) m0 /\ last_time (users u) eval last /\ descent u b times ms m0 m1 /\
    List.length v = List.length times /\ (times <> [] -> reported_ladder s' i VegaLadder u v) /\
    forall j, (j < List.length times)%nat -> (tenor_skipped times last j -> nth_error v j = Some (gof_Z 0)) /\
      (~ tenor_skipped times last j -> exists up down, priced cx (ms j) i up /\ price_before cx s times last ms i j down /\ nth_error v j = Some (slope up down b pct (notional i))).
Proof.
  intros cx s s' C H b eval users. unfold runs, set_vega_structure in H. step H s0 s1 E. apply get_ok in E. destruct E as [-> ->]. fold eval b in H. step H times s1 E. apply total_ok in E. destruct E as [ET ->]. exists times. split.
  { unfold vega_times in ET. apply map_out_forall2 in ET. clear - ET. induction ET as [|te t l r Q ET IH]; constructor; [|exact IH]. destruct (add_period eval te) as [d| |]; cbn [obind] in Q; try discriminate Q. exists d. auto. }
  destruct (all_underlyings_firsts (cx_insts cx)) as [ND NM]. destruct (vegas_ok cx eval b times C _ ND s s' H) as (D & O & R). split; [|split].
  - exists (List.filter (vega_used cx) (all_underlyings (cx_insts cx))). split; [apply NoDup_filter; exact ND|]. split; [|exact D]. intro u. rewrite filter_In, vega_used_iff. split; [intros [_ Q]; exact Q|]. intros (i & U). split; [apply NM; destruct U as (U1 & _ & U2); eauto|exists i; exact U].
  - apply (only_weaken (fun c x => exists u i, In u (all_underlyings (cx_insts cx)) /\ vega_users cx u i /\ c = code i /\ x = LadderCell VegaLadder u)); [intros c x (u & i & _ & Q); exists u, i; exact Q|exact O].
  - intros u i U. assert (IN : In u (all_underlyings (cx_insts cx))) by (apply NM; destruct U as (U1 & _ & U2); eauto). destruct (R u i IN U) as (us & m0 & m1 & v & last & ms & Q1 & Q2 & Q3 & Q4 & Q5). exists us, m0, m1, v, last, ms. auto.
Qed.
Theorem c191_calculated : forall cx s s', cf_vega_structure (cx_config cx) = true -> runs (calculate cx) s s' -> exists s1 s2, runs (set_vega_structure cx) s1 s2 /\ (forall i x, reported_npv s1 i x <-> reported_npv s' i x) /\ (forall i n v, reported_ladder s2 i VegaLadder n v -> reported_ladder s' i VegaLadder n v).
Proof.
  intros cx s s' C H. destruct (calculate_ladders cx s s' H) as (s1 & s2 & s3 & s4 & E2 & E3 & E4 & E5 & A2 & A3 & NP). rewrite C in E2. exists s1, s2. split; [exact E2|]. destruct (frame_ladder VegaLadder _ (keeps_after_vs cx) _ _ _ A2) as [F1 F2]. split; [intros i x; rewrite (NP i x); apply F1|exact F2].
Qed.

(** ** What is left of the surface *)
Lemma bumped_entry : forall u t1 t2 l r b m m' v, vol_bumped u t1 t2 l r b m m' -> mk_vol m u = Some v -> exists v', mk_vol m' u = Some v' /\ su_times (vt_surface v') = su_times (vt_surface v) /\ su_money (vt_surface v') = su_money (vt_surface v) /\
  su_grid (vt_surface v') = bump_grid t1 t2 l r b (su_times (vt_surface v)) (su_money (vt_surface v)) (su_grid (vt_surface v)).
Proof.
  intros u t1 t2 l r b m m' v (v0 & e & o & V & EV & B & P & _) V'. assert (v0 = v) by congruence. subst v0. unfold bump_surface in B. destruct (build_inv _ _ _ B) as (f1 & i1 & _ & _ & _ & Q).
  eexists. split; [rewrite P, String.eqb_refl; reflexivity|]. cbn [vt_surface]. rewrite Q. repeat split.
Qed.
Open Scope R_scope.
(** times of tenors and of the surface, moneynesses *)
Definition in_range (x : f32) : Prop := finite x /\ 0 <= value x <= 2 ^ 10.
Lemma bumped_cell_at : forall t1 t2 b times money grid i j x mo y, in_range mo -> nth_error times i = Some x -> nth_error money j = Some mo -> QVolSpec.cell grid i j = Some y ->
  QVolSpec.cell (bump_grid t1 t2 None None b times money grid) i j = Some (if in_window (from_or t1) (to_or t2) x then gadd y b else y).
Proof.
  intros t1 t2 b times money grid i j x mo y [Fm Rm] Hx Hm Hc. unfold QVolSpec.cell in *. destruct (nth_error grid i) as [row|] eqn:Hr; [|discriminate Hc]. rewrite (bump_nth t1 t2 None None b times money grid i x row Hx Hr). destruct (in_window (from_or t1) (to_or t2) x); [|exact Hc].
  erewrite map_nth_error; [|apply nth_combine; eassumption]. cbn [fst snd]. unfold in_window. rewrite (none_from mo Fm Rm), (none_to mo Fm Rm). reflexivity.
Qed.
Definition past (from : option f32) (x : f32) : bool := glt (gadd (from_or from) vol_eps) x.
Definition hits (x : f32) (w : option f32 * option f32) : bool := in_window (from_or (fst w)) (to_or (snd w)) x.
Fixpoint count {A} (p : A -> bool) (l : list A) : nat := match l with [] => 0%nat | a :: l' => ((if p a then 1 else 0) + count p l')%nat end.
Lemma not_past : forall w x, in_range w -> in_range x -> gle x (gadd w vol_eps) = negb (past (Some w) x).
Proof.
  intros w x [Fw Rw] [Fx Rx]. destruct (nudge w Fw Rw) as (z & Fz & _). unfold past. cbn [from_or]. destruct (Rlt_or_le z (value x)) as [Q|Q].
  - rewrite (proj2 (fin_lt 24 128 _ _ _ _ Fz (conj Fx eq_refl)) Q). cbn [negb]. destruct (gle x (gadd w vol_eps)) eqn:G; [|reflexivity]. apply (fin_le 24 128 _ _ _ _ (conj Fx eq_refl) Fz) in G. fold (value x) in G. lra.
  - rewrite (proj2 (fin_lt_false 24 128 _ _ _ _ Fz (conj Fx eq_refl)) Q). cbn [negb]. apply (fin_le 24 128 _ _ _ _ (conj Fx eq_refl) Fz). exact Q.
Qed.
Lemma past_less : forall a w x, in_range a -> in_range w -> in_range x -> value a <= value w -> past (Some w) x = true -> past (Some a) x = true.
Proof.
  intros a w x [Fa Ra] [Fw Rw] [Fx Rx] L P. unfold past in *. cbn [from_or] in *. destruct eps_value as [Fe Ve].
  assert (N : forall z : f32, finite z -> 0 <= value z <= 2 ^ 10 -> fin 24 128 (gadd z vol_eps) (rnd 24 128 (value z + value vol_eps))).
  { intros z Fz Bz. apply (fin_add 24 128 z vol_eps _ _ (conj Fz eq_refl) (conj Fe eq_refl)). rewrite hug. apply two100_127. fold (value z) (value vol_eps). rewrite Rabs_pos_eq by lra. pose proof pow60_100 as [_ Q]. lra. }
  pose proof (N a Fa Ra) as Na. pose proof (N w Fw Rw) as Nw. apply (fin_lt 24 128 _ _ _ _ Nw (conj Fx eq_refl)) in P. apply (fin_lt 24 128 _ _ _ _ Na (conj Fx eq_refl)). pose proof (rnd_le 24 128 (value a + value vol_eps) (value w + value vol_eps) ltac:(lra)). lra.
Qed.
Lemma last_cons : forall A (ws : list A) w1 w0, last (w1 :: ws) w0 = last ws w1.
Proof. intros A ws. induction ws as [|y l IH]; intros w1 w0; [reflexivity|]. change (last (y :: l) w0 = last (y :: l) w1). rewrite (IH y w0), (IH y w1). reflexivity. Qed.
Lemma last_nth : forall A (ws : list A) w, nth_error (w :: ws) (List.length ws) = Some (last ws w).
Proof. intros A ws. induction ws as [|y l IH]; intro w; [reflexivity|]. rewrite last_cons. exact (IH y). Qed.
Definition not_falling (ws : list f32) : Prop := forall i j a w, (i <= j)%nat -> nth_error ws i = Some a -> nth_error ws j = Some w -> value a <= value w.
Lemma one_hit : forall x, in_range x -> forall ws w0 from, Forall in_range (w0 :: ws) -> not_falling (w0 :: ws) -> (past (Some w0) x = true -> past from x = true) -> count (hits x) (windows from (w0 :: ws)) = if past from x && negb (past (Some (last ws w0)) x) then 1%nat else 0%nat.
Proof.
  intros x Rx. induction ws as [|w1 ws IH]; intros w0 from F S P.
  - inversion F as [|? ? R0 _]; subst. cbn [windows count last]. unfold hits, in_window. cbn [fst snd]. change (glt (gadd (from_or from) vol_eps) x) with (past from x). cbn [to_or]. rewrite (not_past w0 x R0 Rx). destruct (past from x && negb (past (Some w0) x)); reflexivity.
  - inversion F as [|? ? R0 F1]; subst. inversion F1 as [|? ? R1 F2]; subst. assert (S1 : not_falling (w1 :: ws)) by (intros i j a w I A B; apply (S (Datatypes.S i) (Datatypes.S j) a w); [lia|exact A|exact B]).
    assert (P1 : past (Some w1) x = true -> past (Some w0) x = true) by (apply past_less; try assumption; exact (S 0%nat 1%nat w0 w1 ltac:(lia) eq_refl eq_refl)).
    change (windows from (w0 :: w1 :: ws)) with ((from, Some w0) :: windows (Some w0) (w1 :: ws)). cbn [count]. rewrite (IH w1 (Some w0) F1 S1 P1), last_cons.
    unfold hits at 1, in_window. cbn [fst snd]. change (glt (gadd (from_or from) vol_eps) x) with (past from x). cbn [to_or]. rewrite (not_past w0 x R0 Rx).
    assert (PL : past (Some (last ws w1)) x = true -> past (Some w0) x = true).
    { intro Q. apply P1. apply (past_less w1 (last ws w1) x R1); [|exact Rx| |exact Q].
      - rewrite List.Forall_forall in F1. apply F1. exact (nth_error_In _ _ (last_nth _ ws w1)).
      - exact (S1 0%nat _ w1 _ ltac:(lia) eq_refl (last_nth _ ws w1)). }
    destruct (past from x), (past (Some w0) x), (past (Some (last ws w1)) x); cbn in *; try reflexivity; try (specialize (P eq_refl); discriminate P); try (specialize (PL eq_refl); discriminate PL).
Qed.

(** the entry of [u] while its windows are bumped, the last first *)
Lemma going_down : forall u b times ms m m' v, descent u b times ms m m' -> mk_vol m u = Some v -> forall d, (d <= List.length times)%nat -> exists vd, mk_vol (ms (List.length times - d)%nat) u = Some vd /\
  su_times (vt_surface vd) = su_times (vt_surface v) /\ su_money (vt_surface vd) = su_money (vt_surface v) /\
  forall i j x mo y, in_range mo -> nth_error (su_times (vt_surface v)) i = Some x -> nth_error (su_money (vt_surface v)) j = Some mo -> QVolSpec.cell (su_grid (vt_surface v)) i j = Some y ->
    QVolSpec.cell (su_grid (vt_surface vd)) i j = Some (Nat.iter (count (hits x) (skipn (List.length times - d) (windows None times))) (fun z => gadd z b) y).
Proof.
  intros u b times ms m m' v (D0 & DS & _) V d. induction d as [|d IH]; intro L.
  - rewrite Nat.sub_0_r, D0. exists v. do 3 (split; [try exact V; reflexivity|]). intros i j x mo y _ _ _ C. rewrite skipn_all2 by (rewrite windows_len; lia). exact C.
  - destruct (IH ltac:(lia)) as (vd & Vd & Td & Md & Cd). set (n := List.length times) in *. remember (n - Datatypes.S d)%nat as k eqn:Ek. assert (Es : (n - d = Datatypes.S k)%nat) by lia. rewrite Es in Vd, Cd.
    destruct (nth_error (windows None times) k) as [[start stop]|] eqn:W. 2:{ apply nth_error_None in W. rewrite windows_len in W. fold n in W. lia. }
    destruct (bumped_entry _ _ _ _ _ _ _ _ _ (DS k start stop W) Vd) as (v' & V' & T' & M' & G'). exists v'. split; [exact V'|]. split; [congruence|]. split; [congruence|].
    intros i j x mo y Rm Hx Hm C. specialize (Cd i j x mo y Rm Hx Hm C). rewrite G', Td, Md. rewrite (bumped_cell_at start stop b _ _ _ i j x mo _ Rm Hx Hm Cd).
    assert (SK : skipn k (windows None times) = (start, stop) :: skipn (Datatypes.S k) (windows None times)). { clear - W. revert k W. generalize (windows None times). intro l. induction l as [|a l IH]; intros [|k] W; try discriminate W; [cbn in W; injection W as ->; reflexivity|]. exact (IH k W). }
    rewrite SK. cbn [count]. change (hits x (start, stop)) with (in_window (from_or start) (to_or stop) x). destruct (in_window (from_or start) (to_or stop) x); reflexivity.
Qed.
(** a cell of the surface of [u] before and after: it is raised at most once, if its
    time is at most the last tenor, but lowered always *)
Theorem c191_left : forall u b times w ms m m' v i j x mo y, descent u b (w :: times) ms m m' -> mk_vol m u = Some v ->
  Forall in_range (w :: times) -> not_falling (w :: times) -> in_range x -> in_range mo -> nth_error (su_times (vt_surface v)) i = Some x -> nth_error (su_money (vt_surface v)) j = Some mo -> QVolSpec.cell (su_grid (vt_surface v)) i j = Some y ->
  exists v', mk_vol m' u = Some v' /\ su_times (vt_surface v') = su_times (vt_surface v) /\ su_money (vt_surface v') = su_money (vt_surface v) /\
    QVolSpec.cell (su_grid (vt_surface v')) i j = Some (if gle x (gadd (last times w) vol_eps) then gadd (gadd y b) (gneg b) else gadd y (gneg b)).
Proof.
  intros u b times w ms m m' v i j x mo y D V F S Rx Rm Hx Hm C. destruct (going_down _ _ _ _ _ _ _ D V (List.length (w :: times)) (le_n _)) as (v0 & V0 & T0 & M0 & C0). rewrite Nat.sub_diag in V0, C0. destruct D as (_ & _ & DE).
  destruct (bumped_entry _ _ _ _ _ _ _ _ _ DE V0) as (v' & V' & T' & M' & G'). exists v'. split; [exact V'|]. split; [congruence|]. split; [congruence|]. specialize (C0 i j x mo y Rm Hx Hm C). cbn [skipn] in C0.
  assert (N : past None x = true) by (unfold past; apply none_from; [exact (proj1 Rx)|exact (proj2 Rx)]). assert (RL : in_range (last times w)) by (rewrite List.Forall_forall in F; apply F; exact (nth_error_In _ _ (last_nth _ times w))).
  rewrite (one_hit x Rx times w None F S (fun _ => N)), N in C0. rewrite (not_past (last times w) x RL Rx). rewrite G', T0, M0, (bumped_cell_at None None (gneg b) _ _ _ i j x mo _ Rm Hx Hm C0).
  unfold in_window. rewrite (none_from x (proj1 Rx) (proj2 Rx)), (none_to x (proj1 Rx) (proj2 Rx)). cbn [andb]. destruct (negb (past (Some (last times w)) x)); reflexivity.
Qed.

(** ** Examples *)
(** the option of day 19900 looks at the volatility of one year: the second window is
    skipped, but its effect shows in the first entry, 64 percent.  The surface of 1/4
    has tenors of one and two years; the second row is only lowered *)
Definition ex_vegas : config := Config true false false false false false false false true false false false tiny_bump tiny_bump tiny_bump tiny_bump tiny_bump tiny_bump tiny_bump 1 [] [str "6M"; str "1Y"] [] [].
Definition ex_vegas_cx : context := Context [ex_opt "O1" 64] (fun _ => Some ex_sum_pricer) (cx_match ex_full_cx) ex_vegas ["O1"]%string ["a"]%string (fun l => l) (fun l => l) rise.
Definition ex_start : state := match with_instruments ex_full (cx_insts ex_vegas_cx) with ROk s => s | RErr => State ex_full (fun _ => None) [] end.
Definition grid_cell (m : market) (i j : nat) : option f32 := match mk_vol m "a" with Some v => QVolSpec.cell (su_grid (vt_surface v)) i j | None => None end.
Definition same_at (x : option f32) (n d : Z) : bool := match x with Some v => geq v (gdiv (gof_Z n) (gof_Z d)) | None => false end.
Definition vegas_check (s : state) : bool :=
  match st_results s "O1" with
  | Some c => match ca_ladder c VegaLadder "a" with Some [v0; v1] => near_to (Some v0) 640 1000 && geq v1 (gof_Z 0) | _ => false end
  | None => false
  end && same_at (grid_cell (st_market s) 0 0) 16 64 && same_at (grid_cell (st_market s) 1 0) 15 64.
Example c191_hypotheses_met : exists s s', with_instruments ex_full (cx_insts ex_vegas_cx) = ROk s /\ coded (cx_insts ex_vegas_cx) /\ runs (calculate ex_vegas_cx) s s' /\ on_underlying ex_vegas_cx ["Cash"; "Stock"; "Futures"]%string (ex_opt "O1" 64) "a" /\ vegas_check s' = true.
Proof.
  exists ex_start. destruct (ends_well_ok (calculate ex_vegas_cx ex_start) vegas_check) as (s' & R & T); [vm_compute; reflexivity|]. exists s'. split; [reflexivity|]. split; [apply coded_nodup; repeat constructor; intros []|]. split; [exact R|]. split; [|exact T].
  split; [left; reflexivity|]. split; [cbn; intuition discriminate|left; reflexivity].
Qed.
Definition in_rangeb (x : f32) : bool := is_finite x && gle (gof_Z 0) x && gle x (gof_Z 1024).
Lemma in_rangeb_ok : forall x, in_rangeb x = true -> in_range x.
Proof.
  intros x H. apply andb_prop in H. destruct H as [H H2]. apply andb_prop in H. destruct H as [Fx H1]. pose proof (small_fin 0 ltac:(apply Z.leb_le; reflexivity)) as Z0. pose proof (small_fin 1024 ltac:(apply Z.leb_le; reflexivity)) as Z1.
  apply (fin_le 24 128 _ _ _ _ Z0 (conj Fx eq_refl)) in H1. apply (fin_le 24 128 _ _ _ _ (conj Fx eq_refl) Z1) in H2. split; [exact Fx|]. fold (value x) in H1, H2. lra.
Qed.
Definition two_tenors : list f32 := [gdiv (gof_Z 1) (gof_Z 2); gof_Z 1].
Example c191_left_met : Forall in_range two_tenors /\ not_falling two_tenors /\ (exists v x mo y, mk_vol ex_full "a" = Some v /\ nth_error (su_times (vt_surface v)) 1 = Some x /\ in_range x /\ nth_error (su_money (vt_surface v)) 0 = Some mo /\ in_range mo /\ QVolSpec.cell (su_grid (vt_surface v)) 1 0 = Some y).
Proof.
  assert (R : Forall in_range two_tenors) by (apply List.Forall_forall; intros x [<-|[<-|[]]]; apply in_rangeb_ok; vm_compute; reflexivity). split; [exact R|]. split.
  - assert (L : value (gdiv (gof_Z 1) (gof_Z 2)) <= value (gof_Z 1)). { inversion R as [|? ? [F1 _] R']; subst. inversion R' as [|? ? [F2 _] _]; subst. apply (fin_le 24 128 _ _ _ _ (conj F1 eq_refl) (conj F2 eq_refl)). vm_compute. reflexivity. }
    intros i j a w I A B. destruct i as [|[|i]]; destruct j as [|[|j]]; try lia; unfold two_tenors in *; cbn [nth_error] in A, B; try (apply some_inj in A; apply some_inj in B; subst; lra); try (destruct i; discriminate A); destruct j; discriminate B.
  - destruct (mk_vol ex_full "a") as [v|] eqn:V; [|discriminate V]. assert (C : match mk_vol ex_full "a" with Some v => match nth_error (su_times (vt_surface v)) 1, nth_error (su_money (vt_surface v)) 0, QVolSpec.cell (su_grid (vt_surface v)) 1 0 with Some x, Some mo, Some _ => in_rangeb x && in_rangeb mo | _, _, _ => false end | None => false end = true) by (vm_compute; reflexivity).
    rewrite V in C. destruct (nth_error (su_times (vt_surface v)) 1) as [x|] eqn:X; [|discriminate C]. destruct (nth_error (su_money (vt_surface v)) 0) as [mo|] eqn:Mo; [|discriminate C]. destruct (QVolSpec.cell (su_grid (vt_surface v)) 1 0) as [y|] eqn:Y; [|discriminate C].
    apply andb_prop in C. destruct C as [C1 C2]. exists v, x, mo, y. auto 10 using in_rangeb_ok.
Qed.
(** the volatilities after the last tenor are not those from before *)
Theorem c191_restored_refuted : exists cx m s s' v v' y y', with_instruments m (cx_insts cx) = ROk s /\ runs (calculate cx) s s' /\ mk_vol m "a" = Some v /\ mk_vol (st_market s') "a" = Some v' /\ QVolSpec.cell (su_grid (vt_surface v)) 1 0 = Some y /\ QVolSpec.cell (su_grid (vt_surface v')) 1 0 = Some y' /\
  geq y (gdiv (gof_Z 16) (gof_Z 64)) = true /\ geq y' (gdiv (gof_Z 15) (gof_Z 64)) = true.
Proof.
  exists ex_vegas_cx, ex_full, ex_start. destruct (ends_well_ok (calculate ex_vegas_cx ex_start) vegas_check) as (s' & R & T); [vm_compute; reflexivity|]. exists s'. apply andb_prop in T. destruct T as [_ T]. assert (T0 : same_at (grid_cell ex_full 1 0) 16 64 = true) by (vm_compute; reflexivity). unfold grid_cell in T, T0.
  destruct (mk_vol ex_full "a") as [v|]; [|discriminate T0]. destruct (mk_vol (st_market s') "a") as [v'|]; [|discriminate T]. unfold same_at in T, T0. destruct (QVolSpec.cell (su_grid (vt_surface v)) 1 0) as [y|] eqn:Y; [|discriminate T0]. destruct (QVolSpec.cell (su_grid (vt_surface v')) 1 0) as [y'|] eqn:Y'; [|discriminate T].
  exists v, v', y, y'. do 4 (split; [try exact R; reflexivity|]). auto.
Qed.

Print Assumptions c191_vega_ladder.
Print Assumptions c191_calculated.
Print Assumptions c191_left.
Print Assumptions c191_restored_refuted.
