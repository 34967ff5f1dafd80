(** QLoadProps.v -- C196, C197: what an engine has after loading, and what it lacks when
    it fails. *)
From Coq Require Import ZArith Ascii String.
From Coq Require Import List Bool Lia Permutation.
From Flocq Require Import Core IEEE754.BinarySingleNaN.
From Verif Require Import Base FloatModel KrxModel QDateModel QInterpModel QDivModel QCurveModel QMoneyModel QBondModel QSwapModel QFutModel QInstModel QInstSpec QInstProps QMatchProps QVolModel QEngModel QEngSpec QLoadModel QLoadSpec QLoadProofs.
Import ListNotations.
Open Scope Z_scope.

Section Loaded.
Context (f_exp : f32 -> f32) (eval : odt) (d : data) (mp : match_parameter) (k : stickyness) (tenors : list (list ascii)) (money : list f32) (shuffle : list nat -> list nat) (is : list instrument).
Let load : outcome (rresult loaded) := with_parameter_data f_exp eval d mp k tenors money shuffle is.

Lemma in_firsts : forall A (f : instrument -> list A) r, firsts (flat_map f is) r -> forall x, In x r <-> exists i, In i is /\ In x (f i).
Proof. intros A f r F x. rewrite (firsts_in _ _ _ F). apply in_flat_map. Qed.
Lemma und_in : forall u, In u (all_underlyings is) <-> asked is u.
Proof. apply in_firsts, c169_underlyings. Qed.

(** the steps of loading that went well *)
Definition steps (l : loaded) fxs names curves1 divs curves2 prices vols fx_vols quantos : Prop :=
  entries (fun x => Ret (market_fx (da_fx d) x)) (all_fx_codes is) = Ret (ROk fxs) /\ all_curve_names mp is = ROk names /\ entries (make_curve f_exp eval d) names = Ret (ROk curves1) /\
  make_dividends eval d (all_underlyings is) = Ret (ROk divs) /\ entries (make_curve f_exp eval d) (all_underlyings is) = Ret (ROk curves2) /\
  entries (make_equity eval d divs) (all_underlyings is) = Ret (ROk prices) /\
  entries (make_vol eval d mp k tenors money (mk_curve (ld_market l)) prices divs) (all_vol_underlyings is) = Ret (ROk vols) /\
  entries (make_fx_vol d) (fold_left (push_new fx_eqb) (map snd (all_quanto_pairs is)) []) = Ret (ROk fx_vols) /\ entries (make_quanto d fx_vols) (all_quanto_pairs is) = Ret (ROk quantos) /\
  mk_curve (ld_market l) = (fun n => match entry_at String.eqb curves2 n with Some c => Some c | None => entry_at String.eqb curves1 n end) /\
  mk_world (ld_market l) = World eval (map (fun x => MarketPrice (snd x) eval None) fxs ++ map snd prices) (map snd divs)
               (shuffle (seq 0 (List.length fxs)) ++ shuffle (seq (List.length fxs) (List.length prices))) (shuffle (seq 0 (List.length divs))) /\
  mk_equity (ld_market l) = (fun u => option_map (Nat.add (List.length fxs)) (place String.eqb prices u)) /\ mk_dividend (ld_market l) = place String.eqb divs /\ mk_vol (ld_market l) = entry_at String.eqb vols /\
  ld_fx l = place fx_eqb fxs /\ ld_quanto l = entry_at pair_eqb quantos /\ ld_past l = da_past d.
Lemma load_ok : forall l, load = Ret (ROk l) -> exists fxs names curves1 divs curves2 prices vols fx_vols quantos, steps l fxs names curves1 divs curves2 prices vols fx_vols quantos.
Proof.
  intros l H. unfold load, with_parameter_data in H.
  apply rbind_ok in H. destruct H as (fxs & E1 & H). apply rbind_ok in H. destruct H as (names & E2 & H). apply rbind_ok in H. destruct H as (curves1 & E3 & H). apply rbind_ok in H. destruct H as (divs & E4 & H).
  apply rbind_ok in H. destruct H as (curves2 & E5 & H). apply rbind_ok in H. destruct H as (prices & E6 & H). apply rbind_ok in H. destruct H as (vols & E7 & H). apply rbind_ok in H. destruct H as (fx_vols & E8 & H).
  apply rbind_ok in H. destruct H as (quantos & E9 & H). injection H as <-. exists fxs, names, curves1, divs, curves2, prices, vols, fx_vols, quantos. unfold steps. cbn [ld_market ld_fx ld_quanto ld_past mk_curve mk_world mk_equity mk_dividend mk_vol].
  injection E2 as E2. repeat (split; [first [exact E1|exact E2|exact E3|exact E4|exact E5|exact E6|exact E7|exact E8|exact E9|reflexivity]|]). reflexivity.
Qed.

(** C196: the price of an underlying is that of the data, of the evaluation date and with
    the dividend of the data if there is one; no other underlying has a price *)
Theorem c196_prices : forall l, load = Ret (ROk l) -> let m := ld_market l in w_date (mk_world m) = eval /\
  (forall u, asked is u -> exists v p, da_stock d u = Some v /\ equity m u = Some p /\ mp_value p = v /\ mp_dt p = eval /\ mp_div p = mk_dividend m u) /\
  (forall u, ~ asked is u -> mk_equity m u = None) /\ (forall u v j, mk_equity m u = Some j -> mk_equity m v = Some j -> u = v).
Proof.
  intros l H m. destruct (load_ok l H) as (fxs & names & curves1 & divs & curves2 & prices & vols & fx_vols & quantos & E1 & E2 & E3 & E4 & E5 & E6 & E7 & E8 & E9 & MC & MW & ME & MD & _).
  unfold equity. subst m. rewrite MW, ME, MD. cbn [w_date w_prices]. split; [reflexivity|]. destruct (entries_ok _ _ _ string_decides _ _ _ E6) as (KF & R & T & _). split; [|split].
  - intros u U. apply und_in in U. destruct (T u U) as [p P]. destruct (R u p P) as [_ F]. unfold make_equity in F. destruct (da_stock d u) as [v|]; [|discriminate F]. injection F as <-.
    destruct (place_some _ _ _ _ _ _ P) as (j & J & N). rewrite J. cbn [option_map]. exists v, (MarketPrice v eval (place String.eqb divs u)). split; [reflexivity|]. split; [|cbn; auto].
    rewrite nth_error_app2 by (rewrite map_length; lia). rewrite map_length. replace (List.length fxs + j - List.length fxs)%nat with j by lia. rewrite nth_error_map. destruct (nth_error prices j) as [[a b]|]; cbn [option_map snd] in *; congruence.
  - intros u U. pose proof (place_at _ _ String.eqb prices u) as P. destruct (place String.eqb prices u) as [j|] eqn:PL; [|reflexivity]. exfalso. apply U, und_in.
    destruct (place_key _ _ _ string_decides prices u j PL) as [v V]. rewrite <- KF. apply in_map_iff. exists (u, v). split; [reflexivity|]. eapply nth_error_In. exact V.
  - intros u v j U V. destruct (place String.eqb prices u) as [a|] eqn:A; [|discriminate U]. destruct (place String.eqb prices v) as [b|] eqn:B; [|discriminate V]. cbn [option_map] in U, V. injection U as U. injection V as V.
    apply (place_inj _ _ _ string_decides prices u v a A). rewrite B. f_equal. lia.
Qed.
(** the dividends: those underlyings that have data have one, made from them and the
    price, and no two share it *)
Theorem c196_dividends : forall l, load = Ret (ROk l) -> let m := ld_market l in
  (forall u, asked is u -> da_div d u <> None -> exists j x, mk_dividend m u = Some j /\ nth_error (w_dividends (mk_world m)) j = Some x /\ div_from eval d u x) /\
  (forall u, ~ asked is u \/ da_div d u = None -> mk_dividend m u = None) /\ divs_apart m.
Proof.
  intros l H m. destruct (load_ok l H) as (fxs & names & curves1 & divs & curves2 & prices & vols & fx_vols & quantos & E1 & E2 & E3 & E4 & E5 & E6 & E7 & E8 & E9 & MC & MW & ME & MD & _).
  unfold divs_apart. subst m. rewrite MW, MD. cbn [w_dividends]. destruct (divs_ok eval d _ _ E4 (firsts_nodup _ _ _ (c169_underlyings is))) as [ND B].
  assert (G : forall u, asked is u \/ ~ asked is u) by (intro u; rewrite <- und_in; destruct (in_dec string_dec u (all_underlyings is)); auto).
  split; [|split].
  - intros u U D. destruct (B u) as [B1 B2]. destruct (entry_at String.eqb divs u) as [x|] eqn:X.
    + destruct (place_some _ _ _ _ _ _ X) as (j & J & N). exists j, x. split; [exact J|]. split; [rewrite nth_error_map; exact N|]. apply B1. reflexivity.
    + destruct (proj1 B2 eq_refl) as [Q|Q]; [exfalso; apply Q, und_in; exact U|contradiction].
  - intros u U. destruct (B u) as [_ B2]. pose proof (place_at _ _ String.eqb divs u) as P. destruct (place String.eqb divs u) as [j|] eqn:J; [|reflexivity]. destruct (place_key _ _ _ string_decides divs u j J) as [v V].
    assert (X : entry_at String.eqb divs u = None) by (apply B2; destruct U as [U|U]; [left; rewrite und_in; exact U|right; exact U]). apply (entry_none _ _ _ string_decides) in X. exfalso. apply X. apply in_map_iff. exists (u, v). split; [reflexivity|]. eapply nth_error_In. exact V.
  - intros u v j U V. exact (place_inj _ _ _ string_decides divs u v j U V).
Qed.
(** the curves: for each name that is asked for, the one its data make *)
Theorem c196_curves : forall l, load = Ret (ROk l) -> forall n,
  (curve_asked is mp n -> exists c, mk_curve (ld_market l) n = Some c) /\ forall c, mk_curve (ld_market l) n = Some c <-> curve_asked is mp n /\ curve_from f_exp eval d n c.
Proof.
  intros l H n. destruct (load_ok l H) as (fxs & names & curves1 & divs & curves2 & prices & vols & fx_vols & quantos & E1 & E2 & E3 & E4 & E5 & E6 & E7 & E8 & E9 & MC & _).
  rewrite MC. destruct (entries_ok _ _ _ string_decides _ _ _ E3) as (_ & R1 & T1 & Q1). destruct (entries_ok _ _ _ string_decides _ _ _ E5) as (KF & R2 & T2 & Q2).
  pose proof (c173_names mp is) as N. rewrite E2 in N. destruct N as (_ & ND & _ & N).
  assert (F : forall c, make_curve f_exp eval d n = Ret (ROk c) <-> curve_from f_exp eval d n c).
  { intro c. unfold make_curve, curve_from. destruct (da_curve d n) as [v|]; (split; [intro Q; try discriminate Q; exists v; auto|intros (v' & V & Q); congruence]). }
  assert (A : curve_asked is mp n <-> In n (all_underlyings is) \/ In n names).
  { unfold curve_asked. rewrite und_in. destruct (string_dec n dummy) as [->|NE]; [split; [intros [Q|[Q _]]; [auto|congruence]|intros [Q|Q]; [auto|contradiction]]|]. rewrite (N n NE). tauto. }
  destruct (entry_at String.eqb curves2 n) as [c2|] eqn:X.
  - destruct (R2 n c2 X) as [I2 F2]. split; [intros _; exists c2; reflexivity|]. intro c. specialize (F c). split; [intro Q; apply some_inj in Q; subst c; tauto|]. intros [_ Q]. apply F in Q. congruence.
  - assert (NI : ~ In n (all_underlyings is)) by (intro I; destruct (T2 n I); congruence). split.
    + intro I. apply A in I. destruct I as [I|I]; [contradiction|]. exact (T1 n I).
    + intro c. specialize (F c). split; [intro Q; destruct (R1 n c Q); tauto|]. intros [I Q]. apply A in I. destruct I as [I|I]; [contradiction|]. apply Q1; [exact I|apply F; exact Q].
Qed.
(** the rates of exchange *)
Theorem c196_rates : forall l, load = Ret (ROk l) -> forall x, fx_asked is x -> exists r j, market_fx (da_fx d) x = ROk r /\ ld_fx l x = Some j /\ nth_error (w_prices (mk_world (ld_market l))) j = Some (MarketPrice r eval None).
Proof.
  intros l H x A. destruct (load_ok l H) as (fxs & names & curves1 & divs & curves2 & prices & vols & fx_vols & quantos & E1 & E2 & E3 & E4 & E5 & E6 & E7 & E8 & E9 & MC & MW & ME & MD & MV & LF & _).
  rewrite MW, LF. destruct (entries_ok _ _ _ fx_decides _ _ _ E1) as (_ & R & T & _). assert (I : In x (all_fx_codes is)) by (apply (in_firsts _ _ _ (c169_fx_codes is)); exact A).
  destruct (T x I) as [r X]. destruct (R x r X) as [_ F]. injection F as F. destruct (place_some _ _ _ _ _ _ X) as (j & J & N). exists r, j. split; [exact F|]. split; [exact J|]. cbn [w_prices].
  destruct (nth_error fxs j) as [[a b]|] eqn:NJ; [|discriminate N]. cbn in N. injection N as ->. rewrite nth_error_app1 by (rewrite map_length; apply nth_error_Some; congruence). rewrite nth_error_map, NJ. reflexivity.
Qed.
(** the surfaces, each with the market it was built in *)
Theorem c196_surfaces : forall l, load = Ret (ROk l) -> let m := ld_market l in
  (forall u, vol_asked is u -> exists v e, mk_vol m u = Some v /\ mp_collateral mp u = Some (vt_coll v) /\ mp_borrowing mp u = Some (vt_borrow v) /\ env_of m u v = Some e /\ vol_from d e k tenors money u (vt_surface v)) /\
  (forall u, ~ vol_asked is u -> mk_vol m u = None).
Proof.
  intros l H m. pose proof (c196_prices l H) as (WD & PR & _). destruct (load_ok l H) as (fxs & names & curves1 & divs & curves2 & prices & vols & fx_vols & quantos & E1 & E2 & E3 & E4 & E5 & E6 & E7 & E8 & E9 & MC & MW & ME & MD & MV & _).
  destruct (entries_ok _ _ _ string_decides _ _ _ E7) as (KF & R & T & _). fold m in E7, R, MC, MW, ME, MD, MV, WD, PR. split.
  - intros u A. assert (I : In u (all_vol_underlyings is)) by (apply (in_firsts _ _ _ (c169_vol_underlyings is)); exact A).
    assert (AU : asked is u). { destruct A as (i & II & U). exists i. split; [exact II|]. unfold vol_underlyings in U. unfold underlyings. destruct (in_kind i); try destruct U. - left. assumption. - destruct H0. }
    destruct (T u I) as [v X]. destruct (R u v X) as [_ F]. rewrite MV. exists v. unfold make_vol in F.
    destruct (PR u AU) as (sp & p & SP & EQ & PV & PD & PM).
    assert (F' : match entry_at String.eqb prices u with
      | None => Ret RErr
      | Some p => match mp_collateral mp u with None => Ret RErr | Some nc => match mk_curve m nc with None => Ret RErr | Some cc => match mp_borrowing mp u with None => Ret RErr | Some nb => match mk_curve m nb with None => Ret RErr | Some cb =>
          let e := VolEnv eval cc cb (mp_value p) (entry_at String.eqb divs u) in
          let? s := match da_const_vol d u, da_surface d u with Some v, _ => with_constant_volatility e k v tenors money | None, Some v => with_market_surface e k v tenors money | None, None => Ret RErr end in
          let? s' := vol_build e s in Ret (ROk (VolEntry s' nc nb)) end end end end end = Ret (ROk v)) by (destruct (da_const_vol d u); [exact F|]; destruct (da_surface d u); [exact F|discriminate F]). clear F.
    destruct (entry_at String.eqb prices u) as [q|] eqn:PQ; [|discriminate F']. destruct (mp_collateral mp u) as [nc|]; [|discriminate F']. destruct (mk_curve m nc) as [cc|] eqn:CC; [|discriminate F']. destruct (mp_borrowing mp u) as [nb|]; [|discriminate F']. destruct (mk_curve m nb) as [cb|] eqn:CB; [|discriminate F'].
    cbv zeta in F'. apply rbind_ok in F'. destruct F' as (s & F1 & F'). apply rbind_ok in F'. destruct F' as (s' & F2 & F'). injection F' as <-.
    exists (VolEnv eval cc cb (mp_value q) (entry_at String.eqb divs u)). split; [exact X|]. split; [reflexivity|]. split; [reflexivity|]. cbn [vt_coll vt_borrow vt_surface]. split.
    + unfold env_of. cbn [vt_coll vt_borrow]. rewrite CC, CB, EQ, WD. assert (q = p /\ entry_at String.eqb divs u = match mp_div p with Some j => nth_error (w_dividends (mk_world m)) j | None => None end) as [-> ->]; [|reflexivity].
      destruct (place_some _ _ _ _ _ _ PQ) as (j & J & N). unfold equity in EQ. rewrite ME, J, MW in EQ. cbn [option_map w_prices] in EQ. rewrite nth_error_app2 in EQ by (rewrite map_length; lia). rewrite map_length in EQ. replace (List.length fxs + j - List.length fxs)%nat with j in EQ by lia. rewrite nth_error_map in EQ.
      split; [congruence|]. rewrite PM, MD, MW. cbn [w_dividends]. pose proof (place_at _ _ String.eqb divs u) as P. destruct (place String.eqb divs u) as [jd|]; [|exact P]. destruct P as [P _]. rewrite nth_error_map. exact P.
    + exists s. split; [exact F2|]. destruct (da_const_vol d u); [exact F1|]. destruct (da_surface d u) as [sf|]; [exists sf; auto|discriminate F1].
  - intros u A. rewrite MV. apply (entry_none _ _ _ string_decides). rewrite KF. intro I. apply A. apply (in_firsts _ _ _ (c169_vol_underlyings is)) in I. exact I.
Qed.
(** the data of quanto options, and the past *)
Theorem c196_quantos : forall l, load = Ret (ROk l) -> (forall p, pair_asked is p -> exists v c, da_fx_vol d (snd p) = Some v /\ da_corr d p = Some c /\ ld_quanto l p = Some (Quanto (constant_vol v) c)) /\ (forall p, ~ pair_asked is p -> ld_quanto l p = None) /\ ld_past l = da_past d.
Proof.
  intros l H. destruct (load_ok l H) as (fxs & names & curves1 & divs & curves2 & prices & vols & fx_vols & quantos & E1 & E2 & E3 & E4 & E5 & E6 & E7 & E8 & E9 & MC & MW & ME & MD & MV & LF & LQ & LP).
  rewrite LQ. destruct (entries_ok _ _ _ pair_decides _ _ _ E9) as (KF & R & T & _). destruct (entries_ok _ _ _ fx_decides _ _ _ E8) as (_ & R8 & _ & _). split; [|split; [|exact LP]].
  - intros p A. assert (I : In p (all_quanto_pairs is)) by (apply (in_firsts _ _ _ (c169_quanto_pairs is)); exact A). destruct (T p I) as [q X]. destruct (R p q X) as [_ F]. unfold make_quanto in F.
    destruct (da_corr d p) as [c|]; [|discriminate F]. destruct (entry_at fx_eqb fx_vols (snd p)) as [v|] eqn:V; [|discriminate F]. injection F as <-. destruct (R8 _ _ V) as [_ FV]. unfold make_fx_vol in FV. destruct (da_fx_vol d (snd p)) as [w|]; [|discriminate FV]. injection FV as <-. exists w, c. auto.
  - intros p A. apply (entry_none _ _ _ pair_decides). rewrite KF. intro I. apply A. apply (in_firsts _ _ _ (c169_quanto_pairs is)) in I. exact I.
Qed.
(** every price and every dividend follows the evaluation date, each once *)
Theorem c196_observed : (forall l, Permutation (shuffle l) l) -> forall l, load = Ret (ROk l) -> let w := mk_world (ld_market l) in
  Permutation (w_pobs w) (seq 0 (List.length (w_prices w))) /\ Permutation (w_dobs w) (seq 0 (List.length (w_dividends w))).
Proof.
  intros S l H w. destruct (load_ok l H) as (fxs & names & curves1 & divs & curves2 & prices & vols & fx_vols & quantos & E1 & E2 & E3 & E4 & E5 & E6 & E7 & E8 & E9 & MC & MW & _).
  subst w. rewrite MW. cbn [w_pobs w_dobs w_prices w_dividends]. rewrite app_length, !map_length, seq_app. split; [apply Permutation_app; apply S|apply S].
Qed.

(** the parts a surface is built from *)
Lemma built_ok : forall divs curves1 curves2 prices, make_dividends eval d (all_underlyings is) = Ret (ROk divs) -> entries (make_equity eval d divs) (all_underlyings is) = Ret (ROk prices) ->
  (forall n c, match entry_at String.eqb curves2 n with Some c => Some c | None => entry_at String.eqb curves1 n end = Some c -> curve_from f_exp eval d n c) -> forall u p cc cb nc nb, entry_at String.eqb prices u = Some p ->
  mp_collateral mp u = Some nc -> mp_borrowing mp u = Some nb -> match entry_at String.eqb curves2 nc with Some c => Some c | None => entry_at String.eqb curves1 nc end = Some cc -> match entry_at String.eqb curves2 nb with Some c => Some c | None => entry_at String.eqb curves1 nb end = Some cb ->
  built_in mp f_exp eval d u (VolEnv eval cc cb (mp_value p) (entry_at String.eqb divs u)).
Proof.
  intros divs curves1 curves2 prices E4 E6 CF u p cc cb nc nb P NC NB CC CB. destruct (entries_ok _ _ _ string_decides _ _ _ E6) as (_ & R & _ & _). destruct (R u p P) as [I F].
  destruct (divs_ok eval d _ _ E4 (firsts_nodup _ _ _ (c169_underlyings is))) as [_ B]. destruct (B u) as [B1 B2].
  exists nc, nb. cbn [ve_eval ve_coll ve_borrow ve_price ve_div]. do 3 (split; [first [exact NC|exact NB|reflexivity]|]). split; [exact (CF _ _ CC)|]. split; [exact (CF _ _ CB)|].
  unfold make_equity in F. destruct (da_stock d u) as [s|]; [|discriminate F]. injection F as <-. cbn [mp_value]. split; [reflexivity|].
  destruct (entry_at String.eqb divs u) as [x|]; [apply B1; reflexivity|]. destruct (proj1 B2 eq_refl) as [Q|Q]; [contradiction|exact Q].
Qed.
Lemma vol_und : forall u, vol_asked is u -> asked is u.
Proof. intros u (i & I & U). exists i. split; [exact I|]. unfold vol_underlyings in U. unfold underlyings. destruct (in_kind i); try destruct U; [left; assumption|contradiction]. Qed.
Lemma snds_in : forall (ps : list (string * fx_code)) x, In x (fold_left (push_new fx_eqb) (map snd ps) []) -> exists p, In p ps /\ snd p = x.
Proof. intros ps x H. pose proof (firsts_push_all _ _ fx_decides (map snd ps) [] [] firsts_nil) as F. cbn [app] in F. apply (firsts_in _ _ _ F) in H. apply in_map_iff in H. destruct H as (p & Q & I). exists p. auto. Qed.

(** C197: if loading ends in an error, something is missing or refused *)
Theorem c197_error : load = Ret RErr -> lacks is mp f_exp eval d k tenors money.
Proof.
  intro H. unfold load, with_parameter_data in H.
  apply rbind_err in H. destruct H as [H|(fxs & E1 & H)].
  { apply entries_err in H. destruct H as (x & I & F). injection F as F. apply (in_firsts _ _ _ (c169_fx_codes is)) in I. exact (lacks_rate _ _ _ _ _ _ _ _ x I F). }
  pose proof (c173_names mp is) as NM. apply rbind_err in H. destruct H as [H|(names & E2 & H)].
  { injection H as H. rewrite H in NM. destruct NM as (i & I & N). exact (lacks_name _ _ _ _ _ _ _ _ i I N). }
  injection E2 as E2. rewrite E2 in NM. destruct NM as (_ & ND & NN & NM).
  assert (CU : forall n, curve_asked is mp n -> make_curve f_exp eval d n = Ret RErr -> lacks is mp f_exp eval d k tenors money).
  { intros n A F. unfold make_curve in F. destruct (da_curve d n) as [v|] eqn:V; [exact (lacks_good_curve _ _ _ _ _ _ _ _ n v A V F)|exact (lacks_curve _ _ _ _ _ _ _ _ n A V)]. }
  assert (CN : forall n, In n names -> curve_asked is mp n) by (intros n I; right; assert (NE : n <> dummy) by congruence; split; [exact NE|]; apply NM; assumption).
  assert (CA : forall n, In n (all_underlyings is) -> curve_asked is mp n) by (intros n I; left; apply und_in; exact I).
  apply rbind_err in H. destruct H as [H|(curves1 & E3 & H)]. { apply entries_err in H. destruct H as (n & I & F). exact (CU n (CN n I) F). }
  apply rbind_err in H. destruct H as [H|(divs & E4 & H)].
  { apply divs_err in H. destruct H as (u & v & I & V & F). apply und_in in I. destruct F as [F|(s & S & F)]; [exact (lacks_price _ _ _ _ _ _ _ _ u I F)|exact (lacks_good_dividend _ _ _ _ _ _ _ _ u v s I V S F)]. }
  apply rbind_err in H. destruct H as [H|(curves2 & E5 & H)]. { apply entries_err in H. destruct H as (n & I & F). exact (CU n (CA n I) F). }
  apply rbind_err in H. destruct H as [H|(prices & E6 & H)].
  { apply entries_err in H. destruct H as (u & I & F). apply und_in in I. unfold make_equity in F. destruct (da_stock d u) as [v|] eqn:V; [discriminate F|exact (lacks_price _ _ _ _ _ _ _ _ u I V)]. }
  destruct (entries_ok _ _ _ string_decides _ _ _ E3) as (_ & R1 & T1 & _). destruct (entries_ok _ _ _ string_decides _ _ _ E5) as (_ & R2 & T2 & _).
  assert (CF : forall n c, match entry_at String.eqb curves2 n with Some c => Some c | None => entry_at String.eqb curves1 n end = Some c -> curve_from f_exp eval d n c).
  { assert (G : forall n c, make_curve f_exp eval d n = Ret (ROk c) -> curve_from f_exp eval d n c) by (intros n c F; unfold make_curve in F; destruct (da_curve d n) as [v|] eqn:V; [exists v; auto|discriminate F]).
    intros n c Q. destruct (entry_at String.eqb curves2 n) as [c2|] eqn:X; [apply some_inj in Q; subst c2; apply G, (R2 _ _ X)|apply G, (R1 _ _ Q)]. }
  assert (CL : forall n, match entry_at String.eqb curves2 n with Some c => Some c | None => entry_at String.eqb curves1 n end = None -> ~ curve_asked is mp n).
  { intros n Q A. destruct (entry_at String.eqb curves2 n) as [c|] eqn:X; [discriminate Q|]. destruct A as [A|[NE A]]; [apply und_in in A; destruct (T2 n A); congruence|]. apply (NM n NE) in A. destruct (T1 n A); congruence. }
  apply rbind_err in H. destruct H as [H|(vols & E7 & H)].
  { apply entries_err in H. destruct H as (u & I & F). apply (in_firsts _ _ _ (c169_vol_underlyings is)) in I. change (vol_asked is u) in I. pose proof (vol_und u I) as AU.
    destruct (entries_ok _ _ _ string_decides _ _ _ E6) as (_ & _ & T6 & _). destruct (T6 u (proj2 (und_in u) AU)) as [p P].
    unfold make_vol in F. destruct (da_const_vol d u) as [cv|] eqn:CV; [|destruct (da_surface d u) as [sf|] eqn:SF; [|exact (lacks_vol _ _ _ _ _ _ _ _ u I CV SF)]].
    all: rewrite P in F; destruct (mp_collateral mp u) as [nc|] eqn:NC.
    2,4: destruct AU as (i & II & U); refine (lacks_name _ _ _ _ _ _ _ _ i II _); rewrite <- NC; exact (need_collateral mp i u U).
    all: destruct (match entry_at String.eqb curves2 nc with Some c => Some c | None => entry_at String.eqb curves1 nc end) as [cc|] eqn:CC;
      [|(destruct (string_dec nc dummy) as [->|NE];
        [exact (lacks_collateral_curve _ _ _ _ _ _ _ _ u I NC (fun Q => CL _ CC (or_introl Q)))
        |exfalso; apply (CL _ CC); right; split; [exact NE|]; destruct AU as (i & II & U); exists i; split; [exact II|]; rewrite <- NC; exact (need_collateral mp i u U)])].
    all: destruct (mp_borrowing mp u) as [nb|] eqn:NB; [|exact (lacks_borrowing_name _ _ _ _ _ _ _ _ u I NB)].
    all: destruct (match entry_at String.eqb curves2 nb with Some c => Some c | None => entry_at String.eqb curves1 nb end) as [cb|] eqn:CB; [|exact (lacks_borrowing_curve _ _ _ _ _ _ _ _ u nb I NB (CL _ CB))].
    all: cbv zeta in F; pose proof (built_ok divs curves1 curves2 prices E4 E6 CF u p cc cb nc nb P NC NB CC CB) as BI; apply rbind_err in F; destruct F as [F|(s & FS & F)].
    - refine (lacks_good_vol _ _ _ _ _ _ _ _ u _ I BI _). left. exists cv. auto.
    - apply rbind_err in F. destruct F as [F|(s' & _ & F)]; [|discriminate F]. refine (lacks_good_surface _ _ _ _ _ _ _ _ u _ s I BI _ F). rewrite CV. exact FS.
    - refine (lacks_good_vol _ _ _ _ _ _ _ _ u _ I BI _). right. exists sf. auto.
    - apply rbind_err in F. destruct F as [F|(s' & _ & F)]; [|discriminate F]. refine (lacks_good_surface _ _ _ _ _ _ _ _ u _ s I BI _ F). rewrite CV. exists sf. auto. }
  apply rbind_err in H. destruct H as [H|(fx_vols & E8 & H)].
  { apply entries_err in H. destruct H as (x & I & F). apply snds_in in I. destruct I as (p & I & <-). apply (in_firsts _ _ _ (c169_quanto_pairs is)) in I. unfold make_fx_vol in F. destruct (da_fx_vol d (snd p)) eqn:V; [discriminate F|]. exact (lacks_fx_vol _ _ _ _ _ _ _ _ p I V). }
  apply rbind_err in H. destruct H as [H|(quantos & E9 & H)]; [|discriminate H].
  apply entries_err in H. destruct H as (p & I & F). apply (in_firsts _ _ _ (c169_quanto_pairs is)) in I. change (pair_asked is p) in I. unfold make_quanto in F. destruct (da_corr d p) as [c|] eqn:C; [|exact (lacks_correlation _ _ _ _ _ _ _ _ p I C)].
  destruct (entry_at fx_eqb fx_vols (snd p)) as [v|] eqn:V; [discriminate F|]. destruct (da_fx_vol d (snd p)) as [w|] eqn:W; [|exact (lacks_fx_vol _ _ _ _ _ _ _ _ p I W)]. exfalso.
  destruct (entries_ok _ _ _ fx_decides _ _ _ E8) as (_ & _ & T8 & _). destruct (T8 (snd p)) as [z Z]; [|congruence].
  pose proof (firsts_push_all _ _ fx_decides (map snd (all_quanto_pairs is)) [] [] firsts_nil) as FS. apply (firsts_in _ _ _ FS). apply in_map. apply (in_firsts _ _ _ (c169_quanto_pairs is)). exact I.
Qed.
(** and if it ends well, nothing is *)
Theorem c197_success : forall l, load = Ret (ROk l) -> ~ lacks is mp f_exp eval d k tenors money.
Proof.
  intros l H L. pose proof (c196_curves l H) as CU. destruct (c196_prices l H) as (WD & PR & _). destruct (c196_dividends l H) as (DV & DN & _). destruct (c196_surfaces l H) as (SU & _). destruct (c196_quantos l H) as (QU & _).
  assert (BE : forall u e, vol_asked is u -> built_in mp f_exp eval d u e -> exists v, mk_vol (ld_market l) u = Some v /\ vol_from d e k tenors money u (vt_surface v)).
  { intros u e A (nc & nb & NC & NB & EV & CC & CB & ST & DI). destruct (SU u A) as (v & e' & V & NC' & NB' & EN & VF). exists v. split; [exact V|]. replace e with e'; [exact VF|]. pose proof (vol_und u A) as AU.
    unfold env_of in EN. rewrite NC in NC'. rewrite NB in NB'. apply some_inj in NC', NB'. rewrite <- NC', <- NB' in EN.
    destruct (mk_curve (ld_market l) nc) as [c1|] eqn:C1; [|discriminate EN]. destruct (mk_curve (ld_market l) nb) as [c2|] eqn:C2; [|discriminate EN]. destruct (PR u AU) as (sp & p & SP & EQ & PV & PD & PM). rewrite EQ in EN. apply some_inj in EN. subst e'.
    apply CU in C1, C2. destruct C1 as (_ & v1 & V1 & F1). destruct C2 as (_ & v2 & V2 & F2). destruct CC as (w1 & W1 & G1). destruct CB as (w2 & W2 & G2). destruct e as [ee ec eb ep ed]. cbn [ve_eval ve_coll ve_borrow ve_price ve_div] in *.
    rewrite WD, PV, PM. assert (X : match mk_dividend (ld_market l) u with Some j => nth_error (w_dividends (mk_world (ld_market l))) j | None => None end = ed).
    { destruct ed as [x|].
      - destruct DI as (dv & s & D1 & D2 & D3). destruct (DV u AU) as (j & y & J & N & dv' & s' & D1' & D2' & D3'); [congruence|]. rewrite J, N. congruence.
      - rewrite DN by (right; exact DI). reflexivity. }
    rewrite X. f_equal; congruence. }
  destruct L as [x A F|i I N|n A F|n v A V F|u A F|u v s A V S F|u A C S|u A B|u n A B N|u A C N|u e A B F|u e s A B F G|p A F|p A F].
  - destruct (c196_rates l H x A) as (r & j & R & _). congruence.
  - destruct (load_ok l H) as (fxs & names & curves1 & divs & curves2 & prices & vols & fx_vols & quantos & _ & E2 & _). pose proof (c173_names mp is) as Q. rewrite E2 in Q. destruct Q as (_ & _ & Q & _). exact (Q i I N).
  - destruct (proj1 (CU n) A) as [c C]. apply CU in C. destruct C as (_ & v & V & _). congruence.
  - destruct (proj1 (CU n) A) as [c C]. apply CU in C. destruct C as (_ & v' & V' & F'). congruence.
  - destruct (PR u A) as (v & p & V & _). congruence.
  - destruct (DV u A) as (j & x & _ & _ & v' & s' & V' & S' & F'); [congruence|]. congruence.
  - destruct (SU u A) as (v & e & _ & _ & _ & _ & s0 & _ & Q). rewrite C in Q. destruct Q as (w & Q & _). congruence.
  - destruct (SU u A) as (v & e & _ & _ & Q & _). congruence.
  - destruct (SU u A) as (v & e & V & NC & NB & EN & _). apply N. unfold env_of in EN. rewrite B in NB. apply some_inj in NB. rewrite <- NB in EN. destruct (mk_curve (ld_market l) (vt_coll v)); [|discriminate EN]. destruct (mk_curve (ld_market l) n) as [c0|] eqn:X; [|discriminate EN]. apply CU in X. tauto.
  - destruct (SU u A) as (v & e & V & NC & NB & EN & _). unfold env_of in EN. rewrite C in NC. apply some_inj in NC. rewrite <- NC in EN. destruct (mk_curve (ld_market l) dummy) as [c|] eqn:X; [|discriminate EN]. apply CU in X. destruct X as [[X|[X _]] _]; [contradiction|congruence].
  - destruct (BE u e A B) as (v & V & s0 & _ & Q). destruct F as [(w & W & F)|(w & W & S & F)]; rewrite W in Q; [congruence|]. destruct Q as (w' & S' & F'). congruence.
  - destruct (BE u e A B) as (v & V & s0 & G0 & Q). destruct (da_const_vol d u) as [w|]; [congruence|]. destruct F as (w & W & F). destruct Q as (w' & W' & Q). congruence.
  - destruct (QU p A) as (v & c & V & _). congruence.
  - destruct (QU p A) as (v & c & _ & C & _). congruence.
Qed.
(** a curve that only the borrowing of an underlying is mapped to is not loaded, whatever
    the data have: there is no engine for an option on it *)
Theorem c197_borrowing_refuted : forall u n c l, vol_asked is u -> mp_borrowing mp u = Some n -> ~ asked is n -> (forall i, In i is -> ~ needs mp i (Some n)) -> curve_from f_exp eval d n c -> load <> Ret (ROk l).
Proof. intros u n c l A B N M _ H. apply (c197_success l H). refine (lacks_borrowing_curve _ _ _ _ _ _ _ _ u n A B _). intros [Q|[_ (i & I & Q)]]; [exact (N Q)|exact (M i I Q)]. Qed.
End Loaded.

Print Assumptions c196_prices.
Print Assumptions c196_dividends.
Print Assumptions c196_curves.
Print Assumptions c196_rates.
Print Assumptions c196_surfaces.
Print Assumptions c196_quantos.
Print Assumptions c196_observed.
Print Assumptions c197_error.
Print Assumptions c197_success.
Print Assumptions c197_borrowing_refuted.
