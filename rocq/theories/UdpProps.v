(** UdpProps.v -- C220-C222: the responses a UDP client gives. *)
From Coq Require Import ZArith List Lia Bool.
From Verif Require Import Base OBTypes NumModel KrxModel KrxSpec KrxUtf8 UdpModel UdpSpec UdpProofs.
Import ListNotations.
Open Scope Z_scope.

(** ** C220: a response is the text sent *)
(** A text of at most 1024 bytes comes as it was sent, whatever the characters. *)
Theorem c220_text : forall address peer cs rest sent, Forall scalar cs -> (length (text_of cs) <= 1024)%nat ->
  receive_response false (UdpClient address (Datagram peer (text_of cs) :: rest) sent)
  = Some (Done (text_of cs), UdpClient address rest sent).
Proof.
  intros address peer cs rest sent F L. cbn [receive_response uc_inbox uc_address uc_sent dg_bytes].
  rewrite firstn_all2 by exact L. unfold text_of. pose proof (lossy_text cs [] F) as H. cbn [lossy] in H.
  rewrite !app_nil_r in H. rewrite H. reflexivity.
Qed.
(** A message goes out as it is, as one datagram, and is what the other side gets. *)
Theorem c220_sent : forall c server cs other peer, Forall scalar cs -> (length (text_of cs) <= 1024)%nat ->
  exists c', send_message true c server (text_of cs) = (Done tt, c') /\
    uc_inbox c' = uc_inbox c /\ uc_sent c' = uc_sent c ++ [Datagram server (text_of cs)] /\
    (uc_inbox other = map (fun m => Datagram peer (dg_bytes m)) (skipn (length (uc_sent c)) (uc_sent c')) ->
     option_map fst (receive_response false other) = Some (Done (text_of cs))).
Proof.
  intros c server cs other peer F L. eexists. split; [reflexivity|]. cbn [uc_inbox uc_sent]. split; [reflexivity|]. split; [reflexivity|].
  rewrite skipn_app, skipn_all, Nat.sub_diag. cbn [skipn app map dg_bytes]. intro I. destruct other as [a i s]. cbn [uc_inbox] in I. subst i.
  rewrite c220_text by assumption. reflexivity.
Qed.
(** Whatever bytes come, the response is a text, of at most 3072 bytes; and a
    datagram of at most 1024 bytes is given as it is exactly if it is a text. *)
Theorem c220_always_a_text : forall c r c', Forall (fun m => Forall byte (dg_bytes m)) (uc_inbox c) ->
  receive_response false c = Some (Done r, c') -> utf8_text r /\ (length r <= 3072)%nat.
Proof.
  intros c r c' F H. unfold receive_response in H. destruct (uc_inbox c) as [|m rest]; [discriminate|].
  assert (E : r = lossy (firstn buffer_size (dg_bytes m))) by congruence. rewrite E. clear E H. inversion F; subst. split.
  - eapply lossy_valid; [reflexivity|]. rewrite <- (firstn_skipn buffer_size) in H1. apply Forall_app in H1. apply H1.
  - pose proof (replacement_len _ (firstn buffer_size (dg_bytes m)) (Nat.le_refl _)) as L.
    pose proof (firstn_le_length buffer_size (dg_bytes m)) as M. unfold buffer_size in *. lia.
Qed.
Theorem c220_unchanged_iff : forall address peer bytes rest sent, Forall byte bytes -> (length bytes <= 1024)%nat ->
  exists r, receive_response false (UdpClient address (Datagram peer bytes :: rest) sent) = Some (Done r, UdpClient address rest sent)
    /\ (r = bytes <-> utf8_text bytes).
Proof.
  intros address peer bytes rest sent F L. eexists. split; [reflexivity|]. cbn [dg_bytes]. rewrite firstn_all2 by exact L. split.
  - intro H. rewrite <- H. eapply lossy_valid; [reflexivity | exact F].
  - intros [cs [S ->]]. pose proof (lossy_text cs [] S) as H. cbn [lossy] in H. rewrite !app_nil_r in H. exact H.
Qed.
Example c220_hypotheses_met :
  Forall scalar [8364; 65; 128512] /\ length (text_of [8364; 65; 128512]) = 8%nat /\
  Forall byte [72; 255; 105] /\
  receive_response false (UdpClient 1 [Datagram 2 [72; 255; 105]] []) = Some (Done [72; 239; 191; 189; 105], UdpClient 1 [] []).
Proof. repeat split; try (repeat constructor; unfold scalar, byte; lia). Qed.

(** ** C221: a longer response is cut *)
(** It is the whole characters that fit in 1024 bytes; if the next one fits in
    part, one U+FFFD is in its place. *)
Theorem c221_cut : forall address peer cs rest sent, Forall scalar cs ->
  exists r k, receive_response false (UdpClient address (Datagram peer (text_of cs) :: rest) sent) = Some (Done r, UdpClient address rest sent)
    /\ (k <= length cs)%nat /\ (length (text_of (firstn k cs)) <= 1024)%nat
    /\ (length (text_of cs) <= 1024 -> k = length cs)%nat
    /\ (forall c, nth_error cs k = Some c -> 1024 < length (text_of (firstn k cs)) + length (encode c))%nat
    /\ (r = text_of (firstn k cs) /\ ((1024 < length (text_of cs))%nat -> length (text_of (firstn k cs)) = 1024%nat)
        \/ r = text_of (firstn k cs) ++ encode 65533 /\ (length (text_of (firstn k cs)) < 1024)%nat /\ (k < length cs)%nat).
Proof.
  intros address peer cs rest sent F. cbn [receive_response uc_inbox uc_address uc_sent dg_bytes].
  destruct (Nat.le_gt_cases (length (text_of cs)) 1024) as [L|L].
  - exists (text_of cs), (length cs). rewrite firstn_all2 by exact L. rewrite firstn_all. unfold text_of in *.
    pose proof (lossy_text cs [] F) as H. cbn [lossy] in H. rewrite !app_nil_r in H. rewrite H.
    split; [reflexivity|]. split; [lia|]. split; [exact L|]. split; [reflexivity|]. split.
    + intros c N. rewrite (proj2 (nth_error_None cs (length cs)) (Nat.le_refl _)) in N. discriminate.
    + left. split; [reflexivity | lia].
  - unfold text_of in *. destruct (cut_text cs 1024 F) as [k [Hk D]].
    assert (P : Forall scalar (firstn k cs)) by (rewrite <- (firstn_skipn k) in F; apply Forall_app in F; apply F).
    change buffer_size with 1024%nat.
    destruct D as [E | [c [j [N [J E]]]]]; rewrite E.
    + exists (concat (map encode (firstn k cs))), k. pose proof (lossy_text _ [] P) as H. cbn [lossy] in H. rewrite !app_nil_r in H. rewrite H.
      assert (Len : length (concat (map encode (firstn k cs))) = 1024%nat) by (rewrite <- E, firstn_length_le; lia).
      split; [reflexivity|]. split; [exact Hk|]. split; [lia|]. split; [lia|]. split; [|left; split; [reflexivity | intros _; exact Len]].
      intros c _. rewrite Len. assert (0 < length (encode c))%nat; [|lia].
      unfold encode. destruct (c <? 128); [cbn; lia|]. destruct (c <? 2048); [cbn; lia|]. destruct (c <? 65536); cbn; lia.
    + exists (concat (map encode (firstn k cs)) ++ encode 65533), k. rewrite (lossy_text _ _ P).
      assert (Sc : scalar c) by (eapply Forall_forall; [exact F | eapply nth_error_In; exact N]).
      rewrite lossy_cut by assumption.
      assert (Len : (length (concat (map encode (firstn k cs))) + j = 1024)%nat).
      { pose proof (f_equal (@length Z) E) as E'. rewrite firstn_length_le in E' by lia. rewrite app_length, firstn_length_le in E' by lia. lia. }
      assert (Kn : (k < length cs)%nat) by (apply nth_error_Some; rewrite N; discriminate).
      split; [reflexivity|]. split; [exact Hk|]. split; [lia|]. split; [lia|]. split.
      * intros c' N'. rewrite N in N'. injection N' as <-. lia.
      * right. split; [reflexivity|]. split; [lia | exact Kn].
Qed.
(** So two responses of more than 1024 bytes can be told apart no more, and no
    error tells of it: the end of one may be lost, or its last character be a
    U+FFFD that was never sent. *)
Theorem c221_long_refuted :
  exists a b ra rb, Forall scalar a /\ Forall scalar b /\ a <> b /\ (length (text_of a) = 1025)%nat /\
  (forall address peer rest sent,
    receive_response false (UdpClient address (Datagram peer (text_of a) :: rest) sent) = Some (Done ra, UdpClient address rest sent) /\
    receive_response false (UdpClient address (Datagram peer (text_of b) :: rest) sent) = Some (Done rb, UdpClient address rest sent)) /\
  ra = rb /\
  exists d, Forall scalar d /\ ~ In 65533 d /\
  (forall address peer rest sent, exists r,
    receive_response false (UdpClient address (Datagram peer (text_of d) :: rest) sent) = Some (Done (r ++ encode 65533), UdpClient address rest sent)).
Proof.
  set (xs := repeat 65 1024). exists (xs ++ [66]), (xs ++ [67]), xs, xs.
  assert (X : Forall scalar xs) by (apply Forall_forall; intros x I; apply repeat_spec in I; subst; unfold scalar; lia).
  split; [apply Forall_app; split; [exact X | repeat constructor; unfold scalar; lia]|].
  split; [apply Forall_app; split; [exact X | repeat constructor; unfold scalar; lia]|].
  split; [intro E; apply app_inv_head in E; discriminate|].
  split; [vm_compute; reflexivity|].
  split; [intros; split; cbn [receive_response uc_inbox uc_address uc_sent dg_bytes]; do 3 f_equal; vm_compute; reflexivity|].
  split; [reflexivity|].
  exists (repeat 65 1023 ++ [8364]). split; [apply Forall_app; split; [apply Forall_forall; intros x I; apply repeat_spec in I; subst; unfold scalar; lia | repeat constructor; unfold scalar; lia]|].
  split. { intro I. apply in_app_or in I. destruct I as [I|[I|[]]]; [apply repeat_spec in I|]; lia. }
  intros. exists (repeat 65 1023). cbn [receive_response uc_inbox uc_address uc_sent dg_bytes]. do 3 f_equal; vm_compute; reflexivity.
Qed.
Example c221_hypotheses_met : Forall scalar (repeat 8364 400) /\ length (text_of (repeat 8364 400)) = 1200%nat /\
  receive_response false (UdpClient 1 [Datagram 2 (text_of (repeat 8364 400))] []) = Some (Done (text_of (repeat 8364 341) ++ [239; 191; 189]), UdpClient 1 [] []).
Proof.
  split; [apply Forall_forall; intros x I; apply repeat_spec in I; subst; unfold scalar; lia|].
  split; vm_compute; reflexivity.
Qed.

(** ** C222: one response per datagram, in the order they came *)
(** After any history, the responses given are those of the first datagrams
    that came, one for each and in that order, none lost but those not yet asked
    for; and what went out is what was sent. *)
Theorem c222_in_order : forall address es c rs,
  history (UdpClient address [] []) es = (c, rs) ->
  (length rs <= length (came es))%nat /\
  uc_inbox c = skipn (length rs) (came es) /\ uc_sent c = went es /\ uc_address c = address /\
  (forall n m, nth_error (came es) n = Some m -> (n < length rs)%nat ->
   exists r, nth_error rs n = Some r /\
     forall a rest sent, receive_response false (UdpClient a (m :: rest) sent) = Some (Done r, UdpClient a rest sent)).
Proof.
  intros address es c rs H.
  assert (G : forall es c0 c rs, history c0 es = (c, rs) ->
    map (fun m => lossy (firstn buffer_size (dg_bytes m))) (uc_inbox c0 ++ came es)
      = rs ++ map (fun m => lossy (firstn buffer_size (dg_bytes m))) (uc_inbox c) /\
    (length rs <= length (uc_inbox c0 ++ came es))%nat /\
    uc_inbox c = skipn (length rs) (uc_inbox c0 ++ came es) /\ uc_sent c = uc_sent c0 ++ went es /\ uc_address c = uc_address c0).
  { clear. induction es as [|e es IH]; intros c0 c rs H; cbn [history] in H.
    { injection H as <- <-. cbn [came went length skipn app]. rewrite !app_nil_r. repeat split. lia. }
    destruct (happens c0 e) as [c1 r] eqn:E1. destruct (history c1 es) as [c2 rs'] eqn:E2. injection H as <- <-.
    specialize (IH _ _ _ E2). destruct IH as [M [L [I [S A]]]]. destruct e as [m | acc server msg | broken]; cbn [happens] in E1.
    - injection E1 as <- <-. cbn [uc_inbox uc_sent uc_address app came went] in *. rewrite <- app_assoc in M, L, I. cbn [app] in M, L, I.
      repeat split; assumption.
    - unfold send_message in E1. destruct acc; cbn [snd] in E1; injection E1 as <- <-; cbn [uc_inbox uc_sent uc_address app came went] in *.
      + rewrite <- app_assoc in S. repeat split; assumption.
      + repeat split; assumption.
    - cbn [came went]. unfold receive_response in E1. destruct broken; [injection E1 as <- <-; repeat split; assumption|].
      destruct (uc_inbox c0) as [|m rest] eqn:I0; [injection E1 as <- <-; rewrite I0 in M, L, I; repeat split; assumption|].
      injection E1 as <- <-. cbn [uc_inbox uc_sent uc_address app length skipn map] in *. rewrite M.
      repeat split; [lia | exact I | exact S | exact A]. }
  apply G in H. cbn [uc_inbox uc_sent uc_address app] in H. destruct H as [M [L [I [S A]]]].
  split; [exact L|]. split; [exact I|]. split; [exact S|]. split; [exact A|].
  intros n m N K. exists (lossy (firstn buffer_size (dg_bytes m))). split; [|reflexivity].
  assert (X : nth_error (map (fun m => lossy (firstn buffer_size (dg_bytes m))) (came es)) n = Some (lossy (firstn buffer_size (dg_bytes m)))) by exact (map_nth_error (fun m => lossy (firstn buffer_size (dg_bytes m))) n (came es) N).
  rewrite M in X. rewrite nth_error_app1 in X by exact K. exact X.
Qed.
(** The other side of it: whoever sent the datagram, it is the response. A
    client that asked one server takes a stranger's words for the answer. *)
Theorem c222_stranger_refuted : forall address server stranger question answer lie, stranger <> server ->
  Forall scalar lie -> (length (text_of lie) <= 1024)%nat ->
  snd (history (UdpClient address [] [])
    [Sends true server question; Arrives (Datagram stranger (text_of lie)); Arrives (Datagram server answer); Receives false])
  = [text_of lie].
Proof.
  intros address server stranger question answer lie _ F L.
  cbn [history happens send_message snd uc_address uc_inbox uc_sent app receive_response dg_bytes].
  rewrite firstn_all2 by exact L. unfold text_of. pose proof (lossy_text lie [] F) as H. cbn [lossy] in H.
  rewrite !app_nil_r in H. rewrite H. reflexivity.
Qed.
Example c222_hypotheses_met :
  history (UdpClient 7 [] []) [Sends true 9 [72; 105]; Receives false; Arrives (Datagram 9 [79; 107]); Arrives (Datagram 8 [78; 111]); Receives true; Receives false]
  = (UdpClient 7 [Datagram 8 [78; 111]] [Datagram 9 [72; 105]], [[79; 107]]).
Proof. reflexivity. Qed.

Print Assumptions c220_text.
Print Assumptions c220_sent.
Print Assumptions c220_always_a_text.
Print Assumptions c220_unchanged_iff.
Print Assumptions c221_cut.
Print Assumptions c221_long_refuted.
Print Assumptions c222_in_order.
Print Assumptions c222_stranger_refuted.
