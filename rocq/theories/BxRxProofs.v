(** Proofs about receiving, loopback and filters of the drivers for CAN controllers. *)
From Verif Require Import Base CoreModel FilterModel CanIdModel CanTxModel CanQueueModel CanQueueProofs CanSpec FilterProofs CanIdProps BxModel BxSpec BxProofs BxQueueProofs.

Ltac Zify.zify_post_hook ::= Z.div_mod_to_equations.

(** * Transmitting leaves the receiving side alone *)

Lemma clean_mailbox_rx ds now m d : same_rx d (clean_mailbox ds now m d).
Proof.
  unfold clean_mailbox. destruct (nth_error ds m) as [ [t|]|]; [|split; reflexivity..]. destruct (t_gt now t); [|split; reflexivity].
  unfold dev_abort. destruct (nth_error (d_mailboxes d) m) as [ [b|]|]; split; reflexivity.
Qed.
Lemma same_rx_trans a b c : same_rx a b -> same_rx b c -> same_rx a c.
Proof. intros (H1 & H2) (H3 & H4). split; congruence. Qed.
Lemma clean_expired_rx ds now d : same_rx d (clean_expired ds now d).
Proof. unfold clean_expired. eapply same_rx_trans; [|apply clean_mailbox_rx]. eapply same_rx_trans; apply clean_mailbox_rx. Qed.
Lemma dev_transmit_rx b d d' m g : dev_transmit b d = Some (d', m, g) -> same_rx d d'.
Proof. unfold dev_transmit. destruct (forallb _ _); [|discriminate]. intro E. injection E as <- _ _. split; reflexivity. Qed.
Lemma transmit_inner_rx f t x x' r : transmit_inner f t x = Ok (x', r) -> same_rx (bx_can x) (bx_can x') /\ bx_loopback x' = bx_loopback x.
Proof.
  unfold transmit_inner. destruct (to_bxcan f) as [b|]; [|discriminate]. destruct (dev_transmit b (bx_can x)) as [ [ [can m] g]|] eqn:E.
  - intro K. injection K as <- _. split; [exact (dev_transmit_rx _ _ _ _ _ E)|reflexivity].
  - intro K. injection K as <- _. split; [split; reflexivity|reflexivity].
Qed.
Lemma bx_transmit_rx now f x x' r : bx_transmit now f x = Ok (x', r) ->
  same_rx (bx_can x) (bx_can x') /\
  bx_loopback x' = bx_loopback x ++ (if (length (bx_loopback x) <? LOOPBACK_CAPACITY)%nat then copies (OpTransmit now f, OutTx r) else []).
Proof.
  unfold bx_transmit. pose proof (clean_expired_rx (bx_deadlines x) now (bx_can x)) as C. set (can := clean_expired (bx_deadlines x) now (bx_can x)) in *.
  destruct (t_lt (f_ts f) now) eqn:Et.
  { intro E. injection E as <- <-. split; [exact C|]. cbn [bx_loopback copies accepted]. rewrite Et. cbn [flat_map]. destruct (_ <? _)%nat; rewrite app_nil_r; reflexivity. }
  destruct (transmit_inner f (f_ts f) (Bx can (bx_deadlines x) (bx_loopback x))) as [ [x1 r1]|] eqn:E; [|discriminate]. destruct (transmit_inner_rx _ _ _ _ _ E) as (S1 & L1). cbn [bx_can bx_loopback] in *.
  pose proof (same_rx_trans _ _ _ C S1) as S2. rewrite L1, Nat.leb_antisym, negb_involutive. set (room := (length (bx_loopback x) <? LOOPBACK_CAPACITY)%nat). intro K. injection K as <- <-.
  split; [destruct (_ && _); exact S2|]. destruct r1 as [g| |]; cbn [copies accepted andb flat_map]; [rewrite Et| |].
  - cbn [flat_map]. rewrite app_nil_r. destruct (f_loop f); cbn [andb].
    + destruct room; cbn [bx_loopback]; [reflexivity|rewrite app_nil_r; exact L1].
    + rewrite L1. destruct room; rewrite app_nil_r; reflexivity.
  - rewrite L1. destruct room; rewrite app_nil_r; reflexivity.
  - rewrite L1. destruct room; rewrite app_nil_r; reflexivity.
Qed.

(** * Receiving *)

Definition deliver (l : list bx_frame) : list bx_frame := filter deliverable l.
Definition arrived (a : arrival) : list bx_frame := match a with Arrived b => [b] | Overrun => [] end.
Definition is_over (a : arrival) : bool := match a with Overrun => true | Arrived _ => false end.

Lemma of_bxcan_spec b now : match of_bxcan b now with Some f => deliverable b = true /\ on_wire f = b /\ f_ts f = now /\ f_loop f = false | None => deliverable b = false end.
Proof.
  unfold of_bxcan, deliverable. destruct b as [e id data]. cbn [b_extended b_id b_data]. destruct e; [|reflexivity]. destruct (id <? 2 ^ 29); [|reflexivity]. destruct data as [data|]; [|reflexivity].
  split; [reflexivity|]. split; [reflexivity|]. split; reflexivity.
Qed.
Lemma receive_from_bus_spec now fifo : let (rest, r) := receive_from_bus now fifo in
  match r with
  | RxFrame f => f_ts f = now /\ f_loop f = false /\ exists l, fifo = l ++ Arrived (on_wire f) :: rest /\ deliverable (on_wire f) = true /\ deliver (flat_map arrived l) = [] /\ filter is_over l = []
  | RxOverrun => exists l, fifo = l ++ Overrun :: rest /\ deliver (flat_map arrived l) = [] /\ filter is_over l = []
  | RxWouldBlock => rest = [] /\ deliver (flat_map arrived fifo) = [] /\ filter is_over fifo = []
  end.
Proof.
  induction fifo as [|[b|] fifo IH]; cbn [receive_from_bus].
  - split; [reflexivity|split; reflexivity].
  - pose proof (of_bxcan_spec b now) as K. destruct (of_bxcan b now) as [f|].
    + destruct K as (K1 & K2 & K3 & K4). split; [exact K3|]. split; [exact K4|]. exists []. rewrite K2. split; [reflexivity|]. split; [exact K1|split; reflexivity].
    + destruct (receive_from_bus now fifo) as [rest r]. destruct r as [f| |].
      * destruct IH as (I1 & I2 & l & E & I3 & I4 & I5). split; [exact I1|]. split; [exact I2|]. exists (Arrived b :: l). rewrite E. split; [reflexivity|]. split; [exact I3|].
        split; [cbn [flat_map arrived app deliver filter]; rewrite K; exact I4|exact I5].
      * destruct IH as (I1 & I2 & I3). split; [exact I1|]. split; [cbn [flat_map arrived app deliver filter]; rewrite K; exact I2|exact I3].
      * destruct IH as (l & E & I4 & I5). exists (Arrived b :: l). rewrite E. split; [reflexivity|]. split; [cbn [flat_map arrived app deliver filter]; rewrite K; exact I4|exact I5].
  - exists []. split; [reflexivity|split; reflexivity].
Qed.
Lemma deliver_app a b : deliver (a ++ b) = deliver a ++ deliver b.
Proof. apply filter_app. Qed.
Lemma waiting_fifo d : waiting d = flat_map arrived (d_fifo d).
Proof. reflexivity. Qed.
Lemma overruns_fifo d : overruns d = length (filter is_over (d_fifo d)).
Proof. reflexivity. Qed.

Lemma bx_receive_spec now x : Forall (fun f => f_loop f = true) (bx_loopback x) -> let (x', r) := bx_receive now x in
  map on_wire (from_bus (received (OpReceive now, OutRx r))) ++ deliver (waiting (bx_can x')) = deliver (waiting (bx_can x)) /\
  looped (received (OpReceive now, OutRx r)) ++ bx_loopback x' = bx_loopback x /\
  ((if overran (OpReceive now, OutRx r) then 1 else 0) + overruns (bx_can x') = overruns (bx_can x))%nat /\
  (forall f, In f (from_bus (received (OpReceive now, OutRx r))) -> f_ts f = now) /\
  (looped (received (OpReceive now, OutRx r)) <> [] -> deliver (waiting (bx_can x)) = [] /\ overruns (bx_can x) = O) /\
  (r = RxWouldBlock <-> deliver (waiting (bx_can x)) = [] /\ overruns (bx_can x) = O /\ bx_loopback x = []) /\
  d_mailboxes (bx_can x') = d_mailboxes (bx_can x) /\ d_banks (bx_can x') = d_banks (bx_can x).
Proof.
  intro HL. unfold bx_receive. pose proof (receive_from_bus_spec now (d_fifo (bx_can x))) as K. destruct (receive_from_bus now (d_fifo (bx_can x))) as [rest r].
  rewrite !waiting_fifo, !overruns_fifo. destruct r as [f| |].
  - destruct K as (K1 & K2 & l & E & K3 & K4 & K5). cbn [bx_can bx_loopback received]. rewrite !waiting_fifo, !overruns_fifo. cbn [d_fifo d_mailboxes d_banks].
    rewrite E, flat_map_app, deliver_app, K4, filter_app, K5. unfold from_bus, looped. cbn [filter flat_map arrived app deliver is_over length overran]. rewrite K2, K3. cbn [negb map app length filter].
    split; [reflexivity|]. split; [reflexivity|]. split; [reflexivity|]. split; [intros g [<-|[] ]; exact K1|]. split; [intro X; destruct X; reflexivity|]. split; [|split; reflexivity].
    split; [discriminate|]. intros (X & _). discriminate X.
  - destruct K as (-> & K2 & K3). destruct (bx_loopback x) as [|g lb]; cbn [bx_can bx_loopback received overran]; rewrite ?waiting_fifo, ?overruns_fifo; cbn [d_fifo d_mailboxes d_banks]; rewrite K2, K3; unfold from_bus, looped.
    + cbn [filter map app flat_map deliver length]. split; [reflexivity|]. split; [reflexivity|]. split; [reflexivity|]. split; [intros g []|]. split; [intro X; destruct X; reflexivity|]. split; [|split; reflexivity].
      split; [intros _; split; [reflexivity|split; reflexivity]|reflexivity].
    + pose proof (Forall_inv HL) as Hg. cbn beta in Hg. cbn [filter flat_map deliver]. rewrite Hg. cbn [negb map app length]. split; [reflexivity|]. split; [reflexivity|]. split; [reflexivity|]. split; [intros h []|].
      split; [intros _; split; reflexivity|]. split; [|split; reflexivity]. split; [discriminate|]. intros (_ & _ & X). discriminate X.
  - destruct K as (l & E & K4 & K5). cbn [bx_can bx_loopback received overran]. rewrite !waiting_fifo, !overruns_fifo. cbn [d_fifo d_mailboxes d_banks].
    rewrite E, flat_map_app, deliver_app, K4, filter_app, K5. unfold from_bus, looped. cbn [filter flat_map arrived app deliver is_over length map].
    split; [reflexivity|]. split; [reflexivity|]. split; [reflexivity|]. split; [intros g []|]. split; [intro X; destruct X; reflexivity|]. split; [|split; reflexivity].
    split; [discriminate|]. intros (_ & X & _). discriminate X.
Qed.

(** * Histories *)

Definition arrivals (o : bx_op) (x : bx_driver) : list bx_frame := match o with OpArrive b => if existsb (bank_accepts b) (d_banks (bx_can x)) then [b] else [] | _ => [] end.

Lemma set_banks_rx x banks : bx_loopback (set_banks x banks) = bx_loopback x /\ d_fifo (bx_can (set_banks x banks)) = d_fifo (bx_can x).
Proof. split; reflexivity. Qed.
Lemma bx_filters_rx local ps alloc x x' : bx_filters local ps alloc x = Ok x' -> bx_loopback x' = bx_loopback x /\ d_fifo (bx_can x') = d_fifo (bx_can x).
Proof.
  unfold bx_filters, bx_accept_all. destruct (optimize_filters _ _ _ _) as [ [fs|]|]; [| |discriminate].
  - destruct (enable_banks _ _ _); [|discriminate]. intro E. injection E as <-. apply set_banks_rx.
  - destruct (enable_bank _ _ _); [|discriminate]. intro E. injection E as <-. apply set_banks_rx.
Qed.
Lemma bx_accept_all_rx x x' : bx_accept_all x = Ok x' -> bx_loopback x' = bx_loopback x /\ d_fifo (bx_can x') = d_fifo (bx_can x).
Proof. unfold bx_accept_all. destruct (enable_bank _ _ _); [|discriminate]. intro E. injection E as <-. apply set_banks_rx. Qed.

Lemma step_rx o x x' out : bx_step o x = Ok (x', out) -> Forall (fun f => f_loop f = true) (bx_loopback x) ->
  map on_wire (from_bus (received (o, out))) ++ deliver (waiting (bx_can x')) = deliver (waiting (bx_can x)) ++ deliver (arrivals o x) /\
  looped (received (o, out)) ++ bx_loopback x' = bx_loopback x ++ (if (length (bx_loopback x) <? LOOPBACK_CAPACITY)%nat then copies (o, out) else []) /\
  ((if overran (o, out) then 1 else 0) + overruns (bx_can x') = overruns (bx_can x) + overruns_in [o])%nat /\
  Forall (fun f => f_loop f = true) (bx_loopback x') /\ (copies (o, out) <> [] -> length (copies (o, out)) = 1%nat /\ received (o, out) = []) /\
  (forall now, o = OpReceive now -> Forall (fun f => f_ts f = now) (from_bus (received (o, out)))).
Proof.
  intros E HL.
  assert (Same : d_fifo (bx_can x') = d_fifo (bx_can x) -> bx_loopback x' = bx_loopback x -> out = OutNothing -> arrivals o x = [] -> overruns_in [o] = O -> (forall p, copies (o, p) = []) ->
    map on_wire (from_bus (received (o, out))) ++ deliver (waiting (bx_can x')) = deliver (waiting (bx_can x)) ++ deliver (arrivals o x) /\
    looped (received (o, out)) ++ bx_loopback x' = bx_loopback x ++ (if (length (bx_loopback x) <? LOOPBACK_CAPACITY)%nat then copies (o, out) else []) /\
    ((if overran (o, out) then 1 else 0) + overruns (bx_can x') = overruns (bx_can x) + overruns_in [o])%nat /\
    Forall (fun f => f_loop f = true) (bx_loopback x') /\ (copies (o, out) <> [] -> length (copies (o, out)) = 1%nat /\ received (o, out) = []) /\
    (forall now, o = OpReceive now -> Forall (fun f => f_ts f = now) (from_bus (received (o, out))))).
  { intros E1 E2 -> E3 E4 E5. rewrite !waiting_fifo, !overruns_fifo, E1, E2, E3, E4, E5.
    assert (Er : received (o, OutNothing) = []) by (destruct o; reflexivity). assert (Eo : overran (o, OutNothing) = false) by (destruct o; reflexivity).
    rewrite Er, Eo. cbn [from_bus looped filter map app deliver]. rewrite !app_nil_r. split; [reflexivity|]. split; [destruct (_ <? _)%nat; rewrite app_nil_r; reflexivity|]. split; [lia|].
    split; [exact HL|]. split; [intro X; destruct X; reflexivity|intros; constructor]. }
  destruct o as [now f|now|local ps alloc| |m|b|]; cbn [bx_step] in E.
  - destruct (bx_transmit now f x) as [ [x1 r]|] eqn:Et; [|discriminate]. injection E as <- <-. destruct (bx_transmit_rx now f x x1 r Et) as ((F & B) & L).
    rewrite !waiting_fifo, !overruns_fifo, F. cbn [received from_bus looped filter map app arrivals deliver]. rewrite app_nil_r. split; [reflexivity|]. split; [exact L|].
    split; [unfold overran, overruns_in; cbn [filter length]; lia|].
    assert (C1 : copies (OpTransmit now f, OutTx r) <> [] -> exists c, copies (OpTransmit now f, OutTx r) = [c] /\ f_loop c = true).
    { cbn [copies accepted]. destruct r as [g| |]; [|intro X; destruct X; reflexivity..]. destruct (t_lt (f_ts f) now); [intro X; destruct X; reflexivity|]. cbn [flat_map app].
      destruct (f_loop f); [|intro X; destruct X; reflexivity]. intros _. eexists. split; reflexivity. }
    split.
    { rewrite L, Forall_app. split; [exact HL|]. destruct (_ <? _)%nat; [|constructor]. destruct (copies (OpTransmit now f, OutTx r)) as [|c cs] eqn:Ec; [constructor|].
      destruct (C1 ltac:(discriminate)) as (c' & E' & Hc). injection E' as -> ->. constructor; [exact Hc|constructor]. }
    split; [|intros ? X; discriminate X]. intro X. destruct (C1 X) as (c & -> & _). split; reflexivity.
  - pose proof (bx_receive_spec now x HL) as K. destruct (bx_receive now x) as [x1 r]. injection E as <- <-. destruct K as (K1 & K2 & K3 & K4 & _). cbn [arrivals deliver filter]. rewrite app_nil_r.
    split; [exact K1|]. cbn [copies]. split; [rewrite K2; destruct (_ <? _)%nat; rewrite app_nil_r; reflexivity|]. split; [unfold overruns_in; cbn [filter length]; lia|].
    split; [|split; [intro X; destruct X; reflexivity|] ].
    + rewrite <- K2 in HL. apply Forall_app in HL. apply HL.
    + intros now' X. injection X as <-. apply Forall_forall. exact K4.
  - destruct (bx_filters local ps alloc x) as [x1|] eqn:Ef; [|discriminate]. injection E as <- <-. destruct (bx_filters_rx _ _ _ _ _ Ef) as (E1 & E2). apply Same; try reflexivity; assumption.
  - destruct (bx_accept_all x) as [x1|] eqn:Ef; [|discriminate]. injection E as <- <-. destruct (bx_accept_all_rx _ _ Ef) as (E1 & E2). apply Same; try reflexivity; assumption.
  - injection E as <- <-. apply Same; try reflexivity. cbn [on_device bx_can]. unfold dev_send. destruct (nth_error _ m) as [ [b|]|]; reflexivity.
  - injection E as <- <-. cbn [received from_bus looped filter map app arrivals copies overran on_device bx_loopback].
    split; [|split; [destruct (_ <? _)%nat; rewrite app_nil_r; reflexivity|split; [|split; [exact HL|split; [intro X; destruct X; reflexivity|intros ? X; discriminate X] ] ] ] ].
    + rewrite !waiting_fifo. cbn [on_device bx_can]. unfold dev_arrive. destruct (existsb _ _); cbn [d_fifo].
      * rewrite flat_map_app, deliver_app. reflexivity.
      * rewrite app_nil_r. reflexivity.
    + rewrite !overruns_fifo. cbn [on_device bx_can]. unfold dev_arrive, overruns_in. destruct (existsb _ _); cbn [d_fifo filter length]; [rewrite filter_app, app_length; cbn [filter is_over length]|]; lia.
  - injection E as <- <-. cbn [received from_bus looped filter map app arrivals copies overran on_device bx_loopback deliver]. rewrite app_nil_r.
    split; [|split; [destruct (_ <? _)%nat; rewrite app_nil_r; reflexivity|split; [|split; [exact HL|split; [intro X; destruct X; reflexivity|intros ? X; discriminate X] ] ] ] ].
    + rewrite !waiting_fifo. cbn [on_device bx_can dev_overrun d_fifo]. rewrite flat_map_app, deliver_app. cbn [flat_map arrived app]. rewrite app_nil_r. reflexivity.
    + rewrite !overruns_fifo. cbn [on_device bx_can dev_overrun d_fifo]. unfold overruns_in. rewrite filter_app, app_length. cbn [filter is_over length]. lia.
Qed.

Lemma overruns_in_cons o r : overruns_in (o :: r) = (overruns_in [o] + overruns_in r)%nat.
Proof. unfold overruns_in. cbn [filter]. destruct o; reflexivity. Qed.

Lemma run_rx ops : forall x x' outs, bx_run ops x = Ok (x', outs) -> Forall (fun f => f_loop f = true) (bx_loopback x) ->
  map on_wire (from_bus (flat_map received outs)) ++ deliver (waiting (bx_can x')) = deliver (waiting (bx_can x)) ++ deliver (passed ops x) /\
  subsequence (looped (flat_map received outs) ++ bx_loopback x') (bx_loopback x ++ flat_map copies outs) /\
  (length (filter overran outs) + overruns (bx_can x') = overruns (bx_can x) + overruns_in ops)%nat /\
  ((forall a b, outs = a ++ b -> (length (bx_loopback x) + length (flat_map copies a) <= length (looped (flat_map received a)) + LOOPBACK_CAPACITY)%nat) ->
   looped (flat_map received outs) ++ bx_loopback x' = bx_loopback x ++ flat_map copies outs) /\
  Forall (fun p => match fst p with OpReceive now => Forall (fun f => f_ts f = now) (from_bus (received p)) | _ => True end) outs.
Proof.
  induction ops as [|o ops IH]; intros x x' outs; cbn [bx_run].
  - intros E HL. injection E as <- <-. cbn [flat_map passed from_bus looped filter map app deliver length]. rewrite !app_nil_r. split; [reflexivity|]. split; [apply sub_refl|]. split; [unfold overruns_in; cbn; lia|]. split; [reflexivity|constructor].
  - destruct (bx_step o x) as [ [x1 out]|] eqn:Es; [|discriminate]. destruct (bx_run ops x1) as [ [x2 l]|] eqn:Er; [|discriminate]. intros E HL. injection E as <- <-.
    destruct (step_rx o x x1 out Es HL) as (S1 & S2 & S3 & S4 & S5 & S6). destruct (IH x1 x2 l Er S4) as (R1 & R2 & R3 & R4 & R5).
    cbn [flat_map passed]. rewrite Es. change (match o with OpArrive b => if existsb (bank_accepts b) (d_banks (bx_can x)) then [b] else [] | _ => [] end) with (arrivals o x).
    unfold from_bus, looped in *. rewrite !filter_app. rewrite !map_app, deliver_app. rewrite <- !app_assoc. split; [|split; [|split; [|split] ] ].
    + rewrite R1, !app_assoc. f_equal. exact S1.
    + assert (X : subsequence (filter f_loop (received (o, out)) ++ bx_loopback x1) (bx_loopback x ++ copies (o, out))).
      { rewrite S2. apply sub_app; [apply sub_refl|]. destruct (_ <? _)%nat; [apply sub_refl|constructor]. }
      refine (sub_trans _ _ _ _ (sub_app _ _ (sub_refl (filter f_loop (received (o, out)))) _ _ R2)). rewrite !app_assoc. apply sub_app; [exact X|apply sub_refl].
    + rewrite overruns_in_cons. cbn [filter]. destruct (overran (o, out)); cbn [length]; lia.
    + intro Hcap.
      assert (X : filter f_loop (received (o, out)) ++ bx_loopback x1 = bx_loopback x ++ copies (o, out)).
      { rewrite S2. destruct (Nat.ltb_spec (length (bx_loopback x)) LOOPBACK_CAPACITY) as [Hlt|Hge]; [reflexivity|]. destruct (copies (o, out)) as [|c cs] eqn:Ec; [reflexivity|].
        destruct (S5 ltac:(discriminate)) as (L1 & L2). specialize (Hcap [(o, out)] l eq_refl). cbn [flat_map] in Hcap. rewrite Ec, L2 in Hcap. cbn [app filter length] in Hcap. lia. }
      rewrite R4; [rewrite !app_assoc; f_equal; exact X|]. intros a b ->. specialize (Hcap ((o, out) :: a) b eq_refl). cbn [flat_map] in Hcap. rewrite filter_app, !app_length in Hcap.
      apply (f_equal (@length _)) in X. rewrite !app_length in X. lia.
    + constructor; [|exact R5]. cbn [fst]. destruct o; try exact I. apply S6. reflexivity.
Qed.

(** * Filters *)

Lemma enable_banks_spec fs : forall i banks banks', enable_banks i fs banks = Ok banks' ->
  forall j, nth_error banks' j = if (i <=? j)%nat && (j <? i + length fs)%nat then option_map (fun f => Some (BankMask (filter_id f) (fl_mask f))) (nth_error fs (j - i)) else nth_error banks j.
Proof.
  induction fs as [|f fs IH]; intros i banks banks' E j; cbn [enable_banks length] in *.
  - injection E as <-. destruct (Nat.leb_spec i j), (Nat.ltb_spec j (i + 0)); cbn [andb]; try reflexivity. lia.
  - unfold enable_bank, store in E. destruct (Nat.ltb_spec i (length banks)) as [Hi|]; [|discriminate]. rewrite (IH _ _ _ E j), nth_error_upd.
    destruct (Nat.leb_spec i j), (Nat.leb_spec (S i) j), (Nat.ltb_spec j (S i + length fs)), (Nat.ltb_spec j (i + S (length fs))); cbn [andb]; try lia;
      try (replace (j - i)%nat with (S (j - S i)) by lia; reflexivity); try (destruct (Nat.eqb_spec i j); [lia|reflexivity]).
    + assert (j = i) as -> by lia. rewrite Nat.eqb_refl, Nat.sub_diag. cbn [nth_error option_map]. apply nth_error_Some in Hi. destruct (nth_error banks i); [reflexivity|congruence].
Qed.
Lemma cleared_nth banks j k : nth_error (clear_banks banks) j = Some k -> k = None.
Proof. unfold clear_banks. rewrite nth_error_map. destruct (nth_error banks j); cbn [option_map]; [intro E; injection E as <-; reflexivity|discriminate]. Qed.
Lemma enabled_accepts fs banks banks' b : enable_banks 0 fs (clear_banks banks) = Ok banks' -> b_extended b = true ->
  existsb (bank_accepts b) banks' = existsb (fun f => accepts f (b_id b)) fs.
Proof.
  intros E Hb. pose proof (enable_banks_spec fs 0 _ _ E) as K. pose proof (enable_banks_length _ _ _ _ E) as L. apply eq_true_iff_eq. rewrite !existsb_exists. split.
  - intros (k & Hk & Ha). apply In_nth_error in Hk. destruct Hk as (j & Hj). rewrite K in Hj. cbn [Nat.leb andb] in Hj. rewrite Nat.add_0_l, Nat.sub_0_r in Hj.
    destruct (Nat.ltb_spec j (length fs)).
    + destruct (nth_error fs j) as [f|] eqn:Ef; [|discriminate]. cbn [option_map] in Hj. injection Hj as <-. exists f. split; [exact (nth_error_In _ _ Ef)|]. unfold bank_accepts in Ha. rewrite Hb in Ha. exact Ha.
    + apply cleared_nth in Hj. subst k. discriminate Ha.
  - intros (f & Hf & Ha). apply In_nth_error in Hf. destruct Hf as (j & Hj). exists (Some (BankMask (filter_id f) (fl_mask f))). split.
    + apply (nth_error_In banks' j). rewrite K. cbn [Nat.leb andb]. rewrite Nat.add_0_l, Nat.sub_0_r. assert (j < length fs)%nat by (apply nth_error_Some; congruence).
      destruct (Nat.ltb_spec j (length fs)); [|lia]. rewrite Hj. reflexivity.
    + unfold bank_accepts. rewrite Hb. exact Ha.
Qed.
Lemma make_filters_exact local ps alloc : Forall port_ok ps -> node_ok local -> forall n fs, make_filters ps local alloc n = Some fs ->
  (length fs <= length ps)%nat /\ forall id, id < 2 ^ 29 -> (existsb (fun f => accepts f id) fs = true <-> exists p, In p ps /\ wanted local p id).
Proof.
  intros Hp Hn. induction Hp as [|p ps Hp _ IH]; intros n fs; cbn [make_filters].
  - intro E. injection E as <-. split; [apply le_n|]. intros id _. split; [discriminate|]. intros (p & [] & _).
  - pose proof (C28_filter_exact p local Hp Hn) as K. destruct (make_filter p local) as [f|].
    + destruct (alloc n); [|discriminate]. destruct (make_filters ps local alloc (S n)) as [l|] eqn:E; [|discriminate]. intro X. injection X as <-. destruct (IH _ _ E) as (I1 & I2).
      split; [cbn [length]; lia|]. intros id Hid. cbn [existsb]. rewrite orb_true_iff, (K id Hid), (I2 id Hid). split.
      * intros [H|(q & Hq & H)]; [exists p; split; [left; reflexivity|exact H]|exists q; split; [right; exact Hq|exact H] ].
      * intros (q & [<-|Hq] & H); [left; exact H|right; exists q; split; assumption].
    + intro E. destruct (IH _ _ E) as (I1 & I2). split; [cbn [length]; lia|]. intros id Hid. rewrite (I2 id Hid). split.
      * intros (q & Hq & H). exists q. split; [right; exact Hq|exact H].
      * intros (q & [<-|Hq] & H); [destruct (K id H)|exists q; split; assumption].
Qed.
