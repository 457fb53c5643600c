(** Proofs about the plug-and-play client for bxCAN devices. *)
From Verif Require Import Base BitLemmas CoreModel CanIdModel CanSpec CanIdProofs CanTxModel CanTxSpec CanTxProofs CanTxProps CanQueueModel CanRxModel CanRxSpec CanRxProofs CanRxProps CanIdProps
  BxModel BxSpec BxProofs BusSpec BusProofs NodeModel EncModel GenModel DataTypes BasicModel PnpModel PnpSpec PnpProofs PnpProps BxPnpModel BxPnpSpec.

Ltac Zify.zify_post_hook ::= Z.div_mod_to_equations.

(** * The driver *)

Definition arrival_ok (a : arrival) : Prop := match a with Arrived b => forall data, b_data b = Some data -> bytes_ok data | Overrun => True end.
(** Only bytes wait, and no copies of frames sent *)
Definition quiet (x : bx_driver) : Prop := Forall arrival_ok (d_fifo (bx_can x)) /\ bx_loopback x = [].
Definition same_out (x x' : bx_driver) : Prop := d_mailboxes (bx_can x') = d_mailboxes (bx_can x) /\ d_history (bx_can x') = d_history (bx_can x).

Lemma receive_fifo now fifo : Forall arrival_ok fifo -> now < 2 ^ 32 -> forall fifo' r, receive_from_bus now fifo = (fifo', r) ->
  Forall arrival_ok fifo' /\ (forall f, r = RxFrame f -> frame_ok f /\ (length fifo' < length fifo)%nat).
Proof.
  intros H Hn. induction H as [|a fifo Ha H IH]; intros fifo' r E; cbn [receive_from_bus] in E.
  - injection E as <- <-. split; [constructor|discriminate].
  - destruct a as [b|].
    + destruct (of_bxcan b now) as [f|] eqn:Eo.
      * injection E as <- <-. split; [exact H|]. intros f' Ef. injection Ef as <-. split; [|cbn [length]; lia].
        unfold of_bxcan in Eo. destruct (b_extended b); [|discriminate]. destruct (N.ltb_spec (b_id b) (2 ^ 29)) as [L|L]; [|discriminate]. destruct (b_data b) as [data|] eqn:Ed; [|discriminate]. injection Eo as <-.
        split; [exact L|]. split; [exact Hn|]. apply (Ha data Ed).
      * destruct (IH _ _ E) as (I1 & I2). split; [exact I1|]. intros f Ef. destruct (I2 f Ef). split; [assumption|]. cbn [length]. lia.
    + injection E as <- <-. split; [exact H|discriminate].
Qed.
Lemma bx_receive_quiet now x x' r : quiet x -> now < 2 ^ 32 -> bx_receive now x = (x', r) ->
  quiet x' /\ same_out x x' /\ forall f, r = RxFrame f -> frame_ok f /\ (length (d_fifo (bx_can x')) < length (d_fifo (bx_can x)))%nat.
Proof.
  intros (Q1 & Q2) Hn E. unfold bx_receive in E. destruct (receive_from_bus now (d_fifo (bx_can x))) as [fifo r0] eqn:Er.
  destruct (receive_fifo now _ Q1 Hn _ _ Er) as (H1 & H2). rewrite Q2 in E. destruct r0 as [f| |]; injection E as <- <-; (split; [split; [exact H1|reflexivity]|]; split; [split; reflexivity|]).
  - intros f' Ef. exact (H2 f' Ef).
  - discriminate.
  - discriminate.
Qed.

(** * Receiving *)

Lemma given_app a b : given_frames (a ++ b) = given_frames a ++ given_frames b.
Proof. unfold given_frames. apply flat_map_app. Qed.
Lemma transfers_app a b : transfers (a ++ b) = transfers a ++ transfers b.
Proof. unfold transfers. apply flat_map_app. Qed.

Section Receiving.
  Context (clock : nat -> N) (mem : nat -> bool) (Hclock : forall k, clock k < 2 ^ 32).
  Definition frame_of_call (op : can_op) : Prop := listening op /\ can_op_ok op /\ ((forall k, mem k = true) -> forall f m, op = CFrame f m -> m = true).

  Lemma receive_trace fuel : forall k r x r' x' o, quiet x -> bx_pnp_receive clock mem fuel k r x = Ok (r', x', o) ->
    exists ops outs rops couts,
      bx_run ops x = Ok (x', outs) /\ can_run r rops = Ok (r', couts) /\ given_frames rops = flat_map received outs /\
      Forall (fun o => exists now, o = OpReceive now) ops /\ Forall frame_of_call rops /\ transfers couts = match o with Received t => [t] | _ => [] end /\ quiet x' /\ same_out x x'.
  Proof.
    induction fuel as [|fuel IH]; intros k r x r' x' o Q E; cbn [bx_pnp_receive] in E; [discriminate|].
    destruct (bx_receive (clock k) x) as [x1 g] eqn:Eb. destruct (bx_receive_quiet (clock k) x x1 g Q (Hclock k) Eb) as (Q1 & S1 & F1).
    assert (R1 : forall out x2 outs2 ops2, out = OutRx g -> bx_run ops2 x1 = Ok (x2, outs2) -> bx_run (OpReceive (clock k) :: ops2) x = Ok (x2, (OpReceive (clock k), out) :: outs2)).
    { intros out x2 outs2 ops2 -> Er. cbn [bx_run bx_step]. rewrite Eb, Er. reflexivity. }
    destruct g as [f| |].
    - destruct (F1 f eq_refl) as (Hf & _). destruct (accept_frame r (mem k) f) as [ [r1 o1]|] eqn:Ea; [|discriminate].
      assert (R2 : forall rops2 r2 couts2, can_run r1 rops2 = Ok (r2, couts2) -> can_run r (CFrame f (mem k) :: rops2) = Ok (r2, CGot o1 :: couts2)).
      { intros rops2 r2 couts2 Er. cbn [can_run can_step]. rewrite Ea, Er. reflexivity. }
      assert (C : frame_of_call (CFrame f (mem k))).
      { split; [exact I|]. split; [exact Hf|]. intros Hm f' m Em. injection Em as _ <-. apply Hm. }
      destruct o1 as [|t|].
      + destruct (IH (S k) r1 x1 r' x' o Q1 E) as (ops & outs & rops & couts & E1 & E2 & E3 & E4 & E5 & E6 & E7 & E8).
        exists (OpReceive (clock k) :: ops), ((OpReceive (clock k), OutRx (RxFrame f)) :: outs), (CFrame f (mem k) :: rops), (CGot RxNone :: couts).
        split; [exact (R1 _ _ _ _ eq_refl E1)|]. split; [exact (R2 _ _ _ E2)|]. split; [unfold given_frames in *; cbn [flat_map received app]; rewrite E3; reflexivity|].
        split; [constructor; [exists (clock k); reflexivity|exact E4]|]. split; [constructor; assumption|]. split; [exact E6|]. split; [exact E7|]. destruct S1, E8. split; congruence.
      + injection E as <- <- <-. exists [OpReceive (clock k)], [(OpReceive (clock k), OutRx (RxFrame f))], [CFrame f (mem k)], [CGot (RxTransfer t)].
        split; [exact (R1 _ x1 [] [] eq_refl eq_refl)|]. split; [exact (R2 [] _ [] eq_refl)|]. split; [reflexivity|]. split; [constructor; [exists (clock k); reflexivity|constructor]|]. split; [constructor; [exact C|constructor]|]. split; [reflexivity|]. split; assumption.
      + injection E as <- <- <-. exists [OpReceive (clock k)], [(OpReceive (clock k), OutRx (RxFrame f))], [CFrame f (mem k)], [CGot RxMemory].
        split; [exact (R1 _ x1 [] [] eq_refl eq_refl)|]. split; [exact (R2 [] _ [] eq_refl)|]. split; [reflexivity|]. split; [constructor; [exists (clock k); reflexivity|constructor]|]. split; [constructor; [exact C|constructor]|]. split; [reflexivity|]. split; assumption.
    - injection E as <- <- <-. exists [OpReceive (clock k)], [(OpReceive (clock k), OutRx RxWouldBlock)], [], [].
      split; [exact (R1 _ x1 [] [] eq_refl eq_refl)|]. split; [reflexivity|]. split; [reflexivity|]. split; [constructor; [exists (clock k); reflexivity|constructor]|]. split; [constructor|]. split; [reflexivity|]. split; assumption.
    - injection E as <- <- <-. exists [OpReceive (clock k)], [(OpReceive (clock k), OutRx RxOverrun)], [], [].
      split; [exact (R1 _ x1 [] [] eq_refl eq_refl)|]. split; [reflexivity|]. split; [reflexivity|]. split; [constructor; [exists (clock k); reflexivity|constructor]|]. split; [constructor|]. split; [reflexivity|]. split; assumption.
  Qed.
End Receiving.

(** [E] says that something panics *)
Ltac dead E := match type of E with Panic = _ => discriminate E end.

(** * Histories *)

Definition no_frames_out (x : bx_driver) : Prop := d_mailboxes (bx_can x) = [None; None; None] /\ d_history (bx_can x) = [].
Lemma dev_send_empty m d : d_mailboxes d = [None; None; None] -> dev_send m d = d.
Proof. intro E. unfold dev_send. rewrite E. destruct m as [|[|[|m] ] ]; cbn; [reflexivity..|]. destruct m; reflexivity. Qed.

(** The ID in a transfer *)
Definition ids_in (u : list N) (ts : list transfer) : list N := flat_map (fun t => match offer TransportCan V1 u (t_payload t) with Ok (Some id) => [id] | _ => [] end) ts.
Lemma ids_in_app u a b : ids_in u (a ++ b) = ids_in u a ++ ids_in u b.
Proof. unfold ids_in. apply flat_map_app. Qed.

Definition call_ok (memory : Prop) (op : can_op) : Prop := listening op /\ can_op_ok op /\ (memory -> forall f m, op = CFrame f m -> m = true).

Lemma publish_same now alloc c c' : bx_pnp_publish now alloc c = Ok c' -> bp_unique c' = bp_unique c /\ bp_receiver c' = bp_receiver c /\ bp_driver c' = bp_driver c.
Proof.
  unfold bx_pnp_publish. intro E. destruct (pnp_client_send _ _ _ _ _) as [ [a [|[t| | | | | | |] [|] ] ]|]; try dead E.
  destruct (can_push _ _ 8 _ _ t) as [ [ [tx [q|] ] r]|]; try dead E. destruct (pnp_client_send _ _ _ _ _) as [ [a' l]|]; [|dead E]. injection E as <-. auto.
Qed.

Lemma run_trace (memory : Prop) es : forall c c' outs, Forall event_ok es -> (memory -> Forall enough_memory es) -> quiet (bp_driver c) -> no_frames_out (bp_driver c) -> pnp_run es c = Ok (c', outs) ->
  exists ops bouts rops couts,
    bx_run ops (bp_driver c) = Ok (bp_driver c', bouts) /\ can_run (bp_receiver c) rops = Ok (bp_receiver c', couts) /\ given_frames rops = flat_map received bouts /\
    Forall listens ops /\ Forall (call_ok memory) rops /\ on_bus ops = arrivals es /\ returned outs = ids_in (bp_unique c) (transfers couts) /\ bp_unique c' = bp_unique c /\ quiet (bp_driver c') /\ no_frames_out (bp_driver c').
Proof.
  induction es as [|e es IH]; intros c c' outs Hok Hm Q Out E; cbn [pnp_run] in E.
  - injection E as <- <-. exists [], [], [], []. repeat (split; [first [reflexivity|assumption|solve [constructor] ]|]). assumption.
  - inversion Hok as [|? ? He Hes]; subst. assert (Hm' : memory -> Forall enough_memory es) by (intro M; specialize (Hm M); inversion Hm; assumption).
    destruct (pnp_step e c) as [ [c1 o]|] eqn:Es; [|discriminate]. cbn [bind fst snd] in E. destruct (pnp_run es c1) as [ [c2 os]|] eqn:Er; [|discriminate]. cbn [bind fst snd] in E. injection E as <- <-.
    assert (S1 : exists ops bouts rops couts,
      bx_run ops (bp_driver c) = Ok (bp_driver c1, bouts) /\ can_run (bp_receiver c) rops = Ok (bp_receiver c1, couts) /\ given_frames rops = flat_map received bouts /\
      Forall listens ops /\ Forall (call_ok memory) rops /\ on_bus ops = arrivals [e] /\ returned [o] = ids_in (bp_unique c) (transfers couts) /\ bp_unique c1 = bp_unique c /\ quiet (bp_driver c1) /\ no_frames_out (bp_driver c1)).
    { destruct e as [now alloc|clock mem|m|b|]; cbn [pnp_step] in Es.
      - destruct (bx_pnp_publish now alloc c) as [c3|] eqn:Ep; [|discriminate]. cbn [bind] in Es. injection Es as <- <-. destruct (publish_same _ _ _ _ Ep) as (P1 & P2 & P3). rewrite P1, P2, P3.
        exists [], [], [], []. repeat (split; [first [reflexivity|assumption|solve [constructor] ]|]). assumption.
      - unfold bx_pnp_handle in Es. destruct (bx_pnp_receive clock mem _ 0 (bp_receiver c) (bp_driver c)) as [ [ [r x] o1]|] eqn:Ec; [|discriminate].
        destruct (receive_trace clock mem He _ _ _ _ _ _ _ Q Ec) as (ops & bouts & rops & couts & E1 & E2 & E3 & E4 & E5 & E6 & E7 & E8 & E9).
        assert (B : Forall listens ops /\ on_bus ops = []).
        { clear - E4. induction E4 as [|a ops (now & ->) _ (I1 & I2)]; [split; [constructor|reflexivity]|]. split; [constructor; [exact I|exact I1]|exact I2]. }
        assert (C : Forall (call_ok memory) rops).
        { eapply Forall_impl; [|exact E5]. intros a (A1 & A2 & A3). split; [exact A1|]. split; [exact A2|]. intro M. apply A3. specialize (Hm M). inversion Hm as [|? ? H1]; subst. exact H1. }
        destruct Out as (O1 & O2).
        assert (D : bp_driver c1 = x /\ bp_receiver c1 = r /\ bp_unique c1 = bp_unique c /\ returned [o] = ids_in (bp_unique c) (transfers couts)).
        { rewrite E6. destruct o1 as [t| |]; [|injection Es as <- <-; auto..]. unfold pnp_client_receive in Es. cbn [ids_in flat_map app]. destruct (offer TransportCan V1 (bp_unique c) (t_payload t)) as [id|]; [|discriminate].
          cbn [bind] in Es. injection Es as <- <-. cbn [bp_driver bp_receiver bp_unique]. repeat (split; [reflexivity|]). destruct id; reflexivity. }
        destruct D as (D1 & D2 & D3 & D4). exists ops, bouts, rops, couts. rewrite D1, D2.
        split; [exact E1|]. split; [exact E2|]. split; [exact E3|]. split; [apply B|]. split; [exact C|]. split; [apply B|]. split; [exact D4|]. split; [exact D3|]. split; [exact E7|]. split; congruence.
      - injection Es as <- <-. exists [OpSend m], [(OpSend m, OutNothing)], [], []. destruct Out as (O1 & O2). destruct Q as (Q1 & Q2). cbn [bp_driver bp_receiver bp_unique]. split; [reflexivity|]. split; [reflexivity|]. split; [reflexivity|].
        split; [constructor; [exact I|constructor]|]. split; [constructor|]. split; [reflexivity|]. split; [reflexivity|]. split; [reflexivity|]. unfold quiet, no_frames_out, on_device. cbn [bx_can bx_loopback]. rewrite (dev_send_empty m _ O1). auto.
      - injection Es as <- <-. exists [OpArrive b], [(OpArrive b, OutNothing)], [], []. destruct Out as (O1 & O2). destruct Q as (Q1 & Q2). cbn [bp_driver bp_receiver bp_unique]. split; [reflexivity|]. split; [reflexivity|]. split; [reflexivity|].
        split; [constructor; [exact I|constructor]|]. split; [constructor|]. split; [reflexivity|]. split; [reflexivity|]. split; [reflexivity|]. unfold quiet, no_frames_out, on_device, dev_arrive. cbn [bx_can bx_loopback].
        destruct (existsb _ _); cbn [d_fifo d_mailboxes d_history]; [|auto]. split; [|auto]. split; [|exact Q2]. apply Forall_app. split; [exact Q1|constructor; [exact He|constructor] ].
      - injection Es as <- <-. exists [OpOverrun], [(OpOverrun, OutNothing)], [], []. destruct Out as (O1 & O2). destruct Q as (Q1 & Q2). cbn [bp_driver bp_receiver bp_unique]. split; [reflexivity|]. split; [reflexivity|]. split; [reflexivity|].
        split; [constructor; [exact I|constructor]|]. split; [constructor|]. split; [reflexivity|]. split; [reflexivity|]. split; [reflexivity|]. unfold quiet, no_frames_out, on_device, dev_overrun. cbn [bx_can bx_loopback d_fifo d_mailboxes d_history].
        split; [|auto]. split; [|exact Q2]. apply Forall_app. split; [exact Q1|constructor; [exact I|constructor] ]. }
    destruct S1 as (ops & bouts & rops & couts & E1 & E2 & E3 & E4 & E5 & E6 & E7 & E8 & E9 & E10).
    destruct (IH c1 c2 os Hes Hm' E9 E10 Er) as (ops' & bouts' & rops' & couts' & F1 & F2 & F3 & F4 & F5 & F6 & F7 & F8 & F9 & F10).
    exists (ops ++ ops'), (bouts ++ bouts'), (rops ++ rops'), (couts ++ couts').
    split; [rewrite bx_run_app, E1, F1; reflexivity|]. split; [exact (can_run_app _ _ _ _ _ _ _ E2 F2)|]. split; [rewrite given_app, flat_map_app; congruence|].
    split; [apply Forall_app; split; assumption|]. split; [apply Forall_app; split; assumption|]. split; [unfold on_bus in *; rewrite flat_map_app, E6, F6; change (e :: es) with ([e] ++ es); unfold arrivals; rewrite flat_map_app; reflexivity|].
    split; [|split; [congruence|split; assumption] ]. rewrite transfers_app, ids_in_app. rewrite <- E7. rewrite E8 in F7. rewrite <- F7. change (o :: os) with ([o] ++ os). unfold returned. apply flat_map_app.
Qed.

Lemma new_state banks u mem alloc c : (1 <= banks)%nat -> bx_pnp_new banks u mem alloc = Ok (Some c) ->
  bp_unique c = u /\ bp_publisher c = pnp_client_new /\ bp_transmitter c = can_tx_new 8 /\ bp_queue c = None /\ quiet (bp_driver c) /\ no_frames_out (bp_driver c) /\
  can_run (rx_new None) [CSub pnp_port 1000000 9 mem] = Ok (bp_receiver c, [CSubbed SubscribeOk]) /\
  bx_run [OpFilters None [pnp_port] alloc] (bx_new banks) = Ok (bp_driver c, [(OpFilters None [pnp_port] alloc, OutNothing)]).
Proof.
  intros Hb E. unfold bx_pnp_new in E. change (allocation_subject V1) with 8166 in E. change (PMsg 8166) with pnp_port in E.
  destruct (rx_subscribe_port (rx_new None) pnp_port 1000000 9 mem) as [r s] eqn:Es. destruct s; try discriminate.
  assert (Er : fst (rx_filters r) = None /\ snd (rx_filters r) = [pnp_port]).
  { unfold rx_subscribe_port, pnp_port, rx_subscribe, rx_unsubscribe in Es. cbn [rx_id rx_new rx_subs filter length Nat.ltb Nat.leb orb] in Es. destruct mem; [|discriminate]. injection Es as <-. split; reflexivity. }
  destruct Er as (Er1 & Er2). rewrite Er1, Er2 in E.
  destruct (bx_filters_ok None [pnp_port] alloc (bx_new banks)) as (bk & Ef & Hl); [unfold bx_new; cbn [bx_can d_banks]; rewrite repeat_length; exact Hb|].
  rewrite Ef in E. injection E as <-. cbn [bp_unique bp_publisher bp_transmitter bp_queue bp_driver bp_receiver]. repeat (split; [reflexivity|]). split; [split; [constructor|reflexivity]|]. split; [split; reflexivity|].
  split; [cbn [can_run can_step]; rewrite Es; reflexivity|]. cbn [bx_run bx_step]. rewrite Ef. reflexivity.
Qed.

(** * Payloads are bytes *)

Lemma frame_body_ok g : frame_ok g -> bytes_ok (frame_body g).
Proof. intros (_ & _ & Hg). unfold frame_body, bytes_ok in *. destruct (f_data g) as [|b l] using rev_ind; [constructor|]. rewrite removelast_last. apply Forall_app in Hg. apply Hg. Qed.
Lemma in_subseq {A} (l m : list A) x : subseq l m -> In x l -> In x m.
Proof. induction 1 as [|a l m H IH|a l m H IH]; [intros []|right; auto|intros [<-|H1]; [left; reflexivity|right; auto] ]. Qed.
Lemma pending_ok id h r p s g : can_hist id h r -> In g (CanRxSpec.pending p s h) -> frame_ok g.
Proof.
  intros Hh Hin. induction Hh as [|h r op r' o Hh IH Hok E]; [destruct Hin|]. destruct op as [f mem|p' timeout max mem|p'|n]; cbn [CanRxSpec.pending can_op_ok] in *; [| |auto|auto].
  - destruct (sent_by p s f); [|auto]. destruct o as [ [| |]| |]; try (apply in_app_or in Hin as [Hin|[<-|[] ] ]; auto). destruct Hin.
  - destruct o as [|[]|]; auto. destruct (port_eqb p' p); [destruct Hin|auto].
Qed.
Lemma firstn_ok n l : bytes_ok l -> bytes_ok (firstn n l).
Proof. unfold bytes_ok. intro H. rewrite <- (firstn_skipn n l) in H. apply Forall_app in H. apply H. Qed.
Lemma delivered_bytes id h r f mem r' t : can_hist id h r -> frame_ok f -> accept_frame r mem f = Ok (r', RxTransfer t) -> bytes_ok (t_payload t).
Proof.
  intros Hh Hf E. destruct (delivery _ _ _ _ _ _ _ Hh Hf E) as (hd & tl & timeout & max & _ & _ & _ & _ & _ & H).
  destruct (h_source hd) as [s|]; [|rewrite H; apply frame_body_ok, Hf]. destruct (tl_start tl && tl_end tl).
  - destruct H as (-> & _). apply firstn_ok, frame_body_ok, Hf.
  - destruct H as (_ & fs & Hsub & Hw). destruct Hw as (_ & _ & _ & ->). apply firstn_ok, firstn_ok. unfold contents, bytes_ok. apply Forall_concat, Forall_forall. intros l Hl. apply in_map_iff in Hl as (g & <- & Hg). apply frame_body_ok.
    apply in_app_or in Hg as [Hg|[<-|[] ] ]; [|exact Hf]. apply (pending_ok id h r _ _ _ Hh (in_subseq _ _ _ Hsub Hg)).
Qed.
Lemma run_bytes id rops : forall h r r' couts, can_hist id h r -> Forall can_op_ok rops -> can_run r rops = Ok (r', couts) -> Forall (fun t => bytes_ok (t_payload t)) (transfers couts).
Proof.
  induction rops as [|op rops IH]; intros h r r' couts Hh Hok E; cbn [can_run] in E; [injection E as _ <-; constructor|]. inversion Hok as [|? ? H1 H2]; subst.
  destruct (can_step r op) as [ [r1 o]|] eqn:Es; [|discriminate]. destruct (can_run r1 rops) as [ [r2 os]|] eqn:Er; [|discriminate]. injection E as _ <-.
  specialize (IH _ _ _ _ (ch_step id h r op r1 o Hh H1 Es) H2 Er). unfold transfers in *. cbn [flat_map]. apply Forall_app. split; [|exact IH].
  destruct op as [f mem|p to mx mem|p|n]; cbn [can_step] in Es.
  - destruct (accept_frame r mem f) as [ [r3 o3]|] eqn:Ea; [|discriminate]. injection Es as <- <-. destruct o3 as [|t|]; [constructor| |constructor]. constructor; [|constructor]. exact (delivered_bytes _ _ _ _ _ _ _ Hh H1 Ea).
  - destruct (rx_subscribe_port r p to mx mem) as [? ?]. injection Es as _ <-. constructor.
  - injection Es as _ <-. constructor.
  - injection Es as _ <-. constructor.
Qed.
Lemma ids_offered u ts : Forall (fun t => bytes_ok (t_payload t)) ts -> offered u ts (ids_in u ts).
Proof.
  induction 1 as [|t ts Ht _ IH]; [constructor|]. unfold ids_in in *. cbn [flat_map]. destruct (offer_right TransportCan V1 u (t_payload t) Ht) as (o & -> & H). destruct o as [id|]; cbn [app].
  - constructor; [apply H; reflexivity|exact IH].
  - apply offered_not; [|exact IH]. intros id Hid. apply H in Hid. discriminate.
Qed.

(** * Requests *)

Lemma publish_ok now alloc c : unique_id_ok (bp_unique c) -> now < 2 ^ 32 -> bp_publisher c = pnp_client_new -> bp_transmitter c = can_tx_new 8 -> bp_queue c = None ->
  exists c' f, bx_pnp_publish now alloc c = Ok c' /\ bp_queue c' = Some f /\ request_frame (bp_unique c) now f.
Proof.
  intros U Hn Ep Et Eq. unfold bx_pnp_publish. rewrite Ep, Et, Eq. cbn [tx_mtu can_tx_new Nat.sub].
  destruct (C85_send_partial TransportCan (bp_unique c) pnp_client_new 7 (Env now alloc NodeModel.PushOk) U (le_n _) eq_refl) as (p & E & L & B & R). rewrite E.
  set (t := Transfer _ false p). assert (Ht : t_header t = HMsg (MsgH ((now + 1000000) mod 2 ^ 32) 0 4 8166 None)) by reflexivity.
  assert (Hh : can_header_ok (t_header t)).
  { rewrite Ht. split; [cbn; lia|]. split; [cbn; lia|]. split; [apply N.mod_lt; discriminate|]. split; [cbn; lia|]. cbn [mh_source]. discriminate. }
  destruct (push_inner_spec 8 8 t (or_introl eq_refl) (le_n _) Hh) as (fr & pad & cid & Hid & Hseg & _ & _ & _ & Hpad & Hone & _ & Hp).
  rewrite (Hpad eq_refl) in Hseg. assert (L1 : length fr = 1%nat) by (apply Hone; cbn [t_payload t]; rewrite L; apply le_n).
  rewrite make_can_id_spec in Hid by exact Hh. assert (Ecid : can_id_value (t_header t) (t_payload t) = cid) by (clear - Hid; congruence). clear Hid. assert (Hm : id_means cid (t_header t)) by (rewrite <- Ecid; apply can_id_value_means, Hh).
  unfold can_push. cbn [tx_mtu can_tx_new]. rewrite Hp. cbn [lift_reserve q_reserve sq_ops sq_reserve]. rewrite L1. cbn [Nat.eqb].
  destruct fr as [|f [|] ]; [discriminate L1| |discriminate L1]. cbn [send_all lift_transmit qd_transmit q_push sq_ops sq_push answer_of]. rewrite E. eexists _, f. split; [reflexivity|]. split; [reflexivity|].
  exists p, cid. split; [exact L|]. split; [exact B|]. split; [exact R|]. split; [exact Hm|].
  destruct Hseg as (chunks & H1 & H2 & H3 & H4 & H5). cbn [length] in H4. destruct chunks as [|ch [|] ]; [discriminate H4| |discriminate H4]. cbn [concat length Nat.ltb Nat.leb repeat app t_payload t] in H1. rewrite !app_nil_r in H1. subst ch.
  specialize (H5 O p eq_refl). cbn [nth_error length Nat.eqb Nat.even] in H5. rewrite Ht in H5. assert (Ef : f = Frame ((now + 1000000) mod 2 ^ 32) cid false (p ++ [tail_byte true true true 0])) by (clear - H5; cbn [h_ts h_tid mh_ts mh_tid t_loopback t] in H5; inversion H5; reflexivity). exact Ef.
Qed.

Lemma publish_full now alloc c g : unique_id_ok (bp_unique c) -> tx_mtu (bp_transmitter c) = 8%nat -> bp_queue c = Some g -> bx_pnp_publish now alloc c = Panic.
Proof.
  intros U Et Eq. unfold bx_pnp_publish. rewrite Et, Eq. cbn [Nat.sub].
  destruct (C85_send_partial TransportCan (bp_unique c) (bp_publisher c) 7 (Env now alloc NodeModel.PushOk) U (le_n _) eq_refl) as (p & E & L & B & R). rewrite E.
  destruct (can_push _ _ 8 (bp_transmitter c) (Ok (Some g)) _) as [ [ [tx [q|] ] r]|] eqn:Ec; try reflexivity.
  destruct r; [exfalso| | |]; try (rewrite (C85_busy_refuted TransportCan (bp_unique c) (bp_publisher c) 7 _ U (le_n _)) by (cbn; discriminate); reflexivity).
  revert Ec. unfold can_push, push_inner. destruct (frame_stats _ _) as [ [n pad]|]; [|discriminate]. cbn [lift_reserve q_reserve sq_ops sq_reserve]. discriminate.
Qed.

(** The state of the queue, after requests *)
Definition queue_inv (asked : bool) (c : bx_pnp) : Prop :=
  tx_mtu (bp_transmitter c) = 8%nat /\ if asked then exists g, bp_queue c = Some g else bp_queue c = None /\ bp_publisher c = pnp_client_new /\ bp_transmitter c = can_tx_new 8.
Lemma publish_queue now alloc c c' : bx_pnp_publish now alloc c = Ok c' -> tx_mtu (bp_transmitter c') = tx_mtu (bp_transmitter c) .
Proof.
  unfold bx_pnp_publish. intro E. destruct (pnp_client_send _ _ _ _ _) as [ [a [|[t| | | | | | |] [|] ] ]|]; try dead E.
  destruct (can_push _ _ 8 _ _ t) as [ [ [tx [q|] ] r]|] eqn:Ec; try dead E. destruct (pnp_client_send _ _ _ _ _) as [ [a' l]|]; [|dead E]. injection E as <-. cbn [bp_transmitter].
  unfold can_push in Ec. destruct (push_inner _ _ 8 _ _ t) as [ [d r']|]; [|discriminate]. destruct r'; injection Ec as <- _ _; reflexivity.
Qed.
Lemma step_queue e c c' o asked : unique_id_ok (bp_unique c) -> event_ok e -> queue_inv asked c -> pnp_step e c = Ok (c', o) -> queue_inv (asked || is_request e) c' /\ bp_unique c' = bp_unique c /\ (asked && is_request e) = false.
Proof.
  intros U He (I1 & I2) E. destruct e as [now alloc|clock mem|m|b|]; cbn [pnp_step is_request] in *; rewrite ?orb_false_r, ?andb_false_r.
  - destruct (bx_pnp_publish now alloc c) as [c3|] eqn:Ep; [|discriminate]. cbn [bind] in E. injection E as <- _. destruct (publish_same _ _ _ _ Ep) as (P1 & _). pose proof (publish_queue _ _ _ _ Ep) as P2.
    destruct asked.
    + destruct I2 as (g & Eg). rewrite (publish_full now alloc c g U I1 Eg) in Ep. discriminate.
    + destruct I2 as (J1 & J2 & J3). destruct (publish_ok now alloc c U He J2 J3 J1) as (c4 & f & E4 & E5 & _). rewrite Ep in E4. injection E4 as <-. split; [|split; [exact P1|reflexivity] ]. split; [congruence|]. exists f. exact E5.
  - unfold bx_pnp_handle in E. destruct (bx_pnp_receive clock mem _ 0 _ _) as [ [ [r x] o1]|]; [|discriminate].
    destruct o1 as [t| |]; [|injection E as <- <-; split; [split; [exact I1|exact I2]|auto]..]. destruct (pnp_client_receive _ _ _) as [id|]; [|discriminate]. cbn [bind] in E. injection E as <- <-. split; [split; [exact I1|exact I2]|auto].
  - injection E as <- <-. split; [split; [exact I1|exact I2]|auto].
  - injection E as <- <-. split; [split; [exact I1|exact I2]|auto].
  - injection E as <- <-. split; [split; [exact I1|exact I2]|auto].
Qed.
Lemma run_queue es : forall c c' outs asked, unique_id_ok (bp_unique c) -> Forall event_ok es -> queue_inv asked c -> pnp_run es c = Ok (c', outs) ->
  queue_inv (asked || existsb is_request es) c' /\ bp_unique c' = bp_unique c.
Proof.
  induction es as [|e es IH]; intros c c' outs asked U Hok Inv E; cbn [pnp_run] in E; [injection E as <- <-; cbn [existsb]; rewrite orb_false_r; auto|]. inversion Hok as [|? ? He Hes]; subst.
  destruct (pnp_step e c) as [ [c1 o]|] eqn:Es; [|discriminate]. cbn [bind fst snd] in E. destruct (pnp_run es c1) as [ [c2 os]|] eqn:Er; [|discriminate]. cbn [bind fst snd] in E. injection E as <- <-.
  destruct (step_queue e c c1 o asked U He Inv Es) as (J1 & J2 & _). destruct (IH c1 c2 os _ ltac:(rewrite J2; exact U) Hes J1 Er) as (K1 & K2). cbn [existsb]. rewrite orb_assoc. split; [exact K1|congruence].
Qed.

(** * Without panics *)

Definition arrival_long (a : arrival) : Prop := match a with Arrived b => first_long b | Overrun => True end.
Definition all_long (h : list (can_op * can_out)) : Prop := forall op o, In (op, o) h -> start_long op.
Lemma receive_fifo_long now fifo : Forall arrival_long fifo -> forall fifo' r, receive_from_bus now fifo = (fifo', r) ->
  Forall arrival_long fifo' /\ (forall f mem, r = RxFrame f -> start_long (CFrame f mem)).
Proof.
  induction 1 as [|a fifo Ha H IH]; intros fifo' r E; cbn [receive_from_bus] in E; [injection E as <- <-; split; [constructor|discriminate]|].
  destruct a as [b|]; [|injection E as <- <-; split; [exact H|discriminate] ].
  destruct (of_bxcan b now) as [f|] eqn:Eo; [|exact (IH _ _ E)]. injection E as <- <-. split; [exact H|]. intros f' mem Ef. injection Ef as <-.
  unfold of_bxcan in Eo. destruct (b_extended b); [|discriminate]. destruct (b_id b <? 2 ^ 29); [|discriminate]. destruct (b_data b) as [data|] eqn:Ed; [|discriminate]. injection Eo as <-.
  intros toggle tid Ht. exact (Ha data toggle tid Ed Ht).
Qed.
Lemma bx_receive_long now x x' r : bx_loopback x = [] -> Forall arrival_long (d_fifo (bx_can x)) -> bx_receive now x = (x', r) ->
  Forall arrival_long (d_fifo (bx_can x')) /\ forall f mem, r = RxFrame f -> start_long (CFrame f mem).
Proof.
  intros L H E. unfold bx_receive in E. destruct (receive_from_bus now (d_fifo (bx_can x))) as [fifo r0] eqn:Er. destruct (receive_fifo_long now _ H _ _ Er) as (H1 & H2).
  rewrite L in E. destruct r0 as [f| |]; injection E as <- <-; (split; [exact H1|]); [exact H2|discriminate..].
Qed.
Lemma receive_total clock mem fuel : (forall k, clock k < 2 ^ 32) -> forall k r x h, quiet x -> Forall arrival_long (d_fifo (bx_can x)) -> can_hist None h r -> all_long h -> (length (d_fifo (bx_can x)) < fuel)%nat ->
  exists r' x' o h', bx_pnp_receive clock mem fuel k r x = Ok (r', x', o) /\ can_hist None h' r' /\ all_long h' /\ Forall arrival_long (d_fifo (bx_can x')) /\ forall t, o = Received t -> bytes_ok (t_payload t).
Proof.
  intro Hc. induction fuel as [|fuel IH]; intros k r x h Q L Hh Ha Hl; [lia|]. cbn [bx_pnp_receive].
  destruct (bx_receive (clock k) x) as [x1 g] eqn:Eb. destruct (bx_receive_quiet (clock k) x x1 g Q (Hc k) Eb) as (Q1 & _ & F1). destruct (bx_receive_long _ _ _ _ (proj2 Q) L Eb) as (L1 & G1).
  destruct g as [f| |]; [|exists r, x1, NothingReceived, h; split; [reflexivity|]; repeat (split; [assumption|]); discriminate|exists r, x1, ReceptionError, h; split; [reflexivity|]; repeat (split; [assumption|]); discriminate].
  destruct (F1 f eq_refl) as (Hf & Hlt). pose proof (G1 f (mem k) eq_refl) as Hs.
  pose proof (C23_no_panic_partial None h r (CFrame f (mem k)) Hh Hf Ha Hs) as Hn. destruct (accept_frame r (mem k) f) as [ [r1 o1]|] eqn:Ea; [|cbn [can_step] in Hn; rewrite Ea in Hn; congruence].
  assert (Hh1 : can_hist None ((CFrame f (mem k), CGot o1) :: h) r1) by (eapply ch_step; [exact Hh|exact Hf|cbn [can_step]; rewrite Ea; reflexivity]).
  assert (Ha1 : all_long ((CFrame f (mem k), CGot o1) :: h)). { intros op o [Eo|Hin]; [injection Eo as <- _; exact Hs|exact (Ha op o Hin)]. }
  destruct o1 as [|t|].
  - destruct (IH (S k) r1 x1 _ Q1 L1 Hh1 Ha1 ltac:(lia)) as (r2 & x2 & o2 & h2 & H). exists r2, x2, o2, h2. exact H.
  - exists r1, x1, (Received t), ((CFrame f (mem k), CGot (RxTransfer t)) :: h). split; [reflexivity|]. repeat (split; [assumption|]). intros t' Et. injection Et as <-. exact (delivered_bytes _ _ _ _ _ _ _ Hh Hf Ea).
  - exists r1, x1, ReceptionError, ((CFrame f (mem k), CGot RxMemory) :: h). split; [reflexivity|]. repeat (split; [assumption|]). discriminate.
Qed.

Definition event_long (e : pnp_event) : Prop := match e with EArrive b => first_long b | _ => True end.
Lemma step_total e c h asked : event_ok e -> event_long e -> unique_id_ok (bp_unique c) -> quiet (bp_driver c) -> Forall arrival_long (d_fifo (bx_can (bp_driver c))) -> no_frames_out (bp_driver c) -> can_hist None h (bp_receiver c) -> all_long h ->
  queue_inv asked c -> asked && is_request e = false ->
  exists c' o h', pnp_step e c = Ok (c', o) /\ can_hist None h' (bp_receiver c') /\ all_long h' /\ Forall arrival_long (d_fifo (bx_can (bp_driver c'))).
Proof.
  intros He Hlong U Q L Out Hh Ha Inv Hr. destruct e as [now alloc|clock mem|m|b|]; cbn [pnp_step].
  - destruct asked; [discriminate|]. destruct Inv as (I1 & J1 & J2 & J3). destruct (publish_ok now alloc c U He J2 J3 J1) as (c' & f & E & _). rewrite E. destruct (publish_same _ _ _ _ E) as (P1 & P2 & P3).
    exists c', None, h. cbn [bind]. rewrite P2, P3. auto.
  - unfold bx_pnp_handle. destruct (receive_total clock mem (S (length (d_fifo (bx_can (bp_driver c))) + length (bx_loopback (bp_driver c)))) He 0%nat (bp_receiver c) (bp_driver c) h Q L Hh Ha ltac:(lia)) as (r & x & o & h' & E & H1 & H2 & H3 & H4).
    rewrite E. destruct o as [t| |]; [|eexists _, _, h'; split; [reflexivity|auto]..]. destruct (offer_right TransportCan V1 (bp_unique c) (t_payload t) (H4 t eq_refl)) as (id & Eo & _). unfold pnp_client_receive. rewrite Eo. cbn [bind].
    eexists _, _, h'. split; [reflexivity|auto].
  - eexists _, _, h. split; [reflexivity|]. destruct Out as (O1 & _). cbn [bp_receiver bp_driver on_device bx_can]. rewrite (dev_send_empty m _ O1). auto.
  - eexists _, _, h. split; [reflexivity|]. cbn [bp_receiver bp_driver on_device bx_can]. unfold dev_arrive. split; [exact Hh|]. split; [exact Ha|]. destruct (existsb _ _); [|exact L]. cbn [d_fifo]. apply Forall_app. split; [exact L|constructor; [exact Hlong|constructor] ].
  - eexists _, _, h. split; [reflexivity|]. cbn [bp_receiver bp_driver on_device bx_can]. unfold dev_overrun. split; [exact Hh|]. split; [exact Ha|]. cbn [d_fifo]. apply Forall_app. split; [exact L|constructor; [exact I|constructor] ].
Qed.
Lemma pnp_run_cons e es c : pnp_run (e :: es) c = bind (pnp_step e c) (fun x => bind (pnp_run es (fst x)) (fun y => Ok (fst y, snd x :: snd y))).
Proof. reflexivity. Qed.
Lemma run_total es : forall c h asked, Forall event_ok es -> Forall event_long es -> unique_id_ok (bp_unique c) -> quiet (bp_driver c) -> Forall arrival_long (d_fifo (bx_can (bp_driver c))) -> no_frames_out (bp_driver c) ->
  can_hist None h (bp_receiver c) -> all_long h -> queue_inv asked c -> (length (filter is_request es) + (if asked then 1 else 0) <= 1)%nat -> exists c' outs, pnp_run es c = Ok (c', outs).
Proof.
  induction es as [|e es IH]; intros c h asked Hok Hlong U Q L Out Hh Ha Inv Hn; [eexists _, _; reflexivity|]. inversion Hok as [|? ? He Hes]; subst. inversion Hlong as [|? ? Hl Hls]; subst.
  assert (Hr : asked && is_request e = false). { cbn [filter] in Hn. destruct asked, (is_request e); try reflexivity. cbn [length] in Hn. lia. }
  destruct (step_total e c h asked He Hl U Q L Out Hh Ha Inv Hr) as (c1 & o & h1 & E & H1 & H2 & H3). destruct (step_queue e c c1 o asked U He Inv E) as (J1 & J2 & _).
  destruct (run_trace False [e] c c1 [o]) as (_ & _ & _ & _ & _ & _ & _ & _ & _ & _ & _ & _ & Q1 & O1); [constructor; [exact He|constructor]|intros []|exact Q|exact Out|cbn [pnp_run]; rewrite E; reflexivity|].
  destruct (IH c1 h1 _ Hes Hls ltac:(rewrite J2; exact U) Q1 H3 O1 H1 H2 J1) as (c2 & os & E2).
  { cbn [filter] in Hn. destruct asked, (is_request e); cbn [length orb andb] in *; try discriminate; lia. }
  rewrite pnp_run_cons, E. cbn [bind fst snd]. rewrite E2. cbn [bind]. eexists _, _. reflexivity.
Qed.
