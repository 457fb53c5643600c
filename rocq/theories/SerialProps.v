(** Property theorems for canadensis_serial/src/{tx,rx}.rs. *)
From Verif Require Import Base BitLemmas CrcModel CoreModel TabModel CobsModel CobsSpec CobsProofs
  HeaderModel HeaderSpec HeaderProofs SerialModel SerialSpec SerialProofs.
Ltac Zify.zify_post_hook ::= Z.div_mod_to_equations.

(** C05: a push never panics.  It appends one delimited frame whose body has no delimiter in it, or changes nothing;
    which of the two depends only on the room in the queue and on the temporary allocation. *)
Theorem C05_serial_push_all_or_nothing : forall cap q t alloc,
  (length q <= cap)%nat -> bytes_ok (t_payload t) ->
  (exists body,
     serial_push cap q t alloc = Ok (true, q ++ [0] ++ body ++ [0]) /\
     (length q + length body + 2 <= cap)%nat /\
     Forall (fun b => 0 < b < 256) body /\
     escape_from_iter (frame_data t) (repeat 0 (length body)) = Some (length body, body) /\
     alloc = true /\ (length q + escaped_size (length (t_payload t) + 28) + 2 <= cap)%nat)
  \/
  (serial_push cap q t alloc = Ok (false, q) /\
   (alloc = false \/ (cap < length q + escaped_size (length (t_payload t) + 28) + 2)%nat)).
Proof.
  intros cap q t alloc Hq Hp. rewrite serial_push_spec by assumption.
  set (es := escaped_size (length (t_payload t) + 28)).
  destruct (Nat.leb_spec (es + 2) (cap - length q)); cbn [andb].
  - destruct alloc; [left|right; split; [reflexivity|left; reflexivity]].
    assert (Hle : (length (enc [] (frame_data t)) <= es)%nat)
      by (unfold es; rewrite <- frame_data_length; apply enc_le_escaped).
    exists (enc [] (frame_data t)). split; [reflexivity|]. split; [|split; [|split; [|split; [reflexivity|lia]]]].
    + lia.
    + apply enc_bytes; [cbn; lia|constructor|apply frame_data_bytes; assumption].
    + rewrite escape_spec, repeat_length, Nat.leb_refl, skipn_all2 by (rewrite repeat_length; lia). rewrite app_nil_r. reflexivity.
  - right. split; [reflexivity|]. right. lia.
Qed.
Print Assumptions C05_serial_push_all_or_nothing.

(** C05: whatever the driver answers, the bytes it accepted are a prefix of the queue, in order; the rest stays queued,
    starting with the byte it refused; success means that everything was sent. *)
Theorem C05_serial_flush_loses_nothing : forall D (send : D -> N -> D * dres) q d q' d' e,
  serial_flush send d q = (q', d', e) ->
  exists sent d1, q = sent ++ q' /\ sends send d sent d1 /\
    ((q' = [] /\ e = DOk /\ d' = d1) \/
     (exists b rest, q' = b :: rest /\ e <> DOk /\ send d1 b = (d', e))).
Proof. intros D send q. exact (serial_flush_spec send q). Qed.
Print Assumptions C05_serial_flush_loses_nothing.

Definition demo_header : header := HMsg (MsgH 77 5 4 1000 (Some 42)).
Definition demo : transfer := Transfer demo_header false [1; 0; 3].
Definition demo_queue : list N := match serial_push 100 [] demo true with Ok (_, q) => q | Panic => [] end.
Definition demo_evs : list (N * (N * bool)) := map (fun b => (b, (1000, true))) demo_queue.

Example C05_witness :
  length demo_queue = 34%nat /\
  (exists q, serial_push 70 demo_queue demo true = Ok (true, q) /\ length q = 68%nat) /\
  serial_push 66 demo_queue demo true = Ok (false, demo_queue) /\
  fst (fst (serial_flush (fun n b => if n =? 10 then (n, DWouldBlock) else (n + 1, DOk)) 0 demo_queue)) = skipn 10 demo_queue.
Proof. split; [|split; [eexists; split|split]]; vm_compute; reflexivity. Qed.

(** C06: the frame that a push appended, carried byte by byte (at any times) to a receiver between frames, produces
    exactly one delivery, at its last byte: same header but for the time stamp, which is the time of one of the bytes,
    and the payload cut to the subscribed maximum.  The frame must survive COBS (see C03). *)
Theorem C06_serial_delivery : forall cap q t alloc evs r sub,
  core_header_ok (t_header t) -> bytes_ok (t_payload t) -> ~ swallows_zero (frame_data t) ->
  (length q <= cap)%nat ->
  serial_push cap q t alloc = Ok (true, q ++ wire_bytes evs) ->
  (rx_state r = SIdle \/ rx_state r = SBetween) ->
  subs_find (h_port (t_header t)) (rx_subs r) = Some sub -> fresh sub (t_header t) -> addressed r (t_header t) ->
  exists ts r', In ts (wire_times evs) /\ rx_state r' = SBetween /\
    rx_run r (map carry evs) =
    Ok (r', repeat ONone (length evs - 1) ++
            [ODeliver (Transfer (h_set_ts (t_header t) ts) false (firstn (ss_max sub) (t_payload t)))]).
Proof.
  intros cap q t alloc evs r sub Hok Hpl Hsw Hq Hpush. apply delimited_frame_received; try assumption.
  rewrite serial_push_spec in Hpush by assumption. destruct (_ && alloc)%bool; [|discriminate].
  assert (Hx : q ++ wire_bytes evs = q ++ wire_frame t) by congruence. apply app_inv_head in Hx. assumption.
Qed.
Print Assumptions C06_serial_delivery.

Example C06_witness :
  let r := match rx_run (rx_new (Some 9)) [XSub (PMsg 1000) 2 500 true] with Ok (r, _) => r | Panic => rx_new None end in
  core_header_ok demo_header /\ bytes_ok (t_payload demo) /\ fresh (Subscription 2 500 []) demo_header /\
  addressed r demo_header /\
  serial_push 100 [7] demo true = Ok (true, [7] ++ wire_bytes demo_evs) /\
  (exists r', rx_run r (map carry demo_evs) =
     Ok (r', repeat ONone 33 ++ [ODeliver (Transfer (HMsg (MsgH 1000 5 4 1000 (Some 42))) false [1; 0])])).
Proof.
  cbv zeta. split; [vm_compute; repeat split; try (intros; discriminate); intros ? E; injection E as <-; reflexivity|].
  split; [repeat constructor|]. split; [intros ? ? ? H; discriminate|]. split; [intros ? H; discriminate|].
  split; [vm_compute; reflexivity|]. eexists. vm_compute. reflexivity.
Qed.

(** C07: after any history and any further bytes ending in a delimiter, a complete delimited frame is received. *)
Theorem C07_serial_resynchronises : forall node h r0 garbage now a sa,
  rx_hist node h r0 ->
  exists r os, rx_run r0 (map (fun '(b, (n, (x, y))) => XByte b n x y) garbage ++ [XByte 0 now a sa]) = Ok (r, os) /\
    forall t evs sub,
      core_header_ok (t_header t) -> bytes_ok (t_payload t) -> ~ swallows_zero (frame_data t) ->
      (exists cap q alloc, (length q <= cap)%nat /\ serial_push cap q t alloc = Ok (true, q ++ wire_bytes evs)) ->
      subs_find (h_port (t_header t)) (rx_subs r) = Some sub -> fresh sub (t_header t) -> addressed r (t_header t) ->
      exists ts r', In ts (wire_times evs) /\
        rx_run r (map carry evs) =
        Ok (r', repeat ONone (length evs - 1) ++
                [ODeliver (Transfer (h_set_ts (t_header t) ts) false (firstn (ss_max sub) (t_payload t)))]).
Proof.
  intros node h r0 garbage now a sa Hh. rewrite rx_run_app.
  destruct (rx_run_wf (map (fun '(b, (n, (x, y))) => XByte b n x y) garbage) r0 (rx_hist_wf _ _ _ Hh)) as (r1 & os1 & -> & Hw1).
  cbn [rx_run rx_step]. destruct (rx_step_wf r1 (XByte 0 now a sa) Hw1) as (r2 & o2 & E2 & Hw2). cbn [rx_step] in E2. rewrite E2.
  exists r2, (os1 ++ [o2]). split; [reflexivity|]. intros t evs sub H1 H2 H3 (cap & q & alloc & Hq & Hpush) H4 H5 H6.
  destruct (C06_serial_delivery cap q t alloc evs r2 sub H1 H2 H3 Hq Hpush (after_zero _ _ _ _ _ _ E2) H4 H5 H6) as (ts & r' & Hts & _ & Hr).
  eauto.
Qed.
Print Assumptions C07_serial_resynchronises.

(** A frame whose start delimiter is at the same time the end of garbage is not always received: a delimiter inside a
    header puts the receiver into a state that needs a second one. *)
Theorem C07_shared_delimiter_refuted :
  exists r garbage,
    (exists r', rx_run (rx_new (Some 9)) [XSub (PMsg 1000) 2 500 true] = Ok (r', [ONone]) /\ r = r') /\
    last (map fst garbage) 1 = 0 /\
    match rx_run r (map carry (garbage ++ tl demo_evs)) with
    | Ok (_, os) => Forall (fun o => o = ONone) os
    | Panic => False
    end.
Proof.
  eexists. exists [(0, (1, true)); (3, (1, true)); (0, (1, true))]. split; [eexists; split; [reflexivity|reflexivity]|].
  split; [reflexivity|]. vm_compute. repeat constructor.
Qed.
Print Assumptions C07_shared_delimiter_refuted.

(** C07: not vacuous: garbage, a delimiter and then the frame. *)
Example C07_witness :
  match rx_run (rx_new (Some 9))
      ([XSub (PMsg 1000) 2 500 true] ++ map carry [(0, (1, true)); (3, (1, true)); (8, (1, true)); (0, (1, true))] ++ map carry demo_evs) with
  | Ok (_, os) => last os ONone = ODeliver (Transfer (HMsg (MsgH 1000 5 4 1000 (Some 42))) false [1; 0])
  | Panic => False
  end.
Proof. vm_compute. reflexivity. Qed.

(** C08: in no history does any operation make the receiver panic. *)
Theorem C08_serial_total : forall node h r op,
  rx_hist node h r -> exists r' o, rx_step r op = Ok (r', o).
Proof.
  intros node h r op Hh. destruct (rx_step_wf r op (rx_hist_wf _ _ _ Hh)) as (r' & o & E & _). eauto.
Qed.
Print Assumptions C08_serial_total.

(** C08, C09, C10: a call of [receive] is a sequence of the operations these theorems speak about. *)
Theorem C08_serial_receive_decomposes : forall node h r now ds,
  rx_hist node h r ->
  exists r' o rest ops os, receive r now ds = Ok (r', o, rest) /\
    rx_run r (XClean now :: ops) = Ok (r', ONone :: os) /\
    (forall op, In op ops -> exists b n a s, op = XByte b n a s /\ In (BByte b n a s) ds) /\
    (o = ONone -> Forall (fun x => x = ONone) os) /\
    (o <> ONone -> exists k, os = repeat ONone k ++ [o]).
Proof.
  intros node h r now ds Hh.
  assert (Hw : rx_wf (rx_clean r now)) by exact (rx_hist_wf _ _ _ Hh).
  assert (Ht : forall ds r0, rx_wf r0 -> exists x, receive_loop r0 ds = Ok x).
  { clear. intro ds; induction ds as [|d ds IH]; intros r0 Hw; cbn [receive_loop]; [eauto|].
    destruct d as [b n a s| |]; [|eauto..]. destruct (rx_step_wf r0 (XByte b n a s) Hw) as (r1 & o & E & Hw1). cbn [rx_step] in E. rewrite E.
    destruct o; eauto. }
  destruct (Ht ds _ Hw) as [[[r' o] rest] E]. exists r', o, rest.
  destruct (receive_decomposes r now ds r' o rest E) as (ops & os & H). exists ops, os. split; [exact E|exact H].
Qed.
Print Assumptions C08_serial_receive_decomposes.

(** C09: a delivered transfer matches a subscription that is active now; a service transfer is addressed to this node;
    the payload is at most the maximum of the subscription that was active at some moment since the last delimiter.
    (Missing: the maximum of the subscription active at the moment of delivery, see the refutation.) *)
Theorem C09_serial_delivers_asked_partial : forall node h r op r' t,
  rx_hist node h r -> rx_step r op = Ok (r', ODeliver t) ->
  (exists max timeout, active (h_port (t_header t)) h = Some (max, timeout)) /\
  (forall d, h_dest (t_header t) = Some d -> node_id node h = Some d) /\
  (exists newer older max timeout, h = newer ++ older /\ (forall now a sa o, ~ In (XByte 0 now a sa, o) newer) /\
     active (h_port (t_header t)) older = Some (max, timeout) /\ (length (t_payload t) <= max)%nat).
Proof. exact serial_delivers_asked. Qed.
Print Assumptions C09_serial_delivers_asked_partial.

(** C09: with no change of the subscription in the middle of a frame, the full property holds. *)
Theorem C09_serial_payload_bound_partial : forall node h r op r' t,
  rx_hist node h r -> rx_step r op = Ok (r', ODeliver t) ->
  (forall newer e older, h = newer ++ e :: older -> resubscribes (h_port (t_header t)) e ->
     exists now a sa o, In (XByte 0 now a sa, o) newer) ->
  exists max timeout, active (h_port (t_header t)) h = Some (max, timeout) /\ (length (t_payload t) <= max)%nat.
Proof.
  intros node h r op r' t Hh E Hno.
  destruct (serial_delivers_asked _ _ _ _ _ _ Hh E) as (_ & _ & newer & older & max & to & -> & Hn & Ha & Hl).
  exists max, to. split; [|assumption]. rewrite <- Ha. clear Hh E Ha.
  revert Hn Hno. induction newer as [|[op' o'] newer IH]; intros Hn Hno; [reflexivity|].
  cbn [app]. rewrite active_resub.
  - apply IH; [intros now a sa o Hin; apply (Hn now a sa o); right; assumption|].
    intros n2 e o2 H Hre. destruct (Hno ((op', o') :: n2) e o2 ltac:(cbn; rewrite H; reflexivity) Hre) as (now & a & sa & o & [E0|Hin]).
    + exfalso. apply (Hn now a sa o). left. assumption.
    + eauto.
  - intro Hre. destruct (Hno [] (op', o') (newer ++ older) eq_refl Hre) as (? & ? & ? & ? & []).
Qed.
Print Assumptions C09_serial_payload_bound_partial.

(** C09 as stated is false of the code: subscribing again with a smaller maximum while a frame is being received. *)
Theorem C09_serial_payload_bound_refuted :
  exists h r op r' t max timeout,
    rx_hist (Some 9) h r /\ rx_step r op = Ok (r', ODeliver t) /\
    active (h_port (t_header t)) h = Some (max, timeout) /\ (max < length (t_payload t))%nat.
Proof.
  set (ops := [XSub (PMsg 1000) 3 500 true] ++ map carry (firstn 27 demo_evs) ++ [XSub (PMsg 1000) 1 500 true] ++
              map carry (firstn 6 (skipn 27 demo_evs))).
  destruct (rx_run (rx_new (Some 9)) ops) as [[r os]|] eqn:E; [|vm_compute in E; discriminate].
  exists (rev (combine ops os) ++ []), r, (XByte 0 1000 true true).
  destruct (rx_step r (XByte 0 1000 true true)) as [[r' o]|] eqn:Es; [|revert E Es; vm_compute; intro E; injection E as <- <-; intro; discriminate].
  exists r'. assert (Ho : exists t, o = ODeliver t /\ t = Transfer (HMsg (MsgH 1000 5 4 1000 (Some 42))) false [1; 0; 3]).
  { eexists. split; [|reflexivity]. revert E Es. vm_compute. intro E; injection E as <- <-. vm_compute. intro Es; injection Es as <- <-. reflexivity. }
  destruct Ho as (t & -> & ->). eexists. exists 1%nat, 500. split; [|split; [reflexivity|]].
  - eapply rx_hist_run; [constructor|exact E].
  - split; [|cbn; lia]. clear Es. revert E. vm_compute. intro E; injection E as <- <-. reflexivity.
Qed.
Print Assumptions C09_serial_payload_bound_refuted.

Example C09_witness :
  match rx_run (rx_new (Some 9)) ([XSub (PMsg 1000) 2 500 true; XSub (PReq 5) 2 500 true; XUnsub (PReq 5)] ++ map carry demo_evs) with
  | Ok (_, os) => In (ODeliver (Transfer (HMsg (MsgH 1000 5 4 1000 (Some 42))) false [1; 0])) os
  | Panic => False
  end.
Proof. vm_compute. tauto. Qed.

(** C10: two consecutive deliveries on a port from the same node: the transfer ID is greater, or in between a
    [receive] call started after the expiry of the session (its time stamp plus the subscription's timeout), or the
    subscription was changed, or there was no memory to remember the first transfer. *)
Theorem C10_serial_transfer_id_increases : forall node h op1 t1 mid op2 t2 r timeout k,
  rx_hist node ((op2, ODeliver t2) :: mid ++ (op1, ODeliver t1) :: h) r ->
  h_port (t_header t1) = h_port (t_header t2) ->
  h_source (t_header t1) = Some k -> h_source (t_header t2) = Some k ->
  (forall op t, In (op, ODeliver t) mid -> h_port (t_header t) = h_port (t_header t1) -> h_source (t_header t) <> Some k) ->
  option_map snd (active (h_port (t_header t1)) h) = Some timeout ->
  h_tid (t_header t1) < h_tid (t_header t2) \/
  (exists e, In e mid /\ resubscribes (h_port (t_header t1)) e) \/
  (exists now o, In (XClean now, o) mid /\ t_lt (t_add (h_ts (t_header t1)) timeout) now = true) \/
  (exists b now a, op1 = XByte b now a false).
Proof. exact serial_tid_increases. Qed.
Print Assumptions C10_serial_transfer_id_increases.

(** C10: cleaning removes exactly the sessions that have expired. *)
Theorem C10_serial_clean_exact : forall node h r now p sub,
  rx_hist node h r -> subs_find p (rx_subs r) = Some sub ->
  exists sub', subs_find p (rx_subs (rx_clean r now)) = Some sub' /\
    ss_max sub' = ss_max sub /\ ss_timeout sub' = ss_timeout sub /\
    forall k se, lookup k (ss_sessions sub') = Some se <->
                 lookup k (ss_sessions sub) = Some se /\ t_lt (se_exp se) now = false.
Proof.
  intros node h r now p sub Hh Hs. exists (sub_clean now sub). cbn [rx_clean rx_subs]. rewrite TabProofs.subs_map_spec, Hs.
  split; [reflexivity|]. split; [reflexivity|]. split; [reflexivity|]. intros k se. cbn [sub_clean ss_sessions].
  destruct (clean_loop_spec now (length (ss_sessions sub)) (ss_sessions sub)) as [_ ->].
  - eapply (proj1 (proj2 (rx_hist_inv _ _ _ Hh))); eassumption.
  - lia.
  - unfold unexpired. destruct (lookup k (ss_sessions sub)) as [s|]; [|split; [discriminate|intros []; discriminate]].
    destruct (t_lt (se_exp s) now) eqn:Et.
    + split; [discriminate|]. intros [E1 E2]. injection E1 as ->. congruence.
    + split; [intro E; injection E as ->; auto|intros [E _]; assumption].
Qed.
Print Assumptions C10_serial_clean_exact.

(** C10: repeated frames are not delivered again until the session has expired. *)
Example C10_witness :
  let deliveries ops := match rx_run (rx_new (Some 9)) ops with
    | Ok (_, os) => length (filter (fun o => match o with ODeliver _ => true | _ => false end) os) | Panic => O end in
  deliveries ([XSub (PMsg 1000) 2 500 true] ++ map carry demo_evs ++ [XClean 1400] ++ map carry demo_evs) = 1%nat /\
  deliveries ([XSub (PMsg 1000) 2 500 true] ++ map carry demo_evs ++ [XClean 1600] ++ map carry demo_evs) = 2%nat.
Proof. vm_compute. split; reflexivity. Qed.
