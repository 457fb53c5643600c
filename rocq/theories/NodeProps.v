(** Theorems about the core node. *)
From Verif Require Import Base CoreModel NodeModel NodeSpec NodeProofs.

(** * C45: publishing *)

(** In any history, a message is given to the transmitter with the next transfer ID (modulo the range of the transport), the
    deadline, priority, subject, source and payload that it should have; only a subject that is not being published, or a lack
    of memory for a payload of more than 64 bytes, prevents that. *)
Theorem C45_publish : forall t k P R id0 h n loopback subject payload e n' calls r,
  kind_ok t k -> core_hist (core_new t k P R id0) h n ->
  core_step n (Publish loopback subject payload e) = (n', calls, r) ->
  match pub_started subject h with
  | None => calls = [] /\ r = ONotPublishing
  | Some (timeout, priority) =>
      if (64 <? length payload)%nat && negb (e_alloc e) then calls = [] /\ r = OError EOutOfMemory
      else calls = [CPush {| t_header := HMsg {| mh_ts := (e_now e + timeout) mod 2 ^ 32;
                                                  mh_tid := pub_count subject h mod tid_range t;
                                                  mh_prio := priority; mh_subject := subject; mh_source := id_after id0 h |};
                             t_loopback := loopback; t_payload := payload |}] /\
           r = match e_push e with PushOk => ODone | PushWouldBlock => OWouldBlock | PushError err => OError err end
  end.
Proof.
  intros t k P R id0 h n loopback subject payload e n' calls r Hk Hh E.
  rewrite (publish_spec t k P R id0 h n loopback subject payload e (hist_inv _ _ _ _ _ _ _ Hk Hh)) in E.
  destruct (pub_started subject h) as [[tmo prio]|]; [|injection E as <- <- <-; auto].
  unfold serialize_ok in E. rewrite Nat.leb_antisym in E.
  destruct (64 <? length payload)%nat, (e_alloc e); cbn [negb andb orb] in *; injection E as <- <- <-; auto.
Qed.
Print Assumptions C45_publish.

(** No other operation sends a message, so the IDs of a subject are consecutive whatever happens in between. *)
Theorem C45_no_other_message : forall t k P R id0 h n o n' calls r subject,
  kind_ok t k -> core_hist (core_new t k P R id0) h n ->
  core_step n o = (n', calls, r) -> (forall lb b e, o <> Publish lb subject b e) -> messages subject calls = 0.
Proof.
  intros t k P R id0 h n o n' calls r subject Hk Hh E Ho. pose proof (hist_inv _ _ _ _ _ _ _ Hk Hh) as V.
  destruct o; cbn [core_step] in E.
  - unfold start_publishing in E. destruct (im_get _ _); [|destruct (im_insert _ _ _ _)]; injection E as <- <- <-; reflexivity.
  - injection E as <- <- <-. reflexivity.
  - assert (Hs : subject0 <> subject) by (intros ->; eapply Ho; reflexivity).
    change (core_step n (Publish loopback subject0 payload e) = (n', calls, r)) in E. rewrite (publish_spec _ _ _ _ _ _ _ loopback subject0 payload e V) in E.
    destruct (pub_started subject0 h) as [[tmo prio]|]; [destruct (serialize_ok e payload)|]; injection E as <- <- <-; try reflexivity.
    rewrite messages_push. cbn [mh_subject]. apply N.eqb_neq in Hs. rewrite Hs. reflexivity.
  - unfold start_sending_requests in E. destruct (c_id n); [|injection E as <- <- <-; reflexivity].
    destruct (im_get _ _); [injection E as <- <- <-; reflexivity|]. destruct (im_insert _ _ _ _); [|injection E as <- <- <-; reflexivity].
    destruct answer; injection E as <- <- <-; reflexivity.
  - injection E as <- <- <-. reflexivity.
  - unfold send_request in E. destruct (im_get _ _) as [q|]; [|injection E as <- <- <-; reflexivity]. destruct (c_id n); [|injection E as <- <- <-; reflexivity].
    unfold requester_send in E. destruct (serialize_ok e payload); [|injection E as <- <- <-; reflexivity].
    destruct (tracker_next _ _ _) as [[[id|] tr]|]; injection E as <- <- <-; reflexivity.
  - injection E as <- <- <-. reflexivity.
  - injection E as <- <- <-. reflexivity.
  - injection E as <- <- <-. reflexivity.
  - injection E as <- <- <-. reflexivity.
  - unfold send_response in E. destruct (serialize_ok e payload); [destruct (c_id n)|]; injection E as <- <- <-; reflexivity.
  - injection E as <- <- <-. reflexivity.
Qed.
Print Assumptions C45_no_other_message.

(** Publishing on two subjects over CAN; the second push fails and uses up its ID all the same. *)
Definition ok_env : env := Env 10 true PushOk.
Definition c45_ops : list op :=
  [StartPublishing 7 100 4; StartPublishing 9 100 2; Publish false 7 [1] ok_env; Publish false 9 [5] ok_env;
   Publish false 7 [2] (Env 11 true (PushError (EOther 3)))].
Fixpoint run (n : core) (h : list entry) (ops : list op) : option (core * list entry) :=
  match ops with
  | [] => Some (n, h)
  | o :: rest => match core_step n o with (_, _, OPanic) => None | (n', c, x) => run n' ((o, c, x) :: h) rest end
  end.
Lemma run_hist n0 ops : forall n h n' h', core_hist n0 h n -> run n h ops = Some (n', h') -> core_hist n0 h' n'.
Proof.
  induction ops as [|o ops IH]; intros n h n' h' Hh E; cbn [run] in E; [congruence|].
  destruct (core_step n o) as [[n1 c] x] eqn:Es. assert (Hx : x <> OPanic) by (intros ->; discriminate).
  apply (IH n1 ((o, c, x) :: h)); [apply (ch_step n0 h n o n1 c x Hh Es Hx)|]. destruct x; congruence.
Qed.
Example C45_witness : exists h n, core_hist (core_new TransportCan KCan 4 4 (Some 42)) h n /\
  pub_started 7 h = Some (100, 4) /\ pub_count 7 h = 2 /\ pub_count 9 h = 1 /\
  snd (fst (core_step n (Publish true 7 [3] ok_env))) = [CPush (Transfer (HMsg (MsgH 110 2 4 7 (Some 42))) true [3])] /\
  snd (core_step n (Publish true 8 [3] ok_env)) = ONotPublishing.
Proof.
  destruct (run (core_new TransportCan KCan 4 4 (Some 42)) [] c45_ops) as [[n h]|] eqn:E; [|vm_compute in E; discriminate].
  exists h, n. split; [apply (run_hist _ c45_ops _ _ _ _ (ch_nil _) E)|]. vm_compute in E. injection E as <- <-. repeat split; reflexivity.
Qed.
(** After 33 messages the CAN transfer ID is 1 again. *)
Example C45_wraps : exists h n, core_hist (core_new TransportCan KCan 4 4 None) h n /\ pub_count 7 h = 33 /\
  snd (fst (core_step n (Publish false 7 [] ok_env))) = [CPush (Transfer (HMsg (MsgH 110 1 4 7 None)) false [])].
Proof.
  destruct (run (core_new TransportCan KCan 4 4 None) [] (StartPublishing 7 100 4 :: repeat (Publish false 7 [] ok_env) 33)) as [[n h]|] eqn:E; [|vm_compute in E; discriminate].
  exists h, n. split; [apply (run_hist _ _ _ _ _ _ (ch_nil _) E)|]. vm_compute in E. injection E as <- <-. split; reflexivity.
Qed.

(** * C46: requests *)

(** While requests for a service can be sent, the node has an ID. *)
Lemma started_has_id t k P R id0 h n s :
  kind_ok t k -> core_hist (core_new t k P R id0) h n -> req_started s h <> None -> id_after id0 h <> None.
Proof.
  intros Hk Hh. remember (core_new t k P R id0) as n0. induction Hh as [|h n o n' calls r Hh IH E Hp]; intros Hs; [cbn in Hs; congruence|].
  subst n0. pose proof (i_id _ _ _ _ _ _ _ (hist_inv _ _ _ _ _ _ _ Hk Hh)) as Gn.
  destruct o; cbn [req_started id_after] in *; try (apply IH; exact Hs); try discriminate.
  - cbn [core_step] in E. unfold start_sending_requests in E. rewrite Gn in E. destruct (id_after id0 h); [discriminate|].
    injection E as <- <- <-. apply IH. exact Hs.
  - apply IH. destruct (service =? s); congruence.
Qed.

(** In any history, a request for a service that requests can be sent for is given to the transmitter with the next transfer ID
    of its destination, and that ID is returned; only a lack of memory prevents that: for the payload, or in a tracker of fixed
    capacity for a destination that has not been used. *)
Theorem C46_send_request : forall t k P R id0 h n loopback service payload destination e n' calls r timeout priority,
  kind_ok t k -> destination_ok k destination -> core_hist (core_new t k P R id0) h n ->
  req_started service h = Some (timeout, priority) ->
  core_step n (SendRequest loopback service payload destination e) = (n', calls, r) ->
  exists source, id_after id0 h = Some source /\
  let no_memory := ((64 < length payload)%nat /\ e_alloc e = false) \/ (req_count service destination h = 0 /\ tracker_full k service h) in
  let id := req_count service destination h mod tid_range t in
  (no_memory /\ calls = [] /\ r = OError EOutOfMemory) \/
  (~ no_memory /\
   calls = [CPush {| t_header := HReq {| sh_ts := (e_now e + timeout) mod 2 ^ 32; sh_tid := id; sh_prio := priority;
                                          sh_service := service; sh_source := source; sh_dest := destination |};
                     t_loopback := loopback; t_payload := payload |}] /\
   r = match e_push e with PushOk => OTransferId id | PushWouldBlock => OWouldBlock | PushError err => OError err end).
Proof.
  intros t k P R id0 h n loopback service payload destination e n' calls r timeout priority Hk Hd Hh Hs E.
  pose proof (send_request_spec t k P R id0 h n loopback service payload destination e (hist_inv _ _ _ _ _ _ _ Hk Hh) Hd) as S.
  assert (Hid : id_after id0 h <> None) by (apply (started_has_id t k P R id0 h n service Hk Hh); congruence).
  rewrite Hs in S. destruct (id_after id0 h) as [source|]; [|congruence]. exists source. split; [reflexivity|]. cbv zeta.
  assert (Hser : serialize_ok e payload = false <-> (64 < length payload)%nat /\ e_alloc e = false).
  { unfold serialize_ok. rewrite orb_false_iff, Nat.leb_gt. reflexivity. }
  destruct S as [[C S]|(A & B & tr' & _ & S)]; rewrite S in E; injection E as <- <- <-.
  - left. split; [|split; reflexivity]. destruct C as [C|C]; [left; apply Hser, C|right; exact C].
  - right. split; [|split; reflexivity]. intros [C|C]; [apply Hser in C; congruence|apply B, C].
Qed.
Print Assumptions C46_send_request.

(** Nothing but sending a request for a service to a destination sends a request for it there. *)
Theorem C46_no_other_request : forall n o n' calls r service destination,
  core_step n o = (n', calls, r) -> (forall lb b e, o <> SendRequest lb service b destination e) -> requests service destination calls = 0.
Proof.
  intros n o n' calls r service destination E Ho. destruct o; cbn [core_step] in E.
  - unfold start_publishing in E. destruct (im_get _ _); [|destruct (im_insert _ _ _ _)]; injection E as <- <- <-; reflexivity.
  - injection E as <- <- <-. reflexivity.
  - unfold publish in E. destruct (im_get _ _); [|injection E as <- <- <-; reflexivity]. unfold publisher_publish in E.
    destruct (serialize_ok e payload); injection E as <- <- <-; reflexivity.
  - unfold start_sending_requests in E. destruct (c_id n); [|injection E as <- <- <-; reflexivity].
    destruct (im_get _ _); [injection E as <- <- <-; reflexivity|]. destruct (im_insert _ _ _ _); [|injection E as <- <- <-; reflexivity].
    destruct answer; injection E as <- <- <-; reflexivity.
  - injection E as <- <- <-. reflexivity.
  - unfold send_request in E. destruct (im_get _ _) as [q|]; [|injection E as <- <- <-; reflexivity]. destruct (c_id n); [|injection E as <- <- <-; reflexivity].
    unfold requester_send in E. destruct (serialize_ok e payload); [|injection E as <- <- <-; reflexivity].
    destruct (tracker_next _ _ _) as [[[id|] tr]|]; injection E as <- <- <-; try reflexivity.
    rewrite requests_push. cbn [sh_service sh_dest]. destruct (N.eqb_spec service0 service) as [->|]; [|reflexivity].
    destruct (N.eqb_spec destination0 destination) as [->|]; [|reflexivity]. exfalso. eapply Ho. reflexivity.
  - injection E as <- <- <-. reflexivity.
  - injection E as <- <- <-. reflexivity.
  - injection E as <- <- <-. reflexivity.
  - injection E as <- <- <-. reflexivity.
  - unfold send_response in E. destruct (serialize_ok e payload); [destruct (c_id n)|]; injection E as <- <- <-; reflexivity.
  - injection E as <- <- <-. reflexivity.
Qed.
Print Assumptions C46_no_other_request.

(** Requests to two nodes with the tracker of CAN, and with a tracker for one destination. *)
Definition c46_ops : list op :=
  [StartSendingRequests 430 1000 20 5 SubOk; SendRequest false 430 [1] 10 ok_env; SendRequest false 430 [1] 11 ok_env; SendRequest false 430 [1] 10 ok_env].
Example C46_witness : exists h n, core_hist (core_new TransportCan KCan 4 4 (Some 42)) h n /\
  req_started 430 h = Some (1000, 5) /\ req_count 430 10 h = 2 /\ req_count 430 11 h = 1 /\
  snd (core_step n (SendRequest false 430 [] 10 ok_env)) = OTransferId 2 /\ snd (core_step n (SendRequest false 430 [] 11 ok_env)) = OTransferId 1.
Proof.
  destruct (run (core_new TransportCan KCan 4 4 (Some 42)) [] c46_ops) as [[n h]|] eqn:E; [|vm_compute in E; discriminate].
  exists h, n. split; [apply (run_hist _ _ _ _ _ _ (ch_nil _) E)|]. vm_compute in E. injection E as <- <-. repeat split; reflexivity.
Qed.
Example C46_full_witness : exists h n, core_hist (core_new Transport64 (KFixed 1) 4 4 (Some 42)) h n /\
  req_started 430 h = Some (1000, 5) /\ tracker_full (KFixed 1) 430 h /\ req_count 430 11 h = 0 /\
  snd (core_step n (SendRequest false 430 [] 11 ok_env)) = OError EOutOfMemory.
Proof.
  destruct (run (core_new Transport64 (KFixed 1) 4 4 (Some 42)) [] c46_ops) as [[n h]|] eqn:E; [|vm_compute in E; discriminate].
  exists h, n. split; [apply (run_hist _ _ _ _ _ _ (ch_nil _) E)|]. vm_compute in E. injection E as <- <-. split; [reflexivity|].
  split; [|split; reflexivity]. exists [10]. split; [constructor; [intros []|constructor]|]. split; [reflexivity|]. intros x [<-|[]]. vm_compute. reflexivity.
Qed.

(** * C47: responses *)

(** The token that a handler gets with a request makes the response answer that request, in whatever state the node is when it
    responds. *)
Theorem C47_response : forall s request, exists token,
  (forall W (hd : handler W) w, handle_incoming hd {| t_header := HReq s; t_loopback := false; t_payload := request |} w = on_request hd w token s false request) /\
  forall t k P R id0 h n timeout payload e n' calls r id,
    kind_ok t k -> core_hist (core_new t k P R id0) h n -> id_after id0 h = Some id ->
    core_step n (SendResponse token timeout payload e) = (n', calls, r) ->
    if (64 <? length payload)%nat && negb (e_alloc e) then calls = [] /\ r = OError EOutOfMemory
    else calls = [CPush {| t_header := HResp {| sh_ts := (e_now e + timeout) mod 2 ^ 32; sh_tid := sh_tid s; sh_prio := sh_prio s;
                                                 sh_service := sh_service s; sh_source := id; sh_dest := sh_source s |};
                           t_loopback := false; t_payload := payload |}] /\
         r = match e_push e with PushOk => ODone | PushWouldBlock => OWouldBlock | PushError err => OError err end.
Proof.
  intros s request. exists {| rt_service := sh_service s; rt_client := sh_source s; rt_transfer := sh_tid s; rt_priority := sh_prio s |}.
  split; [reflexivity|]. intros t k P R id0 h n timeout payload e n' calls r id Hk Hh Hid E. cbn [core_step] in E. unfold send_response in E.
  rewrite (i_id _ _ _ _ _ _ _ (hist_inv _ _ _ _ _ _ _ Hk Hh)), Hid in E. cbn [rt_service rt_client rt_transfer rt_priority] in E.
  unfold serialize_ok in E. rewrite Nat.leb_antisym in E.
  destruct (64 <? length payload)%nat, (e_alloc e); cbn [negb andb orb] in *; injection E as <- <- <-; auto.
Qed.
Print Assumptions C47_response.
Example C47_witness : exists h n, core_hist (core_new TransportCan KCan 4 4 None) h n /\ id_after None h = Some 42 /\
  snd (fst (core_step n (SendResponse (Token 430 9 3 2) 50 [7] ok_env))) = [CPush (Transfer (HResp (SvcH 60 3 2 430 42 9)) false [7])].
Proof.
  destruct (run (core_new TransportCan KCan 4 4 None) [] [SetNodeId 42]) as [[n h]|] eqn:E; [|vm_compute in E; discriminate].
  exists h, n. split; [apply (run_hist _ _ _ _ _ _ (ch_nil _) E)|]. vm_compute in E. injection E as <- <-. split; reflexivity.
Qed.

(** * C48: handler chains *)

(** A transfer is offered to the handlers of a chain of any shape in order, up to the first one that handles it. *)
Theorem C48_chain : forall W (c : chain_tree W) t w,
  exists seen, offered (ask t) (members c) w seen (fst (handle_incoming (build c) t w)) (snd (handle_incoming (build c) t w)).
Proof. intros W c t w. rewrite handle_incoming_ask. apply build_offered. Qed.
Print Assumptions C48_chain.

(** Handlers that record that they were asked: the second of three handles messages. *)
Definition recorder (name : N) (answer : bool) : handler (list N) :=
  Handler (fun w _ _ _ => (answer, name :: w)) (fun w _ _ _ _ => (answer, name :: w)) (fun w _ _ _ => (answer, name :: w)) (fun w _ => (answer, name :: w)).
Example C48_witness :
  handle_incoming (build (Two (One (recorder 1 false)) (Two (One (recorder 2 true)) (One (recorder 3 true)))))
    {| t_header := HMsg (MsgH 0 0 4 7 None); t_loopback := false; t_payload := [1] |} [] = (true, [2; 1]).
Proof. reflexivity. Qed.

(** * C63: receiving *)

(** [receive] handles every transfer that the receiver returns, in order, until there is none or an error. *)
Theorem C63_receive : forall W (hd : handler W) ts rest w,
  core_receive hd (map RecvTransfer ts ++ RecvNone :: rest) w = (true, fold_left (fun w t => snd (ask t hd w)) ts w) /\
  core_receive hd (map RecvTransfer ts ++ RecvError :: rest) w = (false, fold_left (fun w t => snd (ask t hd w)) ts w).
Proof.
  intros W hd ts rest. induction ts as [|t ts IH]; intros w; cbn [map app core_receive fold_left]; [split; reflexivity|].
  rewrite handle_incoming_ask. apply IH.
Qed.
Print Assumptions C63_receive.
Example C63_witness : core_receive (recorder 5 true)
  (map RecvTransfer [Transfer (HMsg (MsgH 0 0 4 7 None)) false [1]; Transfer (HReq (SvcH 0 0 4 7 1 2)) true [1]] ++ RecvNone :: []) [] = (true, [5; 5]).
Proof. reflexivity. Qed.

(** * C49: tables *)

Theorem C49_start_publishing : forall t k P R id0 h n subject timeout priority n' calls r,
  kind_ok t k -> core_hist (core_new t k P R id0) h n ->
  core_step n (StartPublishing subject timeout priority) = (n', calls, r) ->
  calls = [] /\
  (r = ODuplicate <-> pub_started subject h <> None) /\
  (r = OMemory <-> pub_started subject h = None /\ full (fun s => pub_started s h <> None) P) /\
  (r <> ODuplicate -> r <> OMemory -> r = ODone) /\
  (r <> ODone -> n' = n).
Proof.
  intros t k P R id0 h n subject timeout priority n' calls r Hk Hh E. pose proof (hist_inv _ _ _ _ _ _ _ Hk Hh) as V.
  assert (HK : forall s, pub_started s h <> None <-> In s (keys (c_publishers n))).
  { intros s. rewrite im_get_in, (i_pub _ _ _ _ _ _ _ V s). destruct (pub_started s h); cbn [option_map]; split; congruence. }
  pose proof (full_keys (c_publishers n) P _ (i_pd _ _ _ _ _ _ _ V) (i_pl _ _ _ _ _ _ _ V) HK) as HF.
  cbn [core_step] in E. unfold start_publishing in E. pose proof (i_pub _ _ _ _ _ _ _ V subject) as G.
  destruct (pub_started subject h) as [tp|] eqn:Es; cbn [option_map] in G.
  - rewrite G in E. injection E as <- <- <-. repeat split; try discriminate; try congruence. intros [? _]. congruence.
  - unfold im_insert in E. rewrite G, (i_P _ _ _ _ _ _ _ V) in E. pose proof (i_pl _ _ _ _ _ _ _ V) as HL.
    destruct (Nat.ltb_spec (length (c_publishers n)) P) as [L|L]; injection E as <- <- <-.
    + repeat split; try discriminate; try congruence. intros [_ F]. apply HF in F. lia.
    + repeat split; try discriminate; try congruence. apply HF. lia.
Qed.
Print Assumptions C49_start_publishing.

Theorem C49_start_sending_requests : forall t k P R id0 h n service timeout size_max priority answer n' calls r,
  kind_ok t k -> core_hist (core_new t k P R id0) h n ->
  core_step n (StartSendingRequests service timeout size_max priority answer) = (n', calls, r) ->
  let started := id_after id0 h <> None /\ req_started service h = None /\ ~ full (fun s => req_started s h <> None) R in
  (id_after id0 h = None -> r = OAnonymous) /\
  (r = ODuplicate <-> id_after id0 h <> None /\ req_started service h <> None) /\
  (r = OMemory <-> id_after id0 h <> None /\ req_started service h = None /\ full (fun s => req_started s h <> None) R) /\
  (started -> calls = [CSubResponse service size_max timeout] /\
              r = match answer with SubOk => OToken service | SubError e => OError e | SubAnonymous => OAnonymous end) /\
  (~ started -> calls = []) /\
  ((forall s, r <> OToken s) -> n' = n).
Proof.
  intros t k P R id0 h n service timeout size_max priority answer n' calls r Hk Hh E. pose proof (hist_inv _ _ _ _ _ _ _ Hk Hh) as V. cbv zeta.
  assert (HK : forall s, req_started s h <> None <-> In s (keys (c_requesters n))).
  { intros s. rewrite im_get_in. pose proof (req_some _ _ _ _ _ _ _ s V) as G. destruct (req_started s h) as [[? ?]|].
    - destruct G as (tr & -> & _). split; congruence.
    - rewrite G. split; congruence. }
  pose proof (full_keys (c_requesters n) R _ (i_rd _ _ _ _ _ _ _ V) (i_rl _ _ _ _ _ _ _ V) HK) as HF.
  cbn [core_step] in E. unfold start_sending_requests in E. rewrite (i_id _ _ _ _ _ _ _ V), (i_R _ _ _ _ _ _ _ V) in E.
  pose proof (i_rl _ _ _ _ _ _ _ V) as HL.
  destruct (id_after id0 h) as [id|].
  2:{ injection E as <- <- <-. repeat split; try discriminate; try congruence; try tauto; intros; try tauto; try discriminate; intuition congruence. }
  pose proof (req_some _ _ _ _ _ _ _ service V) as G. destruct (req_started service h) as [[tmo prio]|].
  { destruct G as (tr & G & _). rewrite G in E. injection E as <- <- <-.
    split; [discriminate|]. split; [split; [split; discriminate|reflexivity]|]. split; [split; [discriminate|intros (_ & ? & _); discriminate]|].
    split; [intros (_ & ? & _); discriminate|]. split; reflexivity. }
  unfold im_insert in E. rewrite G in E. destruct (Nat.ltb_spec (length (c_requesters n)) R) as [L|L].
  - assert (NF : ~ full (fun s => req_started s h <> None) R) by (rewrite HF; lia).
    assert (Hr : calls = [CSubResponse service size_max timeout] /\ r = match answer with SubOk => OToken service | SubError e => OError e | SubAnonymous => OAnonymous end).
    { destruct answer; injection E as <- <- <-; split; reflexivity. }
    split; [discriminate|]. destruct Hr as [Hc Hr].
    split; [split; [intros ->; destruct answer; discriminate|intros (_ & X); congruence]|].
    split; [split; [intros ->; destruct answer; discriminate|intros (_ & _ & X); contradiction]|].
    split; [intros _; split; [exact Hc|exact Hr]|]. split; [intros X; exfalso; apply X; repeat split; [discriminate|exact NF]|].
    intros X. rewrite im_remove_snoc, set_requesters_same in E by exact G. destruct answer; injection E as <- _ _; try reflexivity. exfalso. eapply X. exact Hr.
  - injection E as <- <- <-. assert (F : full (fun s => req_started s h <> None) R) by (apply HF; lia).
    split; [discriminate|]. split; [split; [discriminate|intros (_ & X); congruence]|].
    split; [split; [intros _; repeat split; [discriminate|exact F]|reflexivity]|].
    split; [intros (_ & _ & X); contradiction|]. split; reflexivity.
Qed.
Print Assumptions C49_start_sending_requests.

(** The lists of ports that the node reports. *)
Theorem C49_ports : forall t k P R id0 h n,
  kind_ok t k -> core_hist (core_new t k P R id0) h n ->
  NoDup (publishers n) /\ (forall s, In s (publishers n) <-> pub_started s h <> None) /\ (length (publishers n) <= P)%nat /\
  NoDup (clients n) /\ (forall s, In s (clients n) <-> req_started s h <> None) /\ (length (clients n) <= R)%nat.
Proof.
  intros t k P R id0 h n Hk Hh. pose proof (hist_inv _ _ _ _ _ _ _ Hk Hh) as V.
  split; [apply (i_pd _ _ _ _ _ _ _ V)|]. split.
  { intros s. change (publishers n) with (keys (c_publishers n)). rewrite im_get_in, (i_pub _ _ _ _ _ _ _ V s). destruct (pub_started s h); cbn [option_map]; split; congruence. }
  split; [unfold publishers; rewrite map_length; apply (i_pl _ _ _ _ _ _ _ V)|].
  split; [apply (i_rd _ _ _ _ _ _ _ V)|]. split; [|unfold clients; rewrite map_length; apply (i_rl _ _ _ _ _ _ _ V)].
  intros s. change (clients n) with (keys (c_requesters n)). rewrite im_get_in. pose proof (req_some _ _ _ _ _ _ _ s V) as G. destruct (req_started s h) as [[? ?]|].
  - destruct G as (tr & -> & _). split; congruence.
  - rewrite G. split; congruence.
Qed.
Print Assumptions C49_ports.

(** A node with room for one publisher, and a failing subscription. *)
Example C49_witness : exists h n, core_hist (core_new TransportCan KCan 1 1 (Some 42)) h n /\
  pub_started 7 h <> None /\ full (fun s => pub_started s h <> None) 1 /\
  snd (core_step n (StartPublishing 7 1 1)) = ODuplicate /\ snd (core_step n (StartPublishing 8 1 1)) = OMemory /\
  core_step n (StartSendingRequests 9 1 1 1 (SubError (EOther 1))) = (n, [CSubResponse 9 1 1], OError (EOther 1)).
Proof.
  destruct (run (core_new TransportCan KCan 1 1 (Some 42)) [] [StartPublishing 7 100 4]) as [[n h]|] eqn:E; [|vm_compute in E; discriminate].
  exists h, n. split; [apply (run_hist _ _ _ _ _ _ (ch_nil _) E)|]. vm_compute in E. injection E as <- <-. split; [discriminate|]. split.
  - exists [7]. split; [constructor; [intros []|constructor]|]. split; [reflexivity|]. intros x [<-|[]]. discriminate.
  - repeat split; reflexivity.
Qed.

(** * C64: subscriptions to responses *)

(** While requests for a service can be sent, the receiver is subscribed to its responses. *)
Theorem C64_subscribed_partial : forall t k P R id0 h n service,
  kind_ok t k -> core_hist (core_new t k P R id0) h n -> req_started service h <> None -> responses_subscribed service h = true.
Proof.
  intros t k P R id0 h n service Hk Hh. remember (core_new t k P R id0) as n0. induction Hh as [|h n o n' calls r Hh IH E Hp]; [intros X; cbn in X; congruence|].
  destruct o; cbn [core_step] in E.
  - unfold start_publishing in E. destruct (im_get _ _); [|destruct (im_insert _ _ _ _)]; injection E as <- <- <-; exact IH.
  - injection E as <- <- <-. exact IH.
  - unfold publish in E. destruct (im_get _ _); [|injection E as <- <- <-; exact IH]. unfold publisher_publish in E.
    destruct (serialize_ok e payload); injection E as <- <- <-; exact IH.
  - unfold start_sending_requests in E. destruct (c_id n); [|injection E as <- <- <-; exact IH].
    destruct (im_get _ _); [injection E as <- <- <-; exact IH|]. destruct (im_insert _ _ _ _); [|injection E as <- <- <-; exact IH].
    destruct answer; injection E as <- <- <-; cbn [req_started responses_subscribed existsb]; destruct (service0 =? service); cbn [orb]; auto.
  - injection E as <- <- <-. cbn [req_started responses_subscribed existsb]. destruct (service0 =? service); [congruence|exact IH].
  - unfold send_request in E. destruct (im_get _ _) as [q|]; [|injection E as <- <- <-; exact IH]. destruct (c_id n); [|injection E as <- <- <-; exact IH].
    unfold requester_send in E. destruct (serialize_ok e payload); [|injection E as <- <- <-; exact IH].
    destruct (tracker_next _ _ _) as [[[id|] tr]|]; injection E as <- <- <-; exact IH.
  - injection E as <- <- <-. exact IH.
  - injection E as <- <- <-. exact IH.
  - injection E as <- <- <-. exact IH.
  - injection E as <- <- <-. exact IH.
  - unfold send_response in E. destruct (serialize_ok e payload); [destruct (c_id n)|]; injection E as <- <- <-; exact IH.
  - injection E as <- <- <-. exact IH.
Qed.
Print Assumptions C64_subscribed_partial.

(** But it stays subscribed when sending requests is stopped. *)
Theorem C64_unsubscribe_refuted : exists h n, core_hist (core_new TransportCan KCan 1 1 (Some 42)) h n /\
  req_started 430 h = None /\ responses_subscribed 430 h = true /\ clients n = [].
Proof.
  destruct (run (core_new TransportCan KCan 1 1 (Some 42)) [] [StartSendingRequests 430 1000 20 5 SubOk; StopSendingRequests 430]) as [[n h]|] eqn:E; [|vm_compute in E; discriminate].
  exists h, n. split; [apply (run_hist _ _ _ _ _ _ (ch_nil _) E)|]. vm_compute in E. injection E as <- <-. repeat split; reflexivity.
Qed.
Print Assumptions C64_unsubscribe_refuted.
Example C64_witness : exists h n, core_hist (core_new TransportCan KCan 1 1 (Some 42)) h n /\ req_started 430 h <> None.
Proof.
  destruct (run (core_new TransportCan KCan 1 1 (Some 42)) [] [StartSendingRequests 430 1000 20 5 SubOk]) as [[n h]|] eqn:E; [|vm_compute in E; discriminate].
  exists h, n. split; [apply (run_hist _ _ _ _ _ _ (ch_nil _) E)|]. vm_compute in E. injection E as <- <-. discriminate.
Qed.

(** * C65: anonymous publishing *)

(** Any sequence of sends through an anonymous publisher: a payload that does not fit into one frame is refused, everything else
    goes out without a source and with consecutive transfer IDs. *)
Inductive anonymous_hist (t : transport) (a0 : anonymous) : N -> anonymous -> Prop :=
| ah_nil : anonymous_hist t a0 0 a0
| ah_step count a mtu e payload loopback a' calls r :
    anonymous_hist t a0 count a -> anonymous_send t a mtu e payload loopback = (a', calls, r) ->
    anonymous_hist t a0 (count + N.of_nat (length calls)) a'.
Theorem C65_anonymous : forall t subject priority timeout count a mtu e payload loopback a' calls r,
  anonymous_hist t (anonymous_new subject priority timeout) count a ->
  anonymous_send t a mtu e payload loopback = (a', calls, r) ->
  if (mtu <? length payload)%nat then calls = [] /\ r = AnonymousLength
  else if (64 <? length payload)%nat && negb (e_alloc e) then calls = [] /\ r = AnonymousPush (PushError EOutOfMemory)
  else calls = [CPush {| t_header := HMsg {| mh_ts := (e_now e + timeout) mod 2 ^ 32; mh_tid := count mod tid_range t; mh_prio := priority;
                                              mh_subject := subject; mh_source := None |};
                         t_loopback := loopback; t_payload := payload |}] /\ r = AnonymousPush (e_push e).
Proof.
  intros t subject priority timeout count a mtu e payload loopback a' calls r Hh E.
  assert (G : a = Anonymous priority subject (count mod tid_range t) timeout).
  { clear E. induction Hh as [|count a mtu0 e0 payload0 loopback0 a1 calls0 r0 Hh IH E].
    - rewrite N.mod_0_l by (pose proof (tid_range_pos t); lia). reflexivity.
    - subst a. unfold anonymous_send in E. destruct (mtu0 <? length payload0)%nat.
      + injection E as <- <- <-. cbn [length N.of_nat]. rewrite N.add_0_r. reflexivity.
      + destruct (serialize_ok e0 payload0); injection E as <- <- <-; cbn [length N.of_nat a_priority a_subject a_next a_timeout].
        * rewrite tid_next_count. f_equal. f_equal. lia.
        * rewrite N.add_0_r. reflexivity. }
  subst a. unfold anonymous_send in E. cbn [a_priority a_subject a_next a_timeout] in E. destruct (mtu <? length payload)%nat; [injection E as <- <- <-; auto|].
  unfold serialize_ok in E. rewrite Nat.leb_antisym in E.
  destruct (64 <? length payload)%nat, (e_alloc e); cbn [negb andb orb] in *; injection E as <- <- <-; auto.
Qed.
Print Assumptions C65_anonymous.
Example C65_witness : exists a, anonymous_hist TransportCan (anonymous_new 8166 4 100) 1 a /\
  anonymous_send TransportCan a 7 ok_env [1; 2] false =
  (Anonymous 4 8166 2 100, [CPush (Transfer (HMsg (MsgH 110 1 4 8166 None)) false [1; 2])], AnonymousPush PushOk).
Proof.
  eexists. split; [|].
  - change 1 with (0 + N.of_nat (length [CPush (Transfer (HMsg (MsgH 110 0 4 8166 None)) false [9])])).
    eapply (ah_step _ _ 0 _ 7 ok_env [9] false); [apply ah_nil|reflexivity].
  - reflexivity.
Qed.

(** * C77: the node ID *)

(** [set_node_id] gives the ID to the receiver, and nothing else does. *)
Theorem C77_set_node_id : forall n o n' calls r, core_step n o = (n', calls, r) ->
  forall id, In (CSetId id) calls <-> o = SetNodeId id.
Proof.
  intros n o n' calls r E id.
  assert (N : (forall i, o <> SetNodeId i) -> ~ In (CSetId id) calls -> (In (CSetId id) calls <-> o = SetNodeId id)) by (intros A B; split; [contradiction|intro C; destruct (A _ C)]).
  destruct o; cbn [core_step] in E; try (apply N; [discriminate|]).
  - unfold start_publishing in E. destruct (im_get _ _); [|destruct (im_insert _ _ _ _)]; injection E as <- <- <-; intros [].
  - injection E as <- <- <-. intros [].
  - unfold publish in E. destruct (im_get _ _); [|injection E as <- <- <-; intros []]. unfold publisher_publish in E. destruct (serialize_ok e payload); injection E as <- <- <-; [intros [X|[] ]; discriminate|intros []].
  - unfold start_sending_requests in E. destruct (c_id n); [|injection E as <- <- <-; intros []]. destruct (im_get _ _); [injection E as <- <- <-; intros []|]. destruct (im_insert _ _ _ _); [|injection E as <- <- <-; intros []].
    destruct answer; injection E as <- <- <-; intros [X|[] ]; discriminate.
  - injection E as <- <- <-. intros [].
  - unfold send_request in E. destruct (im_get _ _) as [q|]; [|injection E as <- <- <-; intros []]. destruct (c_id n); [|injection E as <- <- <-; intros []]. unfold requester_send in E. destruct (serialize_ok e payload); [|injection E as <- <- <-; intros []].
    destruct (tracker_next _ _ _) as [ [ [i|] tr]|]; injection E as <- <- <-; first [intros [X|[] ]; discriminate|intros []].
  - injection E as <- <- <-. intros [X|[] ]; discriminate.
  - injection E as <- <- <-. intros [X|[] ]; discriminate.
  - injection E as <- <- <-. intros [X|[] ]; discriminate.
  - injection E as <- <- <-. intros [X|[] ]; discriminate.
  - unfold send_response in E. destruct (serialize_ok e payload); [|injection E as <- <- <-; intros []]. destruct (c_id n); injection E as <- <- <-; [intros [X|[] ]; discriminate|intros []].
  - injection E as <- <- <-. cbn [In]. split; [intros [X|[] ]|intro X; left]; congruence.
Qed.
Print Assumptions C77_set_node_id.
(** The node then has that ID: C45, C46 and C47 say which ID is in the transfers; the ports stay. *)
Theorem C77_keeps : forall n id n' calls r, core_step n (SetNodeId id) = (n', calls, r) ->
  r = ODone /\ c_id n' = Some id /\ c_publishers n' = c_publishers n /\ c_requesters n' = c_requesters n.
Proof. intros n id n' calls r E. injection E as <- <- <-. repeat split. Qed.
Print Assumptions C77_keeps.
Example C77_witness : exists n h, core_hist (core_new TransportCan KCan 2 2 None) h n /\ id_after None h = Some 9 /\ h <> [] /\ In (CSetId 9) (flat_map (fun e => snd (fst e)) h).
Proof.
  exists (fst (fst (core_step (core_new TransportCan KCan 2 2 None) (SetNodeId 9)))), [(SetNodeId 9, [CSetId 9], ODone)]. split; [eapply ch_step; [apply ch_nil|reflexivity|discriminate]|]. split; [reflexivity|]. split; [discriminate|left; reflexivity].
Qed.
