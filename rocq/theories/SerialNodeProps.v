(** Whole serial nodes: messages, remote procedure calls, panics. *)
From Verif Require Import Base BitLemmas CoreModel NodeModel NodeSpec NodeProofs NodeProps BusSpec BusProofs NetSpec NetProofs NetProps CanNodeModel CanNodeSpec CanNodeProofs CanNodeProps
  CobsModel CobsSpec CobsProofs HeaderModel HeaderSpec SerialModel SerialSpec SerialProofs SerialProps SerialNodeModel SerialNodeSpec SerialNodeProofs SerialLinkProofs.

(** * C141: messages between two whole nodes over a serial link *)

(** A node has published messages on a subject, and its queue is empty: all bytes have gone to the driver.  Another node, with or without an ID, has subscribed to the subject, and kept its subscription; these bytes have reached it, and it has read them,
    in any pieces and at any times, and did anything else in between.  Then its handler has got exactly the messages for which [publish] returned [Ok], in order, each once, cut to the size of the subscription.
    Missing from the full claim: frames with a zero that COBS loses ([C141_lost_zero_refuted]), and transfer IDs that do not increase because publishing was started again ([C141_restart_refuted]). *)
Theorem C141_messages_partial : forall subject max ds cap k P R id h z cap' k' P' R' id' h' z' node,
  serial_running cap k P R id h z -> no_lost_zero (serial_calls h) -> increasing (map fst (sent_messages subject (serial_calls h))) -> sn_queue z = [] ->
  serial_listened cap' k' P' R' id' h' z' node (PMsg subject) max (sn_out z) ds ->
  log_of (message_log subject id) ds = map (fun m => (fst m, firstn max (snd m))) (sent_messages subject (serial_calls h)).
Proof.
  intros subject max ds cap k P R id h z cap' k' P' R' id' h' z' node (Hk & Hid & Hp & Hkeep) Hz Hi Hq Hl. destruct (path_sender _ _ _ _ _ _ _ Hk Hp) as (Hh & Hf & _ & Ho). rewrite Hq, app_nil_r in Ho. rewrite Ho in Hl.
  pose proof (taken_messages k P R id Hk subject node _ _ Hh Hkeep) as Ht. pose proof (taken_fine k P R id Hk _ _ Hh Hid Hf Hz) as Hs.
  assert (Hri : rising (mine_ids (PMsg subject) node (taken (serial_calls h)))) by (unfold mine_ids; rewrite (sent_as_ids _ _ _ _ _ Ht); exact Hi).
  destruct (received_log _ _ _ _ _ _ _ Ht (listened_stream _ _ _ _ _ _ _ _ _ _ _ _ Hl Hs Hri)) as (_ & L1 & L2). rewrite (message_logged _ _ _ L1). exact L2.
Qed.
Print Assumptions C141_messages_partial.

(** The transfer IDs increase when publishing on the subject was started at most once, whether messages were refused or not *)
Theorem C141_ids_increase : forall subject cap k P R id h z, serial_running cap k P R id h z -> (length (filter (starts_publishing subject) (serial_calls h)) <= 1)%nat -> N.of_nat (length (serial_calls h)) < 2 ^ 64 ->
  increasing (map fst (sent_messages subject (serial_calls h))).
Proof.
  intros subject cap k P R id h z (Hk & _ & Hp & _) Hs Hl. destruct (path_sender _ _ _ _ _ _ _ Hk Hp) as (Hh & _). exact (proj1 (message_ids64 _ _ _ _ Hk subject _ _ Hh Hs Hl)).
Qed.
Print Assumptions C141_ids_increase.

(** * C142: remote procedure calls between two whole nodes over a serial link *)

(** A client has sent requests to a server, and the server has answered each request that it received with [answer] of its payload, in order.  Then the server has received exactly the requests for which [send_request] returned a
    transfer ID, and the client has received for each of these exactly one response, with this ID and the answer to this request, in order.  The same is missing as in C141. *)
Theorem C142_calls_partial : forall service client server prio answer max ds max' ds' cap k P R h z cap' k' P' R' h' z',
  serial_running cap k P R client h z -> serial_running cap' k' P' R' server h' z' ->
  no_lost_zero (serial_calls h) -> no_lost_zero (serial_calls h') -> sn_queue z = [] -> sn_queue z' = [] ->
  requests_with service prio (serial_calls h) -> increasing (map fst (sent_requests service server (serial_calls h))) ->
  serial_listened cap' k' P' R' (Some server) h' z' (Some server) (PReq service) max (sn_out z) ds ->
  sent_responses service client (serial_calls h') = map (fun a => (fst a, answer (snd a))) (log_of (request_log service client) ds) ->
  serial_listened cap k P R (Some client) h z (Some client) (PResp service) max' (sn_out z') ds' ->
  log_of (request_log service client) ds = map (fun m => (Token service client (fst m) prio, firstn max (snd m))) (sent_requests service server (serial_calls h)) /\
  log_of (response_log service server) ds' = map (fun m => (fst m, firstn max' (answer (firstn max (snd m))))) (sent_requests service server (serial_calls h)).
Proof.
  intros service client server prio answer max ds max' ds' cap k P R h z cap' k' P' R' h' z' Hr Hr' Hz Hz' Hq Hq' Hprio Hi Hl Hans Hl'.
  pose proof Hr as (Hk & Hid & Hp & Hkeep). pose proof Hr' as (Hk' & Hid' & Hp' & Hkeep').
  destruct (path_sender _ _ _ _ _ _ _ Hk Hp) as (Hh & Hf & _ & Ho). rewrite Hq, app_nil_r in Ho. rewrite Ho in Hl.
  destruct (path_sender _ _ _ _ _ _ _ Hk' Hp') as (Hh' & Hf' & _ & Ho'). rewrite Hq', app_nil_r in Ho'. rewrite Ho' in Hl'.
  pose proof (taken_requests k P R client Hk service server prio _ _ Hh Hkeep Hprio) as Ht. pose proof (taken_fine k P R client Hk _ _ Hh Hid Hf Hz) as Hs.
  assert (Hta : Forall2 (sent_as (PReq service) client (Some server)) (filter (mine (PReq service) (Some server)) (taken (serial_calls h))) (sent_requests service server (serial_calls h))).
  { clear -Ht. induction Ht as [|t m l ms (T1 & T2 & T3 & _ & T5 & T6) _ IH]; [constructor|]. constructor; [|exact IH]. split; [exact T1|]. split; [exact T2|]. split; [exact T3|]. split; [exact T5|exact T6]. }
  assert (Hri : rising (mine_ids (PReq service) (Some server) (taken (serial_calls h)))) by (unfold mine_ids; rewrite (sent_as_ids _ _ _ _ _ Hta); exact Hi).
  pose proof (listened_stream _ _ _ _ _ _ _ _ _ _ _ _ Hl Hs Hri) as Hrec. destruct (received_log _ _ _ _ _ _ _ Hta Hrec) as (Le & L1 & L2).
  assert (Hlog : log_of (request_log service client) ds = map (fun m => (Token service client (fst m) prio, firstn max (snd m))) (sent_requests service server (serial_calls h))).
  { rewrite (request_logged _ _ _ L1), Le. clear -Ht Hrec. revert Ht. generalize (sent_requests service server (serial_calls h)). induction Hrec as [|t d l l' ((now & R1) & _ & R3) _ IH]; intros ms Ht; inversion Ht as [|? m ? ms' (_ & _ & _ & T4 & T5 & T6) Hms]; subst; [reflexivity|].
    cbn [map]. rewrite (IH _ Hms), R1, R3, T6, <- T5. f_equal. f_equal. destruct (t_header t); cbn [h_set_ts h_tid h_prio]; reflexivity. }
  split; [exact Hlog|].
  pose proof (taken_responses k' P' R' server Hk' service client _ _ Hh' Hkeep') as Hu. pose proof (taken_fine k' P' R' server Hk' _ _ Hh' Hid' Hf' Hz') as Hs'.
  assert (Hub : Forall2 (sent_as (PResp service) server (Some client)) (filter (mine (PResp service) (Some client)) (taken (serial_calls h'))) (map (fun m => (rt_transfer (fst m), snd m)) (sent_responses service client (serial_calls h')))).
  { clear -Hu. induction Hu as [|t m l ms H _ IH]; [constructor|]. cbn [map]. constructor; [exact H|exact IH]. }
  assert (Em : map (fun m => (rt_transfer (fst m), snd m)) (sent_responses service client (serial_calls h')) = map (fun m => (fst m, answer (firstn max (snd m)))) (sent_requests service server (serial_calls h))).
  { rewrite Hans, Hlog, !map_map. apply map_ext. intros [i pl]. reflexivity. }
  rewrite Em in Hub.
  assert (Hri' : rising (mine_ids (PResp service) (Some client) (taken (serial_calls h')))) by (unfold mine_ids; rewrite (sent_as_ids _ _ _ _ _ Hub), map_map; exact Hi).
  destruct (received_log _ _ _ _ _ _ _ Hub (listened_stream _ _ _ _ _ _ _ _ _ _ _ _ Hl' Hs' Hri')) as (_ & L1' & L2'). rewrite (response_logged _ _ _ L1'), L2', map_map. apply map_ext. intros [i pl]. reflexivity.
Qed.
Print Assumptions C142_calls_partial.
Theorem C142_ids_increase : forall service server cap k P R id h z, serial_running cap k P R id h z -> (length (filter (starts_requests service) (serial_calls h)) <= 1)%nat -> N.of_nat (length (serial_calls h)) < 2 ^ 64 ->
  increasing (map fst (sent_requests service server (serial_calls h))).
Proof.
  intros service server cap k P R id h z (Hk & _ & Hp & _) Hs Hl. destruct (path_sender _ _ _ _ _ _ _ Hk Hp) as (Hh & _). exact (proj1 (request_ids64 _ _ _ _ Hk service server _ _ Hh Hs Hl)).
Qed.
Print Assumptions C142_ids_increase.

(** * C143: panics *)

(** After any history of a serial node, whatever bytes have arrived, nothing that a program may do next with the node makes it panic *)
Theorem C143_no_panic : forall cap k P R id h z ev, kind_ok Transport64 k -> serial_path cap (serial_node_new k P R id) h z -> serial_allowed id (serial_calls h) ev -> exists z' res, serial_node_step cap ev z = Ok (z', res).
Proof. intros cap k P R id h z ev Hk H Ha. exact (serial_step_total cap k P R id h z ev Hk H Ha). Qed.
Print Assumptions C143_no_panic.

(** * Cases that meet the hypotheses *)

Inductive yev := YCall (o : op) | YFlush (k : nat) | YReceive (now : N) (limit : nat) | YArrive (b : N).
Definition yev_of (e : yev) : serial_event :=
  match e with YCall o => SnCall o true | YFlush k => SnFlush k | YReceive now limit => SnReceive now limit (fun k => now + N.of_nat k) (fun _ => true) (fun _ => true) | YArrive b => SnArrive b end.
Definition yfine (e : yev) : bool :=
  match e with
  | YCall (StartPublishing subject _ priority) => (subject <=? 8191) && (priority <=? 7)
  | YCall (Publish _ subject payload _) => (subject <=? 8191) && bytes_okb payload
  | YCall (StartSendingRequests service _ _ priority _) => (service <=? 511) && (priority <=? 7)
  | YCall (SendRequest _ service payload destination _) => (service <=? 511) && (destination <? 65535) && bytes_okb payload
  | YCall (SendResponse token _ payload _) => (rt_service token <=? 511) && (rt_client token <? 65535) && (rt_transfer token <? 2 ^ 64) && (rt_priority token <=? 7) && bytes_okb payload
  | YCall (SetNodeId id) => id <? 65535
  | _ => true
  end.
Lemma yfine_ok e : yfine e = true -> serial_fine (yev_of e).
Proof.
  destruct e as [o|kb|now limit|b]; cbn [yfine yev_of serial_fine]; try (intros; exact I). destruct o; cbn [serial_call_fine]; intro H; rewrite ?andb_true_iff, ?N.leb_le, ?N.ltb_lt in H; try exact I; try exact H.
  - destruct H as (H1 & H2). split; [exact H1|apply bytes_okb_ok, H2].
  - destruct H as ((H1 & H2) & H3). split; [exact H1|]. split; [exact H2|apply bytes_okb_ok, H3].
  - destruct H as ((((H1 & H2) & H3) & H4) & H5). split; [exact H1|]. split; [exact H2|]. split; [exact H3|]. split; [exact H4|apply bytes_okb_ok, H5].
Qed.
Definition ycap : nat := N.to_nat 4096.
Definition yhist : Type := list (serial_event * serial_result).
Fixpoint yrun (l : list yev) (h : yhist) (z : serial_node) : option (yhist * serial_node) :=
  match l with
  | [] => Some (h, z)
  | e :: l' => if yfine e then match serial_node_step ycap (yev_of e) z with Ok (z', res) => yrun l' ((yev_of e, res) :: h) z' | Panic => None end else None
  end.
Lemma yrun_path z0 l : forall h z h' z', serial_path ycap z0 h z -> yrun l h z = Some (h', z') -> serial_path ycap z0 h' z'.
Proof.
  induction l as [|e l IH]; intros h z h' z' H E; cbn [yrun] in E; [injection E as <- <-; exact H|]. destruct (yfine e) eqn:Ef; [|discriminate E]. destruct (serial_node_step ycap (yev_of e) z) as [ [z1 res]|] eqn:Es; [|discriminate E].
  refine (IH _ _ _ _ _ E). exact (spath_step _ _ _ _ _ _ _ H (yfine_ok e Ef) Es).
Qed.
Lemma yrun_on l : forall h0 h z h' z', yrun l h z = Some (h', z') -> yrun l (h ++ h0) z = Some (h' ++ h0, z').
Proof.
  induction l as [|e l IH]; intros h0 h z h' z' E; cbn [yrun] in *; [injection E as <- <-; reflexivity|]. destruct (yfine e); [|discriminate E]. destruct (serial_node_step ycap (yev_of e) z) as [ [z1 res]|]; [|discriminate E]. exact (IH h0 ((yev_of e, res) :: h) z1 h' z' E).
Qed.
Lemma yrun_app a : forall b h z, yrun (a ++ b) h z = match yrun a h z with Some (h1, z1) => yrun b h1 z1 | None => None end.
Proof. induction a as [|e a IH]; intros b h z; cbn [yrun app]; [reflexivity|]. destruct (yfine e); [|reflexivity]. destruct (serial_node_step ycap (yev_of e) z) as [ [z1 res]|]; [apply IH|reflexivity]. Qed.
Lemma yrun_memory l : forall h z h' z', payloads_fit h -> yrun l h z = Some (h', z') -> payloads_fit h'.
Proof.
  induction l as [|e l IH]; intros h z h' z' H E; cbn [yrun] in E; [injection E as <- <-; exact H|]. destruct (yfine e); [|discriminate E]. destruct (serial_node_step ycap (yev_of e) z) as [ [z1 res]|]; [|discriminate E].
  refine (IH _ _ _ _ _ E). intros now limit clock mem smem r [Hi|Hi]; [|exact (H _ _ _ _ _ _ Hi)]. injection Hi as Hi _. destruct e; cbn [yev_of] in Hi; try discriminate Hi. injection Hi as _ _ _ <- _. intro. reflexivity.
Qed.

Definition ynew (id : N) : serial_node := serial_node_new (KFixed 4) 4 4 (Some id).
Definition yparts (id : N) (l1 : list yev) (e : yev) (l2 : list yev) : option (yhist * serial_node * entry * yhist * serial_node) :=
  match yrun l1 [] (ynew id) with
  | Some (h1, z1) =>
      if yfine e then
        match serial_node_step ycap (yev_of e) z1 with
        | Ok (z2, SrCall o calls r) => match yrun l2 [] z2 with Some (h2, z) => Some (h1, z1, (o, calls, r), h2, z) | None => None end
        | _ => None
        end
      else None
  | None => None
  end.
Definition nilb (l : list N) : bool := match l with [] => true | _ => false end.
Definition ylistens (id : N) (l1 : list yev) (e : yev) (l2 : list yev) (p : port) (max : nat) : bool :=
  match yparts id l1 e l2 with
  | Some (h1, z1, en, h2, z) =>
      nilb (sn_in z1) && nilb (sn_in z) && (last (serial_bytes h1) 0 =? 0) && subscribesb p max en && forallb (fun en => forallb (fun c => negb (portb p c)) (snd (fst en))) (serial_calls h2) &&
      keeps_idb (serial_calls h2 ++ en :: serial_calls h1) && (id <? 65535)
  | None => false
  end.
Definition yheard (id : N) (l1 : list yev) (e : yev) (l2 : list yev) : list N := match yparts id l1 e l2 with Some (_, _, _, h2, _) => serial_bytes h2 | None => [] end.
Definition ygot (id : N) (l1 : list yev) (e : yev) (l2 : list yev) : list transfer := match yparts id l1 e l2 with Some (_, _, _, h2, _) => serial_got h2 | None => [] end.
Lemma nilb_ok l : nilb l = true -> l = [].
Proof. destruct l; [reflexivity|discriminate]. Qed.
Lemma ylistens_ok id l1 e l2 h z p max : yrun (l1 ++ e :: l2) [] (ynew id) = Some (h, z) -> ylistens id l1 e l2 p max = true ->
  serial_running ycap (KFixed 4) 4 4 id h z /\ serial_listened ycap (KFixed 4) 4 4 (Some id) h z (Some id) p max (yheard id l1 e l2) (ygot id l1 e l2).
Proof.
  intros E Hl. pose proof (yrun_path _ _ _ _ _ _ (spath_here _ (ynew id)) E) as Hp. rewrite yrun_app in E. unfold ylistens, yheard, ygot in *. destruct (yparts id l1 e l2) as [ [ [ [ [h1 z1] en] h2] z2]|] eqn:Ep; [|discriminate Hl].
  unfold yparts in Ep. destruct (yrun l1 [] (ynew id)) as [ [h1' z1']|] eqn:E1; [|discriminate Ep]. cbn [yrun] in E. destruct (yfine e) eqn:Ef; [|discriminate Ep]. destruct (serial_node_step ycap (yev_of e) z1') as [ [z3 res]|] eqn:Es; [|discriminate Ep].
  destruct res as [o calls r| | |]; try discriminate Ep. destruct (yrun l2 [] z3) as [ [h2' z2']|] eqn:E2; [|discriminate Ep]. injection Ep as -> -> <- -> ->.
  pose proof (yrun_on _ ((yev_of e, SrCall o calls r) :: h1) _ _ _ _ E2) as E2'. cbn [app] in E2'. rewrite E2' in E. injection E as <- <-.
  rewrite !andb_true_iff in Hl. destruct Hl as ((((((L1 & L2) & L3) & L4) & L5) & L6) & L7). split.
  - split; [exact I|]. split; [apply N.ltb_lt, L7|]. split; [exact Hp|]. rewrite serial_calls_app. apply keeps_idb_ok. exact L6.
  - exists h1, z1, (yev_of e), o, calls, r, z3, h2. split; [reflexivity|]. split; [exact (yrun_path _ _ _ _ _ _ (spath_here _ _) E1)|]. split; [apply keeps_id_after; exact (keeps_id_tail _ _ (proj2 (keeps_id_app _ _ (keeps_idb_ok _ L6))))|]. split; [apply nilb_ok, L1|]. split; [apply N.eqb_eq, L3|]. split; [apply yfine_ok, Ef|]. split; [exact Es|]. split; [apply subscribesb_ok, L4|].
    split; [exact (yrun_path _ _ _ _ _ _ (spath_here _ _) E2)|]. split.
    { intros o1 c1 r1 c Hi Hc Hcp. rewrite forallb_forall in L5. specialize (L5 _ Hi). cbn [fst snd] in L5. rewrite forallb_forall in L5. specialize (L5 _ Hc). unfold portb in L5. rewrite Hcp in L5. destruct (port_eqb_spec p p); [discriminate L5|congruence]. }
    split; [exact (proj1 (keeps_id_app _ _ (keeps_idb_ok _ L6)))|]. split; [refine (yrun_memory _ _ _ _ _ _ E2); intros ? ? ? ? ? ? []|]. split; [apply nilb_ok, L2|]. split; reflexivity.
Qed.
Definition shortb (h : list entry) : bool := forallb (fun en => forallb (fun c => match c with CPush t => (length (t_payload t) <=? 200)%nat | _ => true end) (snd (fst en))) h.
Lemma shortb_ok h : shortb h = true -> no_lost_zero h.
Proof.
  intros H o calls r t Hi Hc (pre & run & post & j & E & _ & _ & Hl). unfold shortb in H. rewrite forallb_forall in H. specialize (H _ Hi). cbn [fst snd] in H. rewrite forallb_forall in H. specialize (H _ Hc). cbv beta iota in H. apply Nat.leb_le in H.
  pose proof (frame_data_length t) as Hf. rewrite E, !app_length, Hl in Hf. cbn [length] in Hf. lia.
Qed.
Definition ycalls (o : option (yhist * serial_node)) : list entry := match o with Some (h, _) => serial_calls h | None => [] end.
Definition ysent (o : option (yhist * serial_node)) : list N := match o with Some (_, z) => sn_out z | None => [] end.
Definition yqueue (o : option (yhist * serial_node)) : list N := match o with Some (_, z) => sn_queue z | None => [1] end.
(** Bytes arrive in pieces of three, are read two at a time, and at the end all are read *)
Fixpoint yreading (fuel : nat) (bytes : list N) : list yev :=
  match fuel with O => [] | S fuel' => map YArrive (firstn 3 bytes) ++ [YReceive 5 2] ++ yreading fuel' (skipn 3 bytes) end.
Definition yread_all (bytes : list N) : list yev := yreading (length bytes) bytes ++ repeat (YReceive 9 100) 20.

Definition yclient_before : list yev := [YCall (StartPublishing 10 100 4); YArrive 0; YReceive 1 5].
Definition yclient_starts : yev := YCall (StartSendingRequests 100 100 3 4 SubOk).
Definition yclient_sends : list yev :=
  [YCall (Publish false 10 [1; 0; 1; 1; 1; 1] ok_env); YFlush 7; YCall (SendRequest false 100 (repeat 2 9) 3 ok_env); YCall (SendRequest false 100 [5] 5 ok_env); YFlush 20; YCall (Publish true 10 [2; 3] ok_env); YCall (Publish false 11 [4] ok_env);
   YFlush 50; YCall (SendRequest true 100 [6] 3 ok_env); YCall (Publish false 10 [7] ok_env); YFlush 9; YFlush 1000].
Definition yclient_sent : list N := ysent (yrun (yclient_before ++ yclient_starts :: yclient_sends) [] (ynew 7)).
Definition yserver_before : list yev := [YCall (SubscribeMessage 11 4 1000 SubOk); YArrive 3; YArrive 0; YReceive 1 1; YReceive 2 4].
Definition yserver_reads : list yev :=
  yread_all yclient_sent ++ [YCall (SendResponse (Token 100 7 0 4) 100 (net_answer (firstn 6 (repeat 2 9))) ok_env); YFlush 5; YCall (SendResponse (Token 100 7 1 4) 100 (net_answer [6]) ok_env); YFlush 500].
Definition ysub_10 : yev := YCall (SubscribeMessage 10 5 1000 SubOk).
Definition ysub_100 : yev := YCall (SubscribeRequest 100 6 1000 SubOk).
Definition yserver_run : list yev := yserver_before ++ ysub_10 :: ysub_100 :: yserver_reads.
Definition yserver_end : option (yhist * serial_node) := yrun yserver_run [] (ynew 3).
Definition yclient_reads : list yev := yclient_sends ++ yread_all (ysent yserver_end).
Definition yclient_end : option (yhist * serial_node) := yrun (yclient_before ++ yclient_starts :: yclient_reads) [] (ynew 7).

Local Strategy 1000 [yrun yheard ygot yparts ylistens serial_node_step ycap log_of].
Example C141_messages_witness : exists h z h' z' ds,
  serial_running ycap (KFixed 4) 4 4 7 h z /\ no_lost_zero (serial_calls h) /\ increasing (map fst (sent_messages 10 (serial_calls h))) /\ sn_queue z = [] /\ serial_running ycap (KFixed 4) 4 4 3 h' z' /\
  serial_listened ycap (KFixed 4) 4 4 (Some 3) h' z' (Some 3) (PMsg 10) 5 (sn_out z) ds /\
  log_of (message_log 10 7) ds = [(0, [1; 0; 1; 1; 1]); (1, [2; 3]); (2, [7])] /\ (length (filter (starts_publishing 10) (serial_calls h)) <= 1)%nat /\ (150 <=? length (sn_out z))%nat = true.
Proof.
  assert (Lz : shortb (ycalls yclient_end) = true) by (vm_compute; reflexivity). assert (Lm : map fst (sent_messages 10 (ycalls yclient_end)) = [0; 1; 2]) by (vm_compute; reflexivity). assert (Lq : yqueue yclient_end = []) by (vm_compute; reflexivity).
  assert (Lo : yheard 3 yserver_before ysub_10 (ysub_100 :: yserver_reads) = ysent yclient_end) by (vm_compute; reflexivity). assert (Ls : length (filter (starts_publishing 10) (ycalls yclient_end)) = 1%nat) by (vm_compute; reflexivity).
  assert (Ll : (150 <=? length (ysent yclient_end))%nat = true) by (vm_compute; reflexivity).
  destruct yclient_end as [ [h z]|] eqn:Ec; [|discriminate Lq]. destruct yserver_end as [ [h' z']|] eqn:Es; [|vm_compute in Es; discriminate Es].
  destruct (ylistens_ok _ _ _ _ _ _ (PResp 100) 3 Ec ltac:(vm_compute; reflexivity)) as (Rc & _). destruct (ylistens_ok _ _ _ _ _ _ (PMsg 10) 5 Es ltac:(vm_compute; reflexivity)) as (Rs & Li). cbn [ycalls yqueue ysent] in *.
  eexists h, z, h', z', _. split; [exact Rc|]. split; [apply shortb_ok, Lz|]. split; [rewrite Lm; repeat split|]. split; [exact Lq|]. split; [exact Rs|]. split; [rewrite <- Lo; exact Li|]. split; [vm_compute; reflexivity|]. split; [rewrite Ls; apply le_n|exact Ll].
Qed.
Example C142_calls_witness : exists h z h' z' ds ds',
  serial_running ycap (KFixed 4) 4 4 7 h z /\ serial_running ycap (KFixed 4) 4 4 3 h' z' /\ no_lost_zero (serial_calls h) /\ no_lost_zero (serial_calls h') /\ sn_queue z = [] /\ sn_queue z' = [] /\
  requests_with 100 4 (serial_calls h) /\ sent_requests 100 3 (serial_calls h) = [(0, repeat 2 9); (1, [6])] /\
  serial_listened ycap (KFixed 4) 4 4 (Some 3) h' z' (Some 3) (PReq 100) 6 (sn_out z) ds /\
  sent_responses 100 7 (serial_calls h') = map (fun a => (fst a, net_answer (snd a))) (log_of (request_log 100 7) ds) /\
  serial_listened ycap (KFixed 4) 4 4 (Some 7) h z (Some 7) (PResp 100) 3 (sn_out z') ds' /\
  log_of (response_log 100 3) ds' = [(0, [1; 2; 2]); (1, [1; 6])].
Proof.
  assert (Lz : shortb (ycalls yclient_end) = true) by (vm_compute; reflexivity). assert (Lz' : shortb (ycalls yserver_end) = true) by (vm_compute; reflexivity). assert (Lq : yqueue yclient_end = []) by (vm_compute; reflexivity). assert (Lq' : yqueue yserver_end = []) by (vm_compute; reflexivity).
  assert (Lk : requests_withb 100 4 (ycalls yclient_end) = true) by (vm_compute; reflexivity). assert (Lm : sent_requests 100 3 (ycalls yclient_end) = [(0, repeat 2 9); (1, [6])]) by (vm_compute; reflexivity).
  assert (Lo : yheard 3 (yserver_before ++ [ysub_10]) ysub_100 yserver_reads = ysent yclient_end) by (vm_compute; reflexivity). assert (Lo' : yheard 7 yclient_before yclient_starts yclient_reads = ysent yserver_end) by (vm_compute; reflexivity).
  assert (La : sent_responses 100 7 (ycalls yserver_end) = map (fun a => (fst a, net_answer (snd a))) (log_of (request_log 100 7) (ygot 3 (yserver_before ++ [ysub_10]) ysub_100 yserver_reads))) by (vm_compute; reflexivity).
  destruct yclient_end as [ [h z]|] eqn:Ec; [|discriminate Lq]. destruct yserver_end as [ [h' z']|] eqn:Es; [|discriminate Lq'].
  assert (Es' : yrun ((yserver_before ++ [ysub_10]) ++ ysub_100 :: yserver_reads) [] (ynew 3) = Some (h', z')) by (rewrite <- app_assoc; exact Es).
  destruct (ylistens_ok _ _ _ _ _ _ (PResp 100) 3 Ec ltac:(vm_compute; reflexivity)) as (Rc & Lc). destruct (ylistens_ok _ _ _ _ _ _ (PReq 100) 6 Es' ltac:(vm_compute; reflexivity)) as (Rs & Li). cbn [ycalls yqueue ysent] in *.
  eexists h, z, h', z', _, _. split; [exact Rc|]. split; [exact Rs|]. split; [apply shortb_ok, Lz|]. split; [apply shortb_ok, Lz'|]. split; [exact Lq|]. split; [exact Lq'|]. split; [apply requests_withb_ok, Lk|]. split; [exact Lm|].
  split; [rewrite <- Lo; exact Li|]. split; [exact La|]. split; [rewrite <- Lo'; exact Lc|]. vm_compute. reflexivity.
Qed.
(** The client of C142 after its whole history: it may send a further request *)
Example C143_witness : exists h z, serial_path ycap (serial_node_new (KFixed 4) 4 4 (Some 7)) h z /\ length (serial_got h) = 2%nat /\ (60 <=? length (serial_bytes h))%nat = true /\ serial_allowed (Some 7) (serial_calls h) (SnCall (SendRequest false 100 [1] 3 ok_env) true).
Proof.
  assert (Lr : req_started 100 (ycalls yclient_end) = Some (100, 4)) by (vm_compute; reflexivity). assert (Lg : match yclient_end with Some (h, _) => length (serial_got h) = 2%nat /\ (60 <=? length (serial_bytes h))%nat = true | None => False end) by (vm_compute; split; reflexivity).
  destruct yclient_end as [ [h z]|] eqn:Ec; [|destruct Lg]. destruct Lg as (Lg & Lb). exists h, z. split; [exact (yrun_path _ _ _ _ _ _ (spath_here _ _) Ec)|]. split; [exact Lg|]. split; [exact Lb|]. cbn [serial_allowed call_allowed ycalls] in *. congruence.
Qed.

(** * What is missing *)

(** A payload with a zero after 254 nonzero bytes: [publish] returns [Ok], the bytes are sent and read, and the message does not arrive *)
Definition ylost_sends (l : list yev) : option (yhist * serial_node) := yrun ([YCall (StartPublishing 10 100 4)] ++ YCall (SubscribeMessage 11 4 1000 SubOk) :: l) [] (ynew 7).
Definition ylost_reads (o : option (yhist * serial_node)) : option (yhist * serial_node) := yrun ([] ++ YCall (SubscribeMessage 10 600 1000 SubOk) :: yread_all (ysent o)) [] (ynew 3).
Definition yzero : list yev := [YCall (Publish false 10 (0 :: repeat 1 254 ++ [0; 5]) ok_env); YFlush 1000].
Theorem C141_lost_zero_refuted : exists h z h' z' ds payload,
  serial_running ycap (KFixed 4) 4 4 7 h z /\ increasing (map fst (sent_messages 10 (serial_calls h))) /\ sn_queue z = [] /\ serial_running ycap (KFixed 4) 4 4 3 h' z' /\
  serial_listened ycap (KFixed 4) 4 4 (Some 3) h' z' (Some 3) (PMsg 10) 600 (sn_out z) ds /\ sent_messages 10 (serial_calls h) = [(0, payload)] /\ log_of (message_log 10 7) ds = [].
Proof.
  assert (Lm : sent_messages 10 (ycalls (ylost_sends yzero)) = [(0, 0 :: repeat 1 254 ++ [0; 5])]) by (vm_compute; reflexivity). assert (Lq : yqueue (ylost_sends yzero) = []) by (vm_compute; reflexivity).
  assert (Lo : yheard 3 [] (YCall (SubscribeMessage 10 600 1000 SubOk)) (yread_all (ysent (ylost_sends yzero))) = ysent (ylost_sends yzero)) by (vm_compute; reflexivity).
  assert (Lg : log_of (message_log 10 7) (ygot 3 [] (YCall (SubscribeMessage 10 600 1000 SubOk)) (yread_all (ysent (ylost_sends yzero)))) = []) by (vm_compute; reflexivity).
  destruct (ylost_reads (ylost_sends yzero)) as [ [h' z']|] eqn:Es; [|vm_compute in Es; discriminate Es]. unfold ylost_reads in Es.
  destruct (ylistens_ok _ _ _ _ _ _ (PMsg 10) 600 Es ltac:(vm_compute; reflexivity)) as (Rs & Li). rewrite Lo in Li. clear Es Lo.
  destruct (ylost_sends yzero) as [ [h z]|] eqn:Ec; [|discriminate Lq]. unfold ylost_sends in Ec. destruct (ylistens_ok _ _ _ _ _ _ (PMsg 11) 4 Ec ltac:(vm_compute; reflexivity)) as (Rc & _). cbn [ycalls yqueue ysent] in *.
  eexists h, z, h', z', _, _. split; [exact Rc|]. split; [rewrite Lm; exact I|]. split; [exact Lq|]. split; [exact Rs|]. split; [exact Li|]. split; [exact Lm|exact Lg].
Qed.
Print Assumptions C141_lost_zero_refuted.

(** Publishing is stopped and started again: the transfer IDs start at 0 again, and the receiver takes the next message for a duplicate *)
Definition yrestart : list yev := [YCall (Publish false 10 [1] ok_env); YCall (StopPublishing 10); YCall (StartPublishing 10 100 4); YCall (Publish false 10 [2] ok_env); YFlush 1000].
Theorem C141_restart_refuted : exists h z h' z' ds,
  serial_running ycap (KFixed 4) 4 4 7 h z /\ no_lost_zero (serial_calls h) /\ sn_queue z = [] /\ serial_running ycap (KFixed 4) 4 4 3 h' z' /\
  serial_listened ycap (KFixed 4) 4 4 (Some 3) h' z' (Some 3) (PMsg 10) 600 (sn_out z) ds /\ sent_messages 10 (serial_calls h) = [(0, [1]); (0, [2])] /\ log_of (message_log 10 7) ds = [(0, [1])].
Proof.
  assert (Lm : sent_messages 10 (ycalls (ylost_sends yrestart)) = [(0, [1]); (0, [2])]) by (vm_compute; reflexivity). assert (Lq : yqueue (ylost_sends yrestart) = []) by (vm_compute; reflexivity). assert (Lz : shortb (ycalls (ylost_sends yrestart)) = true) by (vm_compute; reflexivity).
  assert (Lo : yheard 3 [] (YCall (SubscribeMessage 10 600 1000 SubOk)) (yread_all (ysent (ylost_sends yrestart))) = ysent (ylost_sends yrestart)) by (vm_compute; reflexivity).
  assert (Lg : log_of (message_log 10 7) (ygot 3 [] (YCall (SubscribeMessage 10 600 1000 SubOk)) (yread_all (ysent (ylost_sends yrestart)))) = [(0, [1])]) by (vm_compute; reflexivity).
  destruct (ylost_reads (ylost_sends yrestart)) as [ [h' z']|] eqn:Es; [|vm_compute in Es; discriminate Es]. unfold ylost_reads in Es.
  destruct (ylistens_ok _ _ _ _ _ _ (PMsg 10) 600 Es ltac:(vm_compute; reflexivity)) as (Rs & Li). rewrite Lo in Li. clear Es Lo.
  destruct (ylost_sends yrestart) as [ [h z]|] eqn:Ec; [|discriminate Lq]. unfold ylost_sends in Ec. destruct (ylistens_ok _ _ _ _ _ _ (PMsg 11) 4 Ec ltac:(vm_compute; reflexivity)) as (Rc & _). cbn [ycalls yqueue ysent] in *.
  eexists h, z, h', z', _. split; [exact Rc|]. split; [apply shortb_ok, Lz|]. split; [exact Lq|]. split; [exact Rs|]. split; [exact Li|]. split; [exact Lm|exact Lg].
Qed.
Print Assumptions C141_restart_refuted.
