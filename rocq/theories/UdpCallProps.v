(** Remote procedure calls over UDP. *)
From Verif Require Import Base BitLemmas CoreModel NodeModel NodeSpec NodeProofs NodeProps BusSpec BusProofs NetSpec NetProofs NetProps CanNodeModel CanNodeSpec CanNodeProofs CanNodeProps
  HeaderModel HeaderSpec HeaderProofs SerialNodeModel SerialNodeSpec SerialNodeProofs SerialLinkProofs
  CrcModel TabModel UdpModel UdpSpec UdpTxProofs UdpRxProofs UdpProps NodeModel UdpNodeModel UdpNodeSpec UdpNodeProofs UdpNodeProps UdpCallSpec UdpCallProofs.

(** * C146: remote procedure calls between two whole UDP nodes *)

(** A client has sent requests to a server, and the server has answered each request that it received with [answer] of its payload, in order.  In both directions the datagrams on this service were sent before their deadlines, the socket accepted them,
    and those that were sent to the group of the other node have arrived there in order, mixed with any other datagrams, and have been read.  Then the server has received exactly the requests for which [send_request] returned a transfer ID, and the
    client has received for each of these exactly one response, with this ID and the answer to this request, in order.  The same is missing as in C144: short and late datagrams, and IDs that do not increase. *)
Theorem C146_calls_partial : forall service client server prio answer max ds max' ds' mtu rmtu k P R h z mtu' rmtu' k' P' R' h' z' arrived arrived',
  ip_running mtu rmtu k P R client h z -> ip_running mtu' rmtu' k' P' R' server h' z' -> (mtu <= rmtu')%nat -> (mtu' <= rmtu)%nat ->
  sent_in_time (PReq service) h -> sent_in_time (PResp service) h' -> long_to server (ip_out z) -> long_to client (ip_out z') ->
  requests_with service prio (ip_calls h) -> increasing (map fst (sent_requests service server (ip_calls h))) ->
  ip_listened mtu' rmtu' k' P' R' (Some server) h' z' (PReq service) max arrived ds ->
  filter (from_node rmtu' (PReq service) client) arrived = filter (from_node rmtu' (PReq service) client) (sent_to server (ip_out z)) ->
  sent_responses service client (ip_calls h') = map (fun a => (fst a, answer (snd a))) (log_of (request_log service client) ds) ->
  ip_listened mtu rmtu k P R (Some client) h z (PResp service) max' arrived' ds' ->
  filter (from_node rmtu (PResp service) server) arrived' = filter (from_node rmtu (PResp service) server) (sent_to client (ip_out z')) ->
  log_of (request_log service client) ds = map (fun m => (Token service client (fst m) prio, firstn max (snd m))) (sent_requests service server (ip_calls h)) /\
  log_of (response_log service server) ds' = map (fun m => (fst m, firstn max' (answer (firstn max (snd m))))) (sent_requests service server (ip_calls h)).
Proof.
  intros service client server prio answer max ds max' ds' mtu rmtu k P R h z mtu' rmtu' k' P' R' h' z' arrived arrived' Hr Hr' Hm Hm' Ht Ht' Hlong Hlong' Hprio Hi Hl Harr Hans Hl' Harr'.
  pose proof Hr as (Hk & Hid & _ & Hp & Hkeep). pose proof Hr' as (Hk' & Hid' & _ & Hp' & Hkeep'). destruct (ip_path_fine _ _ _ _ _ _ _ _ Hp) as (Hh & _). destruct (ip_path_fine _ _ _ _ _ _ _ _ Hp') as (Hh' & _).
  pose proof (taken_requests k P R client Hk service server prio _ _ Hh Hkeep Hprio) as Hq.
  assert (Hta : Forall2 (sent_as (PReq service) client (Some server)) (filter (mine (PReq service) (Some server)) (taken (ip_calls h))) (sent_requests service server (ip_calls h))).
  { clear -Hq. induction Hq as [|t m l ms (T1 & T2 & T3 & _ & T5 & T6) _ IH]; [constructor|]. constructor; [|exact IH]. split; [exact T1|]. split; [exact T2|]. split; [exact T3|]. split; [exact T5|exact T6]. }
  pose proof (ip_carried _ _ _ _ _ _ _ _ (PReq service) server _ _ _ _ _ _ _ _ _ _ _ _ Hr Hid' Hm ltac:(discriminate) Ht Hlong Hta Hi Hl Harr) as Hrec. destruct (received_pairs _ _ _ _ _ _ _ Hta Hrec) as (L1 & _).
  assert (Hlog : log_of (request_log service client) ds = map (fun m => (Token service client (fst m) prio, firstn max (snd m))) (sent_requests service server (ip_calls h))).
  { rewrite (request_logged _ _ _ L1). clear -Hq Hrec. revert Hq. generalize (sent_requests service server (ip_calls h)). induction Hrec as [|t d l l' ((now & R1) & _ & R3) _ IH]; intros ms Hq; inversion Hq as [|? m ? ms' (_ & _ & _ & T4 & T5 & T6) Hms]; subst; [reflexivity|].
    cbn [map]. rewrite (IH _ Hms), R1, R3, T6, <- T5. f_equal. f_equal. destruct (t_header t); cbn [h_set_ts h_tid h_prio]; reflexivity. }
  split; [exact Hlog|].
  pose proof (taken_responses k' P' R' server Hk' service client _ _ Hh' Hkeep') as Hu.
  assert (Hub : Forall2 (sent_as (PResp service) server (Some client)) (filter (mine (PResp service) (Some client)) (taken (ip_calls h'))) (map (fun m => (rt_transfer (fst m), snd m)) (sent_responses service client (ip_calls h')))).
  { clear -Hu. induction Hu as [|t m l ms H _ IH]; [constructor|]. cbn [map]. constructor; [exact H|exact IH]. }
  assert (Em : map (fun m => (rt_transfer (fst m), snd m)) (sent_responses service client (ip_calls h')) = map (fun m => (fst m, answer (firstn max (snd m)))) (sent_requests service server (ip_calls h))).
  { rewrite Hans, Hlog, !map_map. apply map_ext. intros [i pl]. reflexivity. }
  rewrite Em in Hub.
  pose proof (ip_carried _ _ _ _ _ _ _ _ (PResp service) client _ _ _ _ _ _ _ _ _ _ _ _ Hr' Hid Hm' ltac:(discriminate) Ht' Hlong' Hub ltac:(rewrite map_map; exact Hi) Hl' Harr') as Hrec'.
  destruct (received_pairs _ _ _ _ _ _ _ Hub Hrec') as (L1' & L2'). rewrite (response_logged _ _ _ L1'), L2', map_map. apply map_ext. intros [i pl]. reflexivity.
Qed.
Print Assumptions C146_calls_partial.
(** The transfer IDs of requests increase when sending requests for the service was started at most once *)
Theorem C146_ids_increase : forall service server mtu rmtu k P R id h z, ip_running mtu rmtu k P R id h z -> (length (filter (starts_requests service) (ip_calls h)) <= 1)%nat -> N.of_nat (length (ip_calls h)) < 2 ^ 64 ->
  increasing (map fst (sent_requests service server (ip_calls h))).
Proof.
  intros service server mtu rmtu k P R id h z (Hk & _ & _ & Hp & _) Hs Hl. destruct (ip_path_fine _ _ _ _ _ _ _ _ Hp) as (Hh & _). exact (proj1 (request_ids64 _ _ _ _ Hk service server _ _ Hh Hs Hl)).
Qed.
Print Assumptions C146_ids_increase.

(** * A case that meets the hypotheses *)

Definition vlongb (node : N) (out : list (N * list N)) : bool := forallb (fun e => negb (fst e =? ip_of_address (ANode node)) || (28 <=? length (snd e))%nat) out.
Lemma vlongb_ok node out : vlongb node out = true -> long_to node out.
Proof. intros H d Hd. unfold vlongb in H. rewrite forallb_forall in H. specialize (H _ Hd). cbn [fst snd] in H. rewrite N.eqb_refl in H. apply Nat.leb_le. exact H. Qed.
Definition vread (ds : list (list N)) : list xev := map XArrive ds ++ map (fun k => XReceive (1000 + N.of_nat k * 30) 20) (seq 0 (S (length ds))).
Definition vclient_before : list xev := [XCall (StartPublishing 10 100 4) 0 true].
Definition vclient_starts : xev := XCall (StartSendingRequests 100 100 30 4 SubOk) 0 true.
Definition vclient_sends : list xev :=
  [XCall (SendRequest false 100 (repeat 2 20) 3 ok_env) 1 true; XCall (Publish false 10 [1] ok_env) 2 false; XCall (SendRequest false 100 [5] 5 ok_env) 3 true; XCall (SendRequest true 100 [6] 3 ok_env) 4 true].
Definition vclient_sent : list (list N) := sent_to 3 (xsent (xrun (vclient_before ++ vclient_starts :: vclient_sends) [] (xnew 7))).
Definition vserver_before : list xev := [XCall (SubscribeMessage 11 4 1000 SubOk) 0 true; XArrive [3; 4; 5]; XReceive 1 2].
Definition vsub : xev := XCall (SubscribeRequest 100 17 1000 SubOk) 0 true.
Definition vserver_reads : list xev :=
  XArrive [0; 1] :: vread vclient_sent ++ [XCall (SendResponse (Token 100 7 0 4) 100 (net_answer (firstn 17 (repeat 2 20))) ok_env) 5 true; XCall (SendResponse (Token 100 7 1 4) 100 (net_answer [6]) ok_env) 5 true].
Definition vserver_end : option (xhist * ip_node) := xrun (vserver_before ++ vsub :: vserver_reads) [] (xnew 3).
Definition vclient_reads : list xev := vclient_sends ++ vread (xothers ++ sent_to 7 (xsent vserver_end)).
Definition vclient_end : option (xhist * ip_node) := xrun (vclient_before ++ vclient_starts :: vclient_reads) [] (xnew 7).

Local Strategy 1000 [xrun xarrived xgot xparts xlistens ip_node_step log_of].
Example C146_calls_witness : exists h z h' z' arrived ds arrived' ds',
  ip_running xmtu xrmtu (KFixed 4) 4 4 7 h z /\ ip_running xmtu xrmtu (KFixed 4) 4 4 3 h' z' /\ (xmtu <= xrmtu)%nat /\ sent_in_time (PReq 100) h /\ sent_in_time (PResp 100) h' /\ long_to 3 (ip_out z) /\ long_to 7 (ip_out z') /\
  requests_with 100 4 (ip_calls h) /\ sent_requests 100 3 (ip_calls h) = [(0, repeat 2 20); (1, [6])] /\
  ip_listened xmtu xrmtu (KFixed 4) 4 4 (Some 3) h' z' (PReq 100) 17 arrived ds /\ filter (from_node xrmtu (PReq 100) 7) arrived = filter (from_node xrmtu (PReq 100) 7) (sent_to 3 (ip_out z)) /\
  sent_responses 100 7 (ip_calls h') = map (fun a => (fst a, net_answer (snd a))) (log_of (request_log 100 7) ds) /\
  ip_listened xmtu xrmtu (KFixed 4) 4 4 (Some 7) h z (PResp 100) 30 arrived' ds' /\ filter (from_node xrmtu (PResp 100) 3) arrived' = filter (from_node xrmtu (PResp 100) 3) (sent_to 7 (ip_out z')) /\
  log_of (response_log 100 3) ds' = [(0, net_answer (repeat 2 17)); (1, net_answer [6])] /\ (length (filter (starts_requests 100) (ip_calls h)) <= 1)%nat.
Proof.
  assert (Lk : requests_withb 100 4 (xcalls vclient_end) = true) by (vm_compute; reflexivity). assert (Lm : sent_requests 100 3 (xcalls vclient_end) = [(0, repeat 2 20); (1, [6])]) by (vm_compute; reflexivity).
  assert (Lt : xin_timeb (PReq 100) (xhistory vclient_end) = true) by (vm_compute; reflexivity). assert (Lt' : xin_timeb (PResp 100) (xhistory vserver_end) = true) by (vm_compute; reflexivity).
  assert (Ll : vlongb 3 (xsent vclient_end) = true) by (vm_compute; reflexivity). assert (Ll' : vlongb 7 (xsent vserver_end) = true) by (vm_compute; reflexivity). assert (Ls : length (filter (starts_requests 100) (xcalls vclient_end)) = 1%nat) by (vm_compute; reflexivity).
  assert (Lo : filter (from_node xrmtu (PReq 100) 7) (xarrived 3 vserver_before vsub vserver_reads) = filter (from_node xrmtu (PReq 100) 7) (sent_to 3 (xsent vclient_end))) by (vm_compute; reflexivity).
  assert (Lo' : filter (from_node xrmtu (PResp 100) 3) (xarrived 7 vclient_before vclient_starts vclient_reads) = filter (from_node xrmtu (PResp 100) 3) (sent_to 7 (xsent vserver_end))) by (vm_compute; reflexivity).
  assert (La : sent_responses 100 7 (xcalls vserver_end) = map (fun a => (fst a, net_answer (snd a))) (log_of (request_log 100 7) (xgot 3 vserver_before vsub vserver_reads))) by (vm_compute; reflexivity).
  destruct vclient_end as [ [h z]|] eqn:Ec; [|discriminate Ls]. destruct vserver_end as [ [h' z']|] eqn:Es; [|vm_compute in Es; discriminate Es].
  destruct (xlistens_ok _ _ _ _ _ _ (PResp 100) 30 Ec ltac:(vm_compute; reflexivity)) as (Rc & Lc & Hx). destruct (xlistens_ok _ _ _ _ _ _ (PReq 100) 17 Es ltac:(vm_compute; reflexivity)) as (Rs & Li & Hx'). cbn [xcalls xhistory xsent] in *.
  eexists h, z, h', z', _, _, _, _. split; [exact Rc|]. split; [exact Rs|]. split; [unfold xmtu, xrmtu; lia|]. split; [apply xin_timeb_ok; assumption|]. split; [apply xin_timeb_ok; assumption|]. split; [apply vlongb_ok, Ll|]. split; [apply vlongb_ok, Ll'|].
  split; [apply requests_withb_ok, Lk|]. split; [exact Lm|]. split; [exact Li|]. split; [exact Lo|]. split; [exact La|]. split; [exact Lc|]. split; [exact Lo'|]. split; [vm_compute; reflexivity|]. rewrite Ls. apply le_n.
Qed.
