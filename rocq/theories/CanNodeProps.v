(** Property theorems for whole CAN nodes (C137, C138, C139). *)
From Verif Require Import Base BitLemmas CoreModel CrcModel FilterModel CanIdModel CanSpec CanIdProofs FilterProofs CanTxModel CanTxSpec CanTxProofs CanQueueModel CanQueueSpec CanQueueProofs CanFlushProofs
  CanRxModel CanRxSpec CanRxProofs CanRxProps CanIdProps BxModel BxSpec BxProofs BxQueueProofs BxRxProofs BxProps BusSpec BusProofs BusProps NodeModel NodeSpec NodeProofs NodeProps NetSpec NetProofs NetProps BxPnpModel
  CanNodeModel CanNodeSpec CanNodeProofs CanNodeTotalProofs.

Ltac Zify.zify_post_hook ::= Z.div_mod_to_equations.
Local Strategy 1000 [push_inner bx_flush core_step bx_step bx_filters bx_pnp_receive].

(** * C137: messages between two whole nodes *)

(** One node has run and published messages on a subject.  Another one has run and subscribed to it.  Each may have done anything else before, after and in between.
    Then the second one receives exactly the messages for which [publish] returned [Ok], each once, in this order, cut to the maximum size. *)
Theorem C137_nodes : forall subject prio id local max ds cap banks script k P R h z cap' banks' script' k' P' R' h' z',
  running cap banks script k P R (Some id) h z -> running cap' banks' script' k' P' R' local h' z' -> local <> Some id ->
  publishes_with subject prio (node_calls h) -> differing (map fst (sent_messages subject (node_calls h))) -> on_time script (PMsg subject) id None (node_calls h) ->
  all_sent cap (PMsg subject) id None (cn_queue z) (cn_driver z) ->
  listened script' (can_node_new cap' banks' k' P' R' local) h' z' (PMsg subject) id None max (sent (bx_can (cn_driver z))) ds ->
  log_of (message_log subject id) ds = map (fun m => (fst m, firstn max (snd m))) (sent_messages subject (node_calls h)).
Proof.
  intros subject prio id local max ds cap banks script k P R h z cap' banks' script' k' P' R' h' z' Hr Hr' Hne Hp Hd Ht Ha Hl. destruct (running_station _ _ _ _ _ _ _ _ _ _ _ _ Hr Ht) as (ts & S & It).
  pose proof Hr as (_ & Hs & Hk & Hid & _ & Hkeep). exact (C137_messages _ _ _ _ _ _ _ _ _ _ _ _ _ subject prio local max ds Hs Hk (Hid id eq_refl) S Hkeep Hp Hd It Ha (listened_reads _ _ _ _ _ _ _ _ _ _ _ _ _ _ _ Hr' Hne Hl)).
Qed.
Print Assumptions C137_nodes.

(** * C138: remote procedure calls between two whole nodes *)

(** A client and a server have run.  The client has sent requests to the server; the server has answered each request that it received with [answer] of its payload, in order.
    Then the server has received exactly the requests for which [send_request] returned a transfer ID, and the client has received for each of these transfer IDs exactly one response, with this ID and the answer to
    this request, in order. *)
Theorem C138_nodes : forall service client server prio answer max ds max' ds' cap banks script k P R h z cap' banks' script' k' P' R' h' z',
  running cap banks script k P R (Some client) h z -> running cap' banks' script' k' P' R' (Some server) h' z' -> client <> server ->
  requests_with service prio (node_calls h) -> differing (map fst (sent_requests service server (node_calls h))) ->
  on_time script (PReq service) client (Some server) (node_calls h) -> all_sent cap (PReq service) client (Some server) (cn_queue z) (cn_driver z) ->
  listened script' (can_node_new cap' banks' k' P' R' (Some server)) h' z' (PReq service) client (Some server) max (sent (bx_can (cn_driver z))) ds ->
  sent_responses service client (node_calls h') = map (fun a => (fst a, answer (snd a))) (log_of (request_log service client) ds) ->
  on_time script' (PResp service) server (Some client) (node_calls h') -> all_sent cap' (PResp service) server (Some client) (cn_queue z') (cn_driver z') ->
  listened script (can_node_new cap banks k P R (Some client)) h z (PResp service) server (Some client) max' (sent (bx_can (cn_driver z'))) ds' ->
  log_of (request_log service client) ds = map (fun m => (Token service client (fst m) prio, firstn max (snd m))) (sent_requests service server (node_calls h)) /\
  log_of (response_log service server) ds' = map (fun m => (fst m, firstn max' (answer (firstn max (snd m))))) (sent_requests service server (node_calls h)).
Proof.
  intros service client server prio answer max ds max' ds' cap banks script k P R h z cap' banks' script' k' P' R' h' z' Hr Hr' Hne Hp Hd Ht Ha Hl Hans Ht' Ha' Hl'.
  destruct (running_station _ _ _ _ _ _ _ _ _ _ _ _ Hr Ht) as (ts & S & It). destruct (running_station _ _ _ _ _ _ _ _ _ _ _ _ Hr' Ht') as (ts' & S' & It').
  assert (N1 : Some server <> Some client) by congruence. assert (N2 : Some client <> Some server) by congruence.
  pose proof (listened_reads _ _ _ _ _ _ _ _ _ _ _ _ _ _ _ Hr' N1 Hl) as Rd. pose proof (listened_reads _ _ _ _ _ _ _ _ _ _ _ _ _ _ _ Hr N2 Hl') as Rd'.
  destruct Hr as (_ & Hs & Hk & Hid & _ & Hkeep). destruct Hr' as (_ & Hs' & Hk' & Hid' & _ & Hkeep'). split.
  - exact (C138_requests _ _ _ _ _ _ _ _ _ _ _ _ _ service server prio max ds Hs Hk (Hid _ eq_refl) S Hkeep Hp Hd It Ha Rd).
  - exact (C138_calls service client server prio answer _ _ _ _ _ _ _ _ _ _ _ _ max ds _ _ _ _ _ _ _ _ _ _ _ _ max' ds' (Hid _ eq_refl) (Hid' _ eq_refl) Hs Hk S Hkeep Hp Hd It Ha Rd Hs' Hk' S' Hkeep' Hans It' Ha' Rd').
Qed.
Print Assumptions C138_nodes.

(** * C139: the filters of a node *)

(** Whatever a node has done: the hardware lets through all frames for its ID on the ports to which it is subscribed.  For requests and responses this is so as long as the node ID has not been set after the last change
    of subscriptions. *)
Theorem C139_filters_partial : forall cap banks script k P R id h z p b,
  (1 <= banks)%nat -> (forall i, fst (script i) < 2 ^ 32) -> kind_ok TransportCan k -> (forall i, id = Some i -> i <= 127) ->
  node_path script (can_node_new cap banks k P R id) h z -> subscribed p z -> (id_changed (node_calls h) = false \/ exists s, p = PMsg s) ->
  b_extended b = true -> b_id b < 2 ^ 29 -> wanted (c_id (cn_core z)) p (b_id b) -> lets_through z b = true.
Proof.
  intros cap banks script k P R id h z p b Hb Hs Hk Hid H Hsub Hc Hx Hlt Hw. pose proof (path_filtered _ _ _ _ _ _ _ _ _ Hb Hs Hk Hid H) as F. rewrite (path_core_id _ _ _ _ _ _ _ _ _ Hk H), <- (fi_id _ _ _ F) in Hw.
  apply (fi_accepts _ _ _ F p (subscribed_ports _ _ Hsub)); [destruct Hc as [Hc|(s & ->)]; [right; exact Hc|left; exact I]|]. repeat split; assumption.
Qed.
Print Assumptions C139_filters_partial.

(** * Examples *)

Inductive xev := XCall (o : op) | XFlush | XReceive | XSend (m : nat) | XArrive (b : bx_frame).
Definition ev_of (e : xev) : node_event :=
  match e with XCall o => EvCall o true (fun _ => true) | XFlush => EvFlush 40 | XReceive => EvReceive (fun _ => 50) (fun _ => true) | XSend m => EvSend m | XArrive b => EvArrive b end.
Definition xfine (e : xev) : bool :=
  match e with
  | XCall o => op_fineb o && match o with SubscribeMessage s _ _ _ | UnsubscribeMessage s => s <=? 8191 | SubscribeRequest s _ _ _ | UnsubscribeRequest s => s <=? 511 | _ => true end
  | XArrive b => match b_data b with Some data => bytes_okb data | None => true end
  | _ => true
  end.
Definition xhist : Type := list (node_event * node_result).
Fixpoint xrun (l : list xev) (h : xhist) (z : can_node) : option (xhist * can_node) :=
  match l with
  | [] => Some (h, z)
  | e :: l' => if xfine e then match can_node_step bus_script (ev_of e) z with Ok (z', res) => xrun l' ((ev_of e, res) :: h) z' | Panic => None end else None
  end.
Lemma xfine_ok e : xfine e = true -> event_fine (ev_of e).
Proof.
  destruct e as [o| | |m|b]; cbn [xfine ev_of event_fine]; intro H; try exact I.
  - apply andb_true_iff in H. destruct H as (H1 & H2). split; [apply op_fineb_ok, H1|]. destruct o; try exact I; apply N.leb_le, H2.
  - intro k. reflexivity.
  - intros data Ed. rewrite Ed in H. apply bytes_okb_ok, H.
Qed.
Lemma xrun_path z0 l : forall h z h' z', node_path bus_script z0 h z -> xrun l h z = Some (h', z') -> node_path bus_script z0 h' z'.
Proof.
  induction l as [|e l IH]; intros h z h' z' H E; cbn [xrun] in E; [injection E as <- <-; exact H|]. destruct (xfine e) eqn:Ef; [|discriminate]. destruct (can_node_step bus_script (ev_of e) z) as [ [z1 res]|] eqn:Es; [|discriminate].
  refine (IH _ _ _ _ _ E). exact (path_step _ _ _ _ _ _ _ H (xfine_ok e Ef) Es).
Qed.
Lemma xrun_on l : forall h0 h z h' z', xrun l h z = Some (h', z') -> xrun l (h ++ h0) z = Some (h' ++ h0, z').
Proof.
  induction l as [|e l IH]; intros h0 h z h' z' E; cbn [xrun] in *; [injection E as <- <-; reflexivity|]. destruct (xfine e); [|discriminate]. destruct (can_node_step bus_script (ev_of e) z) as [ [z1 res]|]; [|discriminate].
  exact (IH h0 ((ev_of e, res) :: h) z1 h' z' E).
Qed.
Lemma xrun_app a : forall b h z, xrun (a ++ b) h z = match xrun a h z with Some (h1, z1) => xrun b h1 z1 | None => None end.
Proof. induction a as [|e a IH]; intros b h z; cbn [xrun app]; [reflexivity|]. destruct (xfine e); [|reflexivity]. destruct (can_node_step bus_script (ev_of e) z) as [ [z1 res]|]; [apply IH|reflexivity]. Qed.

Definition xnew (id : option N) : can_node := can_node_new 8 14 KCan 4 4 id.
Definition portb (p : port) (c : call) : bool := match call_port c with Some q => port_eqb q p | None => false end.
Definition subscribesb (p : port) (max : nat) (en : entry) : bool :=
  match en with
  | (SubscribeMessage s m _ _, _, ODone) => port_eqb p (PMsg s) && (m =? max)%nat
  | (SubscribeRequest s m _ _, _, ODone) => port_eqb p (PReq s) && (m =? max)%nat
  | (StartSendingRequests s _ m _ _, _, OToken _) => port_eqb p (PResp s) && (m =? max)%nat
  | _ => false
  end.
Definition quietb (p : port) (s : N) (dest : option N) (z : can_node) : bool := forallb (fun b => negb (wire_to p s dest b)) (waiting (bx_can (cn_driver z))).
(** A run of three parts: before, the call that subscribes, and after *)
Definition xparts (id : option N) (l1 : list xev) (e : xev) (l2 : list xev) : option (xhist * can_node * entry * xhist * can_node) :=
  match xrun l1 [] (xnew id) with
  | Some (h1, z1) =>
      if xfine e then
        match can_node_step bus_script (ev_of e) z1 with
        | Ok (z2, ResCall o calls r) => match xrun l2 [] z2 with Some (h2, z) => Some (h1, z1, (o, calls, r), h2, z) | None => None end
        | _ => None
        end
      else None
  | None => None
  end.
Definition xlistens (id : option N) (l1 : list xev) (e : xev) (l2 : list xev) (p : port) (s : N) (dest : option N) (max : nat) : bool :=
  match xparts id l1 e l2 with
  | Some (h1, z1, en, h2, z) =>
      quietb p s dest z1 && quietb p s dest z && subscribesb p max en && forallb (fun en => forallb (fun c => negb (portb p c)) (snd (fst en))) (node_calls h2) && keeps_idb (node_calls h2 ++ en :: node_calls h1) &&
      match id with Some i => i <=? 127 | None => true end
  | None => false
  end.
Definition xheard (id : option N) (l1 : list xev) (e : xev) (l2 : list xev) : list bx_frame := match xparts id l1 e l2 with Some (_, _, _, h2, _) => node_bus h2 | None => [] end.
Definition xgot (id : option N) (l1 : list xev) (e : xev) (l2 : list xev) : list transfer := match xparts id l1 e l2 with Some (_, _, _, h2, _) => node_got h2 | None => [] end.
Lemma xrun_memory l : forall h z h' z', memory_enough h -> xrun l h z = Some (h', z') -> memory_enough h'.
Proof.
  induction l as [|e l IH]; intros h z h' z' H E; cbn [xrun] in E; [injection E as <- <-; exact H|]. destruct (xfine e); [|discriminate]. destruct (can_node_step bus_script (ev_of e) z) as [ [z1 res]|]; [|discriminate].
  refine (IH _ _ _ _ _ E). intros clock mem r [Hi|Hi]; [|exact (H clock mem r Hi)]. destruct e; try discriminate Hi. cbn [ev_of] in Hi. injection Hi as _ <- _. intro k. reflexivity.
Qed.
Lemma quietb_ok p s dest z : quietb p s dest z = true -> none_waiting p s dest z.
Proof. unfold quietb. rewrite forallb_forall. intro H. apply Forall_forall. intros b Hb. apply negb_true_iff, H, Hb. Qed.
Lemma subscribesb_ok p max en : subscribesb p max en = true -> subscribes p max en.
Proof.
  destruct en as [ [o calls] r]. destruct o, r; cbn [subscribesb subscribes]; intro H; try discriminate H; apply andb_true_iff in H; destruct H as (H1 & H2); apply Nat.eqb_eq in H2; match type of H1 with port_eqb p ?q = true => destruct (port_eqb_spec p q) as [E|_]; [|discriminate H1] end; split; assumption.
Qed.
Lemma xlistens_ok id l1 e l2 h z p s dest max : xrun (l1 ++ e :: l2) [] (xnew id) = Some (h, z) -> xlistens id l1 e l2 p s dest max = true ->
  running 8 14 bus_script KCan 4 4 id h z /\ forall bus, filter (wire_to p s dest) (xheard id l1 e l2) = filter (wire_to p s dest) bus -> listened bus_script (can_node_new 8 14 KCan 4 4 id) h z p s dest max bus (xgot id l1 e l2).
Proof.
  intros E C. unfold xlistens, xheard, xgot in *. unfold xparts in *. rewrite xrun_app in E. destruct (xrun l1 [] (xnew id)) as [ [h1 z1]|] eqn:E1; [|discriminate C]. cbn [xrun] in E. destruct (xfine e) eqn:Ef; [|discriminate C].
  destruct (can_node_step bus_script (ev_of e) z1) as [ [z2 [o calls r| | |] ]|] eqn:Es; try discriminate C. destruct (xrun l2 [] z2) as [ [h2 z3]|] eqn:E2; [|discriminate C].
  pose proof (xrun_on l2 ((ev_of e, ResCall o calls r) :: h1) [] z2 h2 z3 E2) as E3. cbn [app] in E3. rewrite E3 in E. injection E as <- <-. rewrite !andb_true_iff in C. destruct C as (((((C1 & C2) & C3) & C4) & C5) & C6).
  pose proof (xrun_path (xnew id) l1 [] (xnew id) h1 z1 (path_here _ _) E1) as P1. pose proof (xrun_path z2 l2 [] z2 h2 z3 (path_here _ _) E2) as P2. pose proof (path_step _ _ _ _ _ _ _ P1 (xfine_ok e Ef) Es) as P1'.
  split.
  - split; [lia|]. split; [reflexivity|]. split; [reflexivity|]. split; [destruct id as [i|]; [intros j Ej; injection Ej as <-; apply N.leb_le, C6|discriminate]|]. split; [exact (path_join 8 14 bus_script KCan 4 4 id _ _ _ _ P1' P2)|].
    unfold node_calls. rewrite flat_map_app. apply keeps_idb_ok. exact C5.
  - intros bus Hbus. exists h1, z1, (ev_of e), o, calls, r, z2, h2. split; [reflexivity|]. split; [exact P1|]. split; [apply quietb_ok, C1|]. split; [exact (xfine_ok e Ef)|]. split; [exact Es|]. split; [apply subscribesb_ok, C3|]. split; [exact P2|].
    split; [|split; [|split; [apply quietb_ok, C2|split; [exact Hbus|reflexivity] ] ] ].
    + intros o' c' r' c Hi Hc Ep. rewrite forallb_forall in C4. specialize (C4 _ Hi). cbn [fst snd] in C4. rewrite forallb_forall in C4. specialize (C4 c Hc). unfold portb in C4. rewrite Ep, port_eqb_refl in C4. discriminate C4.
    + exact (xrun_memory l2 [] z2 h2 z3 ltac:(intros clock mem r' []) E2).
Qed.
Definition xsent (o : option (xhist * can_node)) : list bx_frame := match o with Some (_, z) => sent (bx_can (cn_driver z)) | None => [] end.
Definition xdone (p : port) (s : N) (dest : option N) (o : option (xhist * can_node)) : bool :=
  match o with
  | Some (h, z) => forallb (fun b => negb (wire_to p s dest b)) (BxSpec.pending (bx_can (cn_driver z))) && forallb (fun f => negb (addressed p s dest (f_id f))) (drain 9 (cn_queue z)) &&
      forallb (fun en => forallb (fun c => match c with CPush t => negb (t_lt (h_ts (t_header t)) 10) | _ => true end) (snd (fst en))) (node_calls h)
  | None => false
  end.
Lemma xdone_ok p s dest h z : xdone p s dest (Some (h, z)) = true -> all_sent 8 p s dest (cn_queue z) (cn_driver z) /\ on_time bus_script p s dest (node_calls h).
Proof.
  unfold xdone. rewrite !andb_true_iff, !forallb_forall. intros ((H1 & H2) & H3). split; [split; apply Forall_forall; intros b Hb; [specialize (H1 b Hb)|specialize (H2 b Hb)]; apply negb_true_iff; assumption|].
  intros o calls r t j Hi Hc _. specialize (H3 _ Hi). cbn [fst snd] in H3. rewrite forallb_forall in H3. specialize (H3 _ Hc). apply negb_true_iff. exact H3.
Qed.

(** The client 7 publishes on subject 10 and sends requests to the nodes 3 and 5; the server 3 subscribes to both.  Frames of a node 8 are on the bus as well. *)
Definition xcycle : list xev := [XFlush; XSend 1; XSend 0; XFlush; XSend 0; XSend 1; XSend 2].
Definition xreading (bus : list bx_frame) : list xev := flat_map (fun b => [XArrive b; XArrive net_noise; XReceive; XReceive]) bus.
Definition client_before : list xev := [XCall (StartPublishing 10 100 4); XArrive net_noise].
Definition client_starts : xev := XCall (StartSendingRequests 100 100 3 4 SubOk).
Definition client_sends : list xev :=
  [XCall (Publish false 10 (repeat 1 8) ok_env); XCall (SendRequest false 100 (repeat 2 9) 3 ok_env); XCall (SendRequest false 100 [5] 5 ok_env)] ++ xcycle ++
  [XArrive net_noise; XReceive; XCall (Publish true 10 [2; 3] ok_env); XCall (Publish false 10 (repeat 4 60) ok_env); XCall (SubscribeMessage 12 4 1000 SubOk); XCall (SendRequest true 100 [6] 3 ok_env)] ++ xcycle ++
  [XCall (Publish false 10 [7] ok_env)] ++ xcycle ++ xcycle.
Definition client_bus : list bx_frame := xsent (xrun (client_before ++ client_starts :: client_sends) [] (xnew (Some 7))).
Definition server_before : list xev := [XCall (SubscribeMessage 11 4 1000 SubOk); XArrive net_noise].
Definition server_reads : list xev :=
  xreading client_bus ++ [XCall (UnsubscribeMessage 11); XCall (SendResponse (Token 100 7 0 4) 100 (1 :: repeat 2 6) ok_env); XCall (SendResponse (Token 100 9 5 4) 100 (repeat 9 8) ok_env)] ++ xcycle ++
  [XCall (SendResponse (Token 100 7 1 4) 100 [1; 6] ok_env)] ++ xcycle ++ xcycle.
Definition server_run : list xev := server_before ++ XCall (SubscribeMessage 10 5 1000 SubOk) :: XCall (SubscribeRequest 100 6 1000 SubOk) :: server_reads.
Definition server_end : option (xhist * can_node) := xrun server_run [] (xnew (Some 3)).
Definition client_reads : list xev := client_sends ++ xreading (xsent server_end).
Definition client_end : option (xhist * can_node) := xrun (client_before ++ client_starts :: client_reads) [] (xnew (Some 7)).
Definition xcalls (o : option (xhist * can_node)) : list entry := match o with Some (h, _) => node_calls h | None => [] end.

Example C137_nodes_witness : exists h z h' z' ds,
  running 8 14 bus_script KCan 4 4 (Some 7) h z /\ running 8 14 bus_script KCan 4 4 (Some 3) h' z' /\ publishes_with 10 4 (node_calls h) /\ differing (map fst (sent_messages 10 (node_calls h))) /\
  on_time bus_script (PMsg 10) 7 None (node_calls h) /\ all_sent 8 (PMsg 10) 7 None (cn_queue z) (cn_driver z) /\
  listened bus_script (can_node_new 8 14 KCan 4 4 (Some 3)) h' z' (PMsg 10) 7 None 5 (sent (bx_can (cn_driver z))) ds /\
  log_of (message_log 10 7) ds = [(0, [1; 1; 1; 1; 1]); (1, [2; 3]); (3, [7])] /\ length (sent (bx_can (cn_driver z))) = 8%nat.
Proof.
  assert (Ld : xdone (PMsg 10) 7 None client_end = true) by (vm_compute; reflexivity). assert (Lk : publishes_withb 10 4 (xcalls client_end) = true) by (vm_compute; reflexivity).
  assert (Lm : map fst (sent_messages 10 (xcalls client_end)) = [0; 1; 3]) by (vm_compute; reflexivity). assert (Ll : length (xsent client_end) = 8%nat) by (vm_compute; reflexivity).
  assert (Lb : filter (wire_to (PMsg 10) 7 None) (xheard (Some 3) server_before (XCall (SubscribeMessage 10 5 1000 SubOk)) (XCall (SubscribeRequest 100 6 1000 SubOk) :: server_reads)) = filter (wire_to (PMsg 10) 7 None) (xsent client_end)) by (vm_compute; reflexivity).
  destruct client_end as [ [h z]|] eqn:Ec; [|discriminate Ld]. destruct server_end as [ [h' z']|] eqn:Es; [|vm_compute in Es; discriminate Es].
  destruct (xlistens_ok _ _ _ _ _ _ (PResp 100) 3 (Some 7) 3 Ec ltac:(vm_compute; reflexivity)) as (Rc & _). destruct (xlistens_ok _ _ _ _ _ _ (PMsg 10) 7 None 5 Es ltac:(vm_compute; reflexivity)) as (Rs & Ls).
  destruct (xdone_ok _ _ _ _ _ Ld) as (D1 & D2). cbn [xcalls xsent] in *. eexists h, z, h', z', _. split; [exact Rc|]. split; [exact Rs|]. split; [apply publishes_withb_ok, Lk|]. split; [rewrite Lm; repeat split; discriminate|]. split; [exact D2|]. split; [exact D1|].
  split; [exact (Ls _ Lb)|]. split; [vm_compute; reflexivity|exact Ll].
Qed.
Example C138_nodes_witness : exists h z h' z' ds ds',
  running 8 14 bus_script KCan 4 4 (Some 7) h z /\ running 8 14 bus_script KCan 4 4 (Some 3) h' z' /\ requests_with 100 4 (node_calls h) /\ sent_requests 100 3 (node_calls h) = [(0, repeat 2 9); (1, [6])] /\
  on_time bus_script (PReq 100) 7 (Some 3) (node_calls h) /\ all_sent 8 (PReq 100) 7 (Some 3) (cn_queue z) (cn_driver z) /\
  listened bus_script (can_node_new 8 14 KCan 4 4 (Some 3)) h' z' (PReq 100) 7 (Some 3) 6 (sent (bx_can (cn_driver z))) ds /\
  sent_responses 100 7 (node_calls h') = map (fun a => (fst a, net_answer (snd a))) (log_of (request_log 100 7) ds) /\
  on_time bus_script (PResp 100) 3 (Some 7) (node_calls h') /\ all_sent 8 (PResp 100) 3 (Some 7) (cn_queue z') (cn_driver z') /\
  listened bus_script (can_node_new 8 14 KCan 4 4 (Some 7)) h z (PResp 100) 3 (Some 7) 3 (sent (bx_can (cn_driver z'))) ds' /\
  log_of (response_log 100 3) ds' = [(0, [1; 2; 2]); (1, [1; 6])].
Proof.
  assert (Ld : xdone (PReq 100) 7 (Some 3) client_end = true) by (vm_compute; reflexivity). assert (Ld' : xdone (PResp 100) 3 (Some 7) server_end = true) by (vm_compute; reflexivity).
  assert (Lk : requests_withb 100 4 (xcalls client_end) = true) by (vm_compute; reflexivity).
  assert (Lm : sent_requests 100 3 (xcalls client_end) = [(0, repeat 2 9); (1, [6])]) by (vm_compute; reflexivity).
  assert (La : sent_responses 100 7 (xcalls server_end) = map (fun a => (fst a, net_answer (snd a))) (log_of (request_log 100 7) (xgot (Some 3) (server_before ++ [XCall (SubscribeMessage 10 5 1000 SubOk)]) (XCall (SubscribeRequest 100 6 1000 SubOk)) server_reads))) by (vm_compute; reflexivity).
  assert (Lb : filter (wire_to (PReq 100) 7 (Some 3)) (xheard (Some 3) (server_before ++ [XCall (SubscribeMessage 10 5 1000 SubOk)]) (XCall (SubscribeRequest 100 6 1000 SubOk)) server_reads) = filter (wire_to (PReq 100) 7 (Some 3)) (xsent client_end)) by (vm_compute; reflexivity).
  assert (Lb' : filter (wire_to (PResp 100) 3 (Some 7)) (xheard (Some 7) client_before client_starts client_reads) = filter (wire_to (PResp 100) 3 (Some 7)) (xsent server_end)) by (vm_compute; reflexivity).
  destruct client_end as [ [h z]|] eqn:Ec; [|discriminate Ld]. destruct server_end as [ [h' z']|] eqn:Es; [|discriminate Ld'].
  assert (Es' : xrun ((server_before ++ [XCall (SubscribeMessage 10 5 1000 SubOk)]) ++ XCall (SubscribeRequest 100 6 1000 SubOk) :: server_reads) [] (xnew (Some 3)) = Some (h', z')) by (rewrite <- app_assoc; exact Es).
  destruct (xlistens_ok _ _ _ _ _ _ (PResp 100) 3 (Some 7) 3 Ec ltac:(vm_compute; reflexivity)) as (Rc & Lc). destruct (xlistens_ok _ _ _ _ _ _ (PReq 100) 7 (Some 3) 6 Es' ltac:(vm_compute; reflexivity)) as (Rs & Ls).
  destruct (xdone_ok _ _ _ _ _ Ld) as (D1 & D2). destruct (xdone_ok _ _ _ _ _ Ld') as (D1' & D2'). cbn [xcalls xsent] in *. eexists h, z, h', z', _, _. split; [exact Rc|]. split; [exact Rs|]. split; [apply requests_withb_ok, Lk|]. split; [exact Lm|]. split; [exact D2|]. split; [exact D1|].
  split; [exact (Ls _ Lb)|]. split; [exact La|]. split; [exact D2'|]. split; [exact D1'|]. split; [exact (Lc _ Lb')|vm_compute; reflexivity].
Qed.

(** A request to node 5 on service 100 passes the filters of node 5 that serves it, after other subscriptions were made and one was removed *)
Definition xmade (id : option N) (l : list xev) : option (xhist * can_node) := xrun l [] (xnew id).
Definition xrequest : bx_frame := BxFrame true 0x13190289 (Some [1; 0xe0]).
Example C139_witness : exists h z, node_path bus_script (can_node_new 8 14 KCan 4 4 (Some 5)) h z /\ subscribed (PReq 100) z /\ id_changed (node_calls h) = false /\ c_id (cn_core z) = Some 5 /\ wanted (Some 5) (PReq 100) (b_id xrequest) /\
  lets_through z xrequest = true /\ lets_through z net_noise = false.
Proof.
  destruct (xmade (Some 5) [XCall (SubscribeMessage 10 4 1000 SubOk); XCall (SubscribeRequest 100 4 1000 SubOk); XCall (StartPublishing 3 100 4); XCall (UnsubscribeMessage 10)]) as [ [h z]|] eqn:E; [|vm_compute in E; discriminate E].
  exists h, z. split; [exact (xrun_path _ _ _ _ _ _ (path_here _ _) E)|]. vm_compute in E. injection E as <- <-. split; [left; reflexivity|]. split; [reflexivity|]. split; [reflexivity|]. split; [|split; vm_compute; reflexivity].
  exists (HReq (SvcH 0 0 4 100 9 5)). split; [|split; [reflexivity|right; split; [reflexivity|discriminate] ] ]. vm_compute. auto 20.
Qed.

(** When the node ID is set after a subscription, the filters remain those for the old ID: requests to the node are lost until another subscription is made or removed.
    (canadensis/src/node/core.rs:461-464 [set_node_id] calls canadensis_can/src/rx.rs:207-209 [set_id], which does not apply the filters.) *)
Theorem C139_set_id_refuted : exists h z b, node_path bus_script (can_node_new 8 14 KCan 4 4 (Some 5)) h z /\ subscribed (PReq 100) z /\ c_id (cn_core z) = Some 9 /\
  b_extended b = true /\ b_id b < 2 ^ 29 /\ wanted (c_id (cn_core z)) (PReq 100) (b_id b) /\ lets_through z b = false.
Proof.
  destruct (xmade (Some 5) [XCall (SubscribeRequest 100 4 1000 SubOk); XCall (SetNodeId 9)]) as [ [h z]|] eqn:E; [|vm_compute in E; discriminate E].
  exists h, z, (BxFrame true 0x13190487 (Some [1; 0xe0])). split; [exact (xrun_path _ _ _ _ _ _ (path_here _ _) E)|]. vm_compute in E. injection E as <- <-. split; [left; reflexivity|]. split; [reflexivity|]. split; [reflexivity|]. split; [reflexivity|]. split; [|vm_compute; reflexivity].
  exists (HReq (SvcH 0 0 4 100 7 9)). split; [|split; [reflexivity|right; split; [reflexivity|discriminate] ] ]. vm_compute. auto 20.
Qed.
Print Assumptions C139_set_id_refuted.

(** * C140: panics *)

(** After any history of a CAN node, nothing that a program may do next with the node, and nothing that the hardware or the bus does, makes it panic; as long as the first frames of all transfers of several frames on the bus
    have at least two bytes before the tail byte *)
Theorem C140_no_panic_partial : forall cap banks script k P R id h z ev,
  (1 <= banks)%nat -> (forall i, fst (script i) < 2 ^ 32) -> kind_ok TransportCan k -> (forall j, id = Some j -> j <= 127) ->
  node_path script (can_node_new cap banks k P R id) h z -> (forall b res, In (EvArrive b, res) h -> starts_long b) ->
  event_fine ev -> event_allowed cap id (node_calls h) ev ->
  exists z' res, can_node_step script ev z = Ok (z', res).
Proof. intros cap banks script k P R id h z ev Hb Hs Hk Hid H Ha Hf Hal. exact (step_total cap banks script k P R id Hb Hs Hk Hid h z ev H Ha Hf Hal). Qed.
Print Assumptions C140_no_panic_partial.

(** Two short frames on the bus make a node panic that has only subscribed to a message (canadensis_can/src/rx/buildup.rs, see C23_short_transfer_refuted; in a build with overflow checks) *)
Theorem C140_short_frames_refuted : exists h z ev, node_path bus_script (can_node_new 8 14 KCan 4 4 (Some 5)) h z /\ event_fine ev /\ event_allowed 8 (Some 5) (node_calls h) ev /\ can_node_step bus_script ev z = Panic.
Proof.
  destruct (xmade (Some 5) [XCall (SubscribeMessage 10 4 1000 SubOk); XArrive (BxFrame true 0x10600a07 (Some [0xa0])); XArrive (BxFrame true 0x10600a07 (Some [0x40]))]) as [ [h z]|] eqn:E; [|vm_compute in E; discriminate E].
  exists h, z, (EvReceive (fun _ => 0) (fun _ => true)). split; [exact (xrun_path _ _ _ _ _ _ (path_here _ _) E)|]. split; [intro k; reflexivity|]. split; [exact I|]. vm_compute in E. injection E as _ <-. vm_compute. reflexivity.
Qed.
Print Assumptions C140_short_frames_refuted.

(** The client of C138 after its whole history: it has received frames, and may send a further request, flush and receive *)
Definition longb (b : bx_frame) : bool := match b_data b with Some data => (3 <=? length data)%nat || negb (tl_start (parse_tail (last data 0)) && negb (tl_end (parse_tail (last data 0)))) | None => true end.
Lemma longb_ok b : longb b = true -> starts_long b.
Proof.
  unfold longb. intros H data body toggle tid E Ht Ed. rewrite E in H. apply orb_true_iff in H. destruct H as [H|H].
  - apply Nat.leb_le in H. rewrite Ed, app_length in H. cbn [length] in H. lia.
  - rewrite Ed, last_last, parse_tail_byte in H by exact Ht. discriminate H.
Qed.
Definition arrives_longb (o : option (xhist * can_node)) : bool := match o with Some (h, _) => forallb (fun e => match fst e with EvArrive b => longb b | _ => true end) h | None => false end.
Example C140_witness : exists h z, node_path bus_script (can_node_new 8 14 KCan 4 4 (Some 7)) h z /\ (forall b res, In (EvArrive b, res) h -> starts_long b) /\ length (node_got h) = 2%nat /\ (50 <= length h)%nat /\
  event_allowed 8 (Some 7) (node_calls h) (EvCall (SendRequest false 100 [1] 3 ok_env) true (fun _ => true)) /\ event_fine (EvCall (SendRequest false 100 [1] 3 ok_env) true (fun _ => true)).
Proof.
  assert (La : arrives_longb client_end = true) by (vm_compute; reflexivity). assert (Lr : req_started 100 (xcalls client_end) = Some (100, 4)) by (vm_compute; reflexivity).
  assert (Lg : match client_end with Some (h, _) => length (node_got h) = 2%nat /\ (50 <=? length h)%nat = true | None => False end) by (vm_compute; split; reflexivity).
  destruct client_end as [ [h z]|] eqn:Ec; [|discriminate La]. destruct Lg as (Lg & Ll). exists h, z. split; [exact (xrun_path _ _ _ _ _ _ (path_here _ _) Ec)|].
  split. { intros b res Hi. cbn [arrives_longb] in La. rewrite forallb_forall in La. apply longb_ok. exact (La _ Hi). }
  split; [exact Lg|]. split; [apply Nat.leb_le, Ll|]. split; [cbn [event_allowed call_allowed xcalls] in *; congruence|]. exact (xfine_ok (XCall (SendRequest false 100 [1] 3 ok_env)) eq_refl).
Qed.
