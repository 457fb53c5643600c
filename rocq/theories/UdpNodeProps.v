(** Whole UDP nodes: messages, panics. *)
From Verif Require Import Base BitLemmas CoreModel NodeModel NodeSpec NodeProofs NodeProps BusSpec BusProofs NetSpec NetProofs NetProps CanNodeModel CanNodeSpec CanNodeProofs CanNodeProps
  HeaderModel HeaderSpec HeaderProofs SerialNodeModel SerialNodeSpec SerialNodeProofs SerialLinkProofs
  CrcModel TabModel UdpModel UdpSpec UdpTxProofs UdpRxProofs UdpProps NodeModel UdpNodeModel UdpNodeSpec UdpNodeProofs.

(** * C144: messages between two whole UDP nodes *)

(** A node has published messages on a subject; each datagram was sent before its deadline, and the socket accepted it.  Another node, with or without an ID, has subscribed to the subject, and kept its subscription.  The datagrams of the first node on
    this subject have arrived in order, mixed with any others; the second node has read them, in any number of calls, at any times of a clock that does not go back, and did anything else in between.  Then its handler has got exactly the messages for
    which [publish] returned [Ok], in order, each once, cut to the size of the subscription.  The receiver's MTU is at least the sender's.
    Missing from the full claim: datagrams of less than 28 bytes ([C144_short_refuted]), datagrams whose deadline passes in [publish] ([C144_late_refuted]), and transfer IDs that do not increase because publishing was started again ([C144_restart_refuted]). *)
Theorem C144_messages_partial : forall subject max ds mtu rmtu k P R id h z mtu' rmtu' k' P' R' id' h' z' arrived,
  ip_running mtu rmtu k P R id h z -> sent_in_time (PMsg subject) h -> long_in subject (ip_out z) -> increasing (map fst (sent_messages subject (ip_calls h))) -> (mtu <= rmtu')%nat ->
  ip_listened mtu' rmtu' k' P' R' id' h' z' (PMsg subject) max arrived ds ->
  filter (from_node rmtu' (PMsg subject) id) arrived = filter (from_node rmtu' (PMsg subject) id) (map snd (ip_out z)) ->
  log_of (message_log subject id) ds = map (fun m => (fst m, firstn max (snd m))) (sent_messages subject (ip_calls h)).
Proof.
  intros subject max ds mtu rmtu k P R id h z mtu' rmtu' k' P' R' id' h' z' arrived (Hk & Hid & Hm & Hp & Hkeep) Ht Hlong Hi Hm' Hl Harr.
  destruct (ip_sender mtu rmtu rmtu' k P R id subject h z Hk Hid Hm Hm' Hp) as (Hh & Hf & Ho). destruct (Ho Hkeep Ht Hlong) as (dss & H1 & H2). rewrite H2 in Harr.
  pose proof (taken_messages k P R id Hk subject None _ _ Hh Hkeep) as Hs. set (l := filter (mine (PMsg subject) None) (taken (ip_calls h))) in *.
  assert (Kc : map fst (combine l dss) = l /\ map snd (combine l dss) = dss) by (clear -H1; induction H1 as [|t d l dss _ _ (I1 & I2)]; [split; reflexivity|]; cbn [combine map fst snd]; rewrite I1, I2; split; reflexivity). destruct Kc as (K1 & K2).
  assert (Ki : Forall (item_ok mtu (PMsg subject) id) (combine l dss)).
  { clear -H1 Hs. revert H1 Hs. generalize (sent_messages subject (ip_calls h)). intros ms H1. revert ms. induction H1 as [|t d l dss Hc _ IH]; intros ms Hs; [constructor|]. inversion Hs as [|? m ? ms' (S1 & S2 & _) S3]; subst. cbn [combine]. constructor; [|exact (IH _ S3)].
    split; [exact Hc|]. split; [exact S1|exact S2]. }
  assert (Hr : rising (map (fun e => h_tid (t_header (fst e))) (combine l dss))) by (rewrite <- (map_map fst (fun t => h_tid (t_header t))), K1, (sent_as_ids _ _ _ _ _ Hs); exact Hi).
  pose proof (ip_listened_stream mtu mtu' rmtu' k' P' R' id' h' z' (PMsg subject) id max arrived ds (combine l dss) Hl Hm' Ki Hr) as Hd. rewrite K1, K2 in Hd. specialize (Hd Harr).
  assert (Kl : Forall (fun t => t_loopback t = false) (filter (comes_from (PMsg subject) id) ds)) by (clear -Hd; induction Hd as [|t d l l' (_ & R2 & _) _ IH]; constructor; assumption).
  rewrite (message_logged _ _ _ Kl). clear -Hd Hs. revert Hs. generalize (sent_messages subject (ip_calls h)). induction Hd as [|t d l l' ((now & R1) & _ & R3) _ IH]; intros ms Hs; inversion Hs as [|? m ? ms' (_ & _ & _ & S4 & S5) S6]; subst; [reflexivity|].
  cbn [map]. rewrite (IH _ S6), R1, R3, S5, <- S4. f_equal. f_equal. destruct (t_header t); reflexivity.
Qed.
Print Assumptions C144_messages_partial.
(** The transfer IDs increase when publishing on the subject was started at most once *)
Theorem C144_ids_increase : forall subject mtu rmtu k P R id h z, ip_running mtu rmtu k P R id h z -> (length (filter (starts_publishing subject) (ip_calls h)) <= 1)%nat -> N.of_nat (length (ip_calls h)) < 2 ^ 64 ->
  increasing (map fst (sent_messages subject (ip_calls h))).
Proof.
  intros subject mtu rmtu k P R id h z (Hk & _ & _ & Hp & _) Hs Hl. destruct (ip_path_fine _ _ _ _ _ _ _ _ Hp) as (Hh & _). exact (proj1 (message_ids64 _ _ _ _ Hk subject _ _ Hh Hs Hl)).
Qed.
Print Assumptions C144_ids_increase.

(** * C145: panics *)

(** After any history of a UDP node, whatever datagrams have arrived, nothing that a program may do next with the node makes it panic, as long as no reading of the clock is before an earlier one.
    Missing: two readings more than [2^31 - 1] microseconds apart, of which the later one counts as the earlier one ([C145_silence_refuted]), and payloads of [2^31] datagrams or more. *)
Theorem C145_no_panic_partial : forall mtu rmtu k P R id h z ev, kind_ok Transport64 k -> (forall j, id = Some j -> j < 65535) -> (28 < mtu)%nat -> ip_path mtu rmtu (ip_node_new k P R id) h z -> ip_fine mtu ev -> ip_allowed id (ip_calls h) ev ->
  clock_runs (ip_clock h ++ readings ev) -> exists z' res, ip_node_step mtu rmtu ev z = Ok (z', res).
Proof.
  intros mtu rmtu k P R id h z ev Hk H0 Hm H Hf Ha Hck. refine (ip_step_total mtu rmtu k P R id h z ev Hk H0 Hm H Hf _ Hck). intros o env group ->. exact Ha.
Qed.
Print Assumptions C145_no_panic_partial.

(** * Cases that meet the hypotheses *)

(** Each call: the clock, and whether the socket accepts datagrams; it joins groups *)
Inductive xev := XCall (o : op) (now : N) (ok : bool) | XFlush | XReceive (now : N) (limit : nat) | XArrive (d : list N).
Definition xev_of (e : xev) : ip_event :=
  match e with XCall o now ok => IpCall o (fun _ => (now, ok)) true | XFlush => IpFlush | XReceive now limit => IpReceive (map (fun k => (now + N.of_nat k, true, true)) (seq 0 limit)) | XArrive d => IpArrive d end.
Definition xmtu : nat := 40.
Definition xrmtu : nat := 64.
Definition xfine (e : xev) : bool :=
  match e with
  | XCall (StartPublishing subject _ priority) _ _ => (subject <=? 8191) && (priority <=? 7)
  | XCall (Publish _ subject payload _) _ _ => (subject <=? 8191) && bytes_okb payload && (N.of_nat (length payload) <=? 1000)
  | XCall (SubscribeMessage _ _ _ _) _ _ => true
  | XCall (StopPublishing _) _ _ => true
  | XCall (SubscribeRequest _ _ _ _) _ _ => true
  | XCall (StartSendingRequests service _ _ priority _) _ _ => (service <=? 511) && (priority <=? 7)
  | XCall (SendRequest _ service payload destination _) _ _ => (service <=? 511) && (destination <? 65535) && bytes_okb payload && (N.of_nat (length payload) <=? 1000)
  | XCall (SendResponse token _ payload _) _ _ => (rt_service token <=? 511) && (rt_client token <? 65535) && (rt_transfer token <? 2 ^ 64) && (rt_priority token <=? 7) && bytes_okb payload && (N.of_nat (length payload) <=? 1000)
  | XCall _ _ _ => false
  | XFlush => true
  | XReceive now limit => (now <? 2 ^ 31) && (limit <=? 1000)%nat
  | XArrive d => bytes_okb d
  end.
Lemma xfine_ok e : xfine e = true -> ip_fine xmtu (xev_of e).
Proof.
  destruct e as [o now ok| |now limit|d]; cbn [xfine xev_of ip_fine]; intro H.
  - assert (E : N.of_nat (xmtu - 24) = 16) by reflexivity. rewrite E. destruct o; cbn [serial_call_fine payload_of] in *; try discriminate H; rewrite ?andb_true_iff, ?N.leb_le, ?N.ltb_lt in H; try (split; [first [exact I|exact H]|reflexivity]); change (2 ^ 31 * 16) with 34359738368.
    + destruct H as ((H1 & H2) & H3). split; [split; [exact H1|apply bytes_okb_ok, H2]|]. lia.
    + destruct H as (((H1 & H2) & H3) & H4). split; [split; [exact H1|split; [exact H2|apply bytes_okb_ok, H3] ]|]. lia.
    + destruct H as (((((H1 & H2) & H3) & H4) & H5) & H6). split; [|lia]. split; [exact H1|]. split; [exact H2|]. split; [exact H3|]. split; [exact H4|apply bytes_okb_ok, H5].
  - exact I.
  - rewrite andb_true_iff, N.ltb_lt, Nat.leb_le in H. destruct H as (H1 & H2). apply Forall_forall. intros a Ha. apply in_map_iff in Ha. destruct Ha as (j & <- & Hj). apply in_seq in Hj. cbn [fst]. change (2 ^ 31) with 2147483648 in H1. change (2 ^ 32) with 4294967296. lia.
  - apply bytes_okb_ok, H.
Qed.
Definition xhist : Type := list (ip_event * ip_result).
Fixpoint xrun (l : list xev) (h : xhist) (z : ip_node) : option (xhist * ip_node) :=
  match l with
  | [] => Some (h, z)
  | e :: l' => if xfine e then match ip_node_step xmtu xrmtu (xev_of e) z with Ok (z', res) => xrun l' ((xev_of e, res) :: h) z' | Panic => None end else None
  end.
Lemma xrun_path z0 l : forall h z h' z', ip_path xmtu xrmtu z0 h z -> xrun l h z = Some (h', z') -> ip_path xmtu xrmtu z0 h' z'.
Proof.
  induction l as [|e l IH]; intros h z h' z' H E; cbn [xrun] in E; [injection E as <- <-; exact H|]. destruct (xfine e) eqn:Ef; [|discriminate E]. destruct (ip_node_step xmtu xrmtu (xev_of e) z) as [ [z1 res]|] eqn:Es; [|discriminate E].
  refine (IH _ _ _ _ _ E). exact (ippath_step _ _ _ _ _ _ _ _ H (xfine_ok e Ef) Es).
Qed.
Lemma xrun_on l : forall h0 h z h' z', xrun l h z = Some (h', z') -> xrun l (h ++ h0) z = Some (h' ++ h0, z').
Proof.
  induction l as [|e l IH]; intros h0 h z h' z' E; cbn [xrun] in *; [injection E as <- <-; reflexivity|]. destruct (xfine e); [|discriminate E]. destruct (ip_node_step xmtu xrmtu (xev_of e) z) as [ [z1 res]|]; [|discriminate E]. exact (IH h0 ((xev_of e, res) :: h) z1 h' z' E).
Qed.
Lemma xrun_app a : forall b h z, xrun (a ++ b) h z = match xrun a h z with Some (h1, z1) => xrun b h1 z1 | None => None end.
Proof. induction a as [|e a IH]; intros b h z; cbn [xrun app]; [reflexivity|]. destruct (xfine e); [|reflexivity]. destruct (ip_node_step xmtu xrmtu (xev_of e) z) as [ [z1 res]|]; [apply IH|reflexivity]. Qed.
Lemma xrun_events l : forall h z h' z', (forall x, In x h -> exists e, fst x = xev_of e) -> xrun l h z = Some (h', z') -> forall x, In x h' -> exists e, fst x = xev_of e.
Proof.
  induction l as [|e l IH]; intros h z h' z' H E; cbn [xrun] in E; [injection E as <- <-; exact H|]. destruct (xfine e); [|discriminate E]. destruct (ip_node_step xmtu xrmtu (xev_of e) z) as [ [z1 res]|]; [|discriminate E].
  refine (IH _ _ _ _ _ E). intros x [<-|Hx]; [exists e; reflexivity|exact (H x Hx)].
Qed.
Definition xin_timeb (p : port) (h : xhist) : bool :=
  forallb (fun e => match e with
                    | (IpCall _ env _, IrCall _ calls _) => forallb (fun c => match c with CPush t => negb (port_eqb (h_port (t_header t)) p) || (t_lt (fst (env O)) (h_ts (t_header t)) && snd (env O)) | _ => true end) calls
                    | _ => true end) h.
Lemma xin_timeb_ok p h : (forall x, In x h -> exists e, fst x = xev_of e) -> xin_timeb p h = true -> sent_in_time p h.
Proof.
  intros Hx H o env group o' calls r t Hi Hc Hp k. unfold xin_timeb in H. rewrite forallb_forall in H. specialize (H _ Hi). cbv beta iota in H. rewrite forallb_forall in H. specialize (H _ Hc). cbv beta iota in H. rewrite Hp in H.
  destruct (port_eqb_spec p p) as [_|Hn]; [|congruence]. cbn [negb orb] in H. apply andb_true_iff in H. destruct (Hx _ Hi) as (e & He). cbn [fst] in He. destruct e; cbn [xev_of] in He; try discriminate He. injection He as _ -> _. exact H.
Qed.
Fixpoint xclockb (l : list N) : bool := match l with [] => true | a :: l' => forallb (fun b => match t_since b a with Some _ => true | None => false end) l' && xclockb l' end.
Lemma xclockb_ok l : xclockb l = true -> clock_runs l.
Proof.
  induction l as [|a l IH]; cbn [xclockb]; intro H; [constructor|]. apply andb_true_iff in H. destruct H as (H1 & H2). constructor; [|exact (IH H2)]. rewrite forallb_forall in H1. apply Forall_forall. intros b Hb. specialize (H1 b Hb). destruct (t_since b a); [discriminate|discriminate H1].
Qed.
Definition xlongb (subject : N) (out : list (N * list N)) : bool := forallb (fun e => negb (fst e =? ip_of_address (AMulticast subject)) || (28 <=? length (snd e))%nat) out.
Lemma xlongb_ok subject out : xlongb subject out = true -> long_in subject out.
Proof. intros H d Hd. unfold xlongb in H. rewrite forallb_forall in H. specialize (H _ Hd). cbn [fst snd] in H. rewrite N.eqb_refl in H. apply Nat.leb_le. exact H. Qed.

Definition xnew (id : N) : ip_node := ip_node_new (KFixed 4) 4 4 (Some id).
Definition xparts (id : N) (l1 : list xev) (e : xev) (l2 : list xev) : option (xhist * ip_node * entry * xhist * ip_node) :=
  match xrun l1 [] (xnew id) with
  | Some (h1, z1) =>
      if xfine e then
        match ip_node_step xmtu xrmtu (xev_of e) z1 with
        | Ok (z2, IrCall o calls r) => match xrun l2 [] z2 with Some (h2, z) => Some (h1, z1, (o, calls, r), h2, z) | None => None end
        | _ => None
        end
      else None
  | None => None
  end.
Definition nild (l : list (list N)) : bool := match l with [] => true | _ => false end.
Lemma nild_ok l : nild l = true -> l = [].
Proof. destruct l; [reflexivity|discriminate]. Qed.
Definition xlistens (id : N) (l1 : list xev) (e : xev) (l2 : list xev) (p : port) (max : nat) : bool :=
  match xparts id l1 e l2 with
  | Some (h1, z1, en, h2, z) =>
      nild (ip_in z1) && nild (ip_in z) && subscribesb p max en && forallb (fun en => forallb (fun c => negb (portb p c)) (snd (fst en))) (ip_calls h2) &&
      keeps_idb (ip_calls h2 ++ en :: ip_calls h1) && (id <? 65535) && xclockb (ip_clock h2)
  | None => false
  end.
Definition xarrived (id : N) (l1 : list xev) (e : xev) (l2 : list xev) : list (list N) := match xparts id l1 e l2 with Some (_, _, _, h2, _) => ip_arrived h2 | None => [] end.
Definition xgot (id : N) (l1 : list xev) (e : xev) (l2 : list xev) : list transfer := match xparts id l1 e l2 with Some (_, _, _, h2, _) => ip_got h2 | None => [] end.
Lemma xlistens_ok id l1 e l2 h z p max : xrun (l1 ++ e :: l2) [] (xnew id) = Some (h, z) -> xlistens id l1 e l2 p max = true ->
  ip_running xmtu xrmtu (KFixed 4) 4 4 id h z /\ ip_listened xmtu xrmtu (KFixed 4) 4 4 (Some id) h z p max (xarrived id l1 e l2) (xgot id l1 e l2) /\ (forall x, In x h -> exists e, fst x = xev_of e).
Proof.
  intros E Hl. pose proof (xrun_path _ _ _ _ _ _ (ippath_here _ _ (xnew id)) E) as Hp. assert (Hev : forall x, In x h -> exists e, fst x = xev_of e) by (refine (xrun_events _ _ _ _ _ _ E); intros x []).
  rewrite xrun_app in E. unfold xlistens, xarrived, xgot in *. destruct (xparts id l1 e l2) as [ [ [ [ [h1 z1] en] h2] z2]|] eqn:Ep; [|discriminate Hl].
  unfold xparts in Ep. destruct (xrun l1 [] (xnew id)) as [ [h1' z1']|] eqn:E1; [|discriminate Ep]. cbn [xrun] in E. destruct (xfine e) eqn:Ef; [|discriminate Ep]. destruct (ip_node_step xmtu xrmtu (xev_of e) z1') as [ [z3 res]|] eqn:Es; [|discriminate Ep].
  destruct res as [o calls r| |]; try discriminate Ep. destruct (xrun l2 [] z3) as [ [h2' z2']|] eqn:E2; [|discriminate Ep]. injection Ep as -> -> <- -> ->.
  pose proof (xrun_on _ ((xev_of e, IrCall o calls r) :: h1) _ _ _ _ E2) as E2'. cbn [app] in E2'. rewrite E2' in E. injection E as <- <-.
  rewrite !andb_true_iff in Hl. destruct Hl as ((((((L1 & L2) & L4) & L5) & L6) & L7) & L8). split; [|split; [|exact Hev] ].
  - split; [exact I|]. split; [apply N.ltb_lt, L7|]. split; [unfold xmtu; lia|]. split; [exact Hp|]. unfold ip_calls. rewrite flat_map_app. apply keeps_idb_ok. exact L6.
  - exists h1, z1, (xev_of e), o, calls, r, z3, h2. split; [reflexivity|]. split; [exact (xrun_path _ _ _ _ _ _ (ippath_here _ _ _) E1)|]. split; [apply nild_ok, L1|]. split; [apply xfine_ok, Ef|]. split; [exact Es|]. split; [apply subscribesb_ok, L4|].
    split; [exact (xrun_path _ _ _ _ _ _ (ippath_here _ _ _) E2)|]. split.
    { intros o1 c1 r1 c Hi Hc Hcp. rewrite forallb_forall in L5. specialize (L5 _ Hi). cbn [fst snd] in L5. rewrite forallb_forall in L5. specialize (L5 _ Hc). unfold portb in L5. rewrite Hcp in L5. destruct (port_eqb_spec p p); [discriminate L5|congruence]. }
    split; [apply nild_ok, L2|]. split; [apply xclockb_ok, L8|]. split; [|split; reflexivity].
    intros answers res Hi. destruct (Hev (IpReceive answers, res)) as (e' & He); [apply in_or_app; left; exact Hi|]. cbn [fst] in He. destruct e'; cbn [xev_of] in He; try discriminate He. injection He as ->. apply Forall_forall. intros a Ha. apply in_map_iff in Ha. destruct Ha as (j & <- & _). split; reflexivity.
Qed.
Definition xcalls (o : option (xhist * ip_node)) : list entry := match o with Some (h, _) => ip_calls h | None => [] end.
Definition xhistory (o : option (xhist * ip_node)) : xhist := match o with Some (h, _) => h | None => [] end.
Definition xsent (o : option (xhist * ip_node)) : list (N * list N) := match o with Some (_, z) => ip_out z | None => [] end.

Definition xsender (id : N) (l : list xev) : option (xhist * ip_node) := xrun ([XCall (StartPublishing 10 100 4) 0 true] ++ XCall (SubscribeMessage 12 4 1000 SubOk) 0 true :: l) [] (xnew id).
Definition xsends : list xev :=
  [XCall (StartPublishing 11 100 4) 0 true; XCall (Publish false 10 (repeat 1 20) ok_env) 5 true; XCall (Publish false 11 [9; 9] ok_env) 500 true; XFlush; XArrive [1; 2; 3]; XReceive 20 2; XCall (Publish true 10 [2; 3] ok_env) 6 true;
   XCall (Publish false 11 [8; 9] ok_env) 6 false; XCall (Publish false 10 (repeat 7 40) ok_env) 7 true].
(** Another node publishes on the same subject *)
Definition xothers : list (list N) := map snd (xsent (xsender 8 [XCall (Publish false 10 (repeat 5 26) ok_env) 5 true; XCall (Publish false 10 [4; 4] ok_env) 5 true])).
Fixpoint xmix (fuel : nat) (now : N) (a b : list (list N)) : list xev :=
  match fuel with O => [] | S f => map XArrive (firstn 2 a) ++ map XArrive (firstn 1 b) ++ [XReceive now 1] ++ xmix f (now + 10) (skipn 2 a) (skipn 1 b) end.
Definition xlistener : list xev := xmix 6 100 (map snd (xsent (xsender 7 xsends))) xothers ++ XArrive [0; 0] :: repeat (XReceive 500 0) 1 ++ map (fun k => XReceive (1000 + N.of_nat k * 30) 20) (seq 0 20).
Definition xbefore : list xev := [XCall (SubscribeMessage 11 4 1000 SubOk) 0 true; XArrive [3; 4; 5]; XReceive 1 2].
Definition xsub : xev := XCall (SubscribeMessage 10 25 1000 SubOk) 0 true.
Definition xlistens_to (l : list xev) : option (xhist * ip_node) := xrun (xbefore ++ xsub :: l) [] (xnew 3).

Local Strategy 1000 [xrun xarrived xgot xparts xlistens ip_node_step log_of].
Example C144_messages_witness : exists h z h' z' arrived ds,
  ip_running xmtu xrmtu (KFixed 4) 4 4 7 h z /\ sent_in_time (PMsg 10) h /\ long_in 10 (ip_out z) /\ increasing (map fst (sent_messages 10 (ip_calls h))) /\ (xmtu <= xrmtu)%nat /\
  ip_listened xmtu xrmtu (KFixed 4) 4 4 (Some 3) h' z' (PMsg 10) 25 arrived ds /\ filter (from_node xrmtu (PMsg 10) 7) arrived = filter (from_node xrmtu (PMsg 10) 7) (map snd (ip_out z)) /\
  log_of (message_log 10 7) ds = [(0, repeat 1 20); (1, [2; 3]); (2, repeat 7 25)] /\ log_of (message_log 10 8) ds = [(0, repeat 5 25); (1, [4; 4])] /\ (length (filter (starts_publishing 10) (ip_calls h)) <= 1)%nat.
Proof.
  assert (Lm : map fst (sent_messages 10 (xcalls (xsender 7 xsends))) = [0; 1; 2]) by (vm_compute; reflexivity). assert (Lt : xin_timeb (PMsg 10) (xhistory (xsender 7 xsends)) = true) by (vm_compute; reflexivity).
  assert (Ll : xlongb 10 (xsent (xsender 7 xsends)) = true) by (vm_compute; reflexivity). assert (Ls : length (filter (starts_publishing 10) (xcalls (xsender 7 xsends))) = 1%nat) by (vm_compute; reflexivity).
  assert (Lo : filter (from_node xrmtu (PMsg 10) 7) (xarrived 3 xbefore xsub xlistener) = filter (from_node xrmtu (PMsg 10) 7) (map snd (xsent (xsender 7 xsends)))) by (vm_compute; reflexivity).
  destruct (xlistens_to xlistener) as [ [h' z']|] eqn:Es; [|vm_compute in Es; discriminate Es]. unfold xlistens_to in Es. destruct (xlistens_ok _ _ _ _ _ _ (PMsg 10) 25 Es ltac:(vm_compute; reflexivity)) as (_ & Li & _).
  destruct (xsender 7 xsends) as [ [h z]|] eqn:Ec; [|discriminate Ls]. unfold xsender in Ec. destruct (xlistens_ok _ _ _ _ _ _ (PMsg 12) 4 Ec ltac:(vm_compute; reflexivity)) as (Rc & _ & Hx). cbn [xcalls xhistory xsent] in *.
  eexists h, z, h', z', _, _. split; [exact Rc|]. split; [apply xin_timeb_ok; assumption|]. split; [apply xlongb_ok, Ll|]. split; [rewrite Lm; repeat split|]. split; [unfold xmtu, xrmtu; lia|]. split; [exact Li|]. split; [exact Lo|].
  split; [vm_compute; reflexivity|]. split; [vm_compute; reflexivity|]. rewrite Ls. apply le_n.
Qed.
(** The listener of C144 after its whole history: it may read further datagrams *)
Example C145_witness : exists h z, ip_path xmtu xrmtu (xnew 3) h z /\ length (ip_got h) = 5%nat /\ (100 <=? length (ip_clock h))%nat = true /\ ip_fine xmtu (IpReceive [(5000, true, false); (5001, true, true)]) /\
  ip_allowed (Some 3) (ip_calls h) (IpReceive [(5000, true, false); (5001, true, true)]) /\ clock_runs (ip_clock h ++ readings (IpReceive [(5000, true, false); (5001, true, true)])).
Proof.
  assert (Lg : match xlistens_to xlistener with Some (h, _) => length (ip_got h) = 5%nat /\ (100 <=? length (ip_clock h))%nat = true /\ xclockb (ip_clock h ++ [5000; 5001]) = true | None => False end) by (vm_compute; repeat split).
  destruct (xlistens_to xlistener) as [ [h z]|] eqn:Es; [|destruct Lg]. destruct Lg as (L1 & L2 & L3). exists h, z. split; [exact (xrun_path _ _ _ _ _ _ (ippath_here _ _ _) Es)|]. split; [exact L1|]. split; [exact L2|].
  split; [repeat constructor|]. split; [exact I|apply xclockb_ok; exact L3].
Qed.

(** * What is missing *)

(** In all three cases the listener reads everything that is sent on the subject *)
Definition xreads (o : option (xhist * ip_node)) : list xev := map XArrive (map snd (xsent o)) ++ map (fun k => XReceive (1000 + N.of_nat k * 30) 20) (seq 0 5).
Ltac refutes l payloads got :=
  assert (Lm : sent_messages 10 (xcalls (xsender 7 l)) = payloads) by (vm_compute; reflexivity);
  assert (Lo : xarrived 3 xbefore xsub (xreads (xsender 7 l)) = map snd (xsent (xsender 7 l))) by (vm_compute; reflexivity);
  assert (Lg : log_of (message_log 10 7) (xgot 3 xbefore xsub (xreads (xsender 7 l))) = got) by (vm_compute; reflexivity).

(** A payload whose last datagram holds less than 4 bytes: [publish] returns [Ok], the socket accepts both datagrams, they arrive and are read, and the message does not arrive *)
Definition xshort : list xev := [XCall (Publish false 10 (repeat 1 13) ok_env) 5 true].
Theorem C144_short_refuted : exists h z h' z' ds payload,
  ip_running xmtu xrmtu (KFixed 4) 4 4 7 h z /\ sent_in_time (PMsg 10) h /\ increasing (map fst (sent_messages 10 (ip_calls h))) /\ (xmtu <= xrmtu)%nat /\
  ip_listened xmtu xrmtu (KFixed 4) 4 4 (Some 3) h' z' (PMsg 10) 25 (map snd (ip_out z)) ds /\ sent_messages 10 (ip_calls h) = [(0, payload)] /\ log_of (message_log 10 7) ds = [].
Proof.
  refutes xshort [(0, repeat 1 13)] (@nil (N * list N)). assert (Lt : xin_timeb (PMsg 10) (xhistory (xsender 7 xshort)) = true) by (vm_compute; reflexivity).
  destruct (xlistens_to (xreads (xsender 7 xshort))) as [ [h' z']|] eqn:Es; [|vm_compute in Es; discriminate Es]. unfold xlistens_to in Es. destruct (xlistens_ok _ _ _ _ _ _ (PMsg 10) 25 Es ltac:(vm_compute; reflexivity)) as (_ & Li & _). rewrite Lo in Li. clear Es Lo.
  destruct (xsender 7 xshort) as [ [h z]|] eqn:Ec; [|discriminate Lm]. unfold xsender in Ec. destruct (xlistens_ok _ _ _ _ _ _ (PMsg 12) 4 Ec ltac:(vm_compute; reflexivity)) as (Rc & _ & Hx). cbn [xcalls xhistory xsent] in *.
  eexists h, z, h', z', _, _. split; [exact Rc|]. split; [apply xin_timeb_ok; assumption|]. split; [rewrite Lm; exact I|]. split; [unfold xmtu, xrmtu; lia|]. split; [exact Li|]. split; [exact Lm|exact Lg].
Qed.
Print Assumptions C144_short_refuted.

(** The deadline passes before the datagram is sent: [publish] returns [Ok], and nothing is sent *)
Definition xlate : list xev := [XCall (Publish false 10 [1; 2] ok_env) 200 true; XCall (Publish false 10 [3] ok_env) 5 true].
Theorem C144_late_refuted : exists h z h' z' ds,
  ip_running xmtu xrmtu (KFixed 4) 4 4 7 h z /\ long_in 10 (ip_out z) /\ increasing (map fst (sent_messages 10 (ip_calls h))) /\ (xmtu <= xrmtu)%nat /\
  ip_listened xmtu xrmtu (KFixed 4) 4 4 (Some 3) h' z' (PMsg 10) 25 (map snd (ip_out z)) ds /\ sent_messages 10 (ip_calls h) = [(0, [1; 2]); (1, [3])] /\ log_of (message_log 10 7) ds = [(1, [3])].
Proof.
  refutes xlate [(0, [1; 2]); (1, [3])] [(1, [3])]. assert (Ll : xlongb 10 (xsent (xsender 7 xlate)) = true) by (vm_compute; reflexivity).
  destruct (xlistens_to (xreads (xsender 7 xlate))) as [ [h' z']|] eqn:Es; [|vm_compute in Es; discriminate Es]. unfold xlistens_to in Es. destruct (xlistens_ok _ _ _ _ _ _ (PMsg 10) 25 Es ltac:(vm_compute; reflexivity)) as (_ & Li & _). rewrite Lo in Li. clear Es Lo.
  destruct (xsender 7 xlate) as [ [h z]|] eqn:Ec; [|discriminate Lm]. unfold xsender in Ec. destruct (xlistens_ok _ _ _ _ _ _ (PMsg 12) 4 Ec ltac:(vm_compute; reflexivity)) as (Rc & _ & Hx). cbn [xcalls xhistory xsent] in *.
  eexists h, z, h', z', _. split; [exact Rc|]. split; [apply xlongb_ok, Ll|]. split; [rewrite Lm; repeat split|]. split; [unfold xmtu, xrmtu; lia|]. split; [exact Li|]. split; [exact Lm|exact Lg].
Qed.
Print Assumptions C144_late_refuted.

(** Publishing is stopped and started again: the transfer IDs start at 0 again, and the receiver takes the next message for a duplicate *)
Definition xrestart : list xev := [XCall (Publish false 10 [1] ok_env) 5 true; XCall (StopPublishing 10) 5 true; XCall (StartPublishing 10 100 4) 5 true; XCall (Publish false 10 [2] ok_env) 5 true].
Theorem C144_restart_refuted : exists h z h' z' ds,
  ip_running xmtu xrmtu (KFixed 4) 4 4 7 h z /\ sent_in_time (PMsg 10) h /\ long_in 10 (ip_out z) /\ (xmtu <= xrmtu)%nat /\
  ip_listened xmtu xrmtu (KFixed 4) 4 4 (Some 3) h' z' (PMsg 10) 25 (map snd (ip_out z)) ds /\ sent_messages 10 (ip_calls h) = [(0, [1]); (0, [2])] /\ log_of (message_log 10 7) ds = [(0, [1])].
Proof.
  refutes xrestart [(0, [1]); (0, [2])] [(0, [1])]. assert (Ll : xlongb 10 (xsent (xsender 7 xrestart)) = true) by (vm_compute; reflexivity). assert (Lt : xin_timeb (PMsg 10) (xhistory (xsender 7 xrestart)) = true) by (vm_compute; reflexivity).
  destruct (xlistens_to (xreads (xsender 7 xrestart))) as [ [h' z']|] eqn:Es; [|vm_compute in Es; discriminate Es]. unfold xlistens_to in Es. destruct (xlistens_ok _ _ _ _ _ _ (PMsg 10) 25 Es ltac:(vm_compute; reflexivity)) as (_ & Li & _). rewrite Lo in Li. clear Es Lo.
  destruct (xsender 7 xrestart) as [ [h z]|] eqn:Ec; [|discriminate Lm]. unfold xsender in Ec. destruct (xlistens_ok _ _ _ _ _ _ (PMsg 12) 4 Ec ltac:(vm_compute; reflexivity)) as (Rc & _ & Hx). cbn [xcalls xhistory xsent] in *.
  eexists h, z, h', z', _. split; [exact Rc|]. split; [apply xin_timeb_ok; assumption|]. split; [apply xlongb_ok, Ll|]. split; [unfold xmtu, xrmtu; lia|]. split; [exact Li|]. split; [exact Lm|exact Lg].
Qed.
Print Assumptions C144_restart_refuted.

(** Two messages arrive, the second one [2^31 + 1] microseconds (about 36 minutes) after the first one: the node panics *)
Definition xsilent : list xev := xbefore ++ xsub :: map XArrive (map snd (xsent (xsender 7 [XCall (Publish false 10 [1] ok_env) 5 true; XCall (Publish false 10 [2] ok_env) 5 true]))) ++ [XReceive 1 1].
Theorem C145_silence_refuted : exists h z, ip_path xmtu xrmtu (xnew 3) h z /\ length (ip_got h) = 1%nat /\ ip_fine xmtu (IpReceive [(2 ^ 31 + 2, true, true)]) /\ ip_allowed (Some 3) (ip_calls h) (IpReceive [(2 ^ 31 + 2, true, true)]) /\
  ip_node_step xmtu xrmtu (IpReceive [(2 ^ 31 + 2, true, true)]) z = Panic.
Proof.
  assert (Lg : match xrun xsilent [] (xnew 3) with Some (h, z) => length (ip_got h) = 1%nat /\ ip_node_step xmtu xrmtu (IpReceive [(2 ^ 31 + 2, true, true)]) z = Panic | None => False end) by (vm_compute; split; reflexivity).
  destruct (xrun xsilent [] (xnew 3)) as [ [h z]|] eqn:Es; [|destruct Lg]. destruct Lg as (L1 & L2). exists h, z. split; [exact (xrun_path _ _ _ _ _ _ (ippath_here _ _ _) Es)|]. split; [exact L1|]. split; [repeat constructor|]. split; [exact I|exact L2].
Qed.
Print Assumptions C145_silence_refuted.
