(** UDP datagrams that are lost, doubled or reordered. *)
From Verif Require Import Base BitLemmas CoreModel NodeModel NodeSpec NodeProofs NodeProps BusSpec BusProofs NetSpec NetProofs NetProps CanNodeModel CanNodeSpec CanNodeProofs CanNodeProps
  HeaderModel HeaderSpec HeaderProofs SerialNodeModel SerialNodeSpec SerialNodeProofs SerialLinkProofs
  CrcModel TabModel UdpModel UdpSpec UdpTxProofs UdpRxProofs UdpProps NodeModel UdpNodeModel UdpNodeSpec UdpNodeProofs UdpNodeProps UdpCallSpec UdpCallProofs UdpCallProps UdpLossSpec UdpLossProofs.

(** * C147: only published messages are received *)

(** A node has published messages on a subject, with a socket and a clock that do anything.  The network loses, doubles, delays and reorders its datagrams as it likes, and mixes them with any others; it only makes up no datagram that says it is from
    this node and on this subject.  Another node has subscribed to the subject, kept its subscription and read what arrived.  Then each message from the node that its handler has got was published with this transfer ID, [publish] returned [Ok] for
    it, and the payload is the published one, cut to the size of the subscription, without its first [j] bytes, where the rest has the same CRC as the whole.
    These bytes are those of whole datagrams, and at least two datagrams follow.
    Missing from the full claim: that [j] is 0 ([C147_tail_refuted]); it is for messages of at most two datagrams ([C147_short_messages]) and for any payload no tail of which has its CRC. *)
Theorem C147_only_published_partial : forall subject max ds mtu rmtu k P R id h z mtu' rmtu' k' P' R' id' h' z' arrived,
  ip_running mtu rmtu k P R id h z -> distinct_ids subject (ip_calls h) -> (mtu <= rmtu')%nat -> ip_listened mtu' rmtu' k' P' R' id' h' z' (PMsg subject) max arrived ds ->
  (forall d, In d arrived -> from_node rmtu' (PMsg subject) id d = true -> In d (map snd (ip_out z))) ->
  forall tid payload', In (tid, payload') (log_of (message_log subject id) ds) ->
  exists payload j, In (tid, payload) (sent_messages subject (ip_calls h)) /\ (j <= length payload)%nat /\ lost_start mtu payload j /\ payload' = firstn max (skipn j payload) /\ crc32 (skipn j payload) = crc32 payload.
Proof.
  intros subject max ds mtu rmtu k P R id h z mtu' rmtu' k' P' R' id' h' z' arrived (Hk & Hid & Hm & Hp & Hkeep) Hdis Hm' Hl Hfrom tid payload' Hin.
  destruct (ip_path_fine _ _ _ _ _ _ _ _ Hp) as (Hh & _). pose proof (taken_messages k P R id Hk subject None _ _ Hh Hkeep) as Hs.
  destruct (ip_listened_ops _ _ _ _ _ _ _ _ _ _ _ _ Hl) as (hh & r2 & ops & outs & r3 & timeout & L1 & L2 & L3 & L4 & L5 & L6 & L7 & L8 & _).
  assert (K : forall t, In t ds -> comes_from (PMsg subject) id t = true ->
    t_loopback t = false /\ exists t0 j, In t0 (taken (ip_calls h)) /\ h_port (t_header t0) = PMsg subject /\ h_tid (t_header t0) = h_tid (t_header t) /\ ((j <= length (t_payload t0))%nat /\ lost_start mtu (t_payload t0) j) /\ t_payload t = firstn max (skipn j (t_payload t0)) /\ crc32 (skipn j (t_payload t0)) = crc32 (t_payload t0)).
  { intros t Ht Hc. rewrite comes_from_iff in Hc. destruct Hc as (C1 & C2). rewrite <- L6 in Ht.
    destruct (only_offered mtu rmtu' id' (PMsg subject) id (tried_messages subject (ip_calls h)) (ip_calls h) hh r2 ops outs r3 max timeout t L1 L2 L3 (L4 id) L7 L8 Hm' Hdis) as (A0 & t0 & j & A1 & _ & A2); [|exact Ht|exact C1|exact C2|split; [exact A0|exists t0, j; split; [exact A1|exact A2] ] ].
    rewrite L5. intros d Hd Hf. pose proof (Hfrom d Hd Hf) as Hsd. apply in_map_iff in Hsd. destruct Hsd as ((ip & d') & Ed & Hsd). cbn [snd] in Ed. subst d'.
    destruct (ip_offers _ _ _ _ _ _ _ _ Hk Hid Hm Hp ip d Hsd) as (o & calls & r & tx & dsx & i & O1 & O2 & (O3 & _) & O4 & O5 & O6 & O7). exists tx, dsx, i. split; [|repeat (split; [assumption|]); assumption].
    refine (tried_in _ _ _ _ _ _ O1 O2 _). unfold from_node in Hf. destruct (parsed rmtu' d) as [ [f body]|] eqn:Ep; [|discriminate Hf]. destruct (datagram_seen _ _ _ _ _ _ _ _ O5 Hm' O6 Ep) as (_ & _ & _ & S4 & _). apply is_fromb_spec in Hf. rewrite <- S4. apply Hf. }
  assert (Kl : Forall (fun t => t_loopback t = false) (filter (comes_from (PMsg subject) id) ds)) by (apply Forall_forall; intros t Ht; apply filter_In in Ht; destruct Ht as (T1 & T2); exact (proj1 (K t T1 T2))).
  rewrite (message_logged _ _ _ Kl) in Hin. apply in_map_iff in Hin. destruct Hin as (t & Et & Ht). injection Et as <- <-. apply filter_In in Ht. destruct Ht as (T1 & T2). destruct (K t T1 T2) as (_ & t0 & j & A1 & A2 & A3 & A4 & A5 & A6).
  exists (t_payload t0), j. split; [|split; [apply A4|split; [apply A4|split; [exact A5|exact A6] ] ] ]. rewrite <- A3.
  assert (Hmine : In t0 (filter (mine (PMsg subject) None) (taken (ip_calls h)))).
  { apply filter_In. split; [exact A1|]. unfold mine. rewrite A2. destruct (t_header t0); try discriminate A2. cbn [h_dest]. rewrite andb_true_r. destruct (port_eqb_spec (PMsg subject) (PMsg subject)); congruence. }
  clear -Hs Hmine. induction Hs as [|t m l ms (_ & _ & _ & S4 & S5) _ IH]; [destruct Hmine|]. destruct Hmine as [->|Hmine]; [left; rewrite S4, S5; destruct m; reflexivity|right; exact (IH Hmine)].
Qed.
Print Assumptions C147_only_published_partial.
(** When all messages on the subject fit in two datagrams, no start is lost: each message that the handler gets was published so *)
Theorem C147_short_messages : forall subject max ds mtu rmtu k P R id h z mtu' rmtu' k' P' R' id' h' z' arrived,
  ip_running mtu rmtu k P R id h z -> distinct_ids subject (ip_calls h) -> (forall m, In m (sent_messages subject (ip_calls h)) -> (length (snd m) + 4 <= 2 * (mtu - 24))%nat) -> (mtu <= rmtu')%nat ->
  ip_listened mtu' rmtu' k' P' R' id' h' z' (PMsg subject) max arrived ds -> (forall d, In d arrived -> from_node rmtu' (PMsg subject) id d = true -> In d (map snd (ip_out z))) ->
  forall tid payload', In (tid, payload') (log_of (message_log subject id) ds) -> exists payload, In (tid, payload) (sent_messages subject (ip_calls h)) /\ payload' = firstn max payload.
Proof.
  intros subject max ds mtu rmtu k P R id h z mtu' rmtu' k' P' R' id' h' z' arrived Hr Hdis Hshort Hm' Hl Hfrom tid payload' Hin.
  destruct (C147_only_published_partial _ _ _ _ _ _ _ _ _ _ _ _ _ _ _ _ _ _ _ _ Hr Hdis Hm' Hl Hfrom tid payload' Hin) as (payload & j & A1 & A2 & A3 & A4 & _). exists payload. split; [exact A1|]. specialize (Hshort _ A1). cbn [snd] in Hshort. pose proof Hr as (_ & _ & Hm & _).
  assert (j = 0%nat). { destruct A3 as [A3|((i & A3) & A5)]; [exact A3|]. destruct i as [|i]; [exact A3|]. cbn [Nat.mul] in A3. pose proof (Nat.le_0_l (i * (mtu - 24))) as X. lia. }
  subst j. exact A4.
Qed.
Print Assumptions C147_short_messages.
(** The transfer IDs differ when publishing on the subject was started at most once *)
Theorem C147_distinct_ids : forall subject mtu rmtu k P R id h z, ip_running mtu rmtu k P R id h z -> (length (filter (starts_publishing subject) (ip_calls h)) <= 1)%nat -> N.of_nat (length (ip_calls h)) < 2 ^ 64 -> distinct_ids subject (ip_calls h).
Proof.
  intros subject mtu rmtu k P R id h z (Hk & _ & _ & Hp & _) Hs Hl. destruct (ip_path_fine _ _ _ _ _ _ _ _ Hp) as (Hh & _). exact (proj1 (tried_ids _ _ _ _ Hk subject _ _ Hh Hs Hl)).
Qed.
Print Assumptions C147_distinct_ids.

(** * A case that meets the hypotheses *)

(** The socket refuses some datagrams, deadlines pass; the network doubles the datagrams, loses some, and turns their order around in part *)
Definition lsends : list xev :=
  [XCall (Publish false 10 (repeat 1 20) ok_env) 5 true; XCall (Publish false 10 [2; 3] ok_env) 500 true; XCall (Publish false 10 [4] ok_env) 6 false; XCall (Publish false 10 (repeat 7 27) ok_env) 7 true; XCall (Publish true 10 [8; 9] ok_env) 8 true].
Definition lsent : list (list N) := map snd (xsent (xsender 7 lsends)).
Definition larrive : list (list N) := firstn 2 lsent ++ xothers ++ firstn 2 lsent ++ rev (skipn 2 lsent) ++ skipn 3 lsent.
Definition llistener : list xev := map XArrive larrive ++ map (fun k => XReceive (1000 + N.of_nat k * 30) 20) (seq 0 20).
Fixpoint distinctb (l : list N) : bool := match l with [] => true | a :: l' => negb (existsb (N.eqb a) l') && distinctb l' end.
Lemma distinctb_ok l : distinctb l = true -> NoDup l.
Proof.
  induction l as [|a l IH]; cbn [distinctb]; intro H; constructor; apply andb_true_iff in H; destruct H as (H1 & H2); [|exact (IH H2)]. intro Ha. apply negb_true_iff in H1. rewrite <- not_true_iff_false in H1. apply H1, existsb_exists. exists a. split; [exact Ha|apply N.eqb_refl].
Qed.
Definition lfromb (subject id : N) (arrived sent : list (list N)) : bool := forallb (fun d => negb (from_node xrmtu (PMsg subject) id d) || existsb (fun e => if list_eq_dec N.eq_dec d e then true else false) sent) arrived.
Lemma lfromb_ok subject id arrived sent : lfromb subject id arrived sent = true -> forall d, In d arrived -> from_node xrmtu (PMsg subject) id d = true -> In d sent.
Proof. intros H d Hd Hf. unfold lfromb in H. rewrite forallb_forall in H. specialize (H d Hd). rewrite Hf in H. cbn [negb orb] in H. apply existsb_exists in H. destruct H as (e & He & Ee). destruct (list_eq_dec N.eq_dec d e); [subst; exact He|discriminate Ee]. Qed.

Local Strategy 1000 [xrun xarrived xgot xparts xlistens ip_node_step log_of].
Example C147_witness : exists h z h' z' arrived ds,
  ip_running xmtu xrmtu (KFixed 4) 4 4 7 h z /\ distinct_ids 10 (ip_calls h) /\ (xmtu <= xrmtu)%nat /\ ip_listened xmtu xrmtu (KFixed 4) 4 4 (Some 3) h' z' (PMsg 10) 25 arrived ds /\
  (forall d, In d arrived -> from_node xrmtu (PMsg 10) 7 d = true -> In d (map snd (ip_out z))) /\ length (tried_messages 10 (ip_calls h)) = 5%nat /\ (length (filter (starts_publishing 10) (ip_calls h)) <= 1)%nat /\
  filter (from_node xrmtu (PMsg 10) 7) arrived <> filter (from_node xrmtu (PMsg 10) 7) (map snd (ip_out z)) /\ log_of (message_log 10 7) ds = [(0, repeat 1 20); (4, [8; 9])] /\
  (forall m, In m (sent_messages 10 (ip_calls h)) -> (length (snd m) + 4 <= 2 * (xmtu - 24))%nat).
Proof.
  assert (Lw : forallb (fun m : N * list N => (length (snd m) + 4 <=? 2 * (xmtu - 24))%nat) (sent_messages 10 (xcalls (xsender 7 lsends))) = true) by (vm_compute; reflexivity).
  assert (Ld : distinctb (map (fun t => h_tid (t_header t)) (tried_messages 10 (xcalls (xsender 7 lsends)))) = true) by (vm_compute; reflexivity). assert (L5 : length (tried_messages 10 (xcalls (xsender 7 lsends))) = 5%nat) by (vm_compute; reflexivity).
  assert (Ls : length (filter (starts_publishing 10) (xcalls (xsender 7 lsends))) = 1%nat) by (vm_compute; reflexivity). assert (Lf : lfromb 10 7 (xarrived 3 xbefore xsub llistener) (map snd (xsent (xsender 7 lsends))) = true) by (vm_compute; reflexivity).
  assert (Lo : length (filter (from_node xrmtu (PMsg 10) 7) (xarrived 3 xbefore xsub llistener)) <> length (filter (from_node xrmtu (PMsg 10) 7) (map snd (xsent (xsender 7 lsends))))) by (vm_compute; discriminate).
  destruct (xlistens_to llistener) as [ [h' z']|] eqn:Es; [|vm_compute in Es; discriminate Es]. unfold xlistens_to in Es. destruct (xlistens_ok _ _ _ _ _ _ (PMsg 10) 25 Es ltac:(vm_compute; reflexivity)) as (_ & Li & _).
  destruct (xsender 7 lsends) as [ [h z]|] eqn:Ec; [|discriminate Ls]. unfold xsender in Ec. destruct (xlistens_ok _ _ _ _ _ _ (PMsg 12) 4 Ec ltac:(vm_compute; reflexivity)) as (Rc & _ & _). cbn [xcalls xhistory xsent] in *.
  eexists h, z, h', z', _, _. split; [exact Rc|]. split; [apply distinctb_ok, Ld|]. split; [unfold xmtu, xrmtu; lia|]. split; [exact Li|]. split; [apply lfromb_ok, Lf|]. split; [exact L5|]. split; [rewrite Ls; apply le_n|]. split; [intro X; apply Lo; rewrite X; reflexivity|]. split; [vm_compute; reflexivity|]. intros m Hm. rewrite forallb_forall in Lw. apply Nat.leb_le. exact (Lw m Hm).
Qed.

(** * What is missing *)

(** The network loses the first datagram of a message, and the 16 bytes in it happen to leave the CRC where it began: the receiver takes the rest for the whole message.  It does not check that the first datagram it gets has index 0. *)
Definition ltail : list N := repeat 1 12 ++ [2; 214; 59; 70] ++ repeat 5 16 ++ [6; 7; 8; 9].
Definition ltail_sends : list xev := [XCall (Publish false 10 ltail ok_env) 5 true].
Definition ltail_reads : list xev := map XArrive (tl (map snd (xsent (xsender 7 ltail_sends)))) ++ map (fun k => XReceive (1000 + N.of_nat k * 30) 20) (seq 0 5).
Theorem C147_tail_refuted : exists h z h' z' arrived ds,
  ip_running xmtu xrmtu (KFixed 4) 4 4 7 h z /\ distinct_ids 10 (ip_calls h) /\ (xmtu <= xrmtu)%nat /\ ip_listened xmtu xrmtu (KFixed 4) 4 4 (Some 3) h' z' (PMsg 10) 25 arrived ds /\
  map snd (ip_out z) = hd [] (map snd (ip_out z)) :: arrived /\ sent_messages 10 (ip_calls h) = [(0, ltail)] /\ log_of (message_log 10 7) ds = [(0, repeat 5 16 ++ [6; 7; 8; 9])].
Proof.
  assert (Ld : distinctb (map (fun t => h_tid (t_header t)) (tried_messages 10 (xcalls (xsender 7 ltail_sends)))) = true) by (vm_compute; reflexivity). assert (Lm : sent_messages 10 (xcalls (xsender 7 ltail_sends)) = [(0, ltail)]) by (vm_compute; reflexivity).
  assert (Lo : map snd (xsent (xsender 7 ltail_sends)) = hd [] (map snd (xsent (xsender 7 ltail_sends))) :: xarrived 3 xbefore xsub ltail_reads) by (vm_compute; reflexivity).
  assert (Lg : log_of (message_log 10 7) (xgot 3 xbefore xsub ltail_reads) = [(0, repeat 5 16 ++ [6; 7; 8; 9])]) by (vm_compute; reflexivity).
  destruct (xlistens_to ltail_reads) as [ [h' z']|] eqn:Es; [|vm_compute in Es; discriminate Es]. unfold xlistens_to in Es. destruct (xlistens_ok _ _ _ _ _ _ (PMsg 10) 25 Es ltac:(vm_compute; reflexivity)) as (_ & Li & _).
  destruct (xsender 7 ltail_sends) as [ [h z]|] eqn:Ec; [|discriminate Lm]. unfold xsender in Ec. destruct (xlistens_ok _ _ _ _ _ _ (PMsg 12) 4 Ec ltac:(vm_compute; reflexivity)) as (Rc & _ & _). cbn [xcalls xhistory xsent] in *.
  eexists h, z, h', z', _, _. split; [exact Rc|]. split; [apply distinctb_ok, Ld|]. split; [unfold xmtu, xrmtu; lia|]. split; [exact Li|]. split; [exact Lo|]. split; [exact Lm|exact Lg].
Qed.
Print Assumptions C147_tail_refuted.

(** * C148: what is lost does not take other messages with it *)

(** As C144, but the network loses all datagrams of some messages: those whose transfer IDs are in any set [lost].  Then the subscriber gets exactly the other messages, in order, each once.
    Missing from the full claim: messages that lose only some of their datagrams.  These take the next message with them ([C148_next_refuted]). *)
Theorem C148_lost_whole_partial : forall subject max ds mtu rmtu k P R id h z mtu' rmtu' k' P' R' id' h' z' arrived lost,
  ip_running mtu rmtu k P R id h z -> sent_in_time (PMsg subject) h -> long_in subject (ip_out z) -> increasing (map fst (sent_messages subject (ip_calls h))) -> (mtu <= rmtu')%nat ->
  ip_listened mtu' rmtu' k' P' R' id' h' z' (PMsg subject) max arrived ds ->
  filter (from_node rmtu' (PMsg subject) id) arrived = filter (survives rmtu' lost) (filter (from_node rmtu' (PMsg subject) id) (map snd (ip_out z))) ->
  log_of (message_log subject id) ds = map (fun m => (fst m, firstn max (snd m))) (filter (fun m => negb (lost (fst m))) (sent_messages subject (ip_calls h))).
Proof.
  intros subject max ds mtu rmtu k P R id h z mtu' rmtu' k' P' R' id' h' z' arrived lost (Hk & Hid & Hm & Hp & Hkeep) Ht Hlong Hi Hm' Hl Harr.
  destruct (ip_sender mtu rmtu rmtu' k P R id subject h z Hk Hid Hm Hm' Hp) as (Hh & Hf & Ho). destruct (Ho Hkeep Ht Hlong) as (dss & H1 & H2). rewrite H2 in Harr.
  pose proof (taken_messages k P R id Hk subject None _ _ Hh Hkeep) as Hs. set (l := filter (mine (PMsg subject) None) (taken (ip_calls h))) in *.
  assert (Kc : map fst (combine l dss) = l /\ map snd (combine l dss) = dss) by (clear -H1; induction H1 as [|t d l dss _ _ (I1 & I2)]; [split; reflexivity|]; cbn [combine map fst snd]; rewrite I1, I2; split; reflexivity). destruct Kc as (K1 & K2).
  assert (Ki : Forall (item_ok mtu (PMsg subject) id) (combine l dss)).
  { clear -H1 Hs. revert H1 Hs. generalize (sent_messages subject (ip_calls h)). intros ms H1. revert ms. induction H1 as [|t d l dss Hc _ IH]; intros ms Hs; [constructor|]. inversion Hs as [|? m ? ms' (S1 & S2 & _) S3]; subst. cbn [combine]. constructor; [|exact (IH _ S3)].
    split; [exact Hc|]. split; [exact S1|exact S2]. }
  assert (Hr : rising (map (fun e => h_tid (t_header (fst e))) (combine l dss))) by (rewrite <- (map_map fst (fun t => h_tid (t_header t))), K1, (sent_as_ids _ _ _ _ _ Hs); exact Hi).
  set (keep := fun e : transfer * list (list N) => negb (lost (h_tid (t_header (fst e))))). rewrite <- K2 in Harr. rewrite (survivors mtu rmtu' (PMsg subject) id lost _ Hm' Ki) in Harr. fold keep in Harr.
  assert (Ki' : Forall (item_ok mtu (PMsg subject) id) (filter keep (combine l dss))) by (apply Forall_forall; intros e He; apply filter_In in He; rewrite Forall_forall in Ki; apply Ki, He).
  pose proof (ip_listened_stream mtu mtu' rmtu' k' P' R' id' h' z' (PMsg subject) id max arrived ds _ Hl Hm' Ki' (rising_filter _ _ _ Hr) Harr) as Hd.
  assert (Kl : Forall (fun t => t_loopback t = false) (filter (comes_from (PMsg subject) id) ds)) by (clear -Hd; induction Hd as [|t d l0 l' (_ & R2 & _) _ IH]; constructor; assumption).
  rewrite (message_logged _ _ _ Kl).
  assert (Hs' : Forall2 (sent_as (PMsg subject) id None) (map fst (filter keep (combine l dss))) (filter (fun m => negb (lost (fst m))) (sent_messages subject (ip_calls h)))).
  { clear -H1 Hs. revert H1 Hs. generalize (sent_messages subject (ip_calls h)). intros ms H1. revert ms. induction H1 as [|t d l dss Hc _ IH]; intros ms Hs; inversion Hs as [|? m ? ms' S0 S3]; subst; [constructor|]. pose proof S0 as (_ & _ & _ & S4 & _). specialize (IH _ S3).
    cbn [combine filter]. unfold keep at 1. cbn [fst]. rewrite S4. destruct (lost (fst m)); cbn [negb map fst]; [exact IH|constructor; [exact S0|exact IH] ]. }
  clear -Hd Hs'. revert Hs'. generalize (filter (fun m : N * list N => negb (lost (fst m))) (sent_messages subject (ip_calls h))). induction Hd as [|t d l0 l' ((now & R1) & _ & R3) _ IH]; intros ms Hs; inversion Hs as [|? m ? ms' (_ & _ & _ & S4 & S5) S6]; subst; [reflexivity|].
  cbn [map]. rewrite (IH _ S6), R1, R3, S5, <- S4. f_equal. f_equal. destruct (t_header t); reflexivity.
Qed.
Print Assumptions C148_lost_whole_partial.

Definition wlost (i : N) : bool := (i =? 0) || (i =? 2).
Definition wsends : list xev := xsends ++ [XCall (Publish false 10 (repeat 3 9) ok_env) 8 true; XCall (Publish false 10 (repeat 4 28) ok_env) 9 true].
Definition wlistener : list xev := map XArrive (xothers ++ filter (survives xrmtu wlost) (map snd (xsent (xsender 7 wsends)))) ++ map (fun k => XReceive (1000 + N.of_nat k * 30) 20) (seq 0 20).
Example C148_witness : exists h z h' z' arrived ds,
  ip_running xmtu xrmtu (KFixed 4) 4 4 7 h z /\ sent_in_time (PMsg 10) h /\ long_in 10 (ip_out z) /\ map fst (sent_messages 10 (ip_calls h)) = [0; 1; 2; 3; 4] /\ (xmtu <= xrmtu)%nat /\
  ip_listened xmtu xrmtu (KFixed 4) 4 4 (Some 3) h' z' (PMsg 10) 25 arrived ds /\ filter (from_node xrmtu (PMsg 10) 7) arrived = filter (survives xrmtu wlost) (filter (from_node xrmtu (PMsg 10) 7) (map snd (ip_out z))) /\
  log_of (message_log 10 7) ds = [(1, [2; 3]); (3, repeat 3 9); (4, repeat 4 25)].
Proof.
  assert (Lm : map fst (sent_messages 10 (xcalls (xsender 7 wsends))) = [0; 1; 2; 3; 4]) by (vm_compute; reflexivity). assert (Lt : xin_timeb (PMsg 10) (xhistory (xsender 7 wsends)) = true) by (vm_compute; reflexivity).
  assert (Ll : xlongb 10 (xsent (xsender 7 wsends)) = true) by (vm_compute; reflexivity).
  assert (Lo : filter (from_node xrmtu (PMsg 10) 7) (xarrived 3 xbefore xsub wlistener) = filter (survives xrmtu wlost) (filter (from_node xrmtu (PMsg 10) 7) (map snd (xsent (xsender 7 wsends))))) by (vm_compute; reflexivity).
  destruct (xlistens_to wlistener) as [ [h' z']|] eqn:Es; [|vm_compute in Es; discriminate Es]. unfold xlistens_to in Es. destruct (xlistens_ok _ _ _ _ _ _ (PMsg 10) 25 Es ltac:(vm_compute; reflexivity)) as (_ & Li & _).
  destruct (xsender 7 wsends) as [ [h z]|] eqn:Ec; [|discriminate Lm]. unfold xsender in Ec. destruct (xlistens_ok _ _ _ _ _ _ (PMsg 12) 4 Ec ltac:(vm_compute; reflexivity)) as (Rc & _ & Hx). cbn [xcalls xhistory xsent] in *.
  eexists h, z, h', z', _, _. split; [exact Rc|]. split; [apply xin_timeb_ok; assumption|]. split; [apply xlongb_ok, Ll|]. split; [exact Lm|]. split; [unfold xmtu, xrmtu; lia|]. split; [exact Li|]. split; [exact Lo|]. vm_compute; reflexivity.
Qed.

(** The network loses one datagram of a message: the next message is lost too, although all of its datagrams arrive in order *)
Definition wnext_sends : list xev := [XCall (Publish false 10 (repeat 1 20) ok_env) 5 true; XCall (Publish false 10 (repeat 2 20) ok_env) 6 true].
Definition wnext_arrive : list (list N) := let sent := map snd (xsent (xsender 7 wnext_sends)) in firstn 1 sent ++ skipn 2 sent.
Definition wnext_reads : list xev := map XArrive wnext_arrive ++ map (fun k => XReceive (1000 + N.of_nat k * 30) 20) (seq 0 5).
Theorem C148_next_refuted : exists h z h' z' arrived d1 d2 ds,
  ip_running xmtu xrmtu (KFixed 4) 4 4 7 h z /\ sent_in_time (PMsg 10) h /\ long_in 10 (ip_out z) /\ (xmtu <= xrmtu)%nat /\ ip_listened xmtu xrmtu (KFixed 4) 4 4 (Some 3) h' z' (PMsg 10) 25 arrived ds /\
  map snd (ip_out z) = d1 :: d2 :: tl arrived /\ arrived = d1 :: tl arrived /\ length (tl arrived) = 2%nat /\ sent_messages 10 (ip_calls h) = [(0, repeat 1 20); (1, repeat 2 20)] /\ log_of (message_log 10 7) ds = [].
Proof.
  assert (Lm : sent_messages 10 (xcalls (xsender 7 wnext_sends)) = [(0, repeat 1 20); (1, repeat 2 20)]) by (vm_compute; reflexivity). assert (Lt : xin_timeb (PMsg 10) (xhistory (xsender 7 wnext_sends)) = true) by (vm_compute; reflexivity).
  assert (Ll : xlongb 10 (xsent (xsender 7 wnext_sends)) = true) by (vm_compute; reflexivity).
  assert (Lo : match map snd (xsent (xsender 7 wnext_sends)) with d1 :: d2 :: rest => xarrived 3 xbefore xsub wnext_reads = d1 :: rest /\ length rest = 2%nat | _ => False end) by (vm_compute; repeat split).
  assert (Lg : log_of (message_log 10 7) (xgot 3 xbefore xsub wnext_reads) = []) by (vm_compute; reflexivity).
  destruct (xlistens_to wnext_reads) as [ [h' z']|] eqn:Es; [|vm_compute in Es; discriminate Es]. unfold xlistens_to in Es. destruct (xlistens_ok _ _ _ _ _ _ (PMsg 10) 25 Es ltac:(vm_compute; reflexivity)) as (_ & Li & _).
  destruct (xsender 7 wnext_sends) as [ [h z]|] eqn:Ec; [|discriminate Lm]. unfold xsender in Ec. destruct (xlistens_ok _ _ _ _ _ _ (PMsg 12) 4 Ec ltac:(vm_compute; reflexivity)) as (Rc & _ & Hx). cbn [xcalls xhistory xsent] in *.
  destruct (map snd (ip_out z)) as [|d1 [|d2 rest] ] eqn:Eo; try (destruct Lo; fail). destruct Lo as (Lo & Lr). rewrite Lo in Li.
  eexists h, z, h', z', (d1 :: rest), d1, d2, _. split; [exact Rc|]. split; [apply xin_timeb_ok; assumption|]. split; [apply xlongb_ok, Ll|]. split; [unfold xmtu, xrmtu; lia|]. split; [exact Li|]. split; [exact Eo|]. split; [reflexivity|]. split; [exact Lr|]. split; [exact Lm|exact Lg].
Qed.
Print Assumptions C148_next_refuted.

(** * C149: only sent requests and responses are received *)

(** As C147, for requests: the network does to the datagrams that a client sends to the group of a server what it likes, but makes up none in the name of the client.  Each request from the client that the handler of the server gets is one for which
    [send_request] returned this transfer ID, to this server, with its payload, cut to the size of the subscription.  (Sending requests for the service was always started with the same priority.)  Missing as in C147: a tail of the payload with the same CRC as the whole. *)
Theorem C149_only_requests_partial : forall service client server prio max ds mtu rmtu k P R h z mtu' rmtu' k' P' R' id' h' z' arrived,
  ip_running mtu rmtu k P R client h z -> server < 65535 -> distinct_ids_to (PReq service) server (ip_calls h) -> requests_with service prio (ip_calls h) -> (mtu <= rmtu')%nat -> ip_listened mtu' rmtu' k' P' R' id' h' z' (PReq service) max arrived ds ->
  (forall d, In d arrived -> from_node rmtu' (PReq service) client d = true -> In d (sent_to server (ip_out z))) ->
  forall token payload', In (token, payload') (log_of (request_log service client) ds) ->
  exists tid priority payload j, token = Token service client tid priority /\ In (tid, payload) (sent_requests service server (ip_calls h)) /\ (j <= length payload)%nat /\ lost_start mtu payload j /\ payload' = firstn max (skipn j payload) /\ crc32 (skipn j payload) = crc32 payload.
Proof.
  intros service client server prio max ds mtu rmtu k P R h z mtu' rmtu' k' P' R' id' h' z' arrived Hr Hserver Hdis Hprio Hm' Hl Hfrom token payload' Hin. pose proof Hr as (Hk & Hid & Hm & Hp & Hkeep).
  destruct (ip_path_fine _ _ _ _ _ _ _ _ Hp) as (Hh & _). pose proof (taken_requests k P R client Hk service server prio _ _ Hh Hkeep Hprio) as Hs.
  pose proof (only_sent_to _ _ _ _ _ _ _ _ _ _ _ _ _ _ _ _ (PReq service) server max arrived ds Hr Hserver ltac:(discriminate) Hdis Hm' Hl Hfrom) as K.
  assert (Kl : Forall (fun t => t_loopback t = false) (filter (comes_from (PReq service) client) ds)) by (apply Forall_forall; intros t Ht; apply filter_In in Ht; destruct Ht as (T1 & T2); exact (proj1 (K t T1 T2))).
  rewrite (request_logged _ _ _ Kl) in Hin. apply in_map_iff in Hin. destruct Hin as (t & Et & Ht). injection Et as <- <-. apply filter_In in Ht. destruct Ht as (T1 & T2). destruct (K t T1 T2) as (_ & t0 & j & A1 & A3 & A4 & A5 & A6).
  exists (h_tid (t_header t)), (h_prio (t_header t)), (t_payload t0), j. split; [reflexivity|]. split; [|split; [apply A4|split; [apply A4|split; [exact A5|exact A6] ] ] ]. rewrite <- A3.
  clear -Hs A1. induction Hs as [|t m l ms (_ & _ & _ & _ & S5 & S6) _ IH]; [destruct A1|]. destruct A1 as [->|A1]; [left; rewrite S5, S6; destruct m; reflexivity|right; exact (IH A1)].
Qed.
Print Assumptions C149_only_requests_partial.
(** The same for responses: each response from the server that the handler of the client gets is one for which [send_response] returned [Ok], to this client, with the transfer ID of its token *)
Theorem C149_only_responses_partial : forall service client server max ds mtu rmtu k P R h z mtu' rmtu' k' P' R' id' h' z' arrived,
  ip_running mtu rmtu k P R server h z -> client < 65535 -> distinct_ids_to (PResp service) client (ip_calls h) -> (mtu <= rmtu')%nat -> ip_listened mtu' rmtu' k' P' R' id' h' z' (PResp service) max arrived ds ->
  (forall d, In d arrived -> from_node rmtu' (PResp service) server d = true -> In d (sent_to client (ip_out z))) ->
  forall tid payload', In (tid, payload') (log_of (response_log service server) ds) ->
  exists token payload j, rt_transfer token = tid /\ In (token, payload) (sent_responses service client (ip_calls h)) /\ (j <= length payload)%nat /\ lost_start mtu payload j /\ payload' = firstn max (skipn j payload) /\ crc32 (skipn j payload) = crc32 payload.
Proof.
  intros service client server max ds mtu rmtu k P R h z mtu' rmtu' k' P' R' id' h' z' arrived Hr Hclient Hdis Hm' Hl Hfrom tid payload' Hin. pose proof Hr as (Hk & Hid & Hm & Hp & Hkeep).
  destruct (ip_path_fine _ _ _ _ _ _ _ _ Hp) as (Hh & _). pose proof (taken_responses k P R server Hk service client _ _ Hh Hkeep) as Hs.
  pose proof (only_sent_to _ _ _ _ _ _ _ _ _ _ _ _ _ _ _ _ (PResp service) client max arrived ds Hr Hclient ltac:(discriminate) Hdis Hm' Hl Hfrom) as K.
  assert (Kl : Forall (fun t => t_loopback t = false) (filter (comes_from (PResp service) server) ds)) by (apply Forall_forall; intros t Ht; apply filter_In in Ht; destruct Ht as (T1 & T2); exact (proj1 (K t T1 T2))).
  rewrite (response_logged _ _ _ Kl) in Hin. apply in_map_iff in Hin. destruct Hin as (t & Et & Ht). injection Et as <- <-. apply filter_In in Ht. destruct Ht as (T1 & T2). destruct (K t T1 T2) as (_ & t0 & j & A1 & A3 & A4 & A5 & A6).
  assert (Hm0 : exists token, rt_transfer token = h_tid (t_header t) /\ In (token, t_payload t0) (sent_responses service client (ip_calls h))).
  { rewrite <- A3. clear -Hs A1. induction Hs as [|t m l ms (_ & _ & _ & S5 & S6) _ IH]; [destruct A1|]. destruct A1 as [->|A1]; [exists (fst m); cbn [fst snd] in *; split; [congruence|left; rewrite S6; destruct m; reflexivity]|]. destruct (IH A1) as (token & B1 & B2). exists token. split; [exact B1|right; exact B2]. }
  destruct Hm0 as (token & B1 & B2). exists token, (t_payload t0), j. split; [exact B1|]. split; [exact B2|]. split; [apply A4|]. split; [apply A4|]. split; [exact A5|exact A6].
Qed.
Print Assumptions C149_only_responses_partial.

(** The transfer IDs of requests to a server differ when sending requests for the service was started at most once *)
Theorem C149_distinct_ids : forall service server mtu rmtu k P R id h z, ip_running mtu rmtu k P R id h z -> (length (filter (starts_requests service) (ip_calls h)) <= 1)%nat -> N.of_nat (length (ip_calls h)) < 2 ^ 64 -> distinct_ids_to (PReq service) server (ip_calls h).
Proof.
  intros service server mtu rmtu k P R id h z (Hk & _ & _ & Hp & _) Hs Hl. destruct (ip_path_fine _ _ _ _ _ _ _ _ Hp) as (Hh & _). exact (proj1 (asked_ids _ _ _ _ Hk service server _ _ Hh Hs Hl)).
Qed.
Print Assumptions C149_distinct_ids.

(** The client and the server of C146; the network doubles the datagrams of the requests *)
Definition qarrive : list (list N) := vclient_sent ++ rev vclient_sent ++ xothers.
Definition qlistener : list xev := vread qarrive ++ [XCall (SendResponse (Token 100 7 0 4) 100 (net_answer (firstn 17 (repeat 2 20))) ok_env) 5 true; XCall (SendResponse (Token 100 7 1 4) 100 (net_answer [6]) ok_env) 5 true].
Definition qserver_end : option (xhist * ip_node) := xrun (vserver_before ++ vsub :: qlistener) [] (xnew 3).
Definition qclient_reads : list xev := vclient_sends ++ vread (rev (sent_to 7 (xsent qserver_end)) ++ sent_to 7 (xsent qserver_end)).
Definition qclient_end : option (xhist * ip_node) := xrun (vclient_before ++ vclient_starts :: qclient_reads) [] (xnew 7).
Definition qfromb (p : port) (id : N) (arrived sent : list (list N)) : bool := forallb (fun d => negb (from_node xrmtu p id d) || existsb (fun e => if list_eq_dec N.eq_dec d e then true else false) sent) arrived.
Lemma qfromb_ok p id arrived sent : qfromb p id arrived sent = true -> forall d, In d arrived -> from_node xrmtu p id d = true -> In d sent.
Proof. intros H d Hd Hf. unfold qfromb in H. rewrite forallb_forall in H. specialize (H d Hd). rewrite Hf in H. cbn [negb orb] in H. apply existsb_exists in H. destruct H as (e & He & Ee). destruct (list_eq_dec N.eq_dec d e); [subst; exact He|discriminate Ee]. Qed.
Example C149_witness : exists h z h' z' arrived ds arrived' ds',
  ip_running xmtu xrmtu (KFixed 4) 4 4 7 h z /\ ip_running xmtu xrmtu (KFixed 4) 4 4 3 h' z' /\ (xmtu <= xrmtu)%nat /\ distinct_ids_to (PReq 100) 3 (ip_calls h) /\ requests_with 100 4 (ip_calls h) /\ distinct_ids_to (PResp 100) 7 (ip_calls h') /\
  ip_listened xmtu xrmtu (KFixed 4) 4 4 (Some 3) h' z' (PReq 100) 17 arrived ds /\ (forall d, In d arrived -> from_node xrmtu (PReq 100) 7 d = true -> In d (sent_to 3 (ip_out z))) /\
  ip_listened xmtu xrmtu (KFixed 4) 4 4 (Some 7) h z (PResp 100) 30 arrived' ds' /\ (forall d, In d arrived' -> from_node xrmtu (PResp 100) 3 d = true -> In d (sent_to 7 (ip_out z'))) /\
  (2 <= length (log_of (request_log 100 7) ds))%nat /\ (1 <= length (log_of (response_log 100 3) ds'))%nat.
Proof.
  assert (Lk : requests_withb 100 4 (xcalls qclient_end) = true) by (vm_compute; reflexivity).
  assert (Ld : distinctb (map (fun t => h_tid (t_header t)) (tried_to (PReq 100) 3 (xcalls qclient_end))) = true) by (vm_compute; reflexivity). assert (Ld' : distinctb (map (fun t => h_tid (t_header t)) (tried_to (PResp 100) 7 (xcalls qserver_end))) = true) by (vm_compute; reflexivity).
  assert (Lf : qfromb (PReq 100) 7 (xarrived 3 vserver_before vsub qlistener) (sent_to 3 (xsent qclient_end)) = true) by (vm_compute; reflexivity).
  assert (Lf' : qfromb (PResp 100) 3 (xarrived 7 vclient_before vclient_starts qclient_reads) (sent_to 7 (xsent qserver_end)) = true) by (vm_compute; reflexivity).
  assert (Ln : (2 <=? length (log_of (request_log 100 7) (xgot 3 vserver_before vsub qlistener)))%nat = true) by (vm_compute; reflexivity). assert (Ln' : (1 <=? length (log_of (response_log 100 3) (xgot 7 vclient_before vclient_starts qclient_reads)))%nat = true) by (vm_compute; reflexivity).
  assert (Xs : match qserver_end with Some _ => true | None => false end = true) by (vm_compute; reflexivity). assert (Xc : match qclient_end with Some _ => true | None => false end = true) by (vm_compute; reflexivity).
  assert (Ys : xlistens 3 vserver_before vsub qlistener (PReq 100) 17 = true) by (vm_compute; reflexivity). assert (Yc : xlistens 7 vclient_before vclient_starts qclient_reads (PResp 100) 30 = true) by (vm_compute; reflexivity).
  destruct qclient_end as [ [h z]|] eqn:Ec; [|discriminate Xc]. destruct qserver_end as [ [h' z']|] eqn:Es; [|discriminate Xs]. unfold qclient_end in Ec. unfold qserver_end in Es.
  destruct (xlistens_ok _ _ _ _ _ _ (PResp 100) 30 Ec Yc) as (Rc & Lc & _). destruct (xlistens_ok _ _ _ _ _ _ (PReq 100) 17 Es Ys) as (Rs & Li & _). cbn [xcalls xsent] in *.
  eexists h, z, h', z', _, _, _, _. split; [exact Rc|]. split; [exact Rs|]. split; [unfold xmtu, xrmtu; lia|]. split; [apply distinctb_ok, Ld|]. split; [apply requests_withb_ok, Lk|]. split; [apply distinctb_ok, Ld'|]. split; [exact Li|]. split; [apply qfromb_ok, Lf|].
  split; [exact Lc|]. split; [apply qfromb_ok, Lf'|]. split; [apply Nat.leb_le, Ln|apply Nat.leb_le, Ln'].
Qed.

(** * C150: no message twice *)

(** As C147, for messages that fit in one datagram: the network loses, doubles, delays and reorders the datagrams of a node as it likes.  No two readings of the clock by the subscriber are further apart than the timeout of its subscription.  Then its
    handler gets messages of the node with increasing transfer IDs: none twice, and none after a later one.
    Missing from the full claim: messages of several datagrams ([C150_several_refuted]), and times beyond the timeout ([C150_late_refuted]). *)
Theorem C150_once_partial : forall subject max ds mtu rmtu k P R id h z mtu' rmtu' k' P' R' id' h' z' arrived,
  ip_running mtu rmtu k P R id h z -> (forall t, In t (tried_messages subject (ip_calls h)) -> (length (t_payload t) + 4 <= mtu - 24)%nat) -> (mtu <= rmtu')%nat -> ip_listened mtu' rmtu' k' P' R' id' h' z' (PMsg subject) max arrived ds ->
  (forall d, In d arrived -> from_node rmtu' (PMsg subject) id d = true -> In d (map snd (ip_out z))) ->
  (forall timeout a calls r, In (SubscribeMessage subject max timeout a, calls, r) (ip_calls h') -> ForallOrdPairs (near timeout) (ip_clock h')) ->
  increasing (map fst (log_of (message_log subject id) ds)).
Proof.
  intros subject max ds mtu rmtu k P R id h z mtu' rmtu' k' P' R' id' h' z' arrived (Hk & Hid & Hm & Hp & Hkeep) Hone Hm' Hl Hfrom Hnear.
  destruct (ip_listened_ops _ _ _ _ _ _ _ _ _ _ _ _ Hl) as (hh & r2 & ops & outs & r3 & timeout & L1 & L2 & L3 & L4 & L5 & L6 & L7 & L8 & L9 & L10 & L11). destruct (L11 subject eq_refl) as (a & calls & r & Hin). specialize (Hnear _ _ _ _ Hin).
  destruct (singles_rise rmtu' id' (PMsg subject) id max timeout ops hh r2 r3 outs None L1 L2 L7 L8 (L9 id)) as (Hr & _); [|exact (subseq_ordered _ _ _ L10 Hnear)|exact I|].
  - rewrite L5. intros d Hd Hf. pose proof (Hfrom d Hd Hf) as Hsd. apply in_map_iff in Hsd. destruct Hsd as ((ip & d') & Ed & Hsd). cbn [snd] in Ed. subst d'.
    destruct (ip_offers _ _ _ _ _ _ _ _ Hk Hid Hm Hp ip d Hsd) as (o & cs & r0 & tx & dsx & i & O1 & O2 & (O3 & _) & O4 & O5 & O6 & O7). refine (one_datagram _ _ _ _ _ _ O5 Hm' O3 _ O6). apply Hone. refine (tried_in _ _ _ _ _ _ O1 O2 _).
    unfold from_node in Hf. destruct (parsed rmtu' d) as [ [f body]|] eqn:Ep; [|discriminate Hf]. destruct (datagram_seen _ _ _ _ _ _ _ _ O5 Hm' O6 Ep) as (_ & _ & _ & S4 & _). apply is_fromb_spec in Hf. rewrite <- S4. apply Hf.
  - rewrite L6 in Hr.
    assert (Kl : Forall (fun t => t_loopback t = false) (filter (comes_from (PMsg subject) id) ds)).
    { rewrite <- L6. apply Forall_forall. intros t Ht. apply filter_In in Ht. destruct Ht as (Ht & _). destruct (run_split _ _ _ _ _ _ _ t L1 L2 L7 Ht) as (l & d & now & pa & sa & r1 & A1 & _ & _). destruct (C32_intact _ _ _ _ _ _ _ _ _ A1) as (max' & timeout' & _ & B2).
      destruct (h_source (t_header t)); [destruct B2 as (earlier & fs & _ & (data & fl & bl & tl & t0' & d0 & D1 & D2 & D3 & D4 & D5 & D6 & D7 & _)); exact D7|destruct B2 as (f & body & _ & (data & fl & bl & tl & t0' & d0 & D1 & D2 & D3 & D4 & D5 & D6 & D7 & _) & _); exact D7]. }
    rewrite (message_logged _ _ _ Kl), map_map. cbn [fst]. exact Hr.
Qed.
Print Assumptions C150_once_partial.

(** The socket refuses a datagram; the network doubles the datagrams, and delivers that of message 3 only after that of message 4 *)
Definition osends : list xev :=
  [XCall (Publish false 10 (repeat 1 12) ok_env) 5 true; XCall (Publish false 10 [2; 3] ok_env) 500 true; XCall (Publish false 10 [4] ok_env) 6 false; XCall (Publish false 10 (repeat 7 9) ok_env) 7 true; XCall (Publish true 10 [8; 9] ok_env) 8 true].
Definition osent : list (list N) := map snd (xsent (xsender 7 osends)).
Definition olistener : list xev := map XArrive (firstn 1 osent ++ xothers ++ skipn 2 osent ++ rev osent ++ skipn 1 osent) ++ map (fun k => XReceive (10 + N.of_nat k * 30) 20) (seq 0 24).
Definition nearb (timeout a b : N) : bool := match t_since b a with Some age => age <=? timeout | None => false end.
Fixpoint all_nearb (timeout : N) (l : list N) : bool := match l with [] => true | a :: l' => forallb (nearb timeout a) l' && all_nearb timeout l' end.
Lemma all_nearb_ok timeout l : all_nearb timeout l = true -> ForallOrdPairs (near timeout) l.
Proof.
  induction l as [|a l IH]; cbn [all_nearb]; intro H; constructor; apply andb_true_iff in H; destruct H as (H1 & H2); [|exact (IH H2)]. apply Forall_forall. intros b Hb. rewrite forallb_forall in H1. specialize (H1 b Hb). unfold nearb in H1. unfold near.
  destruct (t_since b a) as [age|]; [|discriminate H1]. exists age. split; [reflexivity|apply N.leb_le; exact H1].
Qed.
Definition subs_nearb (subject : N) (max : nat) (l : list entry) (times : list N) : bool :=
  forallb (fun e => match fst (fst e) with SubscribeMessage s m timeout _ => negb ((s =? subject) && (m =? max)%nat) || all_nearb timeout times | _ => true end) l.
Lemma subs_nearb_ok subject max l times : subs_nearb subject max l times = true -> forall timeout a calls r, In (SubscribeMessage subject max timeout a, calls, r) l -> ForallOrdPairs (near timeout) times.
Proof. intros H timeout a calls r Hin. unfold subs_nearb in H. rewrite forallb_forall in H. specialize (H _ Hin). cbn [fst] in H. rewrite N.eqb_refl, Nat.eqb_refl in H. cbn [andb negb orb] in H. apply all_nearb_ok, H. Qed.
Example C150_witness : exists h z h' z' arrived ds,
  ip_running xmtu xrmtu (KFixed 4) 4 4 7 h z /\ (forall t, In t (tried_messages 10 (ip_calls h)) -> (length (t_payload t) + 4 <= xmtu - 24)%nat) /\ (xmtu <= xrmtu)%nat /\ ip_listened xmtu xrmtu (KFixed 4) 4 4 (Some 3) h' z' (PMsg 10) 25 arrived ds /\
  (forall d, In d arrived -> from_node xrmtu (PMsg 10) 7 d = true -> In d (map snd (ip_out z))) /\
  (forall timeout a calls r, In (SubscribeMessage 10 25%nat timeout a, calls, r) (ip_calls h') -> ForallOrdPairs (near timeout) (ip_clock h')) /\
  length (filter (from_node xrmtu (PMsg 10) 7) arrived) = 7%nat /\ log_of (message_log 10 7) ds = [(0, repeat 1 12); (4, [8; 9])].
Proof.
  assert (Lw : forallb (fun t => (length (t_payload t) + 4 <=? xmtu - 24)%nat) (tried_messages 10 (xcalls (xsender 7 osends))) = true) by (vm_compute; reflexivity). assert (L5 : length (tried_messages 10 (xcalls (xsender 7 osends))) = 5%nat) by (vm_compute; reflexivity).
  assert (Lf : lfromb 10 7 (xarrived 3 xbefore xsub olistener) (map snd (xsent (xsender 7 osends))) = true) by (vm_compute; reflexivity). assert (Lt : subs_nearb 10 25 (xcalls (xlistens_to olistener)) (ip_clock (xhistory (xlistens_to olistener))) = true) by (vm_compute; reflexivity).
  destruct (xlistens_to olistener) as [ [h' z']|] eqn:Es; [|vm_compute in Es; discriminate Es]. unfold xlistens_to in Es. destruct (xlistens_ok _ _ _ _ _ _ (PMsg 10) 25 Es ltac:(vm_compute; reflexivity)) as (_ & Li & _).
  destruct (xsender 7 osends) as [ [h z]|] eqn:Ec; [|discriminate L5]. unfold xsender in Ec. destruct (xlistens_ok _ _ _ _ _ _ (PMsg 12) 4 Ec ltac:(vm_compute; reflexivity)) as (Rc & _ & _). cbn [xcalls xhistory xsent] in *.
  eexists h, z, h', z', _, _. split; [exact Rc|]. split; [intros t Ht; rewrite forallb_forall in Lw; apply Nat.leb_le; exact (Lw t Ht)|]. split; [unfold xmtu, xrmtu; lia|]. split; [exact Li|]. split; [apply lfromb_ok, Lf|]. split; [apply subs_nearb_ok, Lt|].
  split; [|]. { vm_compute. reflexivity. } vm_compute. reflexivity.
Qed.

(** Violated when messages take several datagrams: the second datagram of message 0 is lost, and that of message 1 is doubled.  The handler gets message 1 twice. *)
Definition odouble_sends : list xev := [XCall (Publish false 10 (repeat 1 20) ok_env) 5 true; XCall (Publish false 10 [2; 3] ok_env) 6 true].
Definition odouble_listener : list xev := let sent := map snd (xsent (xsender 7 odouble_sends)) in map XArrive (firstn 1 sent ++ skipn 2 sent ++ skipn 2 sent) ++ map (fun k => XReceive (10 + N.of_nat k * 30) 20) (seq 0 5).
Theorem C150_several_refuted : exists h z h' z' arrived ds,
  ip_running xmtu xrmtu (KFixed 4) 4 4 7 h z /\ sent_messages 10 (ip_calls h) = [(0, repeat 1 20); (1, [2; 3])] /\ (xmtu <= xrmtu)%nat /\ ip_listened xmtu xrmtu (KFixed 4) 4 4 (Some 3) h' z' (PMsg 10) 25 arrived ds /\
  (forall d, In d arrived -> from_node xrmtu (PMsg 10) 7 d = true -> In d (map snd (ip_out z))) /\
  (forall timeout a calls r, In (SubscribeMessage 10 25%nat timeout a, calls, r) (ip_calls h') -> ForallOrdPairs (near timeout) (ip_clock h')) /\
  log_of (message_log 10 7) ds = [(1, [2; 3]); (1, [2; 3])].
Proof.
  assert (Lw : sent_messages 10 (xcalls (xsender 7 odouble_sends)) = [(0, repeat 1 20); (1, [2; 3])]) by (vm_compute; reflexivity).
  assert (Lf : lfromb 10 7 (xarrived 3 xbefore xsub odouble_listener) (map snd (xsent (xsender 7 odouble_sends))) = true) by (vm_compute; reflexivity). assert (Lt : subs_nearb 10 25 (xcalls (xlistens_to odouble_listener)) (ip_clock (xhistory (xlistens_to odouble_listener))) = true) by (vm_compute; reflexivity).
  destruct (xlistens_to odouble_listener) as [ [h' z']|] eqn:Es; [|vm_compute in Es; discriminate Es]. unfold xlistens_to in Es. destruct (xlistens_ok _ _ _ _ _ _ (PMsg 10) 25 Es ltac:(vm_compute; reflexivity)) as (_ & Li & _).
  destruct (xsender 7 odouble_sends) as [ [h z]|] eqn:Ec; [|discriminate Lw]. unfold xsender in Ec. destruct (xlistens_ok _ _ _ _ _ _ (PMsg 12) 4 Ec ltac:(vm_compute; reflexivity)) as (Rc & _ & _). cbn [xcalls xhistory xsent] in *.
  eexists h, z, h', z', _, _. split; [exact Rc|]. split; [exact Lw|]. split; [unfold xmtu, xrmtu; lia|]. split; [exact Li|]. split; [apply lfromb_ok, Lf|]. split; [apply subs_nearb_ok, Lt|]. vm_compute. reflexivity.
Qed.
Print Assumptions C150_several_refuted.

(** Violated after the timeout: the datagram of message 0 arrives again more than 1000 microseconds later.  The handler gets message 0 twice. *)
Definition olate_sends : list xev := [XCall (Publish false 10 [2; 3] ok_env) 5 true].
Definition olate_listener : list xev := let sent := map snd (xsent (xsender 7 olate_sends)) in map XArrive sent ++ [XReceive 10 1] ++ map XArrive sent ++ [XReceive 1100 20].
Theorem C150_late_refuted : exists h z h' z' arrived ds,
  ip_running xmtu xrmtu (KFixed 4) 4 4 7 h z /\ sent_messages 10 (ip_calls h) = [(0, [2; 3])] /\ (xmtu <= xrmtu)%nat /\ ip_listened xmtu xrmtu (KFixed 4) 4 4 (Some 3) h' z' (PMsg 10) 25 arrived ds /\
  (forall d, In d arrived -> from_node xrmtu (PMsg 10) 7 d = true -> In d (map snd (ip_out z))) /\ log_of (message_log 10 7) ds = [(0, [2; 3]); (0, [2; 3])].
Proof.
  assert (Lw : sent_messages 10 (xcalls (xsender 7 olate_sends)) = [(0, [2; 3])]) by (vm_compute; reflexivity). assert (Lf : lfromb 10 7 (xarrived 3 xbefore xsub olate_listener) (map snd (xsent (xsender 7 olate_sends))) = true) by (vm_compute; reflexivity).
  destruct (xlistens_to olate_listener) as [ [h' z']|] eqn:Es; [|vm_compute in Es; discriminate Es]. unfold xlistens_to in Es. destruct (xlistens_ok _ _ _ _ _ _ (PMsg 10) 25 Es ltac:(vm_compute; reflexivity)) as (_ & Li & _).
  destruct (xsender 7 olate_sends) as [ [h z]|] eqn:Ec; [|discriminate Lw]. unfold xsender in Ec. destruct (xlistens_ok _ _ _ _ _ _ (PMsg 12) 4 Ec ltac:(vm_compute; reflexivity)) as (Rc & _ & _). cbn [xcalls xhistory xsent] in *.
  eexists h, z, h', z', _, _. split; [exact Rc|]. split; [exact Lw|]. split; [unfold xmtu, xrmtu; lia|]. split; [exact Li|]. split; [apply lfromb_ok, Lf|]. vm_compute. reflexivity.
Qed.
Print Assumptions C150_late_refuted.
