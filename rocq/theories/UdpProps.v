(** Property theorems for the UDP transport (C30 to C37, C55 to C58). *)
From Verif Require Import Base BitLemmas CrcModel CrcProofs CoreModel TabModel TabProofs HeaderModel HeaderSpec HeaderProofs
  UdpModel UdpSpec UdpTxProofs UdpRxProofs.

(** C30: the datagrams of a transfer.  The bound is the number of datagrams a 31-bit index can count. *)
Theorem C30_segmentation : forall mtu t,
  core_header_ok (t_header t) -> (28 < mtu)%nat ->
  N.of_nat (length (t_payload t)) + 4 < 2 ^ 31 * N.of_nat (mtu - 24) ->
  exists ds, udp_datagrams mtu t = Ok ds /\ udp_segmented mtu t ds.
Proof.
  intros mtu t Hok Hm Hlen. unfold udp_datagrams, bd_new. cbn [bd_stream].
  destruct (bd_collect_spec mtu (base_of_header (t_header t)) (S (length (add_crc (t_payload t)))) ltac:(lia) (add_crc (t_payload t)) 0) as (ds & Bs & E & Hcat & Hl & Hnum).
  - lia.
  - rewrite add_crc_spec, app_length, le_bytes_length. lia.
  - exists ds. split; [exact E|]. rewrite add_crc_spec in Hcat. exists Bs. split; [assumption|]. split.
    { intros ->. cbn [concat] in Hcat. assert (length (t_payload t ++ le_bytes 4 (crc32 (t_payload t))) = 0%nat) by (rewrite <- Hcat; reflexivity).
      rewrite app_length, le_bytes_length in H. lia. }
    split; [assumption|]. intros i body Hi. destruct (Hnum i body Hi) as (H1 & H2 & H3 & H4 & H5). split; [assumption|]. split; [assumption|]. split; [assumption|].
    eexists. split; [exact H5|]. set (f := make_header (base_of_header (t_header t)) (0 + N.of_nat i) (S i =? length Bs)%nat).
    assert (Hf : fheader_ok f).
    { unfold f, fheader_ok, make_header. cbn [fh_prio fh_spec fh_tid fh_index fh_data].
      destruct (t_header t) as [m|sv|sv]; cbn [base_of_header hb_prio hb_spec hb_tid hb_data core_header_ok dspec_ok] in *; [|unfold svc_ok in Hok|unfold svc_ok in Hok]; intuition lia. }
    destruct (header_encode_bytes f) as (_ & Hl24).
    assert (Hfst : firstn 24 (header_encode f ++ body) = header_encode f).
    { rewrite firstn_app, Hl24, Nat.sub_diag, firstn_O, app_nil_r. apply firstn_all2. lia. }
    unfold datagram_of. rewrite Hfst. split; [reflexivity|]. split; [assumption|]. exists f. split; [apply header_round_trip; assumption|].
    split; [|split; [unfold f, make_header; cbn [fh_index]; lia|split; [reflexivity|unfold f, make_header; cbn [fh_data]; destruct (t_header t); reflexivity]]].
    unfold f, make_header, as_core_header. destruct (t_header t) as [m|sv|sv]; cbn [base_of_header hb_prio hb_spec hb_tid fh_spec fh_tid fh_prio h_ts]; [destruct m|destruct sv|destruct sv]; reflexivity.
Qed.
Print Assumptions C30_segmentation.

Example C30_witness :
  core_header_ok (HReq (SvcH 0 77 4 430 10 20)) /\ (28 < 31)%nat /\
  N.of_nat (length [1; 2; 3; 4; 5; 6; 7; 8; 9; 10]) + 4 < 2 ^ 31 * N.of_nat (31 - 24) /\
  (exists a b, udp_datagrams 31 (Transfer (HReq (SvcH 0 77 4 430 10 20)) false [1; 2; 3; 4; 5; 6; 7; 8; 9; 10]) = Ok [a; b]).
Proof. split; [repeat split; vm_compute; (reflexivity || discriminate)|]. split; [lia|]. split; [vm_compute; reflexivity|]. eexists. eexists. vm_compute. reflexivity. Qed.

(** C55: a push hands the socket, in order and at most once each, exactly the datagrams whose deadline had not passed when
    it was their turn, up to the first one the socket refused; it succeeds exactly if the socket refused none.  All go
    to the group of the subject or of the destination node. *)
Theorem C55_push : forall mtu env t,
  core_header_ok (t_header t) -> (28 < mtu)%nat ->
  N.of_nat (length (t_payload t)) + 4 < 2 ^ 31 * N.of_nat (mtu - 24) ->
  exists ip ds n ok, udp_push mtu env t = Ok (ip, in_time env (h_ts (t_header t)) (firstn n ds), ok) /\
    udp_segmented mtu t ds /\ (n <= length ds)%nat /\
    (ok = true -> n = length ds) /\
    (ok = false -> (n < length ds)%nat /\ t_lt (fst (env n)) (h_ts (t_header t)) = true /\ snd (env n) = false) /\
    (forall i, (i < n)%nat -> t_lt (fst (env i)) (h_ts (t_header t)) = true -> snd (env i) = true) /\
    address_of_ip ip = Some (match t_header t with HMsg m => AMulticast (mh_subject m) | HReq s | HResp s => ANode (sh_dest s) end).
Proof.
  intros mtu env t Hok Hm Hlen. destruct (C30_segmentation mtu t Hok Hm Hlen) as (ds & E & Hseg).
  pose proof (send_frames_spec env (h_ts (t_header t)) ds 0) as H. destruct (send_frames env (h_ts (t_header t)) 0 ds) as [sent ok] eqn:Es.
  destruct H as (n & Hn & Hsent & H1 & H2 & H3). exists (ip_of_address (dest_of_header (t_header t))), ds, n, ok. unfold udp_push. rewrite E, Es, Hsent.
  split; [reflexivity|]. split; [assumption|]. split; [assumption|]. split; [assumption|]. split; [assumption|]. split; [assumption|].
  rewrite address_round_trip; [destruct (t_header t); reflexivity|]. destruct (t_header t) as [m|sv|sv]; cbn [dest_of_header core_header_ok] in *; [|unfold svc_ok, node_ok in Hok|unfold svc_ok, node_ok in Hok]; intuition.
Qed.
Print Assumptions C55_push.

Example C55_witness :
  let t := Transfer (HReq (SvcH 50 77 4 430 10 20)) false [1; 2; 3; 4; 5; 6; 7; 8; 9; 10] in
  exists d, udp_push 31 (fun i => match i with O => (49, true) | _ => (50, true) end) t = Ok (0xef010014, [d], true).
Proof. eexists. vm_compute. reflexivity. Qed.

(** C36: the address of a subject or a node decodes to it, and only that address does; so different ones have different
    addresses. *)
Theorem C36_round_trip : forall a,
  match a with ANode n => n < 65535 | AMulticast s => s <= 8191 end ->
  address_of_ip (ip_of_address a) = Some a /\
  239 * 2 ^ 24 <= ip_of_address a < 239 * 2 ^ 24 + 2 ^ 17.
Proof.
  intros a H. split; [apply address_round_trip; assumption|]. destruct a as [n|s]; [rewrite ip_node by lia|rewrite ip_subject by lia]; lia.
Qed.
Print Assumptions C36_round_trip.
Theorem C36_injective : forall a b,
  match a with ANode n => n < 65535 | AMulticast s => s <= 8191 end ->
  match b with ANode n => n < 65535 | AMulticast s => s <= 8191 end ->
  ip_of_address a = ip_of_address b -> a = b.
Proof. intros a b Ha Hb E. apply address_round_trip in Ha, Hb. congruence. Qed.
Print Assumptions C36_injective.
Theorem C36_decode : forall ip a, ip < 2 ^ 32 -> address_of_ip ip = Some a ->
  ip_of_address a = ip /\ match a with ANode n => n < 65535 | AMulticast s => s <= 8191 end.
Proof. exact address_of_ip_inv. Qed.
Print Assumptions C36_decode.
Example C36_witness : address_of_ip 0xef000155 = Some (AMulticast 0x155) /\ address_of_ip 0xef010155 = Some (ANode 0x155) /\
  address_of_ip 0xef01ffff = None /\ address_of_ip 0xef002000 = None.
Proof. vm_compute. auto. Qed.

(** ** Reception *)

Lemma is_from_iff p s f : is_from p s f <-> is_fromb p s f = true.
Proof. rewrite is_fromb_spec. unfold is_from. rewrite as_core_port, as_core_source. reflexivity. Qed.

Lemma session_ready max timeout now tid hs se : sess_ok max hs se -> not_active se -> Forall (newer timeout now tid) hs ->
  forall f, fh_tid f = tid -> session_for se f now timeout = Ok (Some (Act now tid None)).
Proof.
  intros Hs Hn Hall f Ht. destruct se as [[a|time tid0]|]; [destruct Hn| |cbn [session_for]; congruence].
  destruct Hs as (g & body & Hin & Htid). rewrite Forall_forall in Hall. destruct (Hall _ Hin) as (age & Ha & Hor). cbn [fst snd] in *.
  cbn [session_for]. rewrite Ha, Ht, <- Htid. destruct (N.ltb_spec (fh_tid g) tid) as [|H1]; [reflexivity|]. destruct (N.ltb_spec timeout age); [reflexivity|lia].
Qed.

Lemma segmented_carries mtu rmtu t Bs ds times : (mtu <= rmtu)%nat -> length ds = length Bs -> length times = length ds ->
  (forall d, In d ds -> (28 <= length d)%nat) ->
  (forall i body, nth_error Bs i = Some body -> (0 < length body)%nat /\ (24 + length body <= mtu)%nat /\ ((S i < length Bs)%nat -> (24 + length body = mtu)%nat) /\
       exists d, nth_error ds i = Some d /\ datagram_of (t_header t) i (S i =? length Bs)%nat body d) ->
  carries rmtu (length Bs) (t_header t) 0 Bs (combine ds times).
Proof.
  intros Hr Hl Ht H28 Hall.
  assert (Hgen : forall Cs k es ts, length es = length Cs -> length ts = length es -> (forall d, In d es -> (28 <= length d)%nat) ->
    (forall i body, nth_error Cs i = Some body -> (24 + length body <= mtu)%nat /\ exists d, nth_error es i = Some d /\ datagram_of (t_header t) (k + i) (S (k + i) =? length Bs)%nat body d) ->
    carries rmtu (length Bs) (t_header t) k Cs (combine es ts)).
  { induction Cs as [|body Cs IH]; intros k es ts L1 L2 H4 H; (destruct es as [|d es]; [|]); try discriminate; [exact I|]. destruct ts as [|tm ts]; [discriminate|].
    cbn [combine carries fst]. destruct (H O body eq_refl) as (Hb & d' & Ed & Hd). cbn [nth_error] in Ed. assert (d' = d) by congruence. subst d'. rewrite Nat.add_0_r in Hd.
    split; [assumption|]. split.
    - specialize (H4 d (or_introl eq_refl)). destruct Hd as (Ed' & Hl24 & _). rewrite Ed', app_length, Hl24 in H4. lia.
    - split; [lia|]. apply IH; [cbn [length] in L1; lia|cbn [length] in L2; lia|intros; apply H4; right; assumption|].
      intros i b Hi. specialize (H (S i) b Hi). rewrite Nat.add_succ_r in H. exact H. }
  apply Hgen; auto. intros i body Hi. destruct (Hall i body Hi) as (_ & H2 & _ & H4). auto.
Qed.

(** C31: a receiver with any history is subscribed to the port of a transfer sent by node [s]; the last datagram from [s]
    on that port, if any, completed a transfer, and the transfer is newer than all heard before.  It receives the
    datagrams of the transfer in order, at any times.  If each has at least 28 bytes, the last datagram, and no other,
    delivers the transfer, with the time of the first datagram and the payload cut to the maximum size.
    Missing for the full property: transfers whose last datagram is shorter. *)
Theorem C31_end_to_end_partial : forall mtu rmtu id h r t s ds max timeout times now0,
  udp_hist rmtu id h r -> (mtu <= rmtu)%nat -> bytes_ok (t_payload t) -> h_source (t_header t) = Some s ->
  udp_segmented mtu t ds -> (forall d, In d ds -> (28 <= length d)%nat) ->
  udp_active (h_port (t_header t)) h = Some (max, timeout) ->
  idle rmtu (h_port (t_header t)) s h = true ->
  length times = length ds -> hd_error times = Some now0 ->
  Forall (newer timeout now0 (h_tid (t_header t))) (heard rmtu (h_port (t_header t)) s h) ->
  exists r', udp_run rmtu r (map arrive (combine ds times)) =
    Ok (r', repeat (GGot UNone) (length ds - 1) ++
            [GGot (UDeliver (Transfer (h_set_ts (t_header t) now0) false (firstn max (t_payload t))))]).
Proof.
  intros mtu rmtu id h r t s ds max timeout times now0 Hh Hr Hb Hsrc (Bs & Hcat & Hne & Hl & Hall) H28 Hact Hidle Hlt Hhd Hnew.
  destruct (hist_inv _ _ _ _ Hh) as (_ & _ & Hinv). destruct (Hinv (h_port (t_header t))) as (Hsub & Hses). rewrite Hact, (sub_at_chan r _ s) in Hsub.
  destruct (chan r (h_port (t_header t)) s) as [[mt se]|] eqn:Ec; [|discriminate]. cbn [option_map fst] in Hsub. assert (mt = (max, timeout)) by congruence. subst mt.
  destruct (Hses s max timeout se Ec) as (Hs & Hn). specialize (Hn Hidle).
  destruct ds as [|d0 ds]; [destruct Bs; [congruence|discriminate]|]. destruct times as [|n0 times]; [discriminate|]. cbn [hd_error] in Hhd. assert (n0 = now0) by congruence. subst n0.
  destruct (whole_run rmtu (length Bs) (t_header t) s max timeout (t_payload t) Hsrc Hb Bs (combine (d0 :: ds) (now0 :: times)) r se d0 now0) as (r' & E); auto.
  - eapply segmented_carries; eassumption.
  - apply (session_ready max timeout now0 (h_tid (t_header t)) _ se Hs Hn Hnew).
  - exists r'. rewrite E. do 4 f_equal. rewrite combine_length. rewrite Hlt, Nat.min_id. reflexivity.
Qed.
Print Assumptions C31_end_to_end_partial.

(** C56: take away from any run of a receiver all datagrams that are not from [s] on port [p]: the remaining operations have
    the same results as before. *)
Theorem C56_no_interference : forall mtu id h r ops r' outs p s,
  udp_hist mtu id h r -> udp_run mtu r ops = Ok (r', outs) ->
  exists r'', udp_run mtu r (filter (keeps mtu p s) ops) = Ok (r'', map snd (filter (fun x => keeps mtu p s (fst x)) (combine ops outs))).
Proof.
  intros mtu id h r ops r' outs p s Hh Hrun. destruct (hist_inv _ _ _ _ Hh) as (Hs & _ & _).
  destruct (run_same mtu p s ops r r r' outs) as (r'' & E & _); [|assumption|eauto].
  split; [reflexivity|]. split; [repeat split|]. auto.
Qed.
Print Assumptions C56_no_interference.

(** C31 + C56: the same with the datagrams of the transfer mixed with any other datagrams not from [s] on the port. *)
Theorem C31_interleaved_partial : forall mtu rmtu id h r t s ds max timeout times now0 ops r1 outs,
  udp_hist rmtu id h r -> (mtu <= rmtu)%nat -> bytes_ok (t_payload t) -> h_source (t_header t) = Some s ->
  udp_segmented mtu t ds -> (forall d, In d ds -> (28 <= length d)%nat) ->
  udp_active (h_port (t_header t)) h = Some (max, timeout) ->
  idle rmtu (h_port (t_header t)) s h = true ->
  length times = length ds -> hd_error times = Some now0 ->
  Forall (newer timeout now0 (h_tid (t_header t))) (heard rmtu (h_port (t_header t)) s h) ->
  udp_run rmtu r ops = Ok (r1, outs) ->
  filter (keeps rmtu (h_port (t_header t)) s) ops = map arrive (combine ds times) ->
  map snd (filter (fun x => keeps rmtu (h_port (t_header t)) s (fst x)) (combine ops outs)) =
    repeat (GGot UNone) (length ds - 1) ++
      [GGot (UDeliver (Transfer (h_set_ts (t_header t) now0) false (firstn max (t_payload t))))].
Proof.
  intros mtu rmtu id h r t s ds max timeout times now0 ops r1 outs Hh Hr Hb Hsrc Hseg H28 Hact Hidle Hlt Hhd Hnew Hrun Hops.
  destruct (C31_end_to_end_partial mtu rmtu id h r t s ds max timeout times now0 Hh Hr Hb Hsrc Hseg H28 Hact Hidle Hlt Hhd Hnew) as (r' & E).
  destruct (C56_no_interference rmtu id h r ops r1 outs (h_port (t_header t)) s Hh Hrun) as (r'' & E2). rewrite Hops, E in E2. congruence.
Qed.
Print Assumptions C31_interleaved_partial.

(** C31: an anonymous message that fits into one datagram is delivered, whatever happened before. *)
Theorem C31_anonymous_partial : forall mtu rmtu id h r t d max timeout now,
  udp_hist rmtu id h r -> (mtu <= rmtu)%nat -> bytes_ok (t_payload t) -> h_source (t_header t) = None ->
  udp_segmented mtu t [d] -> udp_active (h_port (t_header t)) h = Some (max, timeout) ->
  exists r', udp_run rmtu r [arrive (d, now)] =
    Ok (r', [GGot (UDeliver (Transfer (h_set_ts (t_header t) now) false (firstn max (t_payload t))))]).
Proof.
  intros mtu rmtu id h r t d max timeout now Hh Hr Hb Hsrc (Bs & Hcat & Hne & Hl & Hall) Hact.
  destruct Bs as [|body [|]]; try discriminate. cbn [concat] in Hcat. rewrite app_nil_r in Hcat.
  destruct (Hall O body eq_refl) as (_ & Hlen & _ & d' & Ed & Hd). cbn [nth_error] in Ed. assert (d' = d) by congruence. subst d'. change (1 =? length [body])%nat with true in Hd.
  destruct (datagram_parsed rmtu (t_header t) 0 true body d Hd) as (f & Hpar & Hport & Hs & Htid & Hprio & Hidx & Hlast & Hcore); [rewrite Hcat, app_length, le_bytes_length; lia|lia|].
  destruct (hist_inv _ _ _ _ Hh) as (_ & _ & Hinv). destruct (Hinv (h_port (t_header t))) as (Hsub & _).
  cbn [udp_run]. unfold arrive. cbn [fst snd udp_step]. pose proof (accept_chan rmtu r d now true true) as H. rewrite Hpar in H. cbv zeta in H. rewrite Hport, Hsub, Hact, Hs, Hsrc in H.
  destruct H as (r' & -> & _). exists r'. do 4 f_equal. unfold anon_frame, session_frame. change TRANSFER_CRC_SIZE with 4%nat.
  destruct (Nat.ltb_spec (length body) 4) as [Hx|_]; [rewrite Hcat, app_length, le_bytes_length in Hx; lia|].
  rewrite Hidx, Hlast. change (N.of_nat 0 =? 0) with true. cbn [andb negb]. rewrite Hcat.
  assert (Hok : bytes_ok (t_payload t ++ le_bytes 4 (crc32 (t_payload t)))) by (apply bytes_ok_app2; [assumption|apply le_bytes_ok]).
  destruct (feed_good max (t_payload t) Hok) as (F1 & F2). rewrite F1. cbn [fst snd]. rewrite F2. unfold convert_result. rewrite Hcore. reflexivity.
Qed.
Print Assumptions C31_anonymous_partial.

Definition w_subscribe (p : port) : udp_op := OSub p 100 2000000 true.
Definition w_transfer (tid : N) (len : nat) : transfer := Transfer (HMsg (MsgH 0 tid 4 1000 (Some 7))) false (repeat 5 len).
(** all the datagrams of these transfers, arriving one microsecond after the other *)
Definition w_datagrams (mtu : nat) (t : transfer) : list (list N) := match udp_datagrams mtu t with Ok ds => ds | Panic => [] end.
Definition w_arrive (l : list (list N)) : list udp_op := map arrive (combine l (map N.of_nat (seq 0 (length l)))).
Definition w_run (ops : list udp_op) : option (list udp_out) :=
  match udp_run 40 (urx_new (Some 1)) ops with Ok (_, outs) => Some outs | Panic => None end.
Definition deliveries (outs : list udp_out) : list transfer :=
  flat_map (fun o => match o with GGot (UDeliver t) => [t] | _ => [] end) outs.

Example C31_witness :
  length (w_datagrams 40 (w_transfer 3 40)) = 3%nat /\ Forall (fun d => (28 <= length d)%nat) (w_datagrams 40 (w_transfer 3 40)) /\
  option_map deliveries (w_run (w_subscribe (PMsg 1000) :: w_arrive (w_datagrams 40 (w_transfer 3 40)))) =
    Some [Transfer (HMsg (MsgH 0 3 4 1000 (Some 7))) false (repeat 5 40)].
Proof. split; [vm_compute; reflexivity|]. split; [|vm_compute; reflexivity]. apply Forall_forall; intros d Hd; vm_compute in Hd; repeat (destruct Hd as [<-|Hd]; [cbn [length]; lia|]); destruct Hd. Qed.

(** C31 fails: a transfer of 29 bytes with an MTU of 40 ends in a datagram of 25 bytes, which the receiver ignores. *)
Theorem C31_short_last_datagram_refuted : exists ds,
  udp_datagrams 40 (w_transfer 3 29) = Ok ds /\ length ds = 3%nat /\
  option_map deliveries (w_run (w_subscribe (PMsg 1000) :: w_arrive ds)) = Some [].
Proof. exists (w_datagrams 40 (w_transfer 3 29)). vm_compute. auto. Qed.
Print Assumptions C31_short_last_datagram_refuted.

(** C32: whatever was received, a delivered transfer was assembled from consecutive datagrams of its source on its port, the
    last datagrams heard; or from one datagram if it is anonymous. *)
Theorem C32_intact : forall mtu id h r d now pa sa t,
  udp_hist mtu id ((ODatagram d now pa sa, GGot (UDeliver t)) :: h) r ->
  exists max timeout, udp_active (h_port (t_header t)) h = Some (max, timeout) /\
  match h_source (t_header t) with
  | Some s => exists earlier fs, heard mtu (h_port (t_header t)) s ((ODatagram d now pa sa, GGot (UDeliver t)) :: h) = earlier ++ fs /\ assembled max t fs
  | None => exists f body, parsed mtu d = Some (f, body) /\ assembled max t [(now, (f, body))] /\ h_ts (t_header t) = now
  end.
Proof.
  intros mtu id h r' d now pa sa t Hh. inversion Hh as [|h0 r op r0 o Hh0 Hok E]; subst. cbn [udp_step] in E. destruct Hok as (Hb & _).
  pose proof (accept_chan mtu r d now pa sa) as H. destruct (udp_accept mtu r d now pa sa) as [[r1 o1]|] eqn:Ea; [|discriminate].
  assert (r1 = r' /\ o1 = UDeliver t) as (-> & ->) by (split; congruence). clear E.
  destruct (parsed mtu d) as [[f body]|] eqn:Ep; [|discriminate]. cbv zeta in H. destruct (parsed_spec mtu d f body Hb Ep) as (Hp & _).
  destruct (hist_inv _ _ _ _ Hh0) as (_ & _ & Hinv). destruct (Hinv (dspec_port (fh_spec f))) as (Hsub & Hses).
  destruct (sub_at r (dspec_port (fh_spec f))) as [[max timeout]|] eqn:Es; [|discriminate]. destruct (dspec_source (fh_spec f)) as [s|] eqn:Esrc.
  - destruct H as (se & Hc & H). destruct (Hses s max timeout se Hc) as (Hs & _).
    pose proof (chan_frame_ok max timeout _ se now f body pa sa (heard_hist_ok mtu id h r (dspec_port (fh_spec f)) s Hh0) Hs Hp) as Hcf.
    destruct (chan_frame max timeout se f body now pa sa) as [[se' o']|]; [|discriminate]. destruct H as (r2 & E2 & _). assert (o' = UDeliver t) by congruence. subst o'.
    destruct Hcf as (_ & (pre & fs & Hpre & Has) & (ts & Hhd) & _). exists max, timeout. rewrite Hhd, as_core_port, as_core_source, Esrc.
    split; [congruence|]. exists pre, fs. split; [|assumption]. cbn [heard]. rewrite Ep.
    assert (Hf : is_fromb (dspec_port (fh_spec f)) s f = true) by (apply is_fromb_spec; auto). rewrite Hf. assumption.
  - destruct H as (r2 & E2 & _). assert (Ed : anon_frame max f body now pa = UDeliver t) by congruence. exists max, timeout.
    unfold anon_frame, session_frame in Ed. change TRANSFER_CRC_SIZE with 4%nat in Ed. destruct (Nat.ltb_spec (length body) 4) as [|_]; [destruct Hp; lia|].
    fold (single f) in Ed. destruct (single f) eqn:Esg.
    + destruct (negb pa); [discriminate|]. pose proof (single_assembled max f body now now Hp Esg) as Has.
      destruct (feed max tracker_new [] body) as [c pl]. cbn [fst snd] in *. destruct (tracker_correct c); [|discriminate].
      assert (Et : t = convert_result pl f now) by congruence. subst t. unfold convert_result at 1 2. cbn [t_header]. rewrite as_core_port, as_core_source, Esrc.
      split; [congruence|]. exists f, body. split; [reflexivity|]. split; [apply Has; reflexivity|]. unfold convert_result. cbn [t_header]. apply as_core_ts.
    + cbn [a_bu] in Ed. destruct pa; discriminate.
Qed.
Print Assumptions C32_intact.

Example C32_witness : exists h r d now t,
  udp_hist 40 (Some 1) ((ODatagram d now true true, GGot (UDeliver t)) :: h) r /\ length (heard 40 (PMsg 1000) 7 h) = 2%nat.
Proof.
  set (ds := w_datagrams 40 (w_transfer 3 40)).
  exists [(ODatagram (nth 1 ds []) 1 true true, GGot UNone); (ODatagram (nth 0 ds []) 0 true true, GGot UNone);
          (w_subscribe (PMsg 1000), GSubbed SubOk [Join 0xef0003e8 true])].
  eexists. exists (nth 2 ds []), 2, (Transfer (HMsg (MsgH 0 3 4 1000 (Some 7))) false (repeat 5 40)).
  split; [|vm_compute; reflexivity].
  eapply uh_step; [eapply uh_step; [eapply uh_step; [eapply uh_step; [apply uh_new| |]| |]| |]| |];
    try (vm_compute; reflexivity); try exact I; (split; [vm_compute; repeat constructor|vm_compute; reflexivity]).
Qed.

(** What one step does to the state for [s] on [p]. *)
Lemma step_chan mtu r op r' o p s max timeout se : subs_sorted (ur_subs r) -> udp_step mtu r op = Ok (r', o) ->
  chan r p s = Some (max, timeout, se) ->
  match op with
  | ODatagram d now pa sa =>
      match parsed mtu d with
      | Some (f, body) =>
          if is_fromb p s f then exists se' o', chan_frame max timeout se f body now pa sa = Ok (se', o') /\ o = GGot o' /\ chan r' p s = Some (max, timeout, se')
          else chan r' p s = Some (max, timeout, se) /\ forall t, o = GGot (UDeliver t) -> h_port (t_header t) <> p \/ h_source (t_header t) <> Some s
      | None => r' = r /\ o = GGot UNone
      end
  | OSub q _ _ _ | OUnsub q _ => q <> p -> chan r' p s = Some (max, timeout, se)
  | OSetId _ => chan r' p s = Some (max, timeout, se)
  end.
Proof.
  intros Hs E Hc. destruct op as [d now pa sa|q m ti jok|q lok|id]; cbn [udp_step] in E.
  - pose proof (accept_chan mtu r d now pa sa) as H. destruct (parsed mtu d) as [[f body]|]; [|rewrite H in E; split; congruence].
    cbv zeta in H. destruct (is_fromb p s f) eqn:Ef.
    + apply is_fromb_spec in Ef as Ef'. destruct Ef' as (E1 & E2). rewrite E1, (sub_at_chan r p s), Hc in H. cbn [option_map fst] in H. rewrite E2 in H.
      destruct H as (se0 & Hse & H). rewrite Hc in Hse. assert (se0 = se) by congruence. subst se0.
      destruct (chan_frame max timeout se f body now pa sa) as [[se' o']|]; [|rewrite H in E; discriminate].
      destruct H as (r1 & H & _ & Hch). rewrite H in E. assert (r1 = r' /\ o = GGot o') as (-> & ->) by (split; congruence).
      exists se', o'. rewrite Hch, Ef. auto.
    + destruct (sub_at r (dspec_port (fh_spec f))) as [[m1 t1]|]; [|rewrite H in E; assert (r' = r /\ o = GGot UNone) as (-> & ->) by (split; congruence); split; [assumption|congruence]].
      destruct (dspec_source (fh_spec f)) as [s1|] eqn:Es1.
      * destruct H as (se0 & Hse & H). destruct (chan_frame m1 t1 se0 f body now pa sa) as [[se' o']|] eqn:Ecf; [|rewrite H in E; discriminate].
        destruct H as (r1 & H & _ & Hch). rewrite H in E. assert (r1 = r' /\ o = GGot o') as (-> & ->) by (split; congruence).
        rewrite Hch, Ef. split; [assumption|]. intros t Ht. assert (o' = UDeliver t) by congruence. subst o'.
        assert (Hhd : exists ts, t_header t = as_core_header f ts).
        { unfold chan_frame in Ecf. destruct se0 as [se0|].
          - destruct (session_for (Some se0) f now t1) as [[a|]|]; try discriminate. destruct (session_frame a f body m1 pa) as [a' [ | | |]]; try discriminate.
            exists (a_time a). assert (Et : t = convert_result payload f (a_time a)) by congruence. rewrite Et. reflexivity.
          - destruct sa; [|discriminate]. destruct (session_for None f now t1) as [[a|]|]; try discriminate. destruct (session_frame a f body m1 pa) as [a' [ | | |]]; try discriminate.
            exists (a_time a). assert (Et : t = convert_result payload f (a_time a)) by congruence. rewrite Et. reflexivity. }
        destruct Hhd as (ts & Hhd). rewrite Hhd, as_core_port, as_core_source.
        destruct (port_eqb_spec (dspec_port (fh_spec f)) p) as [Ep|]; [|auto]. right. intro Hx. assert (is_fromb p s f = true) by (apply is_fromb_spec; auto). congruence.
      * destruct H as (r1 & H & _ & Hch). rewrite H in E. assert (r1 = r' /\ o = GGot (anon_frame m1 f body now pa)) as (-> & ->) by (split; congruence).
        rewrite Hch. split; [assumption|]. intros t Ht. assert (Ea : anon_frame m1 f body now pa = UDeliver t) by congruence.
        right. unfold anon_frame in Ea. destruct (session_frame _ _ _ _ _) as [a' [payload| | |]]; cbn [snd] in Ea; try discriminate.
        assert (Et : t = convert_result payload f now) by congruence. rewrite Et. unfold convert_result. cbn [t_header]. rewrite as_core_source, Es1. discriminate.
  - intro Hq. pose proof (subscribe_spec r q m ti jok Hs) as H. destruct (udp_subscribe r q m ti jok) as [[r1 o1] c]. assert (r1 = r') by congruence. subst r1.
    destruct H as (_ & _ & H). destruct o1; [|congruence|congruence]. destruct H as (H & _). rewrite H. destruct (port_eqb_spec q p); [contradiction|assumption].
  - intro Hq. destruct (unsubscribe_spec r q lok Hs) as (_ & _ & H). destruct (udp_unsubscribe r q lok) as [r1 c]. assert (r1 = r') by congruence. subst r1. cbn [fst] in H.
    rewrite H. destruct (port_eqb_spec q p); [contradiction|assumption].
  - assert (r' = udp_set_id r id) by congruence. subst r'. exact Hc.
Qed.

Lemma hist_app mtu id h1 : forall h0 r, udp_hist mtu id (h1 ++ h0) r -> exists r0, udp_hist mtu id h0 r0.
Proof.
  induction h1 as [|e h1 IH]; intros h0 r H; [eauto|]. cbn [app] in H. inversion H; subst. eauto.
Qed.

(** C33: transfer [t] from [s] was delivered by the last datagram [d] of a transfer of several datagrams, or when all heard
    so far from [s] were whole transfers.  As long as only the same or lower transfer IDs follow, within the timeout and
    without a new subscription, nothing from [s] is delivered on the port.
    Missing for the full property: a single-datagram transfer delivered during an incomplete one, and datagrams of
    higher transfer IDs in between: see the refutations below. *)
Theorem C33_no_duplicates_partial : forall mtu id h1 d now pa sa t h0 r s max timeout f body,
  udp_hist mtu id (h1 ++ (ODatagram d now pa sa, GGot (UDeliver t)) :: h0) r ->
  h_source (t_header t) = Some s -> udp_active (h_port (t_header t)) h0 = Some (max, timeout) ->
  parsed mtu d = Some (f, body) ->
  fh_index f <> 0 \/ Forall (fun x => single (fst (snd x)) = true) (heard mtu (h_port (t_header t)) s h0) ->
  Forall (repeats mtu (h_port (t_header t)) s timeout t) h1 ->
  forall d' now' pa' sa' t', In (ODatagram d' now' pa' sa', GGot (UDeliver t')) h1 ->
    h_port (t_header t') = h_port (t_header t) -> h_source (t_header t') <> Some s.
Proof.
  intros mtu id h1 d now pa sa t h0 r s max timeout f body Hh Hs Hact Hpar Hsg Hrep.
  assert (Hgoal : chan r (h_port (t_header t)) s = Some (max, timeout, Some (UComplete (h_ts (t_header t)) (h_tid (t_header t)))) /\
    forall d' now' pa' sa' t', In (ODatagram d' now' pa' sa', GGot (UDeliver t')) h1 ->
    h_port (t_header t') = h_port (t_header t) -> h_source (t_header t') <> Some s); [|apply Hgoal].
  revert r Hh. induction Hrep as [|e h1 He Hrep IH]; intros r Hh.
  - split; [|contradiction]. cbn [app] in Hh. inversion Hh as [|h2 r0 op r1 o Hh0 Hok E]; subst. destruct Hok as (Hb & _). destruct (parsed_spec mtu d f body Hb Hpar) as (Hp & _).
    destruct (hist_inv _ _ _ _ Hh0) as (Hsort & _ & Hinv). destruct (Hinv (h_port (t_header t))) as (Hsub & Hses). rewrite Hact, (sub_at_chan r0 _ s) in Hsub.
    destruct (chan r0 (h_port (t_header t)) s) as [[mt se]|] eqn:Ec; [|discriminate]. cbn [option_map fst] in Hsub. assert (mt = (max, timeout)) by congruence. subst mt.
    destruct (Hses s max timeout se Ec) as (Hse & _). pose proof (step_chan mtu r0 _ r _ _ s max timeout se Hsort E Ec) as H. cbv beta iota in H. rewrite Hpar in H.
    destruct (is_fromb (h_port (t_header t)) s f) eqn:Ef.
    + destruct H as (se' & o' & Hcf & Ho & Hch). assert (o' = UDeliver t) by congruence. subst o'.
      pose proof (chan_frame_ok max timeout _ se now f body pa sa (heard_hist_ok mtu id h0 r0 _ s Hh0) Hse Hp) as Hk. rewrite Hcf in Hk.
      destruct Hk as (_ & _ & (ts & Hhd) & (ts' & tid & Hse' & Hts & Htid)). rewrite Hch, Hse', (Htid Hsg), Hts. rewrite Hhd at 3. rewrite as_core_tid. reflexivity.
    + destruct H as (_ & H). destruct (H t eq_refl); congruence.
  - cbn [app] in Hh. destruct e as [op o]. inversion Hh as [|h2 r0 op' r1 o' Hh0 Hok E]; subst. destruct (IH r0 Hh0) as (Hc & Hno). destruct (hist_inv _ _ _ _ Hh0) as (Hsort & _ & _).
    pose proof (step_chan mtu r0 op r o _ s _ _ _ Hsort E Hc) as H. unfold repeats in He. cbn [fst] in He. destruct op as [d1 n1 pa1 sa1|q m1 ti1 jok|q lok|nid].
    + destruct (parsed mtu d1) as [[f1 body1]|] eqn:Ep1.
      * destruct (is_fromb (h_port (t_header t)) s f1) eqn:Ef1.
        -- destruct H as (se' & o' & Hcf & Ho & Hch). apply is_from_iff in Ef1. destruct (He f1 body1 eq_refl Ef1) as (Ht & age & Hage & Hto).
           unfold chan_frame in Hcf. cbn [session_for] in Hcf. rewrite Hage in Hcf. destruct (N.ltb_spec (h_tid (t_header t)) (fh_tid f1)); [lia|]. destruct (N.ltb_spec timeout age); [lia|].
           cbn [orb negb] in Hcf. assert (se' = Some (UComplete (h_ts (t_header t)) (h_tid (t_header t))) /\ o' = UNone) as (-> & ->) by (split; congruence).
           split; [assumption|]. intros d' now' pa' sa' t' [Hin|Hin]; [congruence|eauto].
        -- destruct H as (Hch & Hdel). split; [assumption|]. intros d' now' pa' sa' t' [Hin|Hin]; [|eauto]. intros Hport Hsrc.
           destruct (Hdel t'); [congruence|contradiction|contradiction].
      * destruct H as (-> & ->). split; [assumption|]. intros d' now' pa' sa' t' [Hin|Hin]; [congruence|eauto].
    + split; [auto|]. intros d' now' pa' sa' t' [Hin|Hin]; [congruence|eauto].
    + split; [auto|]. intros d' now' pa' sa' t' [Hin|Hin]; [congruence|eauto].
    + split; [auto|]. intros d' now' pa' sa' t' [Hin|Hin]; [congruence|eauto].
Qed.
Print Assumptions C33_no_duplicates_partial.

(** All the datagrams of a transfer, twice: delivered once. *)
Example C33_witness :
  option_map deliveries (w_run (w_subscribe (PMsg 1000) :: w_arrive (w_datagrams 40 (w_transfer 3 40) ++ w_datagrams 40 (w_transfer 3 40)))) =
    Some [Transfer (HMsg (MsgH 0 3 4 1000 (Some 7))) false (repeat 5 40)].
Proof. vm_compute. reflexivity. Qed.

(** C33 fails: with a transfer (ID 2) incomplete, the single-datagram transfer 3 is delivered, and once more when repeated
    three microseconds later. *)
Theorem C33_duplicate_refuted : exists ops t t',
  option_map deliveries (w_run (w_subscribe (PMsg 1000) :: ops)) = Some [t; t'] /\
  t_header t' = h_set_ts (t_header t) 2 /\ t_payload t' = t_payload t /\ h_ts (t_header t) = 0.
Proof.
  exists (w_arrive (firstn 1 (w_datagrams 40 (w_transfer 2 40)) ++ w_datagrams 40 (w_transfer 3 5) ++ w_datagrams 40 (w_transfer 3 5))).
  do 2 eexists. vm_compute. split; [reflexivity|auto].
Qed.
Print Assumptions C33_duplicate_refuted.

(** C33 fails: datagrams of a higher transfer ID make the receiver forget the last delivery: transfer 3 is delivered, one
    datagram of transfer 4 arrives, then transfer 3 is repeated; its first datagram ends transfer 4, the rest is
    delivered again (a single-datagram transfer here). *)
Theorem C33_forgotten_refuted : exists ops t t',
  option_map deliveries (w_run (w_subscribe (PMsg 1000) :: ops)) = Some [t; t'] /\
  h_tid (t_header t) = 3 /\ h_tid (t_header t') = 3 /\ h_source (t_header t) = h_source (t_header t').
Proof.
  exists (w_arrive (w_datagrams 40 (w_transfer 3 5) ++ firstn 1 (w_datagrams 40 (w_transfer 4 40)) ++ w_datagrams 40 (w_transfer 3 5))).
  do 2 eexists. vm_compute. split; [reflexivity|auto].
Qed.
Print Assumptions C33_forgotten_refuted.

(** C34, for transfers in one datagram: whatever was received or lost before, a newer transfer is delivered.  Its time may be
    that of an earlier datagram, though.
    Missing for the full property: transfers of several datagrams, see below. *)
Theorem C34_recovery_partial : forall mtu rmtu id h r t s d max timeout now,
  udp_hist rmtu id h r -> (mtu <= rmtu)%nat -> bytes_ok (t_payload t) -> h_source (t_header t) = Some s ->
  udp_segmented mtu t [d] -> udp_active (h_port (t_header t)) h = Some (max, timeout) ->
  Forall (newer timeout now (h_tid (t_header t))) (heard rmtu (h_port (t_header t)) s h) ->
  exists r' ts, udp_run rmtu r [arrive (d, now)] =
    Ok (r', [GGot (UDeliver (Transfer (h_set_ts (t_header t) ts) false (firstn max (t_payload t))))]) /\
    (ts = now \/ exists f body, In (ts, (f, body)) (heard rmtu (h_port (t_header t)) s h)).
Proof.
  intros mtu rmtu id h r t s d max timeout now Hh Hr Hb Hsrc (Bs & Hcat & Hne & Hl & Hall) Hact Hnew.
  destruct Bs as [|body [|]]; try discriminate. cbn [concat] in Hcat. rewrite app_nil_r in Hcat.
  destruct (Hall O body eq_refl) as (_ & Hlen & _ & d' & Ed & Hd). cbn [nth_error] in Ed. assert (d' = d) by congruence. subst d'. change (1 =? length [body])%nat with true in Hd.
  destruct (datagram_parsed rmtu (t_header t) 0 true body d Hd) as (f & Hpar & Hport & Hs & Htid & Hprio & Hidx & Hlast & Hcore); [rewrite Hcat, app_length, le_bytes_length; lia|lia|].
  destruct (hist_inv _ _ _ _ Hh) as (_ & _ & Hinv). destruct (Hinv (h_port (t_header t))) as (Hsub & Hses).
  cbn [udp_run]. unfold arrive. cbn [fst snd udp_step]. pose proof (accept_chan rmtu r d now true true) as H. rewrite Hpar in H. cbv zeta in H. rewrite Hport, Hsub, Hact, Hs, Hsrc in H.
  destruct H as (se & Hc & H). destruct (Hses s max timeout se Hc) as (Hse & _).
  assert (Hfor : exists a, session_for se f now timeout = Ok (Some a) /\ (a_time a = now \/ exists f body, In (a_time a, (f, body)) (heard rmtu (h_port (t_header t)) s h))).
  { destruct se as [[a|time tid0]|].
    - exists a. split; [reflexivity|]. right. destruct Hse as (pre & f0 & b0 & rest & b & Heq & _). exists f0, b0. rewrite Heq. apply in_or_app. right. left. reflexivity.
    - exists (Act now (h_tid (t_header t)) None). split; [|left; reflexivity]. apply (session_ready max timeout now (h_tid (t_header t)) _ _ Hse I Hnew f). exact Htid.
    - exists (Act now (fh_tid f) None). split; [reflexivity|]. left. reflexivity. }
  destruct Hfor as (a & Ha & Hta).
  assert (Hsf : session_frame a f body max true = (a, HDone (firstn max (t_payload t)))).
  { unfold session_frame. change TRANSFER_CRC_SIZE with 4%nat.
    destruct (Nat.ltb_spec (length body) 4) as [Hx|_]; [rewrite Hcat, app_length, le_bytes_length in Hx; lia|].
    rewrite Hidx, Hlast. change (N.of_nat 0 =? 0) with true. cbn [andb negb]. rewrite Hcat.
    assert (Hok : bytes_ok (t_payload t ++ le_bytes 4 (crc32 (t_payload t)))) by (apply bytes_ok_app2; [assumption|apply le_bytes_ok]).
    destruct (feed_good max (t_payload t) Hok) as (F1 & F2). rewrite F1. cbn [fst snd]. rewrite F2. reflexivity. }
  assert (Hcf : exists se', chan_frame max timeout se f body now true true = Ok (se', UDeliver (convert_result (firstn max (t_payload t)) f (a_time a)))).
  { unfold chan_frame. destruct se as [se|]; rewrite Ha, Hsf; eauto. }
  destruct Hcf as (se' & Hcf). rewrite Hcf in H. destruct H as (r' & -> & _). exists r', (a_time a). split; [|assumption].
  unfold convert_result. rewrite Hcore. reflexivity.
Qed.
Print Assumptions C34_recovery_partial.

(** The single datagram is delivered although a datagram of the transfer before was lost. *)
Example C34_witness :
  option_map deliveries (w_run (w_subscribe (PMsg 1000) :: w_arrive (removelast (w_datagrams 40 (w_transfer 3 40)) ++ w_datagrams 40 (w_transfer 4 9)))) =
    Some [Transfer (HMsg (MsgH 0 4 4 1000 (Some 7))) false (repeat 5 9)].
Proof. vm_compute. reflexivity. Qed.

(** C34 fails: the last datagram of transfer 3 is lost, transfer 4 arrives completely and is not delivered. *)
Theorem C34_recovery_refuted : exists lost,
  w_datagrams 40 (w_transfer 3 40) = removelast (w_datagrams 40 (w_transfer 3 40)) ++ [lost] /\
  option_map deliveries (w_run (w_subscribe (PMsg 1000) :: w_arrive (removelast (w_datagrams 40 (w_transfer 3 40)) ++ w_datagrams 40 (w_transfer 4 40)))) = Some [].
Proof. eexists. vm_compute. split; reflexivity. Qed.
Print Assumptions C34_recovery_refuted.

(** What the receiver keeps after the loss: a transfer that does not continue with datagram number 0. *)
Definition stuck (r : urx) (p : port) (s : N) (max : nat) (timeout : N) : Prop :=
  exists a b, chan r p s = Some (max, timeout, Some (UActive a)) /\ a_bu a = Some b /\ bu_next b <> 0.

Lemma two_datagrams mtu rmtu t s d1 d2 max timeout r n1 n2 :
  (mtu <= rmtu)%nat -> h_source (t_header t) = Some s -> udp_segmented mtu t [d1; d2] -> (28 <= length d1)%nat -> (28 <= length d2)%nat ->
  stuck r (h_port (t_header t)) s max timeout ->
  exists r', udp_run rmtu r [arrive (d1, n1); arrive (d2, n2)] = Ok (r', [GGot UNone; GGot UNone]) /\ stuck r' (h_port (t_header t)) s max timeout.
Proof.
  intros Hr Hsrc (Bs & Hcat & Hne & Hl & Hall) L1 L2 (a & b & Hc & Ha & Hb). destruct Bs as [|b1 [|b2 [|]]]; try discriminate.
  destruct (Hall 0%nat b1 eq_refl) as (_ & M1 & _ & x1 & X1 & D1). cbn [nth_error] in X1. assert (x1 = d1) by congruence. subst x1.
  destruct (Hall 1%nat b2 eq_refl) as (_ & M2 & _ & x2 & X2 & D2). cbn [nth_error] in X2. assert (x2 = d2) by congruence. subst x2.
  change (1 =? length [b1; b2])%nat with false in D1. change (2 =? length [b1; b2])%nat with true in D2.
  assert (Q1 : (4 <= length b1)%nat). { destruct D1 as (E & E24 & _). rewrite E, app_length, E24 in L1. lia. }
  assert (Q2 : (4 <= length b2)%nat). { destruct D2 as (E & E24 & _). rewrite E, app_length, E24 in L2. lia. }
  destruct (datagram_parsed rmtu (t_header t) 0 false b1 d1 D1 Q1) as (f1 & Hpar1 & Hport1 & Hs1 & _ & _ & Hidx1 & Hlast1 & _); [lia|].
  destruct (datagram_parsed rmtu (t_header t) 1 true b2 d2 D2 Q2) as (f2 & Hpar2 & Hport2 & Hs2 & _ & _ & Hidx2 & Hlast2 & _); [lia|].
  assert (F1 : is_fromb (h_port (t_header t)) s f1 = true) by (apply is_fromb_spec; split; congruence).
  assert (F2 : is_fromb (h_port (t_header t)) s f2 = true) by (apply is_fromb_spec; split; congruence).
  cbn [udp_run]. unfold arrive. cbn [fst snd udp_step].
  pose proof (accept_chan rmtu r d1 n1 true true) as H. rewrite Hpar1 in H. cbv zeta in H. rewrite Hport1, (sub_at_chan r _ s), Hc in H. cbn [option_map fst] in H. rewrite Hs1, Hsrc in H.
  destruct H as (se & Hse & H). rewrite Hc in Hse. assert (E : se = Some (UActive a)) by congruence. subst se.
  assert (Hcf : chan_frame max timeout (Some (UActive a)) f1 b1 n1 true true = Ok (None, UNone)).
  { unfold chan_frame. cbn [session_for]. unfold session_frame. change TRANSFER_CRC_SIZE with 4%nat. destruct (Nat.ltb_spec (length b1) 4); [lia|].
    rewrite Hidx1, Hlast1, andb_false_r, Ha. unfold bu_push. rewrite Hidx1. destruct (N.eqb_spec (N.of_nat 0) (bu_next b)) as [E|_]; [exfalso; apply Hb; rewrite <- E; reflexivity|]. reflexivity. }
  rewrite Hcf in H. destruct H as (r1 & -> & _ & Hch).
  pose proof (accept_chan rmtu r1 d2 n2 true true) as H. rewrite Hpar2 in H. cbv zeta in H. rewrite Hport2, (sub_at_chan r1 _ s), Hch, F1 in H. cbn [option_map fst] in H. rewrite Hs2, Hsrc in H.
  destruct H as (se & Hse1 & H). rewrite Hch, F1 in Hse1. assert (E : se = None) by congruence. subst se.
  assert (Hcf2 : chan_frame max timeout None f2 b2 n2 true true = Ok (Some (UActive (Act n2 (fh_tid f2) (Some (bu_new f2 b2 max)))), UNone)).
  { unfold chan_frame. cbn [session_for]. unfold session_frame. change TRANSFER_CRC_SIZE with 4%nat. destruct (Nat.ltb_spec (length b2) 4); [lia|].
    rewrite Hidx2. change (N.of_nat 1 =? 0) with false. reflexivity. }
  rewrite Hcf2 in H. destruct H as (r2 & -> & _ & Hch2). exists r2. split; [reflexivity|]. eexists. exists (bu_new f2 b2 max). rewrite Hch2, F2. split; [reflexivity|]. split; [reflexivity|].
  unfold bu_new. destruct (feed _ _ _ _). cbn [bu_next]. rewrite Hidx2. lia.
Qed.

Lemma run_app mtu a : forall r b, udp_run mtu r (a ++ b) =
  match udp_run mtu r a with Panic => Panic | Ok (r1, o1) => match udp_run mtu r1 b with Panic => Panic | Ok (r2, o2) => Ok (r2, o1 ++ o2) end end.
Proof.
  induction a as [|op a IH]; intros r b; cbn [app udp_run]; [destruct (udp_run mtu r b) as [[? ?]|]; reflexivity|].
  destruct (udp_step mtu r op) as [[r1 o]|]; [|reflexivity]. rewrite IH. destruct (udp_run mtu r1 a) as [[r2 o2]|]; [|reflexivity].
  destruct (udp_run mtu r2 b) as [[r3 o3]|]; reflexivity.
Qed.

(** C34 fails for good: the receiver was idle and got the first of the two datagrams of [t0], but not the second.  Then no
    transfer of two datagrams from the same source on the same port is delivered any more, however many arrive
    completely, at whatever times. *)
Theorem C34_permanent_loss_refuted : forall mtu rmtu id h r t0 s d0 lost max timeout now0 (later : list (transfer * (list N * N) * (list N * N))),
  udp_hist rmtu id h r -> (mtu <= rmtu)%nat -> h_source (t_header t0) = Some s ->
  udp_segmented mtu t0 [d0; lost] -> (28 <= length d0)%nat -> udp_active (h_port (t_header t0)) h = Some (max, timeout) ->
  idle rmtu (h_port (t_header t0)) s h = true ->
  Forall (newer timeout now0 (h_tid (t_header t0))) (heard rmtu (h_port (t_header t0)) s h) ->
  Forall (fun x => h_source (t_header (fst (fst x))) = Some s /\ h_port (t_header (fst (fst x))) = h_port (t_header t0) /\
                   udp_segmented mtu (fst (fst x)) [fst (snd (fst x)); fst (snd x)] /\
                   (28 <= length (fst (snd (fst x))))%nat /\ (28 <= length (fst (snd x)))%nat) later ->
  exists r', udp_run rmtu r (arrive (d0, now0) :: flat_map (fun x => [arrive (snd (fst x)); arrive (snd x)]) later) =
    Ok (r', repeat (GGot UNone) (1 + 2 * length later)).
Proof.
  intros mtu rmtu id h r t0 s d0 lost max timeout now0 later Hh Hr Hsrc (Bs & Hcat & Hne & Hl & Hall) L0 Hact Hidle Hnew Hlater.
  destruct Bs as [|b1 [|b2 [|]]]; try discriminate.
  destruct (Hall 0%nat b1 eq_refl) as (_ & M1 & _ & x1 & X1 & D1). cbn [nth_error] in X1. assert (x1 = d0) by congruence. subst x1.
  change (1 =? length [b1; b2])%nat with false in D1.
  assert (Q1 : (4 <= length b1)%nat). { destruct D1 as (E & E24 & _). rewrite E, app_length, E24 in L0. lia. }
  destruct (datagram_parsed rmtu (t_header t0) 0 false b1 d0 D1 Q1) as (f1 & Hpar1 & Hport1 & Hs1 & Htid1 & _ & Hidx1 & Hlast1 & _); [lia|].
  assert (F1 : is_fromb (h_port (t_header t0)) s f1 = true) by (apply is_fromb_spec; split; congruence).
  destruct (hist_inv _ _ _ _ Hh) as (_ & _ & Hinv). destruct (Hinv (h_port (t_header t0))) as (Hsub & Hses).
  assert (Hstuck : exists r1, udp_step rmtu r (arrive (d0, now0)) = Ok (r1, GGot UNone) /\ stuck r1 (h_port (t_header t0)) s max timeout).
  { unfold arrive. cbn [fst snd udp_step]. pose proof (accept_chan rmtu r d0 now0 true true) as H. rewrite Hpar1 in H. cbv zeta in H. rewrite Hport1, Hsub, Hact, Hs1, Hsrc in H.
    destruct H as (se & Hc & H). destruct (Hses s max timeout se Hc) as (Hse & Hn). specialize (Hn Hidle).
    assert (Hcf : chan_frame max timeout se f1 b1 now0 true true = Ok (Some (UActive (Act now0 (h_tid (t_header t0)) (Some (bu_new f1 b1 max)))), UNone)).
    { pose proof (session_ready max timeout now0 (h_tid (t_header t0)) _ se Hse Hn Hnew f1 Htid1) as Ha. unfold chan_frame.
      replace (match se with Some _ => _ | None => _ end) with (match session_for se f1 now0 timeout with
        | Panic => Panic | Ok None => Ok (se, UNone) | Ok (Some a) => let (a', r0) := session_frame a f1 b1 max true in
          match r0 with HDone payload => Ok (Some (UComplete (a_time a) (a_tid a)), UDeliver (convert_result payload f1 (a_time a)))
          | HMore => Ok (Some (UActive a'), UNone) | HMemory | HErr => Ok (None, UNone) end end) by (destruct se; reflexivity).
      rewrite Ha. unfold session_frame. change TRANSFER_CRC_SIZE with 4%nat. destruct (Nat.ltb_spec (length b1) 4); [lia|]. rewrite Hlast1, andb_false_r. reflexivity. }
    rewrite Hcf in H. destruct H as (r1 & -> & _ & Hch). exists r1. split; [reflexivity|]. eexists. exists (bu_new f1 b1 max). rewrite Hch, F1. split; [reflexivity|]. split; [reflexivity|].
    unfold bu_new. destruct (feed _ _ _ _). cbn [bu_next]. rewrite Hidx1. lia. }
  destruct Hstuck as (r1 & E1 & Hst). cbn [udp_run]. rewrite E1. clear E1.
  assert (Hgen : exists r', udp_run rmtu r1 (flat_map (fun x => [arrive (snd (fst x)); arrive (snd x)]) later) = Ok (r', repeat (GGot UNone) (2 * length later))).
  { clear - Hst Hlater Hr. revert r1 Hst. induction Hlater as [|[[t [e1 n1]] [e2 n2]] later (A1 & A2 & A3 & A4 & A5) Hlater IH]; intros r1 Hst; [exists r1; reflexivity|].
    cbn [fst snd] in *. destruct (two_datagrams mtu rmtu t s e1 e2 max timeout r1 n1 n2 Hr A1 A3 A4 A5) as (r2 & E2 & Hst2); [rewrite A2; assumption|].
    rewrite A2 in Hst2. destruct (IH r2 Hst2) as (r3 & E3). exists r3. cbn [flat_map fst snd]. rewrite run_app, E2, E3. do 2 f_equal.
    cbn [length]. replace (2 * S (length later))%nat with (2 + 2 * length later)%nat by lia. reflexivity. }
  destruct Hgen as (r2 & E2). exists r2. rewrite E2. reflexivity.
Qed.
Print Assumptions C34_permanent_loss_refuted.

(** The hypotheses are met: two hundred transfers of two datagrams after the loss, none delivered. *)
Example C34_permanent_loss_witness :
  let pair tid := w_datagrams 40 (w_transfer tid 20) in
  length (pair 3) = 2%nat /\
  option_map deliveries (w_run (w_subscribe (PMsg 1000) :: w_arrive (firstn 1 (pair 3) ++ flat_map (fun i => pair (4 + N.of_nat i)) (seq 0 200)))) = Some [].
Proof. vm_compute. auto. Qed.

(** C35, the part on subscriptions: a delivered transfer was subscribed to.
    Missing: the destination of service transfers, which the receiver does not check. *)
Theorem C35_only_wanted_partial : forall mtu id h r d now pa sa t,
  udp_hist mtu id ((ODatagram d now pa sa, GGot (UDeliver t)) :: h) r ->
  udp_active (h_port (t_header t)) h <> None /\ t_loopback t = false /\
  exists f body ts, parsed mtu d = Some (f, body) /\ t_header t = as_core_header f ts.
Proof.
  intros mtu id h r d now pa sa t Hh. destruct (C32_intact mtu id h r d now pa sa t Hh) as (max & timeout & Hact & Hm).
  split; [congruence|]. destruct (h_source (t_header t)) as [s|] eqn:Es.
  - destruct Hm as (pre & fs & Hheard & Has). pose proof Has as (data & fl & bl & tl & t0 & d0 & Hcons & Hhd & Hnth & Hcrc & Hpl & Hh' & Hlb & _). split; [assumption|].
    cbn [heard] in Hheard. destruct (parsed mtu d) as [[f body]|] eqn:Ep.
    + destruct (is_fromb (h_port (t_header t)) s f) eqn:Ef.
      * exists f, body, (h_ts (t_header t)). split; [reflexivity|]. rewrite Hh' at 1. f_equal.
        destruct fs as [|x fs] using rev_ind; [discriminate|]. rewrite app_assoc in Hheard. apply app_inj_tail in Hheard as (_ & <-).
        rewrite app_length in Hnth. cbn [length] in Hnth. rewrite Nat.add_sub, nth_error_app2, Nat.sub_diag in Hnth by lia. cbn [nth_error] in Hnth. congruence.
      * exfalso. inversion Hh as [|h0 r0 op r1 o Hh0 Hok E]; subst. destruct (hist_inv _ _ _ _ Hh0) as (Hsort & _ & Hinv). destruct (Hinv (h_port (t_header t))) as (Hsub & _).
        rewrite Hact, (sub_at_chan r0 _ s) in Hsub. destruct (chan r0 (h_port (t_header t)) s) as [[[m ti] se]|] eqn:Ec; [|discriminate].
        pose proof (step_chan mtu r0 _ r _ _ s _ _ _ Hsort E Ec) as H. cbv beta iota in H. rewrite Ep, Ef in H. destruct H as (_ & H). destruct (H t eq_refl); contradiction.
    + exfalso. inversion Hh as [|h0 r0 op r1 o Hh0 Hok E]; subst. cbn [udp_step] in E. pose proof (accept_chan mtu r0 d now pa sa) as H. rewrite Ep in H. rewrite H in E. discriminate.
  - destruct Hm as (f & body & Hpar & (data & fl & bl & tl & t0 & d0 & Hcons & Hhd & Hnth & Hcrc & Hpl & Hh' & Hlb & _) & _). split; [assumption|].
    exists f, body, (h_ts (t_header t)). split; [assumption|]. cbn [length Nat.sub nth_error] in Hnth. congruence.
Qed.
Print Assumptions C35_only_wanted_partial.

(** C35 fails: node 1 is delivered a request addressed to node 20. *)
Theorem C35_destination_refuted : exists ds t,
  option_map deliveries (w_run (w_subscribe (PReq 430) :: w_arrive ds)) = Some [t] /\ h_dest (t_header t) = Some 20.
Proof.
  exists (w_datagrams 40 (Transfer (HReq (SvcH 0 3 4 430 7 20)) false [1; 2; 3])). eexists. vm_compute. auto.
Qed.
Print Assumptions C35_destination_refuted.

(** C37: no operation makes the receiver panic as long as the clock can tell that all datagrams heard were earlier. *)
Theorem C37_no_panic_partial : forall mtu id h r op,
  udp_hist mtu id h r -> udp_op_ok op ->
  (forall d now pa sa, op = ODatagram d now pa sa -> forall p s e, In e (heard mtu p s h) -> t_since now (fst e) <> None) ->
  udp_step mtu r op <> Panic.
Proof.
  intros mtu id h r op Hh Hok Hc. destruct op as [d now pa sa|q m ti jok|q lok|nid]; cbn [udp_step].
  - destruct Hok as (Hb & _). specialize (Hc d now pa sa eq_refl). pose proof (accept_chan mtu r d now pa sa) as H. destruct (parsed mtu d) as [[f body]|] eqn:Ep; [|rewrite H; discriminate].
    destruct (parsed_spec mtu d f body Hb Ep) as (Hp & _). cbv zeta in H. destruct (sub_at r _) as [[max timeout]|]; [|rewrite H; discriminate]. destruct (dspec_source (fh_spec f)) as [s|].
    + destruct H as (se & Hch & H). destruct (hist_inv _ _ _ _ Hh) as (_ & _ & Hinv). destruct (Hinv (dspec_port (fh_spec f))) as (_ & Hses). destruct (Hses s max timeout se Hch) as (Hse & _).
      pose proof (chan_frame_ok max timeout _ se now f body pa sa (heard_hist_ok mtu id h r _ s Hh) Hse Hp) as Hcf.
      destruct (chan_frame max timeout se f body now pa sa) as [[se' o]|]; [destruct H as (r' & -> & _); discriminate|].
      destruct Hcf as (time & tid & f' & body' & _ & Hin & Hn). exfalso. exact (Hc _ _ _ Hin Hn).
    + destruct H as (r' & -> & _). discriminate.
  - destruct (udp_subscribe r q m ti jok) as [[? ?] ?]. discriminate.
  - destruct (udp_unsubscribe r q lok). discriminate.
  - discriminate.
Qed.
Print Assumptions C37_no_panic_partial.
(** the hypothesis on the clock holds for 35 minutes *)
Example C37_witness : forall p s e, In e (heard 40 p s [(ODatagram (hd [] (w_datagrams 40 (w_transfer 3 5))) 5 true true, GGot UNone); (w_subscribe (PMsg 1000), GSubbed SubOk [])]) ->
  t_since (2 ^ 31) (fst e) <> None.
Proof.
  intros p s e. unfold heard. replace (parsed 40 (hd [] (w_datagrams 40 (w_transfer 3 5)))) with (parsed 40 (hd [] (w_datagrams 40 (w_transfer 3 5)))) by reflexivity.
  destruct (parsed 40 (hd [] (w_datagrams 40 (w_transfer 3 5)))) as [[f body]|]; cbn [w_subscribe].
  - destruct (is_fromb p s f), (port_eqb (PMsg 1000) p); cbn [app In]; try contradiction; intros [<-|[]]; vm_compute; discriminate.
  - destruct (port_eqb (PMsg 1000) p); contradiction.
Qed.

(** C37 fails: one transfer at time 0, the next one 2^31 + 1 microseconds later. *)
Theorem C37_silence_refuted : exists r out d2,
  udp_run 40 (urx_new (Some 1)) (w_subscribe (PMsg 1000) :: w_arrive (w_datagrams 40 (w_transfer 3 5))) = Ok (r, out) /\
  udp_step 40 r (ODatagram d2 (2 ^ 31 + 1) true true) = Panic.
Proof. do 2 eexists. exists (hd [] (w_datagrams 40 (w_transfer 4 5))). split; [vm_compute; reflexivity|]. vm_compute. reflexivity. Qed.
Print Assumptions C37_silence_refuted.

(** ** Multicast groups *)

Lemma lookup_none_nil {A} (l : list (N * A)) : (forall k, lookup k l = None) -> l = [].
Proof. destruct l as [|[k v] l]; intro H; [reflexivity|]. specialize (H k). cbn [lookup] in H. rewrite N.eqb_refl in H. discriminate. Qed.

Lemma any_service_spec r : any_service (ur_subs r) = true <-> exists p, is_service p /\ sub_at r p <> None.
Proof.
  unfold any_service. split.
  - intro H. destruct (sb_req (ur_subs r)) as [|[k v] l] eqn:E1.
    + destruct (sb_resp (ur_subs r)) as [|[k v] l] eqn:E2; [discriminate|]. exists (PResp k). split; [exact I|]. unfold sub_at. cbn [subs_find]. rewrite E2. cbn [lookup]. rewrite N.eqb_refl. discriminate.
    + exists (PReq k). split; [exact I|]. unfold sub_at. cbn [subs_find]. rewrite E1. cbn [lookup]. rewrite N.eqb_refl. discriminate.
  - intros (p & Hp & H). unfold sub_at in H. destruct p; [destruct Hp| |]; cbn [subs_find] in H; destruct (sb_req (ur_subs r)), (sb_resp (ur_subs r)); try reflexivity; exfalso; apply H; reflexivity.
Qed.

Lemma ip_subject_node s n : s <= 8191 -> n < 65535 -> ip_of_address (AMulticast s) <> ip_of_address (ANode n).
Proof. intros Hs Hn E. assert (AMulticast s = ANode n); [apply C36_injective; assumption|discriminate]. Qed.

Lemma node_in_range n : node_ok n -> n < 65535.
Proof. unfold node_ok. lia. Qed.

(** C57: the socket is a member of the group of a subject exactly while the subject is subscribed to. *)
Theorem C57_subject_group : forall mtu id h r s,
  udp_hist mtu id h r -> Forall (fun e => ids_ok (fst e)) h -> s <= 8191 -> (forall n, id = Some n -> node_ok n) ->
  member (ip_of_address (AMulticast s)) h = true <-> udp_active (PMsg s) h <> None.
Proof.
  intros mtu id h r s Hh Hids Hs Hid.
  assert (Hnode : forall n, udp_node id h = Some n -> n < 65535).
  { clear Hh. induction Hids as [|[op o] h Ho Hids IH]; intros n; cbn [udp_node]; [intro E; apply node_in_range, Hid, E|]. destruct op; try apply IH. intro E. cbn [fst ids_ok] in Ho. subst id0. apply node_in_range, Ho. }
  revert Hids Hnode. induction Hh as [|h r op r' o Hh IH Hok E]; intros Hids Hnode; [cbn; intuition; discriminate|].
  apply Forall_inv in Hids as Ho. apply Forall_inv_tail in Hids. cbn [fst] in Ho.
  assert (Hn' : forall n, udp_node id h = Some n -> n < 65535).
  { clear IH. clear Hh Hok E Hnode. induction Hids as [|[op1 o1] h Ho1 Hids IH]; intros n; cbn [udp_node]; [intro E; apply node_in_range, Hid, E|]. destruct op1; try apply IH. intro E. cbn [fst ids_ok] in Ho1. subst id0. apply node_in_range, Ho1. }
  specialize (IH Hids Hn'). destruct (hist_inv _ _ _ _ Hh) as (_ & Hnd & _).
  destruct op as [d now pa sa|q m ti jok|q lok|nid]; cbn [udp_step] in E.
  - destruct (udp_accept mtu r d now pa sa) as [[r1 o1]|]; [|discriminate]. assert (o = GGot o1) by congruence. subst o. cbn [member udp_active]. exact IH.
  - unfold udp_subscribe in E. cbn [ids_ok port_ok] in Ho. destruct q as [s1|s1|s1].
    + destruct jok; assert (Eo : o = GSubbed SubOk [Join (ip_of_address (AMulticast s1)) true] \/ o = GSubbed SubSocket [Join (ip_of_address (AMulticast s1)) false]) by (first [left; congruence|right; congruence]);
        destruct Eo as [Eo|Eo]; try congruence; subst o; cbn [member member_calls udp_active port_eqb].
      * destruct (N.eqb_spec s1 s) as [->|Hne]; [rewrite N.eqb_refl; cbn [andb]; split; [discriminate|reflexivity]|].
        destruct (N.eqb_spec (ip_of_address (AMulticast s1)) (ip_of_address (AMulticast s))) as [Ei|_]; [apply C36_injective in Ei; [congruence|assumption|assumption]|]. exact IH.
      * rewrite andb_false_r. destruct (N.eqb s1 s); exact IH.
    + destruct (ur_node r) as [n|] eqn:En.
      * destruct (any_service (ur_subs r)); [assert (o = GSubbed SubOk []) by congruence; subst o; exact IH|].
        assert (Hne : N.eqb (ip_of_address (ANode n)) (ip_of_address (AMulticast s)) = false).
        { apply N.eqb_neq. intro Ei. symmetry in Ei. revert Ei. apply ip_subject_node; [assumption|]. apply Hn'. congruence. }
        destruct jok; [assert (o = GSubbed SubOk [Join (ip_of_address (ANode n)) true]) by congruence|assert (o = GSubbed SubSocket [Join (ip_of_address (ANode n)) false]) by congruence];
          subst o; cbn [member member_calls]; rewrite Hne; exact IH.
      * assert (o = GSubbed SubAnonymous []) by congruence. subst o. exact IH.
    + destruct (ur_node r) as [n|] eqn:En.
      * destruct (any_service (ur_subs r)); [assert (o = GSubbed SubOk []) by congruence; subst o; exact IH|].
        assert (Hne : N.eqb (ip_of_address (ANode n)) (ip_of_address (AMulticast s)) = false).
        { apply N.eqb_neq. intro Ei. symmetry in Ei. revert Ei. apply ip_subject_node; [assumption|]. apply Hn'. congruence. }
        destruct jok; [assert (o = GSubbed SubOk [Join (ip_of_address (ANode n)) true]) by congruence|assert (o = GSubbed SubSocket [Join (ip_of_address (ANode n)) false]) by congruence];
          subst o; cbn [member member_calls]; rewrite Hne; exact IH.
      * assert (o = GSubbed SubAnonymous []) by congruence. subst o. exact IH.
  - unfold udp_unsubscribe in E. cbn [ids_ok port_ok] in Ho. destruct q as [s1|s1|s1].
    + assert (o = GUnsubbed [Leave (ip_of_address (AMulticast s1)) lok]) by congruence. subst o. cbn [member member_calls udp_active port_eqb].
      destruct (N.eqb_spec s1 s) as [->|Hne]; [rewrite N.eqb_refl; split; [discriminate|congruence]|].
      destruct (N.eqb_spec (ip_of_address (AMulticast s1)) (ip_of_address (AMulticast s))) as [Ei|_]; [apply C36_injective in Ei; [congruence|assumption|assumption]|]. exact IH.
    + destruct (ur_node r) as [n|] eqn:En; [|assert (o = GUnsubbed []) by congruence; subst o; exact IH].
      assert (Hne : N.eqb (ip_of_address (ANode n)) (ip_of_address (AMulticast s)) = false).
      { apply N.eqb_neq. intro Ei. symmetry in Ei. revert Ei. apply ip_subject_node; [assumption|]. apply Hn'. congruence. }
      destruct (any_service _); [assert (o = GUnsubbed []) by congruence; subst o; exact IH|].
      assert (o = GUnsubbed [Leave (ip_of_address (ANode n)) lok]) by congruence. subst o. cbn [member member_calls]. rewrite Hne. exact IH.
    + destruct (ur_node r) as [n|] eqn:En; [|assert (o = GUnsubbed []) by congruence; subst o; exact IH].
      assert (Hne : N.eqb (ip_of_address (ANode n)) (ip_of_address (AMulticast s)) = false).
      { apply N.eqb_neq. intro Ei. symmetry in Ei. revert Ei. apply ip_subject_node; [assumption|]. apply Hn'. congruence. }
      destruct (any_service _); [assert (o = GUnsubbed []) by congruence; subst o; exact IH|].
      assert (o = GUnsubbed [Leave (ip_of_address (ANode n)) lok]) by congruence. subst o. cbn [member member_calls]. rewrite Hne. exact IH.
  - assert (o = GDone) by congruence. subst o. exact IH.
Qed.
Print Assumptions C57_subject_group.

(** the state after a subscription or its end *)
Lemma sub_at_after mtu id h r op o r' : udp_hist mtu id h r -> udp_op_ok op -> udp_step mtu r op = Ok (r', o) ->
  forall p, sub_at r' p = udp_active p ((op, o) :: h).
Proof. intros Hh Hok E p. destruct (hist_inv _ _ _ _ (uh_step mtu id h r op r' o Hh Hok E)) as (_ & _ & H). apply (H p). Qed.

(** C57: while the node ID is not changed, the socket is a member of the group of this node exactly while some service
    request or response is subscribed to.
    Missing for the full property: changes of the node ID, see below. *)
Theorem C57_service_group_partial : forall mtu n h r,
  udp_hist mtu (Some n) h r -> node_ok n -> Forall (fun e => ids_ok (fst e) /\ forall i, fst e <> OSetId i) h ->
  member (ip_of_address (ANode n)) h = true <-> exists p, is_service p /\ udp_active p h <> None.
Proof.
  intros mtu n h r Hh Hn Hids. apply node_in_range in Hn.
  induction Hh as [|h r op r' o Hh IH Hok E]; [cbn; split; [discriminate|intros (p & _ & H); congruence]|].
  apply Forall_inv in Hids as Ho. apply Forall_inv_tail in Hids. cbn [fst] in Ho. destruct Ho as (Ho & Hset). specialize (IH Hids).
  destruct (hist_inv _ _ _ _ Hh) as (_ & Hnd & Hinv).
  assert (Hnode : ur_node r = Some n).
  { rewrite Hnd. clear - Hids. induction Hids as [|[op o] h (_ & Ho) Hids IH]; [reflexivity|]. cbn [udp_node]. destruct op; try exact IH. exfalso. eapply Ho. reflexivity. }
  assert (Hany : any_service (ur_subs r) = true <-> exists p, is_service p /\ udp_active p h <> None).
  { rewrite any_service_spec. split; intros (p & Hp & H); exists p; (split; [assumption|]); destruct (Hinv p) as (E1 & _); congruence. }
  pose proof (sub_at_after _ _ _ _ _ _ _ Hh Hok E) as Hafter.
  assert (Hany' : any_service (ur_subs r') = true <-> exists p, is_service p /\ udp_active p ((op, o) :: h) <> None).
  { rewrite any_service_spec. split; intros (p & Hp & H); exists p; (split; [assumption|]); specialize (Hafter p); congruence. }
  rewrite <- Hany'. rewrite <- Hany in IH. clear Hany Hany' Hafter.
  destruct op as [d now pa sa|q m ti jok|q lok|nid]; cbn [udp_step] in E; [| | |exfalso; eapply Hset; reflexivity].
  - destruct (udp_accept mtu r d now pa sa) as [[r1 o1]|] eqn:Ea; [|discriminate]. assert (r1 = r' /\ o = GGot o1) as (-> & ->) by (split; congruence). cbn [member].
    rewrite (same_keys_any _ _ (accept_keys _ _ _ _ _ _ _ _ Ea)). exact IH.
  - assert (Hput : forall su, is_service q -> any_service (subs_put q su (ur_subs r)) = true).
    { intros su Hq. apply (any_service_spec (URx None (subs_put q su (ur_subs r)))). exists q. split; [assumption|]. unfold sub_at. cbn [ur_subs].
      destruct (hist_inv _ _ _ _ Hh) as (Hsort & _). destruct (subs_put_spec q su (ur_subs r) Hsort) as (_ & Hf). rewrite Hf. destruct (port_eqb_spec q q); [|congruence]. discriminate. }
    unfold udp_subscribe in E. rewrite Hnode in E. cbn [ids_ok port_ok] in Ho. destruct q as [s1|s1|s1].
    + assert (Hne : N.eqb (ip_of_address (AMulticast s1)) (ip_of_address (ANode n)) = false) by (apply N.eqb_neq, ip_subject_node; assumption).
      destruct jok.
      * assert (o = GSubbed SubOk [Join (ip_of_address (AMulticast s1)) true]) by congruence. subst o. assert (Er : ur_subs r' = subs_put (PMsg s1) (USubscription m ti (fun _ => None)) (ur_subs r)) by (injection E as <-; reflexivity).
        rewrite Er. cbn [member member_calls]. rewrite Hne. exact IH.
      * assert (o = GSubbed SubSocket [Join (ip_of_address (AMulticast s1)) false] /\ r' = r) as (-> & ->) by (split; congruence). cbn [member member_calls]. rewrite Hne. exact IH.
    + destruct (any_service (ur_subs r)) eqn:Ean.
      * assert (o = GSubbed SubOk []) by congruence. subst o. assert (Er : ur_subs r' = subs_put (PReq s1) (USubscription m ti (fun _ => None)) (ur_subs r)) by (injection E as <-; reflexivity).
        rewrite Er, Hput by exact I. exact IH.
      * destruct jok.
        -- assert (o = GSubbed SubOk [Join (ip_of_address (ANode n)) true]) by congruence. subst o. assert (Er : ur_subs r' = subs_put (PReq s1) (USubscription m ti (fun _ => None)) (ur_subs r)) by (injection E as <-; reflexivity).
           rewrite Er, Hput by exact I. cbn [member member_calls]. rewrite N.eqb_refl. split; reflexivity.
        -- assert (o = GSubbed SubSocket [Join (ip_of_address (ANode n)) false] /\ r' = r) as (-> & ->) by (split; congruence). cbn [member member_calls]. rewrite andb_false_r, Ean. exact IH.
    + destruct (any_service (ur_subs r)) eqn:Ean.
      * assert (o = GSubbed SubOk []) by congruence. subst o. assert (Er : ur_subs r' = subs_put (PResp s1) (USubscription m ti (fun _ => None)) (ur_subs r)) by (injection E as <-; reflexivity).
        rewrite Er, Hput by exact I. exact IH.
      * destruct jok.
        -- assert (o = GSubbed SubOk [Join (ip_of_address (ANode n)) true]) by congruence. subst o. assert (Er : ur_subs r' = subs_put (PResp s1) (USubscription m ti (fun _ => None)) (ur_subs r)) by (injection E as <-; reflexivity).
           rewrite Er, Hput by exact I. cbn [member member_calls]. rewrite N.eqb_refl. split; reflexivity.
        -- assert (o = GSubbed SubSocket [Join (ip_of_address (ANode n)) false] /\ r' = r) as (-> & ->) by (split; congruence). cbn [member member_calls]. rewrite andb_false_r, Ean. exact IH.
  - unfold udp_unsubscribe in E. rewrite Hnode in E. cbn [ids_ok port_ok ur_subs] in *. destruct q as [s1|s1|s1].
    + assert (Hne : N.eqb (ip_of_address (AMulticast s1)) (ip_of_address (ANode n)) = false) by (apply N.eqb_neq, ip_subject_node; assumption).
      assert (o = GUnsubbed [Leave (ip_of_address (AMulticast s1)) lok]) by congruence. subst o. assert (Er : ur_subs r' = subs_drop (PMsg s1) (ur_subs r)) by (injection E as <-; reflexivity).
      rewrite Er. cbn [member member_calls]. rewrite Hne. exact IH.
    + assert (Hmono : any_service (subs_drop (PReq s1) (ur_subs r)) = true -> any_service (ur_subs r) = true).
      { unfold any_service. cbn [subs_drop sb_req sb_resp]. destruct (sb_req (ur_subs r)); [exact (fun x => x)|reflexivity]. }
      destruct (any_service (subs_drop (PReq s1) (ur_subs r))) eqn:Ean.
      * assert (o = GUnsubbed []) by congruence. subst o. assert (Er : ur_subs r' = subs_drop (PReq s1) (ur_subs r)) by (injection E as <-; reflexivity). rewrite Er, Ean. cbn [member member_calls].
        rewrite IH. split; auto.
      * assert (o = GUnsubbed [Leave (ip_of_address (ANode n)) lok]) by congruence. subst o. assert (Er : ur_subs r' = subs_drop (PReq s1) (ur_subs r)) by (injection E as <-; reflexivity). rewrite Er, Ean. cbn [member member_calls].
        rewrite N.eqb_refl. reflexivity.
    + assert (Hmono : any_service (subs_drop (PResp s1) (ur_subs r)) = true -> any_service (ur_subs r) = true).
      { unfold any_service. cbn [subs_drop sb_req sb_resp]. destruct (sb_req (ur_subs r)); [|reflexivity]. destruct (sb_resp (ur_subs r)); [exact (fun x => x)|reflexivity]. }
      destruct (any_service (subs_drop (PResp s1) (ur_subs r))) eqn:Ean.
      * assert (o = GUnsubbed []) by congruence. subst o. assert (Er : ur_subs r' = subs_drop (PResp s1) (ur_subs r)) by (injection E as <-; reflexivity). rewrite Er, Ean. cbn [member member_calls].
        rewrite IH. split; auto.
      * assert (o = GUnsubbed [Leave (ip_of_address (ANode n)) lok]) by congruence. subst o. assert (Er : ur_subs r' = subs_drop (PResp s1) (ur_subs r)) by (injection E as <-; reflexivity). rewrite Er, Ean. cbn [member member_calls].
        rewrite N.eqb_refl. reflexivity.
Qed.
Print Assumptions C57_service_group_partial.

(** C57 fails when the node ID changes: node 1 subscribes to a request and becomes node 2; the subscription is in force, but
    the socket is a member of the group of node 1, not of node 2. *)
Theorem C57_set_id_refuted : exists h r,
  udp_hist 40 (Some 1) h r /\ udp_node (Some 1) h = Some 2 /\ udp_active (PReq 430) h <> None /\
  member (ip_of_address (ANode 2)) h = false /\ member (ip_of_address (ANode 1)) h = true.
Proof.
  exists [(OSetId (Some 2), GDone); (w_subscribe (PReq 430), GSubbed SubOk [Join (ip_of_address (ANode 1)) true])]. eexists.
  split; [|split; [reflexivity|split; [discriminate|split; reflexivity]]].
  eapply uh_step; [eapply uh_step; [apply uh_new|exact I|reflexivity]|exact I|reflexivity].
Qed.
Print Assumptions C57_set_id_refuted.

Example C57_witness : exists h r, udp_hist 40 (Some 1) h r /\ Forall (fun e => ids_ok (fst e) /\ forall i, fst e <> OSetId i) h /\
  member (ip_of_address (ANode 1)) h = true /\ udp_active (PReq 430) h = None /\ udp_active (PResp 430) h <> None.
Proof.
  exists [(OUnsub (PReq 430) true, GUnsubbed []); (w_subscribe (PResp 430), GSubbed SubOk []); (w_subscribe (PReq 430), GSubbed SubOk [Join (ip_of_address (ANode 1)) true])]. eexists.
  split; [|split; [|split; [reflexivity|split; [reflexivity|discriminate]]]].
  - eapply uh_step; [eapply uh_step; [eapply uh_step; [apply uh_new|exact I|reflexivity]|exact I|reflexivity]|exact I|reflexivity].
  - repeat constructor; cbn [fst ids_ok port_ok w_subscribe]; try lia; intros; discriminate.
Qed.

(** ** The receive call *)

Definition as_op (d : udgram) : list udp_op := match d with UPacket d now pa sa => [ODatagram d now pa sa] | _ => [] end.

(** C58: a receive call takes datagrams from the socket, handling each as above, until one gives a transfer or an error, or
    until the socket has none or fails; it reports this and takes no datagram more. *)
Theorem C58_receive : forall mtu r ds r' res rest,
  udp_receive mtu r ds = Ok (r', res, rest) ->
  exists skipped final, ds = skipped ++ final ++ rest /\
    udp_run mtu r (flat_map as_op (skipped ++ final)) = Ok (r', repeat (GGot UNone) (length skipped) ++
      match res with RTransfer t => [GGot (UDeliver t)] | RMemory => [GGot UMemory] | _ => [] end) /\
    match res with
    | RNothing => final = [UWouldBlock] \/ (final = [] /\ rest = [])
    | RSocket => final = [USockErr]
    | _ => exists d now pa sa, final = [UPacket d now pa sa]
    end.
Proof.
  intros mtu r ds. revert r. induction ds as [|x ds IH]; intros r r' res rest E; cbn [udp_receive] in E.
  - exists [], []. assert (r' = r /\ res = RNothing /\ rest = []) as (-> & -> & ->) by (repeat split; congruence). cbn. auto.
  - destruct x as [d now pa sa| |].
    + destruct (udp_accept mtu r d now pa sa) as [[r1 o]|] eqn:Ea; [|discriminate].
      destruct o as [|t|].
      * destruct (IH _ _ _ _ E) as (sk & fin & -> & Hrun & Hf). exists (UPacket d now pa sa :: sk), fin. split; [reflexivity|]. split; [|assumption].
        cbn [app flat_map as_op udp_run udp_step length repeat]. rewrite Ea, Hrun. reflexivity.
      * assert (r' = r1 /\ res = RTransfer t /\ rest = ds) as (-> & -> & ->) by (repeat split; congruence). exists [], [UPacket d now pa sa]. split; [reflexivity|].
        cbn [app flat_map as_op udp_run udp_step length repeat]. rewrite Ea. split; [reflexivity|eauto 6].
      * assert (r' = r1 /\ res = RMemory /\ rest = ds) as (-> & -> & ->) by (repeat split; congruence). exists [], [UPacket d now pa sa]. split; [reflexivity|].
        cbn [app flat_map as_op udp_run udp_step length repeat]. rewrite Ea. split; [reflexivity|eauto 6].
    + assert (r' = r /\ res = RNothing /\ rest = ds) as (-> & -> & ->) by (repeat split; congruence). exists [], [UWouldBlock]. cbn. auto.
    + assert (r' = r /\ res = RSocket /\ rest = ds) as (-> & -> & ->) by (repeat split; congruence). exists [], [USockErr]. cbn. auto.
Qed.
Print Assumptions C58_receive.

Example C58_witness : exists r d t, let ds := map (fun d => UPacket d 7 true true) (w_datagrams 40 (w_transfer 3 40)) in
  udp_run 40 (urx_new None) [w_subscribe (PMsg 1000)] = Ok (r, [GSubbed SubOk d]) /\
  match udp_receive 40 r (ds ++ [USockErr]) with Ok (_, res, rest) => res = RTransfer t /\ rest = [USockErr] | Panic => False end.
Proof. do 3 eexists. split; [vm_compute; reflexivity|]. vm_compute. auto. Qed.
