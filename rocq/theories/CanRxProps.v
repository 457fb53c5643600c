(** Property theorems for CAN reception (C18 to C24). *)
From Verif Require Import Base BitLemmas CoreModel CrcModel CrcProofs FilterModel CanIdModel CanSpec CanIdProofs CanTxModel CanTxSpec CanTxProofs
  CanQueueModel CanRxModel CanRxSpec CanRxProofs.

(** C18: a receiver with any history is subscribed to the port of a transfer [t] sent by node [s].  No frame from [s] on
    that port is pending that has this transfer ID or the next one, and a transfer with the same transfer ID was not
    delivered within the timeout.  It receives the frames [t] is cut into, in order, at any times.  Then the last frame,
    and no other, delivers the transfer: same header, with the time of the first frame, and the sent payload followed by
    the padding, cut to the maximum size. *)
Theorem C18_end_to_end : forall id h r t s mtu frames pad cid timeout max gs lb g0,
  can_hist id h r -> can_header_ok (t_header t) -> bytes_ok (t_payload t) -> h_source (t_header t) = Some s ->
  segmented mtu t frames pad cid -> id_means cid (t_header t) ->
  can_active (h_port (t_header t)) h = Some (timeout, max) ->
  (lb = true \/ forall d, h_dest (t_header t) = Some d -> can_node id h = Some d) ->
  Forall2 (fun f g => f_id g = f_id f /\ f_data g = f_data f /\ f_loop g = lb /\ frame_ok g) frames gs ->
  hd_error gs = Some g0 ->
  (forall g, In g (pending (h_port (t_header t)) s h) -> ~ with_tid (h_tid (t_header t)) g /\ ~ with_tid (tid_incr (h_tid (t_header t))) g) ->
  (forall d, last_delivery (h_port (t_header t)) s h = Some d -> h_tid (t_header d) = h_tid (t_header t) -> ~ recent timeout (f_ts g0) d) ->
  exists r', can_run r (map (fun g => CFrame g true) gs) =
    Ok (r', repeat (CGot RxNone) (length gs - 1) ++
            [CGot (RxTransfer (Transfer (h_set_ts (t_header t) (f_ts g0)) lb (firstn max (t_payload t ++ repeat 0 pad))))]).
Proof.
  intros id h r t s mtu frames pad cid timeout max gs lb g0 Hh Hok Hb Hsrc Hseg Hm Hact Hadm Hgs Hg0 Hpend Hlast.
  destruct Hseg as (chunks & Hcat & Hlen & Hsz & Hfl & Hfr).
  assert (Htid : h_tid (t_header t) <= 31) by apply Hok.
  assert (Htag : forall cs k fs gs', (forall i c, nth_error cs i = Some c -> nth_error fs i =
              Some (Frame (h_ts (t_header t)) cid (t_loopback t) (c ++ [tail_byte (k + i =? 0)%nat (S (k + i) =? length chunks)%nat (Nat.even (k + i)) (h_tid (t_header t))]))) ->
            length fs = length cs -> Forall2 (fun f g => f_id g = f_id f /\ f_data g = f_data f /\ f_loop g = lb /\ frame_ok g) fs gs' ->
            tagged_from (t_header t) lb cid (length chunks) k cs gs').
  { induction cs as [|c cs IH]; intros k fs gs' Hnth Hl H2.
    - destruct fs; [|discriminate]. inversion H2; subst. exact I.
    - destruct fs as [|f fs]; [discriminate|]. inversion H2 as [|? g ? gs2 (E1 & E2 & E3 & E4) H2']; subst. cbn [tagged_from]. split.
      + specialize (Hnth O c eq_refl). cbn [nth_error] in Hnth. injection Hnth as ->. rewrite Nat.add_0_r in *. cbn [f_id f_data] in *. auto.
      + apply (IH (S k) fs gs2); [|cbn [length] in Hl; lia|assumption]. intros i c' Hi. specialize (Hnth (S i) c' Hi). cbn [nth_error] in Hnth.
        rewrite Nat.add_succ_r in Hnth. exact Hnth. }
  specialize (Htag chunks O frames gs Hfr Hfl Hgs).
  pose proof (hist_chan id h r Hh (h_port (t_header t)) s) as Hc. destruct (chan r (h_port (t_header t)) s) as [[[to mx] st]|] eqn:Ec; [|congruence].
  destruct Hc as (Hc1 & Hinv). assert (Ee : (to, mx) = (timeout, max)) by congruence. injection Ee as -> ->.
  assert (Hne : chunks <> []) by (destruct chunks; [cbn [length] in Hlen; lia|discriminate]).
  assert (Hnth0 : nth_error gs 0 = Some g0) by (destruct gs; [discriminate|exact Hg0]).
  destruct (whole_run (t_header t) s lb cid (length chunks) Htid Hm Hsrc timeout max (can_node id h) r st chunks gs) as (r' & g1 & Eg & Erun); auto.
  - apply hist_id in Hh. assumption.
  - destruct (ss_session st) as [se|] eqn:Ese; [|auto]. right. intro E. destruct (ci_session _ _ _ _ _ Hinv se Ese) as ((g & Hg & Hw) & _). rewrite E in Hw.
    destruct (Hpend g Hg). auto.
  - rewrite Hnth0. intros g E (E1 & E2). injection E as <-. destruct (ci_expected _ _ _ _ _ Hinv) as [He|(g & Hg & Hw)].
    + destruct (last_delivery (h_port (t_header t)) s h) as [d|] eqn:Ed.
      * cbn [last_tid] in He. pose proof (last_delivery_tid id h r _ s d Hh Ed) as Hd31. rewrite He in E1.
        assert (Heq : h_tid (t_header d) = h_tid (t_header t)).
        { unfold tid_incr in E1. destruct (N.eqb_spec (h_tid (t_header t)) 31), (N.eqb_spec (h_tid (t_header d)) 31); lia. }
        apply (Hlast d eq_refl Heq). unfold tid_timed_out in E2. rewrite (ci_last _ _ _ _ _ Hinv), Ed in E2. cbn [option_map] in E2.
        unfold recent. destruct (t_since (f_ts g0) (h_ts (t_header d))) as [age|]; [|discriminate]. exists age. split; [reflexivity|]. apply N.ltb_ge in E2. assumption.
      * unfold tid_timed_out in E2. rewrite (ci_last _ _ _ _ _ Hinv), Ed in E2. discriminate.
    + rewrite <- E1 in Hw. destruct (Hpend g Hg). auto.
  - intro H1. rewrite Hcat. replace (1 <? length chunks)%nat with true by (symmetry; apply Nat.ltb_lt; assumption). rewrite app_assoc. split; [apply crc16_residue|].
    rewrite app_length, be16. cbn [length]. lia.
  - rewrite Hnth0 in Eg. injection Eg as <-. exists r'. rewrite Erun. do 7 f_equal. rewrite Hcat. destruct (1 <? length chunks)%nat.
    + rewrite app_assoc, app_length, be16. cbn [length]. rewrite Nat.add_sub, firstn_app, Nat.sub_diag, firstn_O, app_nil_r, firstn_all. reflexivity.
    + rewrite app_nil_r, Nat.sub_0_r, firstn_all. reflexivity.
Qed.
Print Assumptions C18_end_to_end.

(** C19: take away from any run of a receiver all frames that are not from [s] on port [p], and all subscription changes
    of other ports: the remaining operations have the same results as before, and no transfer from [s] on [p] came from
    an operation that was taken away. *)
Theorem C19_no_interference : forall r ops r' outs p s,
  Forall can_op_ok ops -> can_run r ops = Ok (r', outs) ->
  (exists r'', can_run r (filter (concerns p s) ops) = Ok (r'', map snd (filter (fun x => concerns p s (fst x)) (combine ops outs)))) /\
  (forall op t, In (op, CGot (RxTransfer t)) (combine ops outs) -> h_port (t_header t) = p -> h_source (t_header t) = Some s -> concerns p s op = true).
Proof.
  intros r ops r' outs p s Hok Hrun. split.
  - destruct (run_same p s ops Hok r r r' outs (conj eq_refl eq_refl) Hrun) as (r'' & E & _). eauto.
  - revert r outs Hrun. induction Hok as [|op ops Hop _ IH]; intros r outs Hrun; [intros ? ? []|]. cbn [can_run] in Hrun.
    destruct (can_step r op) as [[r1 o]|] eqn:Es; [|discriminate]. destruct (can_run r1 ops) as [[r2 os]|] eqn:Er; [|discriminate].
    injection Hrun as -> <-. cbn [combine]. intros op' t [Heq|Hin] Hp Hs; [|eauto]. injection Heq as <- ->.
    destruct op as [f mem|p' ti ma mem|p'|n]; cbn [can_step can_op_ok] in *; try discriminate.
    2: { destruct (rx_subscribe_port r p' ti ma mem). discriminate. }
    pose proof (accept_frame_route r mem f Hop) as H. destruct (accept_frame r mem f) as [[ra oa]|]; [|discriminate]. injection Es as <- ->.
    destruct (route (rx_id r) f) as [[hd tl]|] eqn:Ert; [|destruct H as (? & H & _); discriminate].
    destruct (route_spec _ _ _ _ Hop Ert) as (Efc & _). destruct (frame_check_spec _ _ _ Hop Efc) as (Hm & _ & _ & _ & Htail & _).
    destruct (find_sub r (h_port hd)) as [su|]; [|destruct H as (? & H & _); discriminate].
    assert (Hh : h_port (t_header t) = h_port hd /\ h_source (t_header t) = h_source hd).
    { unfold su_accept in H. destruct (h_source hd) as [n|] eqn:Ehs.
      - destruct (checked_accept (su_timeout su) (su_max su) mem (su_states su n) f hd tl) as [[st' o']|] eqn:Eca; [|discriminate].
        destruct H as (? & E & _). assert (Eo : conv (Some o') = RxTransfer t) by congruence. apply conv_done in Eo. injection Eo as ->.
        assert (Hset : t_header t = hd \/ exists now, t_header t = h_set_ts hd now).
        { clear - Eca.
          assert (Hna : forall st, accept_non_anonymous (su_max su) mem st f hd tl = Ok (st', SubDone t) -> t_header t = hd \/ exists now, t_header t = h_set_ts hd now).
          { intro st. unfold accept_non_anonymous, accept_with_session. destruct (tl_start tl && tl_end tl).
            - destruct (length (f_data f) =? 0)%nat; [discriminate|]. destruct (negb mem); [discriminate|]. intro E. left. assert (E' : t = Transfer hd (f_loop f) (firstn (Nat.min (su_max su) (length (f_data f) - 1)) (f_data f))) by congruence. rewrite E'. reflexivity.
            - assert (Hse : forall se se' t', se_accept se f hd = Ok (se', SeDone t') -> exists now, t_header t' = h_set_ts hd now).
              { intros se se' t'. unfold se_accept. destruct (negb (Bool.eqb (f_loop f) (se_loop se))); [discriminate|].
                destruct (bu_add (se_bu se) (f_data f)) as [[b' []]|]; try discriminate. intro E. exists (se_ts se). assert (Et : t' = Transfer (h_set_ts hd (se_ts se)) (se_loop se) payload) by congruence. rewrite Et. reflexivity. }
              destruct (ss_session st) as [se|].
              + destruct (se_accept se f hd) as [[se' []]|] eqn:Ea; try discriminate. intro E. right. apply Hse in Ea. assert (t0 = t) by congruence. subst. assumption.
              + destruct (negb (tl_start tl)); [discriminate|]. destruct (negb mem); [discriminate|].
                destruct (se_accept _ f hd) as [[se' []]|] eqn:Ea; try discriminate. intro E. right. apply Hse in Ea. assert (t0 = t) by congruence. subst. assumption. }
          unfold checked_accept in Eca. destruct (tl_tid tl =? ss_expected (su_states su n)); [eauto|]. destruct (_ && _); [discriminate|eauto]. }
        rewrite <- Ehs. destruct Hset as [->|(now & ->)]; [auto|]. rewrite h_port_set, h_source_set. auto.
      - destruct (accept_anonymous mem f hd) as [o'|] eqn:Ea; [|discriminate]. destruct H as (? & E & _). assert (Eo : conv (Some o') = RxTransfer t) by congruence.
        pose proof (accept_anonymous_spec _ _ _ _ _ _ _ _ _ Ea Eo Htail) as ->. auto. }
    destruct Hh as (H1 & H2). cbn [concerns]. apply (sent_by_iff p s f hd Hm). split; congruence.
Qed.
Print Assumptions C19_no_interference.

(** C18 + C19: the same with the frames of the transfer mixed with any other frames and subscription changes that do not
    concern the port and the source. *)
Theorem C18_end_to_end_interleaved : forall id h r t s mtu frames pad cid timeout max gs lb g0 ops r1 outs,
  can_hist id h r -> can_header_ok (t_header t) -> bytes_ok (t_payload t) -> h_source (t_header t) = Some s ->
  segmented mtu t frames pad cid -> id_means cid (t_header t) ->
  can_active (h_port (t_header t)) h = Some (timeout, max) ->
  (lb = true \/ forall d, h_dest (t_header t) = Some d -> can_node id h = Some d) ->
  Forall2 (fun f g => f_id g = f_id f /\ f_data g = f_data f /\ f_loop g = lb /\ frame_ok g) frames gs ->
  hd_error gs = Some g0 ->
  (forall g, In g (pending (h_port (t_header t)) s h) -> ~ with_tid (h_tid (t_header t)) g /\ ~ with_tid (tid_incr (h_tid (t_header t))) g) ->
  (forall d, last_delivery (h_port (t_header t)) s h = Some d -> h_tid (t_header d) = h_tid (t_header t) -> ~ recent timeout (f_ts g0) d) ->
  Forall can_op_ok ops -> can_run r ops = Ok (r1, outs) ->
  filter (concerns (h_port (t_header t)) s) ops = map (fun g => CFrame g true) gs ->
  map snd (filter (fun x => concerns (h_port (t_header t)) s (fst x)) (combine ops outs)) =
    repeat (CGot RxNone) (length gs - 1) ++
      [CGot (RxTransfer (Transfer (h_set_ts (t_header t) (f_ts g0)) lb (firstn max (t_payload t ++ repeat 0 pad))))].
Proof.
  intros id h r t s mtu frames pad cid timeout max gs lb g0 ops r1 outs Hh Hok Hb Hsrc Hseg Hm Hact Hadm Hgs Hg0 Hpend Hlast Hops Hrun Hfilter.
  destruct (C18_end_to_end id h r t s mtu frames pad cid timeout max gs lb g0 Hh Hok Hb Hsrc Hseg Hm Hact Hadm Hgs Hg0 Hpend Hlast) as (r' & E).
  destruct (C19_no_interference r ops r1 outs (h_port (t_header t)) s Hops Hrun) as ((r'' & E') & _). rewrite Hfilter, E in E'. congruence.
Qed.
Print Assumptions C18_end_to_end_interleaved.

(** C20: after a transfer [t] was delivered from [s] on [p], frames from [s] on [p] with its transfer ID that arrive within
    the timeout (all of its frames again, or some, in any order, any number of times) deliver nothing. *)
Theorem C20_no_duplicates : forall id later f mem t earlier r p s timeout max,
  can_hist id (later ++ (CFrame f mem, CGot (RxTransfer t)) :: earlier) r ->
  h_port (t_header t) = p -> h_source (t_header t) = Some s -> can_active p earlier = Some (timeout, max) ->
  (forall op o, In (op, o) later ->
     match op with
     | CFrame g _ => sent_by p s g = true -> with_tid (h_tid (t_header t)) g /\ recent timeout (f_ts g) t
     | CSub p' _ _ _ | CUnsub p' => p' <> p
     | CSetId _ => True
     end) ->
  forall g mem' t', In (CFrame g mem', CGot (RxTransfer t')) later -> sent_by p s g = false.
Proof.
  intros id later f mem t earlier r p s timeout max Hh Hp Hs Hact Hlater.
  assert (Hind : forall l r, can_hist id (l ++ (CFrame f mem, CGot (RxTransfer t)) :: earlier) r -> (forall x, In x l -> In x later) ->
    (exists st, chan r p s = Some (timeout, max, st) /\ ss_expected st = tid_incr (h_tid (t_header t)) /\ ss_last st = Some (h_ts (t_header t))) /\
    forall g mem' t', In (CFrame g mem', CGot (RxTransfer t')) l -> sent_by p s g = false).
  { induction l as [|[op o] l IH]; intros r0 H0 Hin.
    - cbn [app] in H0. inversion H0 as [|h0 r1 op0 r' o0 Hh0 Hok0 E0]; subst. cbn [can_step] in E0. destruct (accept_frame r1 mem f) as [[r2 o2]|] eqn:Ea; [|discriminate].
      injection E0 as -> ->. cbn [can_op_ok] in Hok0. destruct (delivery _ _ _ _ _ _ _ Hh0 Hok0 Ea) as (hd & tl & ti & mx & Ec & Hadm & Hact' & (now & Hnow) & _).
      destruct (frame_check_spec _ _ _ Hok0 Ec) as (Hm & Hts & Htid & _ & Htail & _).
      assert (Hps : h_port hd = h_port (t_header t) /\ h_source hd = Some s) by (rewrite Hnow, h_port_set, h_source_set in *; auto).
      assert (Hsb : sent_by (h_port (t_header t)) s f = true) by (apply (sent_by_iff _ s f hd Hm), Hps).
      pose proof (accept_frame_chan r1 mem f (h_port (t_header t)) s Hok0) as Hch. rewrite Ea in Hch. destruct Hch as (_ & Hch).
      unfold for_channel in Hch. rewrite Hsb in Hch. rewrite (hist_id _ _ _ Hh0) in Hch. unfold route in Hch. rewrite Ec, Hadm in Hch.
      pose proof (hist_chan id earlier r1 Hh0 (h_port (t_header t)) s) as Hinv.
      destruct (chan r1 (h_port (t_header t)) s) as [[[ti' mx'] st]|]; [|congruence]. destruct Hinv as (Hact2 & Hinv).
      assert (E3 : (ti', mx') = (timeout, max)) by congruence. injection E3 as -> ->.
      destruct Hch as (st' & o' & Eca & Eo & Hch). pose proof (checked_accept_spec (h_port (t_header t)) s earlier timeout max mem st f hd tl Hinv Htail Htid Hts) as Hsp.
      rewrite Eca, <- Eo in Hsp. destruct Hsp as (_ & _ & H1 & H2 & _). split; [eauto|]. intros ? ? ? [].
    - cbn [app] in H0. inversion H0 as [|h0 r1 op0 r' o0 Hh0 Hok0 E0]; subst op0 o0 h0 r'.
      destruct (IH r1 Hh0 (fun x Hx => Hin x (or_intror Hx))) as ((st & Hc & He & Hl) & Hrest). specialize (Hlater op o (Hin _ (or_introl eq_refl))).
      destruct op as [g mem0|p' ti ma mem0|p'|n].
      + cbn [can_step can_op_ok] in *. pose proof (accept_frame_chan r1 mem0 g p s Hok0) as Hch. destruct (accept_frame r1 mem0 g) as [[r2 o2]|]; [|discriminate].
        injection E0 as -> <-. destruct Hch as (_ & Hch). rewrite Hc in Hch.
        destruct (for_channel (rx_id r1) p s g) as [[hd tl]|] eqn:Efc.
        * assert (Hsb : sent_by p s g = true). { unfold for_channel in Efc. destruct (route (rx_id r1) g) as [[]|]; [|discriminate]. destruct (sent_by p s g); [reflexivity|discriminate]. }
          destruct (Hlater Hsb) as (Hw & (age & Hage & Hto)).
          assert (Hr : route (rx_id r1) g = Some (hd, tl)). { unfold for_channel in Efc. destruct (route (rx_id r1) g) as [[]|]; [|discriminate]. rewrite Hsb in Efc. assumption. }
          destruct (route_spec _ _ _ _ Hok0 Hr) as (Ec & _). destruct (frame_check_spec _ _ _ Hok0 Ec) as (_ & _ & _ & _ & (Ht31 & body & Hd) & _).
          assert (Etid : tl_tid tl = h_tid (t_header t)).
          { destruct Hw as (a & b & c & (Ht & body' & Hd')). rewrite Hd in Hd'. apply app_inj_tail in Hd' as (_ & Hd').
            pose proof (f_equal (fun x => tl_tid (parse_tail x)) Hd') as E. cbv beta in E. rewrite !parse_tail_byte in E by assumption. exact E. }
          assert (Eca : checked_accept timeout max mem0 st g hd tl = Ok (st, SubNone)).
          { unfold checked_accept. rewrite Etid, He. rewrite N.eqb_refl.
            replace (h_tid (t_header t) =? tid_incr (h_tid (t_header t))) with false by (symmetry; apply N.eqb_neq; unfold tid_incr; destruct (N.eqb_spec (h_tid (t_header t)) 31); lia).
            unfold tid_timed_out. rewrite Hl, Hage. replace (timeout <? age) with false by (symmetry; apply N.ltb_ge; assumption). reflexivity. }
          destruct Hch as (st' & o' & Eca' & -> & Hch). rewrite Eca in Eca'. injection Eca' as <- <-. split; [eauto|].
          intros g' mem' t' [E|Hi]; [discriminate|eauto].
        * destruct Hch as (Hch & Hnone). split; [exists st; rewrite Hch; auto|]. intros g' mem' t' [E|Hi]; [|eauto]. injection E as -> -> ->.
          destruct (sent_by p s g'); [|reflexivity]. specialize (Hnone eq_refl). discriminate.
      + rewrite (step_chan_other _ _ _ _ p s E0) by discriminate. destruct (port_eqb_spec p' p); [congruence|]. split; [eauto|]. intros g' mem' t' [E|Hi]; [discriminate|eauto].
      + rewrite (step_chan_other _ _ _ _ p s E0) by discriminate. destruct (port_eqb_spec p' p); [congruence|]. split; [eauto|]. intros g' mem' t' [E|Hi]; [discriminate|eauto].
      + rewrite (step_chan_other _ _ _ _ p s E0) by discriminate. split; [eauto|]. intros g' mem' t' [E|Hi]; [discriminate|eauto]. }
  destruct (Hind later r Hh (fun x H => H)) as (_ & H). exact H.
Qed.
Print Assumptions C20_no_duplicates.

(** C21: a delivered transfer has what the identifier and the tail byte of the frame that completed it say; its port is
    subscribed; a service transfer that is not a loopback transfer is addressed to this node. *)
Theorem C21_only_wanted : forall id h r f mem t,
  can_hist id ((CFrame f mem, CGot (RxTransfer t)) :: h) r ->
  can_active (h_port (t_header t)) h <> None /\
  id_means (f_id f) (t_header t) /\ with_tid (h_tid (t_header t)) f /\ t_loopback t = f_loop f /\
  (t_loopback t = false -> forall d, h_dest (t_header t) = Some d -> can_node id h = Some d).
Proof.
  intros id h r f mem t H. inversion H as [|h0 r1 op0 r' o0 Hh Hok E]; subst. cbn [can_step can_op_ok] in *.
  destruct (accept_frame r1 mem f) as [[r2 o2]|] eqn:Ea; [|discriminate]. injection E as -> ->.
  destruct (delivery _ _ _ _ _ _ _ Hh Hok Ea) as (hd & tl & timeout & max & Ec & Hadm & Hact & (now & Hnow) & Hlb & _).
  destruct (frame_check_spec _ _ _ Hok Ec) as (Hm & Hts & Htid & _ & Htail & _). rewrite Hnow.
  split; [rewrite h_port_set; congruence|]. split; [apply id_means_set, Hm|]. split; [rewrite h_tid_set, Htid; do 3 eexists; exact Htail|]. split; [assumption|].
  intros Hl d Hd. rewrite h_dest_set in Hd. unfold admits in Hadm. rewrite Hd in Hadm. rewrite <- Hlb, Hl in Hadm. cbn [orb] in Hadm.
  destruct (can_node id h) as [n|]; [|discriminate]. apply N.eqb_eq in Hadm. congruence.
Qed.
Print Assumptions C21_only_wanted.

(** C22, for transfers that are not anonymous: the payload is at most the subscribed size.  Anonymous transfers are not
    cut, see [C22_anonymous_refuted]. *)
Theorem C22_payload_limit_partial : forall id h r f mem t timeout max,
  can_hist id ((CFrame f mem, CGot (RxTransfer t)) :: h) r -> h_source (t_header t) <> None ->
  can_active (h_port (t_header t)) h = Some (timeout, max) -> (length (t_payload t) <= max)%nat.
Proof.
  intros id h r f mem t timeout max H Hs Hact. inversion H as [|h0 r1 op0 r' o0 Hh Hok E]; subst. cbn [can_step can_op_ok] in *.
  destruct (accept_frame r1 mem f) as [[r2 o2]|] eqn:Ea; [|discriminate]. injection E as -> ->.
  destruct (delivery _ _ _ _ _ _ _ Hh Hok Ea) as (hd & tl & ti & mx & Ec & Hadm & Hact' & (now & Hnow) & Hlb & Hd).
  rewrite Hnow, h_port_set in Hact. rewrite Hnow, h_source_set in Hs. assert (Em : mx = max) by congruence. subst mx.
  destruct (h_source hd); [|congruence]. destruct (tl_start tl && tl_end tl).
  - destruct Hd as (-> & _). rewrite firstn_length. lia.
  - destruct Hd as (_ & fs & _ & _ & _ & _ & ->). rewrite firstn_length. lia.
Qed.
Print Assumptions C22_payload_limit_partial.

(** C24, one frame: a transfer that came in one frame has the bytes of that frame, cut to the maximum size. *)
Theorem C24_single_frame : forall id h r f mem t timeout max toggle tid,
  can_hist id ((CFrame f mem, CGot (RxTransfer t)) :: h) r -> h_source (t_header t) <> None ->
  can_active (h_port (t_header t)) h = Some (timeout, max) -> has_tail f true true toggle tid ->
  h_tid (t_header t) = tid /\ h_ts (t_header t) = f_ts f /\ t_payload t = firstn max (frame_body f).
Proof.
  intros id h r f mem t timeout max toggle tid H Hs Hact Htl. inversion H as [|h0 r1 op0 r' o0 Hh Hok E]; subst. cbn [can_step can_op_ok] in *.
  destruct (accept_frame r1 mem f) as [[r2 o2]|] eqn:Ea; [|discriminate]. injection E as -> ->.
  destruct (delivery _ _ _ _ _ _ _ Hh Hok Ea) as (hd & tl & ti & mx & Ec & Hadm & Hact' & (now & Hnow) & Hlb & Hd).
  rewrite Hnow, h_port_set in Hact. rewrite Hnow, h_source_set in Hs. assert (Em : mx = max) by congruence. subst mx.
  destruct (frame_check_spec _ _ _ Hok Ec) as (Hm & Hts & Htid & _ & (Ht31 & body & Hb) & _).
  destruct Htl as (Ht & body' & Hb'). rewrite Hb in Hb'. apply app_inj_tail in Hb' as (_ & Hb').
  pose proof (f_equal parse_tail Hb') as E. rewrite !parse_tail_byte in E by assumption. injection E as E1 E2 E3 E4.
  destruct (h_source hd); [|congruence]. rewrite E1, E2 in Hd. cbn [andb] in Hd. destruct Hd as (Hp & Hhd). rewrite Hhd. repeat split; congruence.
Qed.
Print Assumptions C24_single_frame.

(** C24: a transfer without a source is the body of one frame with the start, end and toggle bits. *)
Theorem C24_anonymous : forall id h r f mem t,
  can_hist id ((CFrame f mem, CGot (RxTransfer t)) :: h) r -> h_source (t_header t) = None ->
  has_tail f true true true (h_tid (t_header t)) /\ h_ts (t_header t) = f_ts f /\ t_payload t = frame_body f.
Proof.
  intros id h r f mem t H Hs. inversion H as [|h0 r1 op0 r' o0 Hh Hok E]; subst. cbn [can_step can_op_ok] in *.
  destruct (accept_frame r1 mem f) as [[r2 o2]|] eqn:Ea; [|discriminate]. injection E as -> ->.
  destruct (delivery _ _ _ _ _ _ _ Hh Hok Ea) as (hd & tl & ti & mx & Ec & Hadm & Hact' & (now & Hnow) & Hlb & Hd).
  rewrite Hnow, h_source_set in Hs. rewrite Hs in Hd. subst t. cbn [t_header t_payload].
  destruct (frame_check_spec _ _ _ Hok Ec) as (Hm & Hts & Htid & _ & Htail & Han). destruct (Han Hs) as (E1 & E2 & E3). rewrite E1, E2, E3 in Htail.
  rewrite Htid. auto.
Qed.
Print Assumptions C24_anonymous.

(** C24: a transfer completed by a frame that is not a whole transfer is made of frames [fs ++ [f]] from the same source on
    the same port, received in this order since the subscription and since the last delivery from that source on that port:
    the first has the start bit, the last the end bit, the toggle bits alternate, transfer ID and loopback flag are the
    same throughout; the CRC over all their bytes is correct, and the payload is these bytes without the CRC, cut to
    the maximum size.  The time is that of one of the frames. *)
Theorem C24_intact : forall id h r f mem t timeout max s stop start toggle tid,
  can_hist id ((CFrame f mem, CGot (RxTransfer t)) :: h) r -> h_source (t_header t) = Some s ->
  can_active (h_port (t_header t)) h = Some (timeout, max) -> has_tail f start stop toggle tid -> start && stop = false ->
  h_tid (t_header t) = tid /\ (exists g, In g (pending (h_port (t_header t)) s h ++ [f]) /\ h_ts (t_header t) = f_ts g) /\
  exists fs, subseq fs (pending (h_port (t_header t)) s h) /\ multiframe tid (t_loopback t) (fs ++ [f]) /\
    exists data crc, contents (fs ++ [f]) = data ++ crc /\ crc = be_bytes 2 (crc16 data) /\ t_payload t = firstn max data.
Proof.
  intros id h r f mem t timeout max s stop start toggle tid H Hs Hact Htl Hse. inversion H as [|h0 r1 op0 r' o0 Hh Hok E]; subst. cbn [can_step can_op_ok] in *.
  destruct (accept_frame r1 mem f) as [[r2 o2]|] eqn:Ea; [|discriminate]. injection E as -> ->.
  destruct (delivery _ _ _ _ _ _ _ Hh Hok Ea) as (hd & tl & ti & mx & Ec & Hadm & Hact' & (now & Hnow) & Hlb & Hd).
  rewrite Hnow, h_port_set in Hact. rewrite Hnow, h_source_set in Hs. assert (Em : mx = max) by congruence. subst mx.
  destruct (frame_check_spec _ _ _ Hok Ec) as (Hm & Hts & Htid & _ & (Ht31 & body & Hb) & _).
  destruct Htl as (Ht & body' & Hb'). rewrite Hb in Hb'. apply app_inj_tail in Hb' as (_ & Hb').
  pose proof (f_equal parse_tail Hb') as E. rewrite !parse_tail_byte in E by assumption. injection E as E1 E2 E3 E4.
  rewrite Hs, E1, E2, Hse in Hd. split; [rewrite Hnow, h_tid_set; congruence|].
  destruct Hd as ((g0 & Hg0 & Hgt) & fs & Hsub & Hmf & Hcrc & Hlen & Hp). split; [exists g0; split; [rewrite Hnow, h_port_set; assumption|congruence]|].
  clear g0 Hg0 Hgt.
  rewrite Hnow, h_port_set. exists fs. split; [assumption|]. split; [rewrite Hlb, <- E4; assumption|].
  set (C := contents (fs ++ [f])) in *. exists (firstn (length C - 2) C), (skipn (length C - 2) C). rewrite firstn_skipn. split; [reflexivity|]. split; [|assumption].
  assert (Hbytes : bytes_ok C).
  { assert (Hall : forall g, In g (fs ++ [f]) -> bytes_ok (frame_body g)).
    { assert (Hbody : forall g, frame_ok g -> bytes_ok (frame_body g)).
      { intros g (_ & _ & Hg). unfold frame_body, bytes_ok in *. destruct (f_data g) as [|b l] using rev_ind; [constructor|]. rewrite removelast_last. apply Forall_app in Hg. apply Hg. }
      intros g Hg. apply in_app_or in Hg as [Hg|[<-|[]]]; [|apply Hbody, Hok]. apply Hbody.
      assert (Hin : In g (pending (h_port hd) s h)). { clear - Hsub Hg. induction Hsub as [|x l m Hs IH|x l m Hs IH]; [destruct Hg|right; auto|destruct Hg as [<-|Hg]; [left; reflexivity|right; auto]]. }
      clear - Hh Hin. induction Hh as [|h r op r' o Hh IH Hok E]; [destruct Hin|]. destruct op as [f mem|p' timeout max mem|p'|n]; cbn [pending can_op_ok] in *; [| |auto|auto].
      - destruct (sent_by (h_port hd) s f); [|auto]. destruct o as [[| |]| |]; try (apply in_app_or in Hin as [Hin|[<-|[]]]; auto). destruct Hin.
      - destruct o as [|[]|]; auto. destruct (port_eqb p' (h_port hd)); [destruct Hin|auto]. }
    unfold C, contents, bytes_ok. apply Forall_concat, Forall_forall. intros x Hx. apply in_map_iff in Hx as (g & <- & Hg). apply Hall, Hg. }
  clearbody C. assert (Hsplit : exists d a b, C = d ++ [a; b]).
  { pose proof (firstn_skipn (length C - 2) C) as Hfs. pose proof (skipn_length (length C - 2) C) as Hl.
    destruct (skipn (length C - 2) C) as [|a [|b [|c l]]]; cbn [length] in Hl; try lia. exists (firstn (length C - 2) C), a, b. symmetry. exact Hfs. }
  destruct Hsplit as (d & a & b & ->). rewrite app_length. cbn [length]. rewrite Nat.add_sub.
  replace (skipn (length d) (d ++ [a; b])) with [a; b] by (rewrite skipn_app, skipn_all, Nat.sub_diag; reflexivity).
  replace (firstn (length d) (d ++ [a; b])) with d by (rewrite firstn_app, firstn_all, Nat.sub_diag, firstn_O, app_nil_r; reflexivity).
  unfold bytes_ok in Hbytes. apply Forall_app in Hbytes as (_ & Hab). apply crc16_residue_inv; [| |assumption].
  - apply Forall_inv in Hab. assumption.
  - apply Forall_inv_tail, Forall_inv in Hab. assumption.
Qed.
Print Assumptions C24_intact.

(** C23, if every first frame of a longer transfer carries at least two bytes: no operation panics.  Without this,
    [payload_size -= 2] underflows, see [C23_short_transfer_refuted]. *)
Definition start_long (op : can_op) : Prop :=
  match op with
  | CFrame f _ => forall toggle tid, has_tail f true false toggle tid -> (2 <= length (frame_body f))%nat
  | _ => True
  end.
Theorem C23_no_panic_partial : forall id h r op,
  can_hist id h r -> can_op_ok op -> (forall op' o, In (op', o) h -> start_long op') -> start_long op -> can_step r op <> Panic.
Proof.
  intros id h r op Hh Hok Hlong _. destruct op as [f mem|p ti ma mem|p|n]; cbn [can_step can_op_ok] in *; try discriminate.
  2: { destruct (rx_subscribe_port r p ti ma mem). discriminate. }
  pose proof (accept_frame_route r mem f Hok) as H. destruct (route (rx_id r) f) as [[hd tl]|] eqn:Er; [|destruct H as (? & -> & _); discriminate].
  destruct (route_spec _ _ _ _ Hok Er) as (Ec & _). destruct (frame_check_spec _ _ _ Hok Ec) as (Hm & Hts & Htid & _ & Htail & _).
  destruct (find_sub r (h_port hd)) as [su|] eqn:Efs; [|destruct H as (? & -> & _); discriminate].
  unfold su_accept in H. destruct (h_source hd) as [s|] eqn:Es.
  - pose proof (hist_chan id h r Hh (h_port hd) s) as Hinv. unfold chan in Hinv. rewrite Efs in Hinv. destruct Hinv as (_ & Hinv).
    pose proof (checked_accept_spec (h_port hd) s h (su_timeout su) (su_max su) mem (su_states su s) f hd tl Hinv Htail Htid Hts) as Hca.
    destruct (checked_accept _ _ mem (su_states su s) f hd tl) as [[st' o']|].
    + destruct H as (? & -> & _). discriminate.
    + exfalso. destruct Hca as (fs & Hsub & Hlen & Hpf & Hst & Hen & Hne). destruct fs as [|g fs]; [congruence|]. destruct (Hpf O g eq_refl) as (_ & Hg).
      assert (Hin : In g (pending (h_port hd) s h)).
      { clear - Hsub. revert Hsub. generalize (pending (h_port hd) s h). intros l Hs. remember (g :: fs) as gf eqn:E. induction Hs as [|x l m Hs IH|x l m Hs IH]; [discriminate|right; auto|injection E as -> _; left; reflexivity]. }
      assert (Hev : exists mem' o', In (CFrame g mem', o') h).
      { clear - Hin. induction h as [|[op o] h IH]; [destruct Hin|]. destruct op as [f mem|p' ti ma mem|p'|n]; cbn [pending] in Hin.
        - destruct (sent_by (h_port hd) s f).
          + assert (Hin' : In g (pending (h_port hd) s h ++ [f])) by (destruct o as [[]| |]; [assumption|destruct Hin|assumption..]).
            apply in_app_or in Hin' as [Hin'|[<-|[]]]; [destruct (IH Hin') as (m & o' & ?); exists m, o'; right; assumption|exists mem, o; left; reflexivity].
          + destruct (IH Hin) as (m & o' & ?). exists m, o'. right. assumption.
        - assert (Hin' : In g (pending (h_port hd) s h)) by (destruct o as [|[]|]; [assumption| |assumption..]; destruct (port_eqb p' (h_port hd)); [destruct Hin|assumption]).
          destruct (IH Hin') as (m & o' & ?). exists m, o'. right. assumption.
        - destruct (IH Hin) as (m & o' & ?). exists m, o'. right. assumption.
        - destruct (IH Hin) as (m & o' & ?). exists m, o'. right. assumption. }
      destruct Hev as (mem' & o' & Hev). pose proof (Hlong _ _ Hev) as Hl. cbn [start_long] in Hl. change (0 =? 0)%nat with true in Hg. specialize (Hl _ _ Hg).
      unfold contents in Hlen. rewrite map_app, concat_app in Hlen. cbn [map concat] in Hlen. rewrite !app_length in Hlen. lia.
  - unfold accept_anonymous in H. destruct Htail as (_ & body & Hd). rewrite Hd, app_length, Nat.add_1_r in H. cbn [length Nat.eqb] in H.
    destruct (negb mem); destruct H as (? & -> & _); discriminate.
Qed.
Print Assumptions C23_no_panic_partial.

(** C23 fails without the hypothesis: a first frame and a last frame, both without payload, make the receiver panic (in a
    build with overflow checks). *)
Theorem C23_short_transfer_refuted : exists ops,
  Forall can_op_ok ops /\ can_run (rx_new None) ops = Panic.
Proof.
  exists [CSub (PMsg 10) 1000 100 true; CFrame (Frame 5 0x10600a07 false [0xa0]) true; CFrame (Frame 6 0x10600a07 false [0x40]) true].
  split; [|vm_compute; reflexivity]. repeat constructor.
Qed.
Print Assumptions C23_short_transfer_refuted.

(** C22 fails for anonymous transfers: seven bytes are delivered to a subscriber that asked for at most two. *)
Theorem C22_anonymous_refuted : exists h r f mem t timeout max,
  can_hist None ((CFrame f mem, CGot (RxTransfer t)) :: h) r /\ can_active (h_port (t_header t)) h = Some (timeout, max) /\
  ~ (length (t_payload t) <= max)%nat.
Proof.
  exists [(CSub (PMsg 10) 1000 2 true, CSubbed SubscribeOk)]. eexists. exists (Frame 5 0x11600a07 false [1;2;3;4;5;6;7;0xe3]), true. do 3 eexists. split; [|split].
  - eapply ch_step.
    + eapply ch_step; [apply ch_new|exact I|reflexivity].
    + split; [reflexivity|]. split; [reflexivity|]. repeat constructor.
    + vm_compute. reflexivity.
  - reflexivity.
  - vm_compute. lia.
Qed.
Print Assumptions C22_anonymous_refuted.

(** Witnesses.  Node 7 sends a message of eight bytes on subject 10, twice, mixed with frames of node 8. *)
Definition w_id7 := 0x10600a07. Definition w_id8 := 0x10600a08.
Definition w_a1 ts := Frame ts w_id7 false [1;1;1;1;1;1;1;0xa3].
Definition w_a2 ts := Frame ts w_id7 false [1;0x43;0xe9;0x43].
Definition w_b ts := Frame ts w_id8 false [9;9;0xe3].
Definition w_ops := [CSub (PMsg 10) 1000 5 true; CFrame (w_a1 100) true; CFrame (w_b 101) true; CFrame (w_a2 102) true;
                     CFrame (w_a1 200) true; CFrame (w_a2 201) true; CFrame (w_b 202) true].
Example CanRx_run : exists r, can_run (rx_new (Some 3)) w_ops =
  Ok (r, [CSubbed SubscribeOk; CGot RxNone; CGot (RxTransfer (Transfer (HMsg (MsgH 101 3 4 10 (Some 8))) false [9;9]));
          CGot (RxTransfer (Transfer (HMsg (MsgH 100 3 4 10 (Some 7))) false [1;1;1;1;1]));
          CGot RxNone; CGot RxNone; CGot RxNone]).
Proof. eexists. vm_compute. reflexivity. Qed.

Lemma run_hist id ops : forall h r r' outs, can_hist id h r -> Forall can_op_ok ops -> can_run r ops = Ok (r', outs) -> can_hist id (rev (combine ops outs) ++ h) r'.
Proof.
  induction ops as [|op ops IH]; intros h r r' outs Hh Hok E; cbn [can_run] in E.
  - injection E as <- <-. assumption.
  - destruct (can_step r op) as [[r1 o]|] eqn:Es; [|discriminate]. destruct (can_run r1 ops) as [[r2 os]|] eqn:Er; [|discriminate]. injection E as -> <-.
    cbn [combine rev]. rewrite <- app_assoc. cbn [app]. apply (IH _ r1); [|apply Forall_inv_tail in Hok; assumption|assumption]. eapply ch_step; [eassumption|apply Forall_inv in Hok; assumption|assumption].
Qed.

Lemma w_ops_ok : Forall can_op_ok w_ops.
Proof. repeat constructor. Qed.

(** the history of the witnesses, latest first *)
Definition w_t7 := Transfer (HMsg (MsgH 100 3 4 10 (Some 7))) false [1;1;1;1;1].
Definition w_t8 := Transfer (HMsg (MsgH 101 3 4 10 (Some 8))) false [9;9].
Definition w_hist :=
  [(CFrame (w_b 202) true, CGot RxNone); (CFrame (w_a2 201) true, CGot RxNone); (CFrame (w_a1 200) true, CGot RxNone);
   (CFrame (w_a2 102) true, CGot (RxTransfer w_t7)); (CFrame (w_b 101) true, CGot (RxTransfer w_t8)); (CFrame (w_a1 100) true, CGot RxNone);
   (CSub (PMsg 10) 1000 5 true, CSubbed SubscribeOk)].
Lemma w_hist_ok : exists r, can_hist (Some 3) w_hist r.
Proof. destruct CanRx_run as (r & E). exists r. exact (run_hist _ _ _ _ _ _ (ch_new _) w_ops_ok E). Qed.

(** C18: the hypotheses hold for the first transfer, after the subscription *)
Definition c18_transfer := Transfer (HMsg (MsgH 5 3 4 10 (Some 7))) false (repeat 1 8).
Example C18_witness : let t := c18_transfer in
  exists r frames, can_hist None [(CSub (PMsg 10) 1000 5 true, CSubbed SubscribeOk)] r /\ can_header_ok (t_header t) /\ bytes_ok (t_payload t) /\
    segmented 8 t frames 0 w_id7 /\ id_means w_id7 (t_header t) /\ frames = [w_a1 5; w_a2 5] /\
    Forall2 (fun f g => f_id g = f_id f /\ f_data g = f_data f /\ f_loop g = false /\ frame_ok g) frames [w_a1 100; w_a2 102] /\
    pending (PMsg 10) 7 [(CSub (PMsg 10) 1000 5 true, CSubbed SubscribeOk)] = [].
Proof.
  eexists. exists [w_a1 5; w_a2 5]. split; [eapply ch_step; [apply ch_new|exact I|reflexivity]|].
  split; [unfold can_header_ok; cbn; repeat split; try lia; intros s E; injection E as <-; lia|]. split; [repeat constructor|]. split.
  { exists [[1;1;1;1;1;1;1]; [1;0x43;0xe9]]. split; [vm_compute; reflexivity|]. split; [cbn; lia|]. split.
    - intros [|[|[]]] c E; try discriminate; injection E as <-; cbn; lia.
    - split; [reflexivity|]. intros [|[|[]]] c E; try discriminate; injection E as <-; reflexivity. }
  split; [vm_compute; repeat split|]. split; [reflexivity|]. split; [|reflexivity].
  repeat constructor.
Qed.

(** C19: taking away node 8 does not change what node 7's frames deliver *)
Example C19_witness : Forall can_op_ok w_ops /\ (exists r outs, can_run (rx_new (Some 3)) w_ops = Ok (r, outs)) /\
  filter (concerns (PMsg 10) 7) w_ops = [CSub (PMsg 10) 1000 5 true; CFrame (w_a1 100) true; CFrame (w_a2 102) true; CFrame (w_a1 200) true; CFrame (w_a2 201) true].
Proof. split; [exact w_ops_ok|]. split; [destruct CanRx_run as (r & E); eauto|vm_compute; reflexivity]. Qed.

(** C20: the second copy of the message of node 7 is a duplicate *)
Example C20_witness : exists r,
  can_hist (Some 3) (firstn 3 w_hist ++ (CFrame (w_a2 102) true, CGot (RxTransfer w_t7)) :: skipn 4 w_hist) r /\
  can_active (PMsg 10) (skipn 4 w_hist) = Some (1000, 5%nat) /\
  (forall op o, In (op, o) (firstn 3 w_hist) ->
     match op with
     | CFrame g _ => sent_by (PMsg 10) 7 g = true -> with_tid 3 g /\ recent 1000 (f_ts g) w_t7
     | CSub p' _ _ _ | CUnsub p' => p' <> PMsg 10
     | CSetId _ => True
     end).
Proof.
  destruct w_hist_ok as (r & H). exists r. split; [exact H|]. split; [reflexivity|].
  intros op o [E|[E|[E|[]]]]; injection E as <- <-.
  - vm_compute. discriminate.
  - intros _. split; [exists false, true, false; split; [lia|exists [1;0x43;0xe9]; reflexivity]|]. exists 101. split; [vm_compute; reflexivity|lia].
  - intros _. split; [exists true, false, true; split; [lia|exists [1;1;1;1;1;1;1]; reflexivity]|]. exists 100. split; [vm_compute; reflexivity|lia].
Qed.

(** C21, C22, C24: deliveries exist, of one frame and of two *)
Example C24_witness : (exists r, can_hist (Some 3) ((CFrame (w_a2 102) true, CGot (RxTransfer w_t7)) :: skipn 4 w_hist) r) /\
  (exists r, can_hist (Some 3) ((CFrame (w_b 101) true, CGot (RxTransfer w_t8)) :: skipn 5 w_hist) r) /\
  has_tail (w_a2 102) false true false 3 /\ has_tail (w_b 101) true true true 3 /\ pending (PMsg 10) 7 (skipn 4 w_hist) = [w_a1 100] /\
  subseq [w_a1 100] (pending (PMsg 10) 7 (skipn 4 w_hist)) /\ multiframe 3 false [w_a1 100; w_a2 102].
Proof.
  destruct w_hist_ok as (r & H).
  inversion H as [|h1 r1 o1 r1' x1 H1 _ _]; subst. inversion H1 as [|h2 r2 o2 r2' x2 H2 _ _]; subst. inversion H2 as [|h3 r3 o3 r3' x3 H3 _ _]; subst.
  split; [exists r3; exact H3|]. inversion H3 as [|h4 r4 o4 r4' x4 H4 _ _]; subst. split; [exists r4; exact H4|].
  split; [split; [lia|]; exists [1;0x43;0xe9]; reflexivity|]. split; [split; [lia|]; exists [9;9]; reflexivity|].
  split; [vm_compute; reflexivity|]. split; [vm_compute; apply ss_take, ss_nil|]. split; [cbn; lia|].
  intros [|[|[]]] f E; try discriminate; cbn [nth_error] in E.
  - injection E as <-. split; [reflexivity|]. split; [lia|]. exists [1;1;1;1;1;1;1]. reflexivity.
  - injection E as <-. split; [reflexivity|]. split; [lia|]. exists [1;0x43;0xe9]. reflexivity.
Qed.

(** C23: the frames of the witness meet the hypothesis *)
Example C23_witness : forall op o, In (op, o) w_hist -> start_long op.
Proof.
  assert (H : forall f, (length (f_data f) <> 1 /\ length (f_data f) <> 2)%nat -> forall g t, has_tail f true false g t -> (2 <= length (frame_body f))%nat).
  { intros f H g t (_ & body & Hd). rewrite (frame_body_snoc f _ _ Hd). rewrite Hd, app_length in H. cbn [length] in H. lia. }
  intros op o Hin. cbn [In w_hist] in Hin. decompose [or] Hin; try contradiction; match goal with E : (_, _) = (_, _) |- _ => injection E as <- <- end; cbn [start_long]; try exact I;
  apply H; cbn; lia.
Qed.
