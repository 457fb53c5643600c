(** Proofs about whole serial nodes. *)
From Verif Require Import Base BitLemmas CoreModel NodeModel NodeSpec NodeProofs NodeProps BusSpec BusProofs NetSpec NetProofs CanNodeModel CanNodeSpec CanNodeProofs CanNodeTotalProofs
  CrcModel CrcProofs TabModel TabProofs CobsModel CobsSpec CobsProofs HeaderModel HeaderSpec HeaderProofs SerialModel SerialSpec SerialProofs SerialProps SerialNodeModel SerialNodeSpec SerialNodeProofs.

Ltac Zify.zify_post_hook ::= Z.div_mod_to_equations.
Local Strategy 1000 [core_step serial_push handle_byte receive wire_frame frame_data].

(** * What an operation pushes *)

Inductive effect64 (id0 : option N) (h : list entry) : op -> list call -> out -> Prop :=
| eff_quiet o calls r : (forall t, ~ In (CPush t) calls) -> quiet o r -> effect64 id0 h o calls r
| eff_message lb subject payload e timeout prio : pub_started subject h = Some (timeout, prio) ->
    effect64 id0 h (Publish lb subject payload e) [CPush (Transfer (HMsg (MsgH ((e_now e + timeout) mod 2 ^ 32) (pub_count subject h mod tid_range Transport64) prio subject (id_after id0 h))) lb payload)]
      (match e_push e with PushOk => ODone | PushWouldBlock => OWouldBlock | PushError err => OError err end)
| eff_request lb service payload server e timeout prio source : req_started service h = Some (timeout, prio) -> id_after id0 h = Some source ->
    effect64 id0 h (SendRequest lb service payload server e) [CPush (Transfer (HReq (SvcH ((e_now e + timeout) mod 2 ^ 32) (req_count service server h mod tid_range Transport64) prio service source server)) lb payload)]
      (match e_push e with PushOk => OTransferId (req_count service server h mod tid_range Transport64) | PushWouldBlock => OWouldBlock | PushError err => OError err end)
| eff_response k timeout payload e source : id_after id0 h = Some source ->
    effect64 id0 h (SendResponse k timeout payload e) [CPush (Transfer (HResp (SvcH ((e_now e + timeout) mod 2 ^ 32) (rt_transfer k) (rt_priority k) (rt_service k) source (rt_client k))) false payload)]
      (match e_push e with PushOk => ODone | PushWouldBlock => OWouldBlock | PushError err => OError err end).

Lemma dest64 k d : kind_ok Transport64 k -> destination_ok k d.
Proof. destruct k; [exact (fun _ => I)|discriminate] || (destruct k; [discriminate|exact (fun _ => I)]). Qed.
Lemma step_effect64 k P R id0 h n o n' calls r : kind_ok Transport64 k -> core_hist (core_new Transport64 k P R id0) h n -> core_step n o = (n', calls, r) -> r <> OPanic -> effect64 id0 h o calls r.
Proof.
  intros Hk Hh E Hr. pose proof (hist_inv _ _ _ _ _ _ _ Hk Hh) as V. destruct o; cbn [core_step] in E.
  - unfold start_publishing in E. destruct (im_get _ _); [|destruct (im_insert _ _ _ _)]; injection E as _ <- <-; apply eff_quiet; try exact I; not_pushed.
  - unfold stop_publishing in E. injection E as _ <- <-; apply eff_quiet; try exact I; not_pushed.
  - change (core_step n (Publish loopback subject payload e) = (n', calls, r)) in E. rewrite (publish_spec _ _ _ _ _ _ _ loopback subject payload e V) in E.
    destruct (pub_started subject h) as [ [tmo prio]|] eqn:Es; [|injection E as _ <- <-; apply eff_quiet; [not_pushed|exact I] ].
    destruct (serialize_ok e payload); injection E as _ <- <-; [apply eff_message; exact Es|apply eff_quiet; [not_pushed|exact I] ].
  - unfold start_sending_requests in E. destruct (c_id n); [|injection E as _ <- <-; apply eff_quiet; [not_pushed|exact I] ].
    destruct (im_get _ _); [injection E as _ <- <-; apply eff_quiet; [not_pushed|exact I]|]. destruct (im_insert _ _ _ _); [|injection E as _ <- <-; apply eff_quiet; [not_pushed|exact I] ].
    destruct answer; injection E as _ <- <-; apply eff_quiet; try exact I; not_pushed.
  - unfold stop_sending_requests in E. injection E as _ <- <-; apply eff_quiet; try exact I; not_pushed.
  - change (core_step n (SendRequest loopback service payload destination e) = (n', calls, r)) in E.
    pose proof (send_request_spec _ _ _ _ _ _ _ loopback service payload destination e V (dest64 _ _ Hk)) as S.
    destruct (req_started service h) as [ [tmo prio]|] eqn:Es; [|rewrite S in E; injection E as _ _ <-; congruence]. destruct (id_after id0 h) as [source|] eqn:Ei; [|rewrite S in E; injection E as _ _ <-; congruence].
    destruct S as [ (_ & S)|(_ & _ & tr' & _ & S)]; rewrite S in E; injection E as _ <- <-; [apply eff_quiet; [not_pushed|exact I]|]. apply eff_request; assumption.
  - injection E as _ <- <-. apply eff_quiet; [not_pushed|exact I].
  - injection E as _ <- <-. apply eff_quiet; [not_pushed|exact I].
  - injection E as _ <- <-. apply eff_quiet; [not_pushed|exact I].
  - injection E as _ <- <-. apply eff_quiet; [not_pushed|exact I].
  - unfold send_response in E. rewrite (i_id _ _ _ _ _ _ _ V) in E. destruct (serialize_ok e payload); [|injection E as _ <- <-; apply eff_quiet; [not_pushed|exact I] ].
    destruct (id_after id0 h) as [source|] eqn:Ei; injection E as _ <- <-; [|congruence]. apply eff_response. exact Ei.
  - unfold set_node_id in E. injection E as _ <- <-. apply eff_quiet; [not_pushed|exact I].
Qed.
Lemma allowed_ok64 k P R id0 h n o n' calls r : kind_ok Transport64 k -> core_hist (core_new Transport64 k P R id0) h n -> (forall s, req_started s h <> None -> id_after id0 h <> None) -> call_allowed id0 h o -> core_step n o = (n', calls, r) -> r <> OPanic.
Proof.
  intros Hk H Hid Ha E. pose proof (hist_inv _ _ _ _ _ _ _ Hk H) as V. destruct o.
  - cbn [core_step] in E. unfold start_publishing in E. destruct (im_get _ _); [|destruct (im_insert _ _ _ _)]; injection E as _ _ <-; discriminate.
  - cbn [core_step] in E. injection E as _ _ <-. discriminate.
  - cbn [core_step] in E. unfold publish in E. destruct (im_get _ _); [|injection E as _ _ <-; discriminate]. unfold publisher_publish in E. destruct (serialize_ok _ _); injection E as _ _ <-; [destruct (e_push e)|]; discriminate.
  - cbn [core_step] in E. unfold start_sending_requests in E. destruct (c_id n); [|injection E as _ _ <-; discriminate]. destruct (im_get _ _); [injection E as _ _ <-; discriminate|].
    destruct (im_insert _ _ _ _); [|injection E as _ _ <-; discriminate]. destruct answer; injection E as _ _ <-; discriminate.
  - cbn [core_step] in E. injection E as _ _ <-. discriminate.
  - cbn [call_allowed] in Ha.
    pose proof (send_request_spec _ _ _ _ _ _ _ loopback service payload destination e V (dest64 _ _ Hk)) as K. pose proof (Hid service Ha) as Hi. destruct (req_started service h) as [ [tmo prio]|]; [|congruence]. destruct (id_after id0 h); [|congruence].
    destruct K as [(_ & K)|(_ & _ & tr' & _ & K)]; rewrite K in E; injection E as _ _ <-; [discriminate|destruct (e_push e); discriminate].
  - cbn [core_step] in E. injection E as _ _ <-. destruct answer; discriminate.
  - cbn [core_step] in E. injection E as _ _ <-. discriminate.
  - cbn [core_step] in E. injection E as _ _ <-. destruct answer; discriminate.
  - cbn [core_step] in E. injection E as _ _ <-. discriminate.
  - cbn [core_step call_allowed] in *. unfold send_response in E. rewrite (i_id _ _ _ _ _ _ _ V) in E. destruct (serialize_ok _ _); [|injection E as _ _ <-; discriminate]. destruct (id_after id0 h); [|congruence]. injection E as _ _ <-. destruct (e_push e); discriminate.
  - cbn [core_step] in E. unfold set_node_id in E. injection E as _ _ <-. discriminate.
Qed.

Definition all_fine (h : list entry) : Prop := Forall (fun en => serial_call_fine (fst (fst en))) h.
Definition id_fine (id0 : option N) : Prop := forall j, id0 = Some j -> j < 65535.
Lemma id_after_fine64 id0 h : id_fine id0 -> all_fine h -> id_fine (id_after id0 h).
Proof.
  intros H0. induction 1 as [| [ [o calls] r] h Ho _ IH]; cbn [id_after]; [exact H0|]. cbn [fst] in Ho. destruct o; try exact IH. intros i E. injection E as <-. exact Ho.
Qed.
Lemma effect64_fine id0 h o calls r t : id_fine id0 -> all_fine h -> serial_call_fine o -> effect64 id0 h o calls r -> In (CPush t) calls -> core_header_ok (t_header t) /\ bytes_ok (t_payload t).
Proof.
  intros H0 Hh Ho He Hi. assert (Hin : forall en, In en h -> serial_call_fine (fst (fst en))) by (unfold all_fine in Hh; rewrite Forall_forall in Hh; exact Hh). pose proof (id_after_fine64 _ _ H0 Hh) as Hid.
  assert (B' : forall a, a mod tid_range Transport64 < 2 ^ 64) by (intro a; apply N.mod_lt; discriminate).
  inversion He as [o' c' r' Hn Hq|lb subject payload e timeout prio Es|lb service payload server e timeout prio source Es Ei|k timeout payload e source Ei]; subst; [destruct (Hn t Hi)| | |]; destruct Hi as [Hi|[] ]; injection Hi as <-; cbn [t_header t_payload serial_call_fine] in *.
  - destruct Ho as (Ho & Hb). destruct (pub_started_in _ _ _ _ Es) as (c & r0 & Hs). destruct (Hin _ Hs) as (_ & Hp). cbn [fst] in Hp. split; [|exact Hb]. cbn [core_header_ok mh_tid mh_prio mh_subject mh_source]. split; [apply B'|]. split; [exact Hp|]. split; [exact Ho|].
    destruct (id_after id0 h) as [j|]; [exact (Hid j eq_refl)|exact I].
  - destruct Ho as (Ho & Hd & Hb). destruct (req_started_in _ _ _ _ Es) as (m & a & c & r0 & Hs). destruct (Hin _ Hs) as (_ & Hp). cbn [fst] in Hp. split; [|exact Hb].
    cbn [core_header_ok]. unfold svc_ok. cbn [sh_prio sh_tid sh_ts sh_service sh_source sh_dest]. split; [apply B'|]. split; [exact Hp|]. split; [exact Ho|]. split; [exact (Hid _ Ei)|exact Hd].
  - destruct Ho as (K1 & K2 & K3 & K4 & Hb). split; [|exact Hb]. cbn [core_header_ok]. unfold svc_ok. cbn [sh_prio sh_tid sh_ts sh_service sh_source sh_dest]. split; [exact K3|]. split; [exact K4|]. split; [exact K1|]. split; [exact (Hid _ Ei)|exact K2].
Qed.

(** * A step of a node *)

Definition receiver_op (mem : bool) (c : call) : option rxop :=
  match c with
  | CPush _ => None
  | CSubMessage s max timeout => Some (XSub (PMsg s) max timeout mem)
  | CSubRequest s max timeout => Some (XSub (PReq s) max timeout mem)
  | CSubResponse s max timeout => Some (XSub (PResp s) max timeout mem)
  | CUnsubMessage s => Some (XUnsub (PMsg s))
  | CUnsubRequest s => Some (XUnsub (PReq s))
  | CUnsubResponse s => Some (XUnsub (PResp s))
  | NodeModel.CSetId id => Some (XSetId (Some id))
  end.
Inductive sperformed (cap : nat) (mem : bool) (q : list N) (r : rx) : list call -> list N -> rx -> push_result -> sub_result -> Prop :=
| sp_none a b : sperformed cap mem q r [] q r a b
| sp_push t q' (ok : bool) b : serial_push cap q t mem = Ok (ok, q') -> sperformed cap mem q r [CPush t] q' r (if ok then PushOk else PushError EOutOfMemory) b
| sp_op c op r' ro a : receiver_op mem c = Some op -> rx_step r op = Ok (r', ro) -> sperformed cap mem q r [c] q r' a (serial_answer ro).

Lemma serial_perform_inv cap mem calls n q r i o z' a b : serial_perform cap mem calls (SerialNode n q r i o) = Ok (z', a, b) ->
  sn_core z' = n /\ sn_in z' = i /\ sn_out z' = o /\ sperformed cap mem q r calls (sn_queue z') (sn_receiver z') a b.
Proof.
  unfold serial_perform. intro E.
  assert (S : forall c p timeout max, receiver_op mem c = Some (XSub p max timeout mem) ->
    (let '(r', a) := rx_subscribe r p max timeout mem in Ok (SerialNode n q r' i o, PushOk, serial_answer a)) = Ok (z', a, b) ->
    sn_core z' = n /\ sn_in z' = i /\ sn_out z' = o /\ sperformed cap mem q r [c] (sn_queue z') (sn_receiver z') a b).
  { clear E. intros c p timeout max Hc E. destruct (rx_subscribe r p max timeout mem) as [r' ro] eqn:Es. injection E as <- <- <-. split; [reflexivity|]. split; [reflexivity|]. split; [reflexivity|]. cbn [sn_queue sn_receiver].
    eapply sp_op; [exact Hc|]. cbn [rx_step]. rewrite Es. reflexivity. }
  assert (U : forall c op r', receiver_op mem c = Some op -> rx_step r op = Ok (r', ONone) -> Ok (SerialNode n q r' i o, PushOk, SubOk) = Ok (z', a, b) ->
    sn_core z' = n /\ sn_in z' = i /\ sn_out z' = o /\ sperformed cap mem q r [c] (sn_queue z') (sn_receiver z') a b).
  { clear E. intros c op r' Hc Es E. injection E as <- <- <-. split; [reflexivity|]. split; [reflexivity|]. split; [reflexivity|]. cbn [sn_queue sn_receiver]. exact (sp_op _ _ _ _ _ _ _ _ _ Hc Es). }
  destruct calls as [|c [|c2 cs] ]; [|destruct c as [t|s m t|s m t|s m t|s|s|s|id]|destruct c; discriminate E].
  - injection E as <- <- <-. split; [reflexivity|]. split; [reflexivity|]. split; [reflexivity|]. constructor.
  - destruct (serial_push cap q t mem) as [ [ok q']|] eqn:Ep; [|discriminate E]. destruct ok; injection E as <- <- <-; (split; [reflexivity|]); (split; [reflexivity|]); (split; [reflexivity|]); cbn [sn_queue sn_receiver].
    + exact (sp_push _ _ _ _ _ _ true _ Ep).
    + exact (sp_push _ _ _ _ _ _ false _ Ep).
  - exact (S (CSubMessage s m t) (PMsg s) t m eq_refl E).
  - exact (S (CSubRequest s m t) (PReq s) t m eq_refl E).
  - exact (S (CSubResponse s m t) (PResp s) t m eq_refl E).
  - exact (U (CUnsubMessage s) (XUnsub (PMsg s)) _ eq_refl eq_refl E).
  - exact (U (CUnsubRequest s) (XUnsub (PReq s)) _ eq_refl eq_refl E).
  - exact (U (CUnsubResponse s) (XUnsub (PResp s)) _ eq_refl eq_refl E).
  - exact (U (NodeModel.CSetId id) (XSetId (Some id)) _ eq_refl eq_refl E).
Qed.
Lemma serial_call_inv cap o mem n q r i out z' res : serial_node_step cap (SnCall o mem) (SerialNode n q r i out) = Ok (z', res) ->
  exists a b calls ro, res = SrCall (with_answers a b o) calls ro /\ core_step n (with_answers a b o) = (sn_core z', calls, ro) /\ ro <> OPanic /\ sn_in z' = i /\ sn_out z' = out /\
    sperformed cap mem q r calls (sn_queue z') (sn_receiver z') a b.
Proof.
  cbn [serial_node_step]. intro E. destruct (core_step n o) as [ [n0 c0] r0] eqn:E0. destruct (serial_perform cap mem c0 _) as [ [ [z1 a] b]|] eqn:Ep; [|discriminate E].
  destruct (serial_perform_inv _ _ _ _ _ _ _ _ _ _ _ Ep) as (H1 & H2 & H3 & H4). destruct (core_step n (with_answers a b o)) as [ [n' c'] ro] eqn:E1.
  pose proof (same_calls _ _ _ _ _ _ _ _ _ _ E0 E1) as ->. assert (Ho : ro <> OPanic) by (intros ->; discriminate E).
  assert (E' : Ok (SerialNode n' (sn_queue z1) (sn_receiver z1) (sn_in z1) (sn_out z1), SrCall (with_answers a b o) c0 ro) = Ok (z', res)) by (destruct ro; try exact E; congruence).
  injection E' as <- <-. exists a, b, c0, ro. split; [reflexivity|]. split; [exact E1|]. split; [exact Ho|]. split; [exact H2|]. split; [exact H3|exact H4].
Qed.
Lemma serial_answers_fine a b o : serial_call_fine o -> serial_call_fine (with_answers a b o).
Proof. destruct o; exact (fun H => H). Qed.

(** The transfers accepted, oldest first *)
Definition pushes (calls : list call) : list transfer := flat_map (fun c => match c with CPush t => [t] | _ => [] end) calls.
Definition taken1 (en : entry) : list transfer := match en with (_, calls, r) => match r with ODone | OTransferId _ => pushes calls | _ => [] end end.
Fixpoint taken (h : list entry) : list transfer := match h with [] => [] | en :: h' => taken h' ++ taken1 en end.

Lemma flush_link : forall q k o q' k' o' a, serial_flush link_send (k, o) q = (q', (k', o'), a) -> o' ++ q' = o ++ q /\ (length q' <= length q)%nat.
Proof.
  induction q as [|b q IH]; intros k o q' k' o' a E; cbn [serial_flush] in E.
  - injection E as <- <- <- <-. split; [reflexivity|lia].
  - destruct k as [|k]; cbn [link_send] in E.
    + injection E as <- <- <- <-. split; [reflexivity|lia].
    + destruct (IH _ _ _ _ _ _ E) as (H1 & H2). split; [rewrite H1, <- app_assoc; reflexivity|cbn [length]; lia].
Qed.

Lemma push_cases cap q t mem : (length q <= cap)%nat -> exists (ok : bool) q', serial_push cap q t mem = Ok (ok, q') /\ (length q' <= cap)%nat /\ q' = q ++ if ok then wire_frame t else [].
Proof.
  intro Hq. rewrite serial_push_spec by exact Hq. destruct (_ && mem) eqn:Eb.
  - exists true, (q ++ wire_frame t). split; [reflexivity|]. split; [|reflexivity]. apply andb_true_iff in Eb. destruct Eb as (Eb & _). apply Nat.leb_le in Eb.
    pose proof (enc_le_escaped (frame_data t)) as He. rewrite frame_data_length in He. unfold wire_frame. rewrite !app_length. cbn [length]. lia.
  - exists false, q. split; [reflexivity|]. split; [exact Hq|rewrite app_nil_r; reflexivity].
Qed.

Lemma path_sender cap k P R id0 h z : kind_ok Transport64 k -> serial_path cap (serial_node_new k P R id0) h z ->
  core_hist (core_new Transport64 k P R id0) (serial_calls h) (sn_core z) /\ all_fine (serial_calls h) /\ (length (sn_queue z) <= cap)%nat /\ sn_out z ++ sn_queue z = flat_map wire_frame (taken (serial_calls h)).
Proof.
  intro Hk. induction 1 as [|h [n q r i o] ev z' res H (I1 & I2 & I3 & I4) Hf E].
  - split; [constructor|]. split; [constructor|]. split; [apply Nat.le_0_l|reflexivity].
  - cbn [sn_core sn_queue sn_out] in *. destruct ev as [op mem|kb|now limit clock mem smem|b].
    + destruct (serial_call_inv _ _ _ _ _ _ _ _ _ _ E) as (a & b & calls & ro & -> & E1 & Hro & Hi & Hout & Hp). cbn [serial_calls flat_map snd app]. fold (serial_calls h).
      assert (Hh : core_hist (core_new Transport64 k P R id0) ((with_answers a b op, calls, ro) :: serial_calls h) (sn_core z')) by (econstructor; eassumption).
      pose proof (step_effect64 _ _ _ _ _ _ _ _ _ _ Hk I1 E1 Hro) as He. split; [exact Hh|]. split; [constructor; [apply serial_answers_fine; exact Hf|exact I2]|]. cbn [taken]. rewrite flat_map_app, <- I4, Hout, <- app_assoc.
      pose proof (answers_answered a b op) as Han. inversion Hp as [a1 b1 Ec|t q' ok b1 Ep Ec|c rop r' rr a1 Hop Es Ec]; subst.
      * split; [exact I3|]. f_equal. cbn [taken1]. destruct ro; cbn [pushes flat_map app]; rewrite ?app_nil_r; reflexivity.
      * destruct (push_cases cap q t mem I3) as (ok' & q1 & Ep' & Hl & Hq). rewrite Ep' in Ep. injection Ep as <- Eq. rewrite <- Eq. split; [exact Hl|]. f_equal. rewrite Hq. f_equal.
        inversion He as [o' c' r' Hn Hq1|lb subject payload e timeout prio Es X1 X2 X3|lb service payload server e timeout prio source Es Ei X1 X2 X3|kk timeout payload e source Ei X1 X2 X3]; subst.
        -- destruct (Hn t (or_introl eq_refl)).
        -- rewrite <- X1 in Han. cbn [answered] in Han. rewrite Han. destruct ok'; cbn [taken1 pushes flat_map app]; rewrite ?app_nil_r; reflexivity.
        -- rewrite <- X1 in Han. cbn [answered] in Han. rewrite Han. destruct ok'; cbn [taken1 pushes flat_map app]; rewrite ?app_nil_r; reflexivity.
        -- rewrite <- X1 in Han. cbn [answered] in Han. rewrite Han. destruct ok'; cbn [taken1 pushes flat_map app]; rewrite ?app_nil_r; reflexivity.
      * split; [exact I3|]. f_equal. assert (Hps : pushes [c] = []) by (destruct c; try reflexivity; discriminate Hop). cbn [taken1]. rewrite Hps. destruct ro; cbn [flat_map]; rewrite ?app_nil_r; reflexivity.
    + cbn [serial_node_step] in E. destruct (serial_flush link_send (kb, o) q) as [ [q' [k' o'] ] a] eqn:Ef. injection E as <- <-. destruct (flush_link _ _ _ _ _ _ _ Ef) as (F1 & F2). cbn [sn_core sn_queue sn_out serial_calls flat_map snd app].
      split; [exact I1|]. split; [exact I2|]. split; [lia|]. rewrite F1. exact I4.
    + cbn [serial_node_step] in E. destruct (receive r now _) as [ [ [r' a] rest]|]; [|discriminate E]. injection E as <- <-. cbn [sn_core sn_queue sn_out serial_calls flat_map snd app]. auto.
    + injection E as <- <-. cbn [sn_core sn_queue sn_out serial_calls flat_map snd app]. auto.
Qed.

(** * What the receiver does *)

Definition dop (d : dbyte) : list rxop := match d with BByte b now a s => [XByte b now a s] | _ => [] end.
Lemma loop_ops : forall ds r r' o rest, (forall d, In d ds -> exists b now a s, d = BByte b now a s) -> receive_loop r ds = Ok (r', o, rest) ->
  exists used outs, ds = used ++ rest /\ rx_run r (flat_map dop used) = Ok (r', outs) /\ flat_map got outs = got o.
Proof.
  induction ds as [|d ds IH]; intros r r' o rest Hd E; cbn [receive_loop] in E.
  - injection E as <- <- <-. exists [], []. split; [reflexivity|]. split; reflexivity.
  - destruct (Hd d (or_introl eq_refl)) as (b & now & a & s & ->). destruct (handle_byte r b now a s) as [ [r1 o1]|] eqn:Eh; [|discriminate E].
    assert (K : o1 <> ONone -> Ok (r1, o1, ds) = Ok (r', o, rest) -> exists used outs, BByte b now a s :: ds = used ++ rest /\ rx_run r (flat_map dop used) = Ok (r', outs) /\ flat_map got outs = got o).
    { intros _ E1. injection E1 as <- <- <-. exists [BByte b now a s], [o1]. split; [reflexivity|]. cbn [flat_map dop app rx_run rx_step]. rewrite Eh. split; [reflexivity|apply app_nil_r]. }
    destruct o1; try (apply K; [discriminate|exact E]). destruct (IH _ _ _ _ (fun d' Hi => Hd d' (or_intror Hi)) E) as (used & outs & -> & H2 & H3).
    exists (BByte b now a s :: used), (ONone :: outs). split; [reflexivity|]. cbn [flat_map dop app rx_run rx_step]. rewrite Eh, H2. split; [reflexivity|exact H3].
Qed.
Lemma link_prefix limit clock mem smem : forall bytes start used rest, map (fun e => BByte (snd e) (clock (fst e)) (mem (fst e)) (smem (fst e))) (combine (seq start limit) bytes) = used ++ rest ->
  flat_map op_byte (flat_map dop used) ++ skipn (length used) bytes = bytes /\ Forall (fun op => exists b now s k, op = XByte b now (mem k) s) (flat_map dop used).
Proof.
  induction limit as [|limit IH]; intros bytes start used rest E.
  - destruct used; [|discriminate E]. split; [reflexivity|constructor].
  - destruct used as [|d used]; [split; [reflexivity|constructor]|]. destruct bytes as [|b bytes]; [discriminate E|]. cbn [seq combine map fst snd app] in E. injection E as <- E. destruct (IH _ _ _ _ E) as (H1 & H2).
    cbn [flat_map dop app op_byte length skipn]. split; [f_equal; exact H1|]. constructor; [eexists _, _, _, _; reflexivity|exact H2].
Qed.

Definition keeps_node (op : rxop) : Prop := forall i, op <> XSetId i.
Lemma path_receiver cap z0 h z : serial_path cap z0 h z -> exists ops outs, rx_run (sn_receiver z0) ops = Ok (sn_receiver z, outs) /\ flat_map op_byte ops ++ sn_in z = sn_in z0 ++ serial_bytes h /\ flat_map got outs = serial_got h /\
  (forall p, keeps_port p (serial_calls h) -> keeps_id (serial_calls h) -> payloads_fit h -> Forall (op_leaves p) ops) /\ (keeps_id (serial_calls h) -> Forall keeps_node ops).
Proof.
  induction 1 as [|h [n q r i o] ev z' res H (ops & outs & I1 & I2 & I3 & I4 & I5) Hf E].
  - exists [], []. split; [reflexivity|]. split; [rewrite app_nil_r; reflexivity|]. split; [reflexivity|split; constructor].
  - cbn [sn_receiver sn_in] in *.
    assert (Hpay : payloads_fit ((ev, res) :: h) -> payloads_fit h) by (intros Hp ? ? ? ? ? ? Hi; eapply Hp; right; exact Hi).
    destruct ev as [op mem|kb|now limit clock mem smem|b].
    + destruct (serial_call_inv _ _ _ _ _ _ _ _ _ _ E) as (a & b & calls & ro & -> & E1 & Hro & Hi & Hout & Hp). cbn [serial_calls flat_map snd app serial_got serial_bytes]. fold (serial_calls h). rewrite Hi.
      assert (K1 : forall p, keeps_port p ((with_answers a b op, calls, ro) :: serial_calls h) -> keeps_port p (serial_calls h)) by (intros p Hk o1 c1 r1 c2 Hin; apply (Hk o1 c1 r1 c2); right; exact Hin).
      assert (Hset : keeps_id ((with_answers a b op, calls, ro) :: serial_calls h) -> forall i0, calls <> [NodeModel.CSetId i0]).
      { intros H2 i0 ->. pose proof (core_calls _ _ _ _ _ E1) as Hc. destruct op; cbn [with_answers calls_of] in Hc; try (destruct Hc as [Hc|(? & Hc)]; discriminate Hc); try (destruct Hc as [(Hc & _)|(Hc & _)]; discriminate Hc); try (destruct Hc as (Hc & _); discriminate Hc); try discriminate Hc.
        exact (H2 _ _ _ (or_introl eq_refl)). }
      inversion Hp as [a1 b1 Ec|t q' ok b1 Ep Ec|c rop r' rr a1 Hop Es Ec]; subst.
      * exists ops, outs. split; [assumption|]. split; [exact I2|]. split; [exact I3|]. split; [intros p H1 H2 H3; exact (I4 p (K1 p H1) (keeps_id_tail _ _ H2) (Hpay H3))|intro H2; exact (I5 (keeps_id_tail _ _ H2))].
      * exists ops, outs. split; [assumption|]. split; [exact I2|]. split; [exact I3|]. split; [intros p H1 H2 H3; exact (I4 p (K1 p H1) (keeps_id_tail _ _ H2) (Hpay H3))|intro H2; exact (I5 (keeps_id_tail _ _ H2))].
      * exists (ops ++ [rop]), (outs ++ [rr]). split; [rewrite rx_run_app, I1; cbn [rx_run]; rewrite Es; reflexivity|].
        assert (Hb : op_byte rop = [] /\ got rr = []).
        { destruct c; try discriminate Hop; injection Hop as <-; cbn [rx_step op_byte] in *; (split; [reflexivity|]).
          1-3: injection Es as Es; unfold rx_subscribe in Es; repeat match type of Es with context [match ?x with _ => _ end] => destruct x end; injection Es as _ <-; reflexivity.
          all: injection Es as _ <-; reflexivity. }
        destruct Hb as (Hb & Hg). rewrite !flat_map_app. cbn [flat_map]. rewrite Hb, Hg, !app_nil_r. split; [exact I2|]. split; [exact I3|].
        split; [|intro H2; apply Forall_app; split; [exact (I5 (keeps_id_tail _ _ H2))|constructor; [intros i0 ->; destruct c; try discriminate Hop; injection Hop as <-; exact (Hset H2 _ eq_refl)|constructor] ] ].
        intros p H1 H2 H3. apply Forall_app. split; [exact (I4 p (K1 p H1) (keeps_id_tail _ _ H2) (Hpay H3))|].
        constructor; [|constructor]. specialize (H1 _ _ _ c (or_introl eq_refl) (or_introl eq_refl)). destruct c; try discriminate Hop; injection Hop as <-; cbn [op_leaves call_port] in *; try congruence.
        exact (Hset H2 _ eq_refl).
    + cbn [serial_node_step] in E. destruct (serial_flush link_send (kb, o) q) as [ [q' [k' o'] ] a] eqn:Ef. injection E as <- <-. exists ops, outs. cbn [sn_receiver sn_in serial_calls flat_map snd app serial_got serial_bytes].
      split; [exact I1|]. split; [exact I2|]. split; [exact I3|]. split; [intros p H1 H2 H3; exact (I4 p H1 H2 (Hpay H3))|exact I5].
    + cbn [serial_node_step] in E. destruct (receive r now _) as [ [ [r' a] rest]|] eqn:Er; [|discriminate E]. injection E as <- <-. unfold receive in Er.
      destruct (loop_ops _ _ _ _ _ ltac:(intros d Hd; unfold link_bytes in Hd; apply in_map_iff in Hd; destruct Hd as (x & <- & _); eexists _, _, _, _; reflexivity) Er) as (used & outs' & Eu & Hr & Hg).
      destruct (link_prefix limit clock mem smem i 0%nat used rest Eu) as (L1 & L2).
      exists (ops ++ XClean now :: flat_map dop used), (outs ++ ONone :: outs'). cbn [sn_receiver sn_in serial_calls flat_map snd app serial_bytes].
      split; [rewrite rx_run_app, I1; cbn [rx_run rx_step]; rewrite Hr; reflexivity|]. rewrite !flat_map_app. cbn [flat_map op_byte app got]. rewrite I3, Hg.
      split; [|split; [|split] ].
      * assert (Hlen : length (link_bytes limit clock mem smem i) = (length used + length rest)%nat) by (rewrite <- app_length; exact (f_equal (@length _) Eu)). rewrite Hlen. replace (length used + length rest - length rest)%nat with (length used) by lia. rewrite <- app_assoc, L1. exact I2.
      * destruct a; cbn [serial_got got]; rewrite ?app_nil_r; reflexivity.
      * intros p H1 H2 H3. apply Forall_app. split; [exact (I4 p H1 H2 (Hpay H3))|]. constructor; [exact I|]. eapply Forall_impl; [|exact L2]. intros op (b1 & n1 & s1 & k1 & ->). cbn [op_leaves]. exact (H3 _ _ _ _ _ _ (or_introl eq_refl) k1).
      * intro H2. apply Forall_app. split; [exact (I5 H2)|]. constructor; [intros i0 X; discriminate X|]. eapply Forall_impl; [|exact L2]. intros op (b1 & n1 & s1 & k1 & ->) i0 X. discriminate X.
    + injection E as <- <-. exists ops, outs. cbn [sn_receiver sn_in serial_calls flat_map snd app serial_got serial_bytes]. split; [exact I1|]. split; [rewrite !app_assoc, I2; reflexivity|]. split; [exact I3|]. split; [intros p H1 H2 H3; exact (I4 p H1 H2 (Hpay H3))|exact I5].
Qed.

(** * Which transfers are accepted *)

Definition sent_as (p : port) (s : N) (dest : option N) (t : transfer) (m : N * list N) : Prop :=
  h_port (t_header t) = p /\ h_source (t_header t) = Some s /\ h_dest (t_header t) = dest /\ h_tid (t_header t) = fst m /\ t_payload t = snd m.
Section Taken.
  Context (k : tracker_kind) (P R : nat) (id : N).
  Hypothesis Hk : kind_ok Transport64 k.
  Let n0 := core_new Transport64 k P R (Some id).

  Lemma taken_fine h n : core_hist n0 h n -> id < 65535 -> all_fine h -> no_lost_zero h -> Forall sendable (taken h).
  Proof.
    intros H Hid. assert (H0 : id_fine (Some id)) by (intros j E; injection E as <-; exact Hid). induction H as [|h n o n' calls r H IH E Hr]; intros Hf Hz; [constructor|]. cbn [taken]. inversion Hf as [|? ? Hf1 Hf2]; subst. cbn [fst] in Hf1.
    apply Forall_app. split; [apply IH; [exact Hf2|intros o1 c1 r1 t1 Hi; apply (Hz o1 c1 r1 t1); right; exact Hi]|]. pose proof (step_effect64 _ _ _ _ _ _ _ _ _ _ Hk H E Hr) as He.
    assert (K : Forall sendable (pushes calls)).
    { apply Forall_forall. intros t Hi. assert (Hc : In (CPush t) calls) by (apply in_flat_map in Hi; destruct Hi as (c & Hc & Hi); destruct c; try destruct Hi; [subst; exact Hc|contradiction]).
      destruct (effect64_fine _ _ _ _ _ t H0 Hf2 Hf1 He Hc) as (F1 & F2). split; [exact F1|]. split; [exact F2|]. exact (Hz _ _ _ _ (or_introl eq_refl) Hc). }
    cbn [taken1]. destruct r; try constructor; exact K.
  Qed.

  Lemma mine_true p node t : h_port (t_header t) = p -> (h_dest (t_header t) = None \/ h_dest (t_header t) = node) -> mine p node t = true.
  Proof.
    intros H1 H2. unfold mine. rewrite H1. destruct (port_eqb_spec p p); [|congruence]. cbn [andb]. destruct H2 as [-> | ->]; [reflexivity|]. destruct node as [d|]; [|reflexivity]. cbn [opt_N_eqb]. apply N.eqb_refl.
  Qed.
  Lemma mine_false p node t : mine p node t = true -> h_port (t_header t) = p /\ (h_dest (t_header t) = None \/ h_dest (t_header t) = node).
  Proof.
    intro H. split; [exact (mine_port _ _ _ H)|]. unfold mine in H. apply andb_true_iff in H. destruct H as (_ & H). destruct (h_dest (t_header t)) as [d|]; [right|left; reflexivity]. destruct node as [e|]; [|discriminate H]. cbn [opt_N_eqb] in H. apply N.eqb_eq in H. congruence.
  Qed.

  Lemma taken_messages subject node h n : core_hist n0 h n -> keeps_id h -> Forall2 (sent_as (PMsg subject) id None) (filter (mine (PMsg subject) node) (taken h)) (sent_messages subject h).
  Proof.
    intros H. induction H as [|h n o n' calls r H IH E Hr]; intro Hid; [constructor|]. assert (Hid' := keeps_id_tail _ _ Hid). specialize (IH Hid'). pose proof (step_effect64 _ _ _ _ _ _ _ _ _ _ Hk H E Hr) as He. clear E. cbn [taken]. rewrite filter_app.
    destruct He as [o calls r Hn Hquiet|lb s payload e timeout p Es|lb s payload server e timeout p source Es Ei|tok timeout payload e source Ei].
    - assert (Hp : taken1 (o, calls, r) = []).
      { assert (Hp : pushes calls = []) by (clear -Hn; induction calls as [|c calls IHc]; [reflexivity|]; destruct c; cbn [pushes flat_map app]; try (apply IHc; intros t Hi; exact (Hn t (or_intror Hi))); destruct (Hn _ (or_introl eq_refl))). cbn [taken1]. rewrite Hp. destruct r; reflexivity. }
      rewrite Hp. cbn [filter]. rewrite app_nil_r. destruct o; try exact IH. destruct r; try exact IH. destruct Hquiet.
    - destruct (e_push e); cbn [taken1 pushes flat_map app sent_messages]; try (cbn [filter]; rewrite app_nil_r; exact IH).
      apply Forall2_app; [exact IH|]. cbn [filter]. destruct (mine (PMsg subject) node _) eqn:Em.
      + apply mine_false in Em. destruct Em as (Em & _). cbn [t_header h_port mh_subject] in Em. injection Em as ->. rewrite N.eqb_refl. constructor; [|constructor]. rewrite (keeps_id_after id h Hid'). repeat split.
      + destruct (N.eqb_spec s subject) as [->|]; [|constructor]. rewrite mine_true in Em; [discriminate Em|reflexivity|left; reflexivity].
    - replace (sent_messages subject _) with (sent_messages subject h) by reflexivity. destruct (e_push e); cbn [taken1 pushes flat_map app filter]; rewrite ?app_nil_r; exact IH.
    - replace (sent_messages subject _) with (sent_messages subject h) by reflexivity. destruct (e_push e); cbn [taken1 pushes flat_map app filter]; rewrite ?app_nil_r; exact IH.
  Qed.

  Lemma taken_requests service server prio h n : core_hist n0 h n -> keeps_id h -> requests_with service prio h ->
    Forall2 (is_that (PReq service) id (Some server) prio) (filter (mine (PReq service) (Some server)) (taken h)) (sent_requests service server h).
  Proof.
    intros H. induction H as [|h n o n' calls r H IH E Hr]; intros Hid Hprio; [constructor|]. assert (Hid' := keeps_id_tail _ _ Hid).
    assert (Hprio' : requests_with service prio h) by (intros t0 m0 p0 a0 c0 r0 Hi; apply (Hprio t0 m0 p0 a0 c0 r0); right; exact Hi). specialize (IH Hid' Hprio').
    pose proof (step_effect64 _ _ _ _ _ _ _ _ _ _ Hk H E Hr) as He. clear E. cbn [taken]. rewrite filter_app.
    destruct He as [o calls r Hn Hquiet|lb s payload e timeout p Es|lb s payload sv e timeout p source Es Ei|tok timeout payload e source Ei].
    - assert (Hp : taken1 (o, calls, r) = []).
      { assert (Hp : pushes calls = []) by (clear -Hn; induction calls as [|c calls IHc]; [reflexivity|]; destruct c; cbn [pushes flat_map app]; try (apply IHc; intros t Hi; exact (Hn t (or_intror Hi))); destruct (Hn _ (or_introl eq_refl))). cbn [taken1]. rewrite Hp. destruct r; reflexivity. }
      rewrite Hp. cbn [filter]. rewrite app_nil_r. destruct o; try exact IH. destruct r; try exact IH. destruct Hquiet.
    - replace (sent_requests service server _) with (sent_requests service server h) by reflexivity. destruct (e_push e); cbn [taken1 pushes flat_map app filter]; rewrite ?app_nil_r; exact IH.
    - destruct (e_push e); cbn [taken1 pushes flat_map app sent_requests]; try (cbn [filter]; rewrite app_nil_r; exact IH).
      apply Forall2_app; [exact IH|]. cbn [filter]. destruct (mine (PReq service) (Some server) _) eqn:Em.
      + apply mine_false in Em. destruct Em as (Em & Ed). cbn [t_header h_port h_dest sh_service sh_dest] in Em, Ed. injection Em as ->. destruct Ed as [Ed|Ed]; [discriminate Ed|]. injection Ed as ->. rewrite !N.eqb_refl. constructor; [|constructor].
        rewrite (keeps_id_after id h Hid') in Ei. injection Ei as <-. destruct (req_started_in _ _ _ _ Es) as (m & a & c & r0 & Hs). rewrite (Hprio' _ _ _ _ _ _ Hs). repeat split.
      + destruct (N.eqb_spec s service) as [->|]; [|constructor]. destruct (N.eqb_spec sv server) as [->|]; [|constructor]. rewrite mine_true in Em; [discriminate Em|reflexivity|right; reflexivity].
    - replace (sent_requests service server _) with (sent_requests service server h) by reflexivity. destruct (e_push e); cbn [taken1 pushes flat_map app filter]; rewrite ?app_nil_r; exact IH.
  Qed.

  Lemma taken_responses service client h n : core_hist n0 h n -> keeps_id h ->
    Forall2 (fun t m => sent_as (PResp service) id (Some client) t (rt_transfer (fst m), snd m)) (filter (mine (PResp service) (Some client)) (taken h)) (sent_responses service client h).
  Proof.
    intros H. induction H as [|h n o n' calls r H IH E Hr]; intros Hid; [constructor|]. assert (Hid' := keeps_id_tail _ _ Hid). specialize (IH Hid').
    pose proof (step_effect64 _ _ _ _ _ _ _ _ _ _ Hk H E Hr) as He. clear E. cbn [taken]. rewrite filter_app.
    destruct He as [o calls r Hn Hquiet|lb s payload e timeout p Es|lb s payload sv e timeout p source Es Ei|tok timeout payload e source Ei].
    - assert (Hp : taken1 (o, calls, r) = []).
      { assert (Hp : pushes calls = []) by (clear -Hn; induction calls as [|c calls IHc]; [reflexivity|]; destruct c; cbn [pushes flat_map app]; try (apply IHc; intros t Hi; exact (Hn t (or_intror Hi))); destruct (Hn _ (or_introl eq_refl))). cbn [taken1]. rewrite Hp. destruct r; reflexivity. }
      rewrite Hp. cbn [filter]. rewrite app_nil_r. destruct o; try exact IH. destruct r; try exact IH. destruct Hquiet.
    - replace (sent_responses service client _) with (sent_responses service client h) by reflexivity. destruct (e_push e); cbn [taken1 pushes flat_map app filter]; rewrite ?app_nil_r; exact IH.
    - replace (sent_responses service client _) with (sent_responses service client h) by reflexivity. destruct (e_push e); cbn [taken1 pushes flat_map app filter]; rewrite ?app_nil_r; exact IH.
    - destruct (e_push e); cbn [taken1 pushes flat_map app sent_responses]; try (cbn [filter]; rewrite app_nil_r; exact IH).
      apply Forall2_app; [exact IH|]. cbn [filter]. destruct tok as [ts0 tc tt tp]. cbn [rt_service rt_client rt_transfer rt_priority] in *. destruct (mine (PResp service) (Some client) _) eqn:Em.
      + apply mine_false in Em. destruct Em as (Em & Ed). cbn [t_header h_port h_dest sh_service sh_dest] in Em, Ed. injection Em as ->. destruct Ed as [Ed|Ed]; [discriminate Ed|]. injection Ed as ->. rewrite !N.eqb_refl. constructor; [|constructor].
        rewrite (keeps_id_after id h Hid') in Ei. injection Ei as <-. repeat split.
      + destruct (N.eqb_spec ts0 service) as [->|]; [|constructor]. destruct (N.eqb_spec tc client) as [->|]; [|constructor]. rewrite mine_true in Em; [discriminate Em|reflexivity|right; reflexivity].
  Qed.
End Taken.

(** * Listening *)

Lemma serial_path_app cap z0 h1 z1 h2 z2 : serial_path cap z0 h1 z1 -> serial_path cap z1 h2 z2 -> serial_path cap z0 (h2 ++ h1) z2.
Proof. intros H1. induction 1 as [|h z ev z' res _ IH Hf E]; [exact H1|]. cbn [app]. econstructor; eassumption. Qed.
Lemma serial_calls_app h1 h2 : serial_calls (h1 ++ h2) = serial_calls h1 ++ serial_calls h2.
Proof. apply flat_map_app. Qed.
Lemma keeps_id_app h1 h2 : keeps_id (h1 ++ h2) -> keeps_id h1 /\ keeps_id h2.
Proof. intro H. split; intros i c r Hi; apply (H i c r), in_or_app; [left|right]; exact Hi. Qed.

Lemma run_node id ops : forall r h r' outs, rx_hist id h r -> rx_run r ops = Ok (r', outs) -> Forall keeps_node ops -> rx_node r' = rx_node r.
Proof.
  induction ops as [|op ops IH]; intros r h r' outs Hh E Hf; cbn [rx_run] in E; [injection E as <- _; reflexivity|]. inversion Hf as [|? ? F1 F2]; subst.
  destruct (rx_step r op) as [ [r1 o]|] eqn:E1; [|discriminate E]. destruct (rx_run r1 ops) as [ [r2 os]|] eqn:E2; [|discriminate E]. injection E as <- _.
  pose proof (RH_step _ _ _ _ _ _ Hh E1) as Hh1. rewrite (IH r1 _ _ _ Hh1 E2 F2). destruct (rx_hist_inv _ _ _ Hh) as (_ & _ & _ & N1 & _). destruct (rx_hist_inv _ _ _ Hh1) as (_ & _ & _ & N2 & _). rewrite N1, N2.
  destruct op; try reflexivity. exfalso. exact (F1 _ eq_refl).
Qed.
Definition quiet_state (r : rx) : Prop := rx_state r = SIdle \/ rx_state r = SBetween.
Lemma last_snoc (l : list N) b d : last (l ++ [b]) d = b.
Proof. apply last_last. Qed.
Lemma run_quiet id ops : forall r h r' outs, rx_hist id h r -> rx_run r ops = Ok (r', outs) -> quiet_state r -> last (flat_map op_byte ops) 0 = 0 -> quiet_state r'.
Proof.
  induction ops as [|op ops IH] using rev_ind; intros r h r' outs Hh E Hq Hl; [injection E as <- _; exact Hq|].
  rewrite rx_run_app in E. destruct (rx_run r ops) as [ [r1 os]|] eqn:E1; [|discriminate E]. cbn [rx_run] in E. destruct (rx_step r1 op) as [ [r2 o]|] eqn:E2; [|discriminate E]. injection E as <- _.
  rewrite flat_map_app in Hl. cbn [flat_map] in Hl. rewrite app_nil_r in Hl. pose proof (rx_hist_run _ _ _ _ Hh _ _ E1) as Hh1.
  destruct op as [now|b now a sa|q m to al|q|i]; cbn [op_byte] in Hl; rewrite ?app_nil_r in Hl.
  - specialize (IH _ _ _ _ Hh E1 Hq Hl). injection E2 as <- _. exact IH.
  - rewrite last_snoc in Hl. subst b. exact (after_zero _ _ _ _ _ _ E2).
  - specialize (IH _ _ _ _ Hh E1 Hq Hl). injection E2 as E2. destruct (rx_subscribe_spec _ _ _ _ _ _ _ (proj1 (rx_hist_inv _ _ _ Hh1)) E2) as (S1 & _). unfold quiet_state. rewrite S1. exact IH.
  - specialize (IH _ _ _ _ Hh E1 Hq Hl). injection E2 as <- _. exact IH.
  - specialize (IH _ _ _ _ Hh E1 Hq Hl). injection E2 as <- _. exact IH.
Qed.

Lemma keeps_calls n o n' calls r : core_step n o = (n', calls, r) -> (forall i, o <> SetNodeId i) -> forall i, calls <> [NodeModel.CSetId i].
Proof.
  intros E Ho i ->. pose proof (core_calls _ _ _ _ _ E) as Hc. destruct o; cbn [calls_of] in Hc; try (destruct Hc as [Hc|(? & Hc)]; discriminate Hc); try (destruct Hc as [(Hc & _)|(Hc & _)]; discriminate Hc); try (destruct Hc as (Hc & _); discriminate Hc); try discriminate Hc.
  exact (Ho _ eq_refl).
Qed.
Lemma path_node cap k P R id0 h z : serial_path cap (serial_node_new k P R id0) h z -> rx_node (sn_receiver z) = id_after id0 (serial_calls h).
Proof.
  induction 1 as [|h [n q r i o] ev z' res H IH Hf E]; [reflexivity|]. cbn [sn_receiver] in IH. destruct (path_receiver _ _ _ _ H) as (ops & outs & A1 & _). cbn [serial_node_new sn_receiver] in A1. pose proof (rx_hist_run _ _ _ _ (RH_new id0) _ _ A1) as Hh.
  destruct ev as [op mem|kb|now limit clock mem smem|b].
  - destruct (serial_call_inv _ _ _ _ _ _ _ _ _ _ E) as (a & b & calls & ro & -> & E1 & Hro & Hi & Hout & Hp). cbn [serial_calls flat_map snd app]. fold (serial_calls h).
    assert (K : (exists j, with_answers a b op = SetNodeId j) \/ forall j, with_answers a b op <> SetNodeId j) by (destruct op; try (right; intros j X; discriminate X); left; eexists; reflexivity).
    destruct K as [(j & Ej)|K].
    + rewrite Ej in *. cbn [id_after]. pose proof (core_calls _ _ _ _ _ E1) as Hc. cbn [calls_of] in Hc. subst calls. inversion Hp as [|t q' ok b1 Ep Ec|c rop r' rr a1 Hop Es Ec]; subst. injection Hop as <-. cbn [rx_step] in Es. injection Es as Es _. rewrite <- Es. reflexivity.
    + assert (Ei : id_after id0 ((with_answers a b op, calls, ro) :: serial_calls h) = id_after id0 (serial_calls h)) by (cbn [id_after]; destruct (with_answers a b op); try reflexivity; exfalso; exact (K _ eq_refl)). rewrite Ei, <- IH.
      pose proof (keeps_calls _ _ _ _ _ E1 K) as Kc. inversion Hp as [a1 b1 Ec|t q' ok b1 Ep Ec|c rop r' rr a1 Hop Es Ec]; subst; try reflexivity.
      refine (run_node _ [rop] _ _ _ [rr] Hh _ _); [cbn [rx_run]; rewrite Es; reflexivity|]. constructor; [|constructor]. intros j ->. destruct c; try discriminate Hop. injection Hop as <-. exact (Kc _ eq_refl).
  - cbn [serial_node_step] in E. destruct (serial_flush link_send (kb, o) q) as [ [q' [k' o'] ] a] eqn:Ef. injection E as <- <-. exact IH.
  - pose proof (spath_step _ _ _ _ _ _ _ H Hf E) as H1. destruct (path_receiver cap (SerialNode n q r i o) _ _ (spath_step _ _ _ _ _ _ _ (spath_here _ _) Hf E)) as (ops1 & outs1 & B1 & _ & _ & _ & B5). cbn [sn_receiver] in B1.
    assert (Hres : exists a, res = SrReceive a) by (cbn [serial_node_step] in E; destruct (receive _ _ _) as [ [ [r' a] rest]|]; [injection E as _ <-; eexists; reflexivity|discriminate E]). destruct Hres as (a & ->).
    rewrite (run_node _ _ _ _ _ _ Hh B1); [exact IH|]. apply B5. intros j c r0 [].
  - injection E as <- <-. exact IH.
Qed.

(** The receiver of a node that listens *)
Theorem listened_stream cap k P R id0 h z node p max ts ds : serial_listened cap k P R id0 h z node p max (flat_map wire_frame ts) ds ->
  Forall sendable ts -> rising (mine_ids p node ts) -> Forall2 (received_as max) (filter (mine p node) ts) (filter (on_port p) ds).
Proof.
  intros (h1 & z1 & ev & o & calls & r & z2 & h2 & -> & H1 & Hnode & Hin & Hlast & Hf & E & Hsub & H2 & Hport & Hkeep2 & Hmem & Hin' & Hbytes & ->) Hs Hr.
  destruct (path_receiver _ _ _ _ H1) as (ops0 & outs0 & A1 & A2 & _ & _ & _). rewrite Hin, app_nil_r in A2. cbn [serial_node_new sn_receiver sn_in app] in A1, A2.
  pose proof (rx_hist_run _ _ _ _ (RH_new id0) _ _ A1) as Hh1. pose proof (path_node _ _ _ _ _ _ _ H1) as Hn1. rewrite Hnode in Hn1.
  assert (Hq1 : quiet_state (sn_receiver z1)) by (refine (run_quiet _ _ _ _ _ _ (RH_new id0) A1 (or_introl eq_refl) _); rewrite A2; exact Hlast).
  destruct z1 as [n q rx0 i out0]. cbn [sn_receiver sn_in] in *. subst i.
  assert (Kv : exists o' mem, ev = SnCall o' mem).
  { destruct ev as [o' mem|kb|now limit clock mem smem|b]; [eexists _, _; reflexivity| | |]; exfalso; cbn [serial_node_step] in E; try discriminate E.
    - destruct (serial_flush link_send (kb, out0) q) as [ [q' [k' o'] ] a]. discriminate E.
    - destruct (receive _ _ _) as [ [ [r' a] rest]|]; discriminate E. }
  destruct Kv as (o' & mem & ->). destruct (serial_call_inv _ _ _ _ _ _ _ _ _ _ E) as (a & b & calls' & ro & Er & E1 & Hro & Hi2 & Hout & Hp). injection Er as -> <- <-. pose proof (core_calls _ _ _ _ _ E1) as Hc.
  assert (Ks : exists t, calls = [sub_call p t max] /\ b = SubOk).
  { clear -Hsub Hc. destruct o'; cbn [with_answers subscribes calls_of] in *; try contradiction.
    - destruct r; try contradiction. destruct Hsub as (-> & ->). destruct Hc as [(_ & Hc)|(-> & Hc)]; [exfalso; exact (Hc _ eq_refl)|]. eexists. split; [reflexivity|]. destruct b; try discriminate Hc; reflexivity.
    - destruct r; try contradiction. destruct Hsub as (-> & ->). destruct Hc as (-> & Hc). eexists. split; [reflexivity|]. destruct b; try discriminate Hc; reflexivity.
    - destruct r; try contradiction. destruct Hsub as (-> & ->). destruct Hc as (-> & Hc). eexists. split; [reflexivity|]. destruct b; try discriminate Hc; reflexivity. }
  destruct Ks as (t & -> & ->).
  assert (Ko : exists rr, rx_subscribe rx0 p max t mem = (sn_receiver z2, rr) /\ serial_answer rr = SubOk).
  { inversion Hp as [|t1 q1 ok1 b1 Ep|c rop r1 rr a1 Hop Es]; subst; [destruct p; discriminate|]. exists rr. assert (rop = XSub p max t mem) as -> by (destruct p; injection Hop as <-; reflexivity). cbn [rx_step] in Es. injection Es as Es. split; [exact Es|congruence]. }
  destruct Ko as (rr & Es & Ha). pose proof (proj1 (rx_hist_inv _ _ _ Hh1)) as Hnd. destruct (rx_subscribe_spec _ _ _ _ _ _ _ Hnd Es) as (S1 & S2 & _ & S3).
  assert (Hfind : subs_find p (rx_subs (sn_receiver z2)) = Some (subscription_new max t)).
  { destruct S3 as [(-> & _)|(-> & S3)]; [discriminate Ha|]. rewrite S3. destruct (port_eqb_spec p p); [|congruence]. destruct mem; [reflexivity|discriminate Ha]. }
  assert (Hh2 : rx_hist id0 ((XSub p max t mem, rr) :: rev (combine ops0 outs0) ++ []) (sn_receiver z2)) by (eapply RH_step; [exact Hh1|]; cbn [rx_step]; rewrite Es; reflexivity).
  destruct (path_receiver _ _ _ _ H2) as (ops & outs & B1 & B2 & B3 & B4 & _). rewrite Hin', app_nil_r, Hi2 in B2. cbn [app] in B2. rewrite Hbytes in B2. rewrite <- B3.
  refine (stream_run p max node ops ts (sn_receiver z2) id0 _ (sn_receiver z) outs Hs Hr Hh2 _ _ (B4 p Hport Hkeep2 Hmem) B1).
  - left. split; [rewrite S1; exact Hq1|exact B2].
  - split; [congruence|]. exists (subscription_new max t). split; [exact Hfind|]. split; [reflexivity|]. split; [constructor|]. intros t1 _ _ s se _ Hl. discriminate Hl.
Qed.

(** * Delivery *)

Lemma increasing_rising l : increasing l -> rising l.
Proof. exact (fun H => H). Qed.
Lemma received_log p s dest max l ms ds : Forall2 (sent_as p s dest) l ms -> Forall2 (received_as max) l (filter (on_port p) ds) ->
  filter (comes_from p s) ds = filter (on_port p) ds /\ Forall (fun t => t_loopback t = false) (filter (comes_from p s) ds) /\
  map (fun t => (h_tid (t_header t), t_payload t)) (filter (comes_from p s) ds) = map (fun m => (fst m, firstn max (snd m))) ms.
Proof.
  intros H1 H2.
  assert (K : forall d, In d (filter (on_port p) ds) -> exists t m, sent_as p s dest t m /\ received_as max t d).
  { clear -H1 H2. revert ms H1. induction H2 as [|t d l l' Hd _ IH]; intros ms H1 d' Hi; [destruct Hi|]. inversion H1 as [|? m ? ms' Hm Hms]; subst. destruct Hi as [<-|Hi]; [exists t, m; split; assumption|exact (IH _ Hms _ Hi)]. }
  assert (E : filter (comes_from p s) ds = filter (on_port p) ds).
  { clear -K. induction ds as [|d ds IH]; [reflexivity|]. cbn [filter] in *. assert (Ec : comes_from p s d = on_port p d).
    { destruct (on_port p d) eqn:Eo.
      - destruct (K d (or_introl eq_refl)) as (t & m & (T1 & T2 & _) & ((now & R1) & _)). apply comes_from_iff. rewrite R1. destruct (t_header t); cbn [h_set_ts h_port h_source] in *; split; assumption.
      - destruct (comes_from p s d) eqn:Ec; [|reflexivity]. apply comes_from_iff in Ec. destruct Ec as (Ec & _). unfold on_port in Eo. rewrite Ec in Eo. destruct (port_eqb_spec p p); [discriminate Eo|congruence]. }
    rewrite Ec. destruct (on_port p d); [f_equal|]; apply IH; intros d' Hi; apply K; [right|]; exact Hi. }
  split; [exact E|]. rewrite E. split.
  - apply Forall_forall. intros d Hi. destruct (K d Hi) as (t & m & _ & (_ & R2 & _)). exact R2.
  - clear -H1 H2. revert ms H1. induction H2 as [|t d l l' ((now & R1) & _ & R3) _ IH]; intros ms H1; inversion H1 as [|? m ? ms' (_ & _ & _ & T4 & T5) Hms]; subst; [reflexivity|]. cbn [map]. rewrite (IH _ Hms). f_equal. rewrite R1, R3, T5. f_equal. rewrite <- T4. destruct (t_header t); reflexivity.
Qed.
Lemma sent_as_ids p s dest l ms : Forall2 (sent_as p s dest) l ms -> map (fun t => h_tid (t_header t)) l = map fst ms.
Proof. induction 1 as [|t m l ms (_ & _ & _ & H & _) _ IH]; [reflexivity|]. cbn [map]. rewrite IH, H. reflexivity. Qed.

(** * Transfer IDs increase *)

Lemma increasing_snoc l a : increasing l -> (forall x, In x l -> x < a) -> increasing (l ++ [a]).
Proof.
  induction l as [|b l IH]; intros H Hl; [exact I|]. cbn [app]. destruct l as [|c l]; cbn [app increasing] in *; [split; [apply Hl; left; reflexivity|exact I]|]. destruct H as (H1 & H2). split; [exact H1|]. apply IH; [exact H2|]. intros x Hx. apply Hl. right. exact Hx.
Qed.
Lemma no_pushes_messages subject calls : (forall t, ~ In (CPush t) calls) -> messages subject calls = 0.
Proof.
  intro H. unfold messages. replace (filter (is_message subject) calls) with (@nil call); [reflexivity|]. symmetry. induction calls as [|c calls IH]; [reflexivity|]. cbn [filter]. destruct c; cbn [is_message]; try (apply IH; intros t Hi; exact (H t (or_intror Hi))). destruct (H _ (or_introl eq_refl)).
Qed.
Lemma no_pushes_requests service server calls : (forall t, ~ In (CPush t) calls) -> requests service server calls = 0.
Proof.
  intro H. unfold requests. replace (filter (is_request service server) calls) with (@nil call); [reflexivity|]. symmetry. induction calls as [|c calls IH]; [reflexivity|]. cbn [filter]. destruct c; cbn [is_request]; try (apply IH; intros t Hi; exact (H t (or_intror Hi))). destruct (H _ (or_introl eq_refl)).
Qed.
Lemma in_filter_nil {A} (f : A -> bool) l a : filter f l = [] -> In a l -> f a = false.
Proof. intros H Hi. destruct (f a) eqn:E; [|reflexivity]. assert (K : In a (filter f l)) by (apply filter_In; split; assumption). rewrite H in K. destruct K. Qed.

Section Ids.
  Context (k : tracker_kind) (P R : nat) (id0 : option N).
  Hypothesis Hk : kind_ok Transport64 k.
  Let n0 := core_new Transport64 k P R id0.

  Lemma never_started subject h n : core_hist n0 h n -> filter (starts_publishing subject) h = [] -> sent_messages subject h = [].
  Proof.
    induction 1 as [|h n o n' calls r H IH E Hr]; intro Hs; [reflexivity|]. assert (Hs' : filter (starts_publishing subject) h = []) by (cbn [filter] in Hs; destruct (starts_publishing _ _); [discriminate Hs|exact Hs]). specialize (IH Hs').
    pose proof (step_effect64 _ _ _ _ _ _ _ _ _ _ Hk H E Hr) as He. destruct He as [o calls r Hn Hquiet|lb s payload e timeout p Es|lb s payload sv e timeout p source Es Ei|tok timeout payload e source Ei]; try exact IH.
    - destruct o; try exact IH. destruct r; try exact IH. destruct Hquiet.
    - destruct (e_push e); cbn [sent_messages]; try exact IH. rewrite IH. destruct (N.eqb_spec s subject) as [->|]; [|reflexivity]. destruct (pub_started_in _ _ _ _ Es) as (c & r0 & Hi). pose proof (in_filter_nil _ _ _ Hs' Hi) as X. cbn [starts_publishing] in X. rewrite N.eqb_refl in X. discriminate X.
  Qed.
  Lemma message_ids64 subject h n : core_hist n0 h n -> (length (filter (starts_publishing subject) h) <= 1)%nat -> N.of_nat (length h) < 2 ^ 64 ->
    increasing (map fst (sent_messages subject h)) /\ (forall x, In x (map fst (sent_messages subject h)) -> x < pub_count subject h) /\ pub_count subject h <= N.of_nat (length h).
  Proof.
    induction 1 as [|h n o n' calls r H IH E Hr]; intros Hs Hl; [split; [exact I|split; [intros x []|apply N.le_refl] ]|].
    assert (Hs' : (length (filter (starts_publishing subject) h) <= 1)%nat) by (cbn [filter] in Hs; destruct (starts_publishing _ _); cbn [length] in Hs; lia). cbn [length] in Hl |- *. rewrite Nat2N.inj_succ in *. destruct (IH Hs' ltac:(lia)) as (I1 & I2 & I3).
    pose proof (step_effect64 _ _ _ _ _ _ _ _ _ _ Hk H E Hr) as He. destruct He as [o calls r Hn Hquiet|lb s payload e timeout p Es|lb s payload sv e timeout p source Es Ei|tok timeout payload e source Ei].
    - assert (Esent : sent_messages subject ((o, calls, r) :: h) = sent_messages subject h) by (destruct o; try reflexivity; destruct r; try reflexivity; destruct Hquiet). rewrite Esent.
      assert (K : pub_count subject ((o, calls, r) :: h) = pub_count subject h \/ (pub_count subject ((o, calls, r) :: h) = 0 /\ filter (starts_publishing subject) h = [])).
      { pose proof (no_pushes_messages subject calls Hn) as Hm. destruct o; cbn [pub_count]; rewrite ?Hm; try (left; reflexivity). destruct r; rewrite ?Hm; try (left; reflexivity). destruct (N.eqb_spec subject0 subject) as [->|]; [|left; reflexivity]. right. split; [reflexivity|].
        cbn [filter starts_publishing] in Hs. rewrite N.eqb_refl in Hs. cbn [length] in Hs. destruct (filter (starts_publishing subject) h); [reflexivity|cbn [length] in Hs; lia]. }
      destruct K as [-> |(-> & K)]; [split; [exact I1|split; [exact I2|lia] ]|]. rewrite (never_started _ _ _ H K). split; [exact I|]. split; [intros x []|lia].
    - assert (Ec : pub_count subject ((Publish lb s payload e, [CPush (Transfer (HMsg (MsgH ((e_now e + timeout) mod 2 ^ 32) (pub_count s h mod tid_range Transport64) p s (id_after id0 h))) lb payload)],
          match e_push e with PushOk => ODone | PushWouldBlock => OWouldBlock | PushError err => OError err end) :: h) = (if s =? subject then 1 else 0) + pub_count subject h).
      { cbn [pub_count]. unfold messages. cbn [filter is_message mh_subject]. destruct (s =? subject); reflexivity. }
      rewrite Ec. destruct (e_push e); cbn [sent_messages]; try (split; [exact I1|split; [intros x Hx; specialize (I2 x Hx); lia|destruct (s =? subject); lia] ]).
      destruct (N.eqb_spec s subject) as [->|]; [|rewrite app_nil_r; split; [exact I1|split; [intros x Hx; specialize (I2 x Hx); lia|lia] ] ].
      rewrite map_app. cbn [map fst message_id t_header h_tid mh_tid]. replace (pub_count subject h mod tid_range Transport64) with (pub_count subject h) by (symmetry; apply N.mod_small; change (tid_range Transport64) with (2 ^ 64); lia).
      split; [apply increasing_snoc; assumption|]. split; [|lia]. intros x Hx. apply in_app_or in Hx. destruct Hx as [Hx|[<-|[] ] ]; [specialize (I2 x Hx)|]; lia.
    - assert (Ec : forall r', pub_count subject ((SendRequest lb s payload sv e, [CPush (Transfer (HReq (SvcH ((e_now e + timeout) mod 2 ^ 32) (req_count s sv h mod tid_range Transport64) p s source sv)) lb payload)], r') :: h) = pub_count subject h) by reflexivity. rewrite Ec.
      split; [exact I1|]. split; [exact I2|lia].
    - assert (Ec : forall r', pub_count subject ((SendResponse tok timeout payload e, [CPush (Transfer (HResp (SvcH ((e_now e + timeout) mod 2 ^ 32) (rt_transfer tok) (rt_priority tok) (rt_service tok) source (rt_client tok))) false payload)], r') :: h) = pub_count subject h) by reflexivity. rewrite Ec.
      split; [exact I1|]. split; [exact I2|lia].
  Qed.

  Lemma never_requested service server h n : core_hist n0 h n -> filter (starts_requests service) h = [] -> sent_requests service server h = [].
  Proof.
    induction 1 as [|h n o n' calls r H IH E Hr]; intro Hs; [reflexivity|]. assert (Hs' : filter (starts_requests service) h = []) by (cbn [filter] in Hs; destruct (starts_requests _ _); [discriminate Hs|exact Hs]). specialize (IH Hs').
    pose proof (step_effect64 _ _ _ _ _ _ _ _ _ _ Hk H E Hr) as He. destruct He as [o calls r Hn Hquiet|lb s payload e timeout p Es|lb s payload sv e timeout p source Es Ei|tok timeout payload e source Ei]; try exact IH.
    - destruct o; try exact IH. destruct r; try exact IH. destruct Hquiet.
    - destruct (e_push e); cbn [sent_requests]; try exact IH. rewrite IH. destruct (N.eqb_spec s service) as [->|]; [|reflexivity]. destruct (req_started_in _ _ _ _ Es) as (m & a & c & r0 & Hi). pose proof (in_filter_nil _ _ _ Hs' Hi) as X. cbn [starts_requests] in X. rewrite N.eqb_refl in X. discriminate X.
  Qed.
  Lemma request_ids64 service server h n : core_hist n0 h n -> (length (filter (starts_requests service) h) <= 1)%nat -> N.of_nat (length h) < 2 ^ 64 ->
    increasing (map fst (sent_requests service server h)) /\ (forall x, In x (map fst (sent_requests service server h)) -> x < req_count service server h) /\ req_count service server h <= N.of_nat (length h).
  Proof.
    induction 1 as [|h n o n' calls r H IH E Hr]; intros Hs Hl; [split; [exact I|split; [intros x []|apply N.le_refl] ]|].
    assert (Hs' : (length (filter (starts_requests service) h) <= 1)%nat) by (cbn [filter] in Hs; destruct (starts_requests _ _); cbn [length] in Hs; lia). cbn [length] in Hl |- *. rewrite Nat2N.inj_succ in *. destruct (IH Hs' ltac:(lia)) as (I1 & I2 & I3).
    pose proof (step_effect64 _ _ _ _ _ _ _ _ _ _ Hk H E Hr) as He. destruct He as [o calls r Hn Hquiet|lb s payload e timeout p Es|lb s payload sv e timeout p source Es Ei|tok timeout payload e source Ei].
    - assert (Esent : sent_requests service server ((o, calls, r) :: h) = sent_requests service server h) by (destruct o; try reflexivity; destruct r; try reflexivity; destruct Hquiet). rewrite Esent.
      assert (K : req_count service server ((o, calls, r) :: h) = req_count service server h \/ (req_count service server ((o, calls, r) :: h) = 0 /\ filter (starts_requests service) h = [])).
      { pose proof (no_pushes_requests service server calls Hn) as Hm. destruct o; cbn [req_count]; rewrite ?Hm; try (left; reflexivity). destruct r; rewrite ?Hm; try (left; reflexivity). destruct (N.eqb_spec service0 service) as [->|]; [|left; reflexivity]. right. split; [reflexivity|].
        cbn [filter starts_requests] in Hs. rewrite N.eqb_refl in Hs. cbn [length] in Hs. destruct (filter (starts_requests service) h); [reflexivity|cbn [length] in Hs; lia]. }
      destruct K as [-> |(-> & K)]; [split; [exact I1|split; [exact I2|lia] ]|]. rewrite (never_requested _ server _ _ H K). split; [exact I|]. split; [intros x []|lia].
    - assert (Ec : forall r', req_count service server ((Publish lb s payload e, [CPush (Transfer (HMsg (MsgH ((e_now e + timeout) mod 2 ^ 32) (pub_count s h mod tid_range Transport64) p s (id_after id0 h))) lb payload)], r') :: h) = req_count service server h) by reflexivity. rewrite Ec.
      split; [exact I1|]. split; [exact I2|lia].
    - assert (Ec : req_count service server ((SendRequest lb s payload sv e, [CPush (Transfer (HReq (SvcH ((e_now e + timeout) mod 2 ^ 32) (req_count s sv h mod tid_range Transport64) p s source sv)) lb payload)],
          match e_push e with PushOk => OTransferId (req_count s sv h mod tid_range Transport64) | PushWouldBlock => OWouldBlock | PushError err => OError err end) :: h) = (if (s =? service) && (sv =? server) then 1 else 0) + req_count service server h).
      { cbn [req_count]. unfold requests. cbn [filter is_request sh_service sh_dest]. destruct ((s =? service) && (sv =? server)); reflexivity. }
      rewrite Ec. destruct (e_push e); cbn [sent_requests]; try (split; [exact I1|split; [intros x Hx; specialize (I2 x Hx); lia|destruct ((s =? service) && (sv =? server)); lia] ]).
      destruct (N.eqb_spec s service) as [->|]; cbn [andb]; [|rewrite app_nil_r; split; [exact I1|split; [intros x Hx; specialize (I2 x Hx); lia|lia] ] ].
      destruct (N.eqb_spec sv server) as [->|]; [|rewrite app_nil_r; split; [exact I1|split; [intros x Hx; specialize (I2 x Hx); lia|lia] ] ].
      rewrite map_app. cbn [map fst]. replace (req_count service server h mod tid_range Transport64) with (req_count service server h) by (symmetry; apply N.mod_small; change (tid_range Transport64) with (2 ^ 64); lia).
      split; [apply increasing_snoc; assumption|]. split; [|lia]. intros x Hx. apply in_app_or in Hx. destruct Hx as [Hx|[<-|[] ] ]; [specialize (I2 x Hx)|]; lia.
    - assert (Ec : forall r', req_count service server ((SendResponse tok timeout payload e, [CPush (Transfer (HResp (SvcH ((e_now e + timeout) mod 2 ^ 32) (rt_transfer tok) (rt_priority tok) (rt_service tok) source (rt_client tok))) false payload)], r') :: h) = req_count service server h) by reflexivity. rewrite Ec.
      split; [exact I1|]. split; [exact I2|lia].
  Qed.
  Lemma req_id64 s h n : core_hist n0 h n -> req_started s h <> None -> id_after id0 h <> None.
  Proof.
    induction 1 as [|h n o n' calls r H IH E Hr]; intro Hq; [exfalso; apply Hq; reflexivity|]. pose proof (i_id _ _ _ _ _ _ _ (hist_inv _ _ _ _ _ _ _ Hk H)) as Hi.
    destruct o; cbn [req_started id_after] in *; try (exact (IH Hq)); try discriminate.
  - destruct r; try exact (IH Hq). cbn [core_step] in E. unfold start_sending_requests in E. rewrite Hi in E. destruct (id_after id0 h); [discriminate|]. discriminate E.
  - destruct (service =? s); [exfalso; apply Hq; reflexivity|exact (IH Hq)].
  Qed.
End Ids.

(** * No panics *)

Lemma serial_step_total cap k P R id0 h z ev : kind_ok Transport64 k -> serial_path cap (serial_node_new k P R id0) h z -> serial_allowed id0 (serial_calls h) ev -> exists z' res, serial_node_step cap ev z = Ok (z', res).
Proof.
  intros Hk H Hal. destruct (path_sender _ _ _ _ _ _ _ Hk H) as (H1 & _ & H3 & _). destruct (path_receiver _ _ _ _ H) as (ops & outs & B1 & _). cbn [serial_node_new sn_receiver] in B1. pose proof (rx_hist_run _ _ _ _ (RH_new id0) _ _ B1) as Hh.
  destruct z as [n q r i o]. cbn [sn_core sn_queue sn_receiver] in *. destruct ev as [op mem|kb|now limit clock mem smem|b]; cbn [serial_node_step].
  - destruct (core_step n op) as [ [n1 calls] r1] eqn:E1.
    assert (Kc : calls = [] \/ (exists t, calls = [CPush t]) \/ exists c rop, calls = [c] /\ receiver_op mem c = Some rop).
    { pose proof (core_calls _ _ _ _ _ E1) as Hc. destruct op; cbn [calls_of sub_call unsub_call] in Hc; try (destruct Hc as [->|(? & ->)]; [left; reflexivity|right; left; eexists; reflexivity]);
        try (destruct Hc as [(-> & _)|(-> & _)]; [left; reflexivity|right; right; eexists _, _; split; reflexivity]); try (destruct Hc as (-> & _); right; right; eexists _, _; split; reflexivity); subst calls; right; right; eexists _, _; split; reflexivity. }
    assert (Kp : exists z1 a b, serial_perform cap mem calls (SerialNode n q r i o) = Ok (z1, a, b)).
    { unfold serial_perform. destruct Kc as [->|[(t & ->)|(c & rop & -> & Hc)] ].
      - eexists _, _, _. reflexivity.
      - destruct (push_cases cap q t mem H3) as (ok & q' & -> & _). destruct ok; eexists _, _, _; reflexivity.
      - destruct c; try discriminate Hc; try (destruct (rx_subscribe _ _ _ _ _)); eexists _, _, _; reflexivity. }
    destruct Kp as (z1 & a & b & ->). destruct (core_step n (with_answers a b op)) as [ [n2 calls2] r2] eqn:E2.
    assert (Hr2 : r2 <> OPanic) by (refine (allowed_ok64 _ _ _ _ _ _ _ _ _ _ Hk H1 _ _ E2); [intros s Hs; exact (req_id64 _ _ _ _ Hk _ _ _ H1 Hs)|destruct op; exact Hal]).
    destruct r2; try (eexists _, _; reflexivity). congruence.
  - destruct (serial_flush link_send (kb, o) q) as [ [q' [k' o'] ] a]. eexists _, _. reflexivity.
  - assert (K : forall ds r0 h0, rx_hist id0 h0 r0 -> exists r' a rest, receive_loop r0 ds = Ok (r', a, rest)).
    { clear. induction ds as [|d ds IH]; intros r0 h0 Hh; cbn [receive_loop]; [eexists _, _, _; reflexivity|]. destruct d as [b now a s| |]; try (eexists _, _, _; reflexivity).
      destruct (C08_serial_total id0 h0 r0 (XByte b now a s) Hh) as (r1 & o1 & E). pose proof (RH_step _ _ _ _ _ _ Hh E) as Hh1. cbn [rx_step] in E. rewrite E. destruct o1; try (eexists _, _, _; reflexivity). exact (IH _ _ Hh1). }
    unfold receive. destruct (K (link_bytes limit clock mem smem i) (rx_clean r now) _ (RH_step _ _ _ (XClean now) _ _ Hh eq_refl)) as (r' & a & rest & ->). eexists _, _. reflexivity.
  - eexists _, _. reflexivity.
Qed.
