(** Proofs about whole CAN nodes. *)
From Verif Require Import Base BitLemmas CoreModel CrcModel FilterModel CanIdModel CanSpec CanIdProofs FilterProofs CanTxModel CanTxSpec CanTxProofs CanQueueModel CanQueueSpec CanQueueProofs CanFlushProofs
  CanRxModel CanRxSpec CanRxProofs CanRxProps CanIdProps BxModel BxSpec BxProofs BxQueueProofs BxRxProofs BxProps BusSpec BusProofs NodeModel NodeSpec NodeProofs NodeProps NetSpec NetProofs BxPnpModel CanNodeModel CanNodeSpec.

Ltac Zify.zify_post_hook ::= Z.div_mod_to_equations.
Import Permutation.
Local Strategy 1000 [push_inner bx_flush core_step bx_step bx_filters bx_pnp_receive].

(** * The node sends as a station *)

Lemma same_calls n a b o n1 c1 r1 n2 c2 r2 : core_step n o = (n1, c1, r1) -> core_step n (with_answers a b o) = (n2, c2, r2) -> c2 = c1.
Proof.
  destruct o; cbn [core_step with_answers]; try congruence.
  - unfold publish. destruct (im_get _ _) as [p|]; [|congruence]. unfold publisher_publish, serialize_ok. cbn [e_alloc e_push e_now]. destruct ((_ <=? _)%nat || _); congruence.
  - unfold start_sending_requests. destruct (c_id n); [|congruence]. destruct (im_get _ _); [congruence|]. destruct (im_insert _ _ _ _); [|congruence]. destruct answer, b; congruence.
  - unfold send_request. destruct (im_get _ _) as [q|]; [|congruence]. destruct (c_id n); [|congruence]. unfold requester_send, serialize_ok. cbn [e_alloc e_push e_now].
    destruct ((_ <=? _)%nat || _); [|congruence]. destruct (tracker_next _ _ _) as [ [ [id|] ids]|]; congruence.
  - unfold send_response, serialize_ok. cbn [e_alloc e_push e_now]. destruct ((_ <=? _)%nat || _); [|congruence]. destruct (c_id n); congruence.
Qed.
Lemma answers_fine a b o : op_fine o -> op_fine (with_answers a b o).
Proof. destruct o; exact (fun H => H). Qed.
Lemma answers_answered a b o : answered (with_answers a b o) a.
Proof. destruct o; cbn [with_answers answered e_push]; try exact I; reflexivity. Qed.
Lemma told_answer a : told a = answer_of a.
Proof. destruct a; reflexivity. Qed.

(** What a call does to the parts *)
Inductive performed (mem : bool) (alloc : nat -> bool) (q : array_queue) (r : can_rx) (x : bx_driver) : list call -> array_queue -> can_rx -> bx_driver -> push_result -> sub_result -> Prop :=
| perf_none a b : performed mem alloc q r x [] q r x a b
| perf_push t q' a b : push_inner (lift_reserve aq_ops) (lift_transmit aq_ops) 8 8 (Ok q) t = Ok (Ok q', a) -> performed mem alloc q r x [CPush t] q' r x (told a) b
| perf_sub c p timeout max r' x' a : call_port c = Some p -> (forall t, c <> CPush t) -> rx_subscribe_port r p timeout max mem = (r', SubscribeOk) -> bx_filters (fst (rx_filters r')) (snd (rx_filters r')) alloc x = Ok x' ->
    (c = match p with PMsg s => CSubMessage s max timeout | PReq s => CSubRequest s max timeout | PResp s => CSubResponse s max timeout end) ->
    performed mem alloc q r x [c] q r' x' a SubOk
| perf_fail c p timeout max r' a b : call_port c = Some p -> (forall t, c <> CPush t) -> rx_subscribe_port r p timeout max mem = (r', match b with SubError _ => SubscribeMemory | _ => SubscribeAnonymous end) -> b <> SubOk ->
    (c = match p with PMsg s => CSubMessage s max timeout | PReq s => CSubRequest s max timeout | PResp s => CSubResponse s max timeout end) ->
    performed mem alloc q r x [c] q r' x a b
| perf_unsub c p r' x' a b : call_port c = Some p -> (forall t, c <> CPush t) -> r' = rx_unsubscribe r p -> bx_filters (fst (rx_filters r')) (snd (rx_filters r')) alloc x = Ok x' ->
    (c = match p with PMsg s => CUnsubMessage s | PReq s => CUnsubRequest s | PResp s => CUnsubResponse s end) ->
    performed mem alloc q r x [c] q r' x' a b
| perf_id id a b : performed mem alloc q r x [NodeModel.CSetId id] q (rx_set_id r (Some id)) x a b.

Lemma perform_inv mem alloc calls n q r x k z' a b : perform mem alloc calls (CanNode n q r x k) = Ok (z', a, b) ->
  cn_core z' = n /\ cn_reads z' = k /\ performed mem alloc q r x calls (cn_queue z') (cn_receiver z') (cn_driver z') a b.
Proof.
  unfold perform. intro E.
  assert (S : forall c p timeout max, call_port c = Some p -> (forall t, c <> CPush t) -> (c = match p with PMsg s => CSubMessage s max timeout | PReq s => CSubRequest s max timeout | PResp s => CSubResponse s max timeout end) ->
    match receiver_subscribe p timeout max mem alloc r x with Ok (r', x', a) => Ok (CanNode n q r' x' k, PushOk, a) | Panic => Panic end = Ok (z', a, b) ->
    cn_core z' = n /\ cn_reads z' = k /\ performed mem alloc q r x [c] (cn_queue z') (cn_receiver z') (cn_driver z') a b).
  { clear E. intros c p timeout max Hc Hp Ec E. unfold receiver_subscribe in E. destruct (rx_subscribe_port r p timeout max mem) as [r' [| |] ] eqn:Es.
    - destruct (bx_filters _ _ alloc x) as [x'|] eqn:Ef; [|discriminate]. injection E as <- <- <-. split; [reflexivity|]. split; [reflexivity|]. cbn [cn_queue cn_receiver cn_driver]. eapply perf_sub; eassumption.
    - injection E as <- <- <-. split; [reflexivity|]. split; [reflexivity|]. cbn [cn_queue cn_receiver cn_driver]. eapply perf_fail; try eassumption. discriminate.
    - injection E as <- <- <-. split; [reflexivity|]. split; [reflexivity|]. cbn [cn_queue cn_receiver cn_driver]. eapply perf_fail; try eassumption. discriminate. }
  assert (U : forall c p, call_port c = Some p -> (forall t, c <> CPush t) -> (c = match p with PMsg s => CUnsubMessage s | PReq s => CUnsubRequest s | PResp s => CUnsubResponse s end) ->
    match receiver_unsubscribe p alloc r x with Ok (r', x') => Ok (CanNode n q r' x' k, PushOk, SubOk) | Panic => Panic end = Ok (z', a, b) ->
    cn_core z' = n /\ cn_reads z' = k /\ performed mem alloc q r x [c] (cn_queue z') (cn_receiver z') (cn_driver z') a b).
  { clear E. intros c p Hc Hp Ec E. unfold receiver_unsubscribe in E. destruct (bx_filters _ _ alloc x) as [x'|] eqn:Ef; [|discriminate]. injection E as <- <- <-. split; [reflexivity|]. split; [reflexivity|].
    cbn [cn_queue cn_receiver cn_driver]. eapply perf_unsub; try eassumption. reflexivity. }
  destruct calls as [|c [|c2 cs] ]; [|destruct c as [t|s m t|s m t|s m t|s|s|s|id]|destruct c; discriminate E].
  - injection E as <- <- <-. split; [reflexivity|]. split; [reflexivity|]. constructor.
  - destruct (push_inner _ _ 8 8 (Ok q) t) as [ [ [q'|] e]|] eqn:Ep; try discriminate E. injection E as <- <- <-. split; [reflexivity|]. split; [reflexivity|]. cbn [cn_queue cn_receiver cn_driver]. rewrite <- told_answer. constructor. exact Ep.
  - exact (S (CSubMessage s m t) (PMsg s) t m eq_refl ltac:(discriminate) eq_refl E).
  - exact (S (CSubRequest s m t) (PReq s) t m eq_refl ltac:(discriminate) eq_refl E).
  - exact (S (CSubResponse s m t) (PResp s) t m eq_refl ltac:(discriminate) eq_refl E).
  - exact (U (CUnsubMessage s) (PMsg s) eq_refl ltac:(discriminate) eq_refl E).
  - exact (U (CUnsubRequest s) (PReq s) eq_refl ltac:(discriminate) eq_refl E).
  - exact (U (CUnsubResponse s) (PResp s) eq_refl ltac:(discriminate) eq_refl E).
  - injection E as <- <- <-. split; [reflexivity|]. split; [reflexivity|]. constructor.
Qed.

(** A call, with all that happens *)
Lemma call_inv script o mem alloc n q r x k z' res : can_node_step script (EvCall o mem alloc) (CanNode n q r x k) = Ok (z', res) ->
  exists a b calls out, res = ResCall (with_answers a b o) calls out /\ core_step n (with_answers a b o) = (cn_core z', calls, out) /\ out <> OPanic /\ cn_reads z' = k /\
    performed mem alloc q r x calls (cn_queue z') (cn_receiver z') (cn_driver z') a b.
Proof.
  cbn [can_node_step]. intro E. destruct (core_step n o) as [ [n0 c0] r0] eqn:E0. destruct (perform mem alloc c0 _) as [ [ [z1 a] b]|] eqn:Ep; [|discriminate E].
  destruct (perform_inv _ _ _ _ _ _ _ _ _ _ _ Ep) as (H1 & H2 & H3). destruct (core_step n (with_answers a b o)) as [ [n' c'] out] eqn:E1.
  pose proof (same_calls _ _ _ _ _ _ _ _ _ _ E0 E1) as ->. assert (Ho : out <> OPanic) by (intros ->; discriminate E).
  assert (E' : Ok (CanNode n' (cn_queue z1) (cn_receiver z1) (cn_driver z1) (cn_reads z1), ResCall (with_answers a b o) c0 out) = Ok (z', res)) by (destruct out; try exact E; congruence).
  injection E' as <- <-. exists a, b, c0, out. split; [reflexivity|]. split; [exact E1|]. split; [exact Ho|]. split; [exact H2|exact H3].
Qed.

(** The reads of [receive] *)
Lemma receive_run clock mem : forall fuel k r x r' x' a, bx_pnp_receive clock mem fuel k r x = Ok (r', x', a) -> exists ops outs rops couts,
  bx_run ops x = Ok (x', outs) /\ Forall (fun o => exists i, o = OpReceive (clock i)) ops /\ can_run r rops = Ok (r', couts) /\ given_frames rops = flat_map received outs /\
  Forall (fun o => exists i f, o = CFrame f (mem i)) rops /\ flat_map (fun o => match o with CGot (RxTransfer t) => [t] | _ => [] end) couts = match a with Received t => [t] | _ => [] end.
Proof.
  induction fuel as [|fuel IH]; intros k r x r' x' a E; cbn [bx_pnp_receive] in E; [discriminate|].
  destruct (bx_receive (clock k) x) as [x1 [f| |] ] eqn:Eb.
  - destruct (accept_frame r (mem k) f) as [ [r1 [|t|] ]|] eqn:Ea; [| | |discriminate].
    + destruct (IH _ _ _ _ _ _ E) as (ops & outs & rops & couts & H1 & H2 & H3 & H4 & H5 & H6). exists (OpReceive (clock k) :: ops), ((OpReceive (clock k), OutRx (RxFrame f)) :: outs), (CFrame f (mem k) :: rops), (CGot RxNone :: couts).
      cbn [bx_run bx_step can_run can_step]. rewrite Eb, H1, Ea, H3. split; [reflexivity|]. split; [constructor; [eexists; reflexivity|exact H2]|]. split; [reflexivity|]. split; [cbn [given_frames flat_map received app]; f_equal; exact H4|].
      split; [constructor; [eexists _, _; reflexivity|exact H5]|exact H6].
    + injection E as <- <- <-. exists [OpReceive (clock k)], [(OpReceive (clock k), OutRx (RxFrame f))], [CFrame f (mem k)], [CGot (RxTransfer t)].
      cbn [bx_run bx_step can_run can_step]. rewrite Eb, Ea. split; [reflexivity|]. split; [constructor; [eexists; reflexivity|constructor]|]. split; [reflexivity|]. split; [reflexivity|]. split; [constructor; [eexists _, _; reflexivity|constructor]|reflexivity].
    + injection E as <- <- <-. exists [OpReceive (clock k)], [(OpReceive (clock k), OutRx (RxFrame f))], [CFrame f (mem k)], [CGot RxMemory].
      cbn [bx_run bx_step can_run can_step]. rewrite Eb, Ea. split; [reflexivity|]. split; [constructor; [eexists; reflexivity|constructor]|]. split; [reflexivity|]. split; [reflexivity|]. split; [constructor; [eexists _, _; reflexivity|constructor]|reflexivity].
  - injection E as <- <- <-. exists [OpReceive (clock k)], [(OpReceive (clock k), OutRx RxWouldBlock)], [], []. cbn [bx_run bx_step can_run]. rewrite Eb. split; [reflexivity|]. split; [constructor; [eexists; reflexivity|constructor]|].
    split; [reflexivity|]. split; [reflexivity|]. split; [constructor|reflexivity].
  - injection E as <- <- <-. exists [OpReceive (clock k)], [(OpReceive (clock k), OutRx RxOverrun)], [], []. cbn [bx_run bx_step can_run]. rewrite Eb. split; [reflexivity|]. split; [constructor; [eexists; reflexivity|constructor]|].
    split; [reflexivity|]. split; [reflexivity|]. split; [constructor|reflexivity].
Qed.

Lemma station_run cap banks script n0 h n ts q k ops : Forall receives ops -> forall x x' outs, station cap banks script n0 h n ts q (Ok x, k) -> bx_run ops x = Ok (x', outs) -> station cap banks script n0 h n ts q (Ok x', k).
Proof.
  induction 1 as [|o ops Ho _ IH]; intros x x' outs H E; cbn [bx_run] in E; [injection E as <- _; exact H|]. destruct (bx_step o x) as [ [x1 out]|] eqn:Es; [|discriminate].
  destruct (bx_run ops x1) as [ [x2 l]|] eqn:Er; [|discriminate]. injection E as <- _. apply (IH x1 x2 l); [|exact Er]. eapply station_receive; eassumption.
Qed.

Lemma step_station cap banks script n0 h n ts q r x k ev z' res : station cap banks script n0 (node_calls h) n ts q (Ok x, k) -> event_fine ev -> can_node_step script ev (CanNode n q r x k) = Ok (z', res) ->
  exists taken, station cap banks script n0 (node_calls ((ev, res) :: h)) (cn_core z') (ts ++ taken) (cn_queue z') (Ok (cn_driver z'), cn_reads z') /\
    forall t, In t taken -> exists o calls out, res = ResCall o calls out /\ In (CPush t) calls.
Proof.
  intros H Hf E. assert (Nil : forall t : transfer, In t [] -> exists o calls out, res = ResCall o calls out /\ In (CPush t) calls) by (intros t []).
  destruct ev as [o mem alloc|fuel|clock mem|m|b|].
  - destruct (call_inv _ _ _ _ _ _ _ _ _ _ _ E) as (a & b & calls & out & -> & E1 & Ho & Hk & Hp). cbn [node_calls flat_map snd app]. fold (node_calls h). rewrite Hk.
    assert (Call : forall q' taken, queued (with_answers a b o) q calls q' taken -> station cap banks script n0 ((with_answers a b o, calls, out) :: node_calls h) (cn_core z') (ts ++ taken) q' (Ok x, k)).
    { intros q' taken Hq. eapply station_call; [exact H|apply answers_fine, Hf|exact E1|exact Ho|exact Hq]. }
    assert (F : forall c x' r', (forall t, c <> CPush t) -> calls = [c] -> bx_filters (fst (rx_filters r')) (snd (rx_filters r')) alloc x = Ok x' -> station cap banks script n0 ((with_answers a b o, calls, out) :: node_calls h) (cn_core z') (ts ++ []) q (Ok x', k)).
    { intros c x' r' Hc Ec Ef. apply (station_receive cap banks script n0 _ _ _ _ x k (OpFilters (fst (rx_filters r')) (snd (rx_filters r')) alloc) x' OutNothing); [|exact I|cbn [bx_step]; rewrite Ef; reflexivity].
      apply Call. apply queued_none. subst calls. intros t [Ht|[] ]. exact (Hc t Ht). }
    destruct Hp as [a' b'|t q' e b' Ep|c p timeout max r' x' a' Hc Hn Es Ef Ec|c p timeout max r' a' b' Hc Hn Es Hb Ec|c p r' x' a' b' Hc Hn Er Ef Ec|id a' b'].
    + exists []. split; [|exact Nil]. apply Call. apply queued_none. intros t [].
    + eexists. split; [apply Call; eapply queued_one; [exact Ep|apply answers_answered]|]. intros t' Ht'. exists (with_answers (told e) b' o), [CPush t], out. split; [reflexivity|]. destruct e; [destruct Ht' as [<-|[] ]; left; reflexivity|destruct Ht'..].
    + exists []. split; [|exact Nil]. exact (F c x' r' Hn eq_refl Ef).
    + exists []. split; [|exact Nil]. apply Call. apply queued_none. intros t [Ht|[] ]. exact (Hn t Ht).
    + exists []. split; [|exact Nil]. exact (F c x' r' Hn eq_refl Ef).
    + exists []. split; [|exact Nil]. apply Call. apply queued_none. intros t [Ht|[] ]. discriminate Ht.
  - cbn [can_node_step] in E. destruct (bx_flush script fuel q (Ok x, k)) as [ [ [ [q' [ [x'|] k'] ] a]|]|] eqn:Ef; try discriminate E. injection E as <- <-. exists []. rewrite app_nil_r. split; [|exact Nil]. eapply station_flush; eassumption.
  - cbn [can_node_step] in E. destruct (bx_pnp_receive _ _ _ _ _ _) as [ [ [r' x'] a]|] eqn:Er; [|discriminate]. injection E as <- <-. exists []. rewrite app_nil_r. split; [|exact Nil].
    destruct (receive_run _ _ _ _ _ _ _ _ _ Er) as (ops & outs & rops & couts & H1 & H2 & _). eapply station_run; [|exact H|exact H1]. eapply Forall_impl; [|exact H2]. intros o (i & ->). exact I.
  - cbn [can_node_step] in E. injection E as <- <-. exists []. rewrite app_nil_r. split; [|exact Nil]. apply station_send. exact H.
  - cbn [can_node_step] in E. injection E as <- <-. exists []. rewrite app_nil_r. split; [|exact Nil]. eapply (station_receive _ _ _ _ _ _ _ _ _ _ (OpArrive b)); [exact H|exact I|reflexivity].
  - cbn [can_node_step] in E. injection E as <- <-. exists []. rewrite app_nil_r. split; [|exact Nil]. eapply (station_receive _ _ _ _ _ _ _ _ _ _ OpOverrun); [exact H|exact I|reflexivity].
Qed.

Lemma path_station cap banks script k P R id h z : node_path script (can_node_new cap banks k P R id) h z ->
  exists ts, station cap banks script (core_new TransportCan k P R id) (node_calls h) (cn_core z) ts (cn_queue z) (Ok (cn_driver z), cn_reads z) /\
    forall t, In t ts -> exists o calls out, In (o, calls, out) (node_calls h) /\ In (CPush t) calls.
Proof.
  induction 1 as [|h z ev z' res _ (ts & I1 & I2) Hf E].
  - exists []. split; [apply station_new|intros t []].
  - destruct z as [n q r x j]. cbn [cn_core cn_queue cn_driver cn_reads] in I1. destruct (step_station _ _ _ _ _ _ _ _ _ _ _ _ _ _ I1 Hf E) as (taken & S1 & S2). exists (ts ++ taken). split; [exact S1|].
    intros t Ht. apply in_app_iff in Ht. destruct Ht as [Ht|Ht].
    + destruct (I2 t Ht) as (o & calls & out & Hi & Hc). exists o, calls, out. split; [|exact Hc]. unfold node_calls. cbn [flat_map]. apply in_or_app. right. exact Hi.
    + destruct (S2 t Ht) as (o & calls & out & -> & Hc). exists o, calls, out. split; [|exact Hc]. left. reflexivity.
Qed.

(** * What a step does to driver and receiver *)

(** Frames in the mailboxes *)
Definition boxes (P : N -> list N -> Prop) (d : device) : Prop := forall b, In (Some b) (d_mailboxes d) -> exists data, b_data b = Some data /\ P (b_id b) data.
Definition held (P : N -> list N -> Prop) (f : frame) : Prop := P (f_id f) (f_data f).
Lemma in_upd {A} (l : list A) : forall m v y, In y (upd l m v) -> In y l \/ y = v.
Proof. induction l as [|a l IH]; intros [|m] v y; cbn [upd]; intro H; try (left; exact H); destruct H as [H|H]; [right; symmetry; exact H|left; right; exact H|left; left; exact H|destruct (IH m v y H) as [H'|H']; [left; right; exact H'|right; exact H'] ]. Qed.
Lemma boxes_send P m d : boxes P d -> boxes P (dev_send m d).
Proof. intros H. unfold dev_send. destruct (nth_error (d_mailboxes d) m) as [ [b|]|]; try exact H. intros b' Hb. cbn [d_mailboxes] in Hb. apply in_upd in Hb. destruct Hb as [Hb|Hb]; [exact (H b' Hb)|discriminate Hb]. Qed.
Lemma boxes_abort P now m d : boxes P d -> boxes P (dev_abort now m d).
Proof. intros H. unfold dev_abort. destruct (nth_error (d_mailboxes d) m) as [ [b|]|]; try exact H. intros b' Hb. cbn [d_mailboxes] in Hb. apply in_upd in Hb. destruct Hb as [Hb|Hb]; [exact (H b' Hb)|discriminate Hb]. Qed.
Lemma boxes_clean P ds now d : boxes P d -> boxes P (clean_expired ds now d).
Proof.
  intro H. assert (C : forall m e, boxes P e -> boxes P (clean_mailbox ds now m e)).
  { intros m e He. unfold clean_mailbox. destruct (nth_error ds m) as [ [dl|]|]; try exact He. destruct (t_gt now dl); [apply boxes_abort|]; exact He. }
  unfold clean_expired. auto.
Qed.
Lemma boxes_transmit P now f x x' r : boxes P (bx_can x) -> held P f -> bx_transmit now f x = Ok (x', r) -> boxes P (bx_can x') /\ forall g, r = TxOk (Some g) -> held P g.
Proof.
  intros H Hf. unfold bx_transmit. cbn [bx_can bx_deadlines bx_loopback]. pose proof (boxes_clean P (bx_deadlines x) now _ H) as H0. destruct (t_lt (f_ts f) now).
  - intro E. injection E as <- <-. split; [exact H0|intros g Eg; discriminate Eg].
  - unfold transmit_inner. cbn [bx_can bx_deadlines bx_loopback]. destruct (to_bxcan f) as [b|] eqn:Eb; [|discriminate].
    assert (Hb : b_data b = Some (f_data f) /\ b_id b = f_id f) by (unfold to_bxcan in Eb; destruct (f_id f <? 2 ^ 29); [|discriminate]; destruct (length (f_data f) <=? 8)%nat; [|discriminate]; injection Eb as <-; split; reflexivity).
    set (d := clean_expired _ _ _) in *. unfold dev_transmit. destruct (forallb _ _).
    + intro E. set (m := next_mailbox (d_mailboxes d)) in E. set (c := Device (upd _ _ _) _ _ _) in E.
      assert (Hc : boxes P c).
      { intros b' Hb'. unfold c in Hb'. cbn [d_mailboxes] in Hb'. apply in_upd in Hb'. destruct Hb' as [Hb'|Hb']; [exact (H0 b' Hb')|]. injection Hb' as ->. exists (f_data f). split; [apply Hb|]. destruct Hb as (_ & ->). exact Hf. }
      set (back := match nth_error (d_mailboxes d) m with Some mb => mb | None => None end) in E.
      assert (Hback : forall g, back = Some g -> In (Some g) (d_mailboxes d)) by (intros g Eg; unfold back in Eg; destruct (nth_error (d_mailboxes d) m) as [mb|] eqn:En; [subst mb; exact (nth_error_In _ _ En)|discriminate]).
      set (rep := match nth_error (bx_deadlines x) m with Some dl => dl | None => None end) in E. cbv beta iota zeta in E. cbn [bx_can bx_deadlines bx_loopback] in E.
      assert (Hg : forall g, TxOk (match back, rep with Some g, Some dl => of_bxcan g dl | _, _ => None end) = TxOk (Some g) -> held P g).
      { intros g Eg. destruct back as [b'|]; [|discriminate]. destruct rep as [dl|]; [|discriminate]. injection Eg as Eg. unfold of_bxcan in Eg. destruct (b_extended b'); [|discriminate]. destruct (b_id b' <? 2 ^ 29); [|discriminate].
        destruct (H0 b' (Hback b' eq_refl)) as (data & Ed & Hp). rewrite Ed in Eg. injection Eg as <-. exact Hp. }
      destruct (f_loop f && negb _); injection E as <- <-; split; assumption.
    + intro E. cbv beta iota zeta in E. cbn [andb] in E. injection E as <- <-. split; [exact H0|intros g Eg; discriminate Eg].
Qed.

Lemma sends_run ms : forall x, bx_run (map OpSend ms) x = Ok (sends ms x, map (fun m => (OpSend m, OutNothing)) ms).
Proof. induction ms as [|m ms IH]; intro x; [reflexivity|]. cbn [map bx_run bx_step]. rewrite IH. reflexivity. Qed.
Lemma boxes_sends P ms : forall x, boxes P (bx_can x) -> boxes P (bx_can (sends ms x)).
Proof. induction ms as [|m ms IH]; intros x H; [exact H|]. apply IH. apply boxes_send. exact H. Qed.

Definition flush_op (script : nat -> N * list nat) (P : N -> list N -> Prop) (o : bx_op) : Prop :=
  match o with OpSend _ => True | OpTransmit now f => held P f /\ exists j, now = fst (script j) | _ => False end.
Lemma run_app a b x x1 l1 x2 l2 : bx_run a x = Ok (x1, l1) -> bx_run b x1 = Ok (x2, l2) -> bx_run (a ++ b) x = Ok (x2, l1 ++ l2).
Proof. intros H1 H2. rewrite bx_run_app, H1, H2. reflexivity. Qed.
Lemma flush_run script P cap : forall fuel q l x k q' x' k' a, holds cap q l -> Forall (held P) l -> boxes P (bx_can x) ->
  flush_queue aq_ops (clock_now script) (clock_transmit script) fuel q (Ok x, k) = Ok (Some (q', (Ok x', k'), a)) ->
  exists ops outs, bx_run ops x = Ok (x', outs) /\ Forall (flush_op script P) ops.
Proof.
  assert (Fs : forall ms, Forall (flush_op script P) (map OpSend ms)) by (intro ms; apply Forall_forall; intros o Ho; apply in_map_iff in Ho; destruct Ho as (m & <- & _); exact I).
  induction fuel as [|fuel IH]; intros q l x k q' x' k' a Hq Hl Hb E; cbn [flush_queue] in E; [discriminate|]. cbn [q_pop q_return aq_ops] in E. pose proof (aq_pop_spec cap q l Hq) as K. destruct l as [|f l].
  - rewrite K in E. injection E as _ <- _ _. exists [], []. split; [reflexivity|constructor].
  - destruct K as (q1 & Ep & Hq1). rewrite Ep in E. inversion Hl as [|f' l' Hf Hl']; subst. cbn [clock_now] in E. set (y := sends (snd (script k)) x) in *.
    pose proof (boxes_sends P (snd (script k)) x Hb) as By. fold y in By. pose proof (sends_run (snd (script k)) x) as Ry. fold y in Ry.
    destruct (frame_expired f (fst (script k))).
    + destruct (IH _ _ _ _ _ _ _ _ Hq1 Hl' By E) as (ops & outs & R1 & R2). eexists (map OpSend (snd (script k)) ++ ops), _. split; [exact (run_app _ _ _ _ _ _ _ Ry R1)|]. apply Forall_app. split; [apply Fs|exact R2].
    + unfold clock_transmit in E at 1. cbn [clock_now] in E. set (y' := sends (snd (script (S k))) y) in *. pose proof (boxes_sends P (snd (script (S k))) y By) as By'. fold y' in By'. pose proof (sends_run (snd (script (S k))) y) as Ry'. fold y' in Ry'.
      destruct (bx_transmit (fst (script (S k))) f y') as [ [x2 r]|] eqn:Et; [|discriminate E].
      destruct (boxes_transmit P _ _ _ _ _ By' Hf Et) as (B2 & G2).
      assert (R2 : exists outs, bx_run (map OpSend (snd (script k)) ++ map OpSend (snd (script (S k))) ++ [OpTransmit (fst (script (S k))) f]) x = Ok (x2, outs)).
      { eexists. eapply run_app; [exact Ry|]. eapply run_app; [exact Ry'|]. cbn [bx_run bx_step]. rewrite Et. reflexivity. }
      assert (F2 : Forall (flush_op script P) (map OpSend (snd (script k)) ++ map OpSend (snd (script (S k))) ++ [OpTransmit (fst (script (S k))) f])).
      { apply Forall_app. split; [apply Fs|]. apply Forall_app. split; [apply Fs|]. constructor; [|constructor]. split; [exact Hf|]. exists (S k). reflexivity. }
      destruct R2 as (outs2 & R2).
      assert (Next : forall q2 l2, holds cap q2 l2 -> Forall (held P) l2 -> flush_queue aq_ops (clock_now script) (clock_transmit script) fuel q2 (Ok x2, S (S k)) = Ok (Some (q', (Ok x', k'), a)) -> exists ops outs, bx_run ops x = Ok (x', outs) /\ Forall (flush_op script P) ops).
      { intros q2 l2 Hq2 Hl2 E2. destruct (IH _ _ _ _ _ _ _ _ Hq2 Hl2 B2 E2) as (ops & outs & R3 & R4). eexists _, _. split; [exact (run_app _ _ _ _ _ _ _ R2 R3)|]. apply Forall_app. split; assumption. }
      destruct r as [ [g|]| |].
      * destruct (frame_expired g (fst (script k))); [exact (Next q1 l Hq1 Hl' E)|]. pose proof (aq_return_spec cap q1 l g Hq1) as Kr. destruct (length l <? cap)%nat; [|rewrite Kr in E; discriminate E].
        destruct Kr as (q2 & Er & Hq2). rewrite Er in E. apply (Next q2 (insert_before g l) Hq2); [|exact E]. apply (Permutation_Forall (Permutation_sym (insert_before_perm g l))). constructor; [exact (G2 g eq_refl)|exact Hl'].
      * exact (Next q1 l Hq1 Hl' E).
      * destruct (aq_return q1 f) as [ [q2 [|] ]|]; try discriminate E. injection E as _ <- _ _. exists (map OpSend (snd (script k)) ++ map OpSend (snd (script (S k))) ++ [OpTransmit (fst (script (S k))) f]), outs2. split; assumption.
      * injection E as _ <- _ _. exists (map OpSend (snd (script k)) ++ map OpSend (snd (script (S k))) ++ [OpTransmit (fst (script (S k))) f]), outs2. split; assumption.
Qed.

(** The operations on driver and receiver in a call *)
Definition sub_call (p : port) (timeout : N) (max : nat) : call := match p with PMsg s => CSubMessage s max timeout | PReq s => CSubRequest s max timeout | PResp s => CSubResponse s max timeout end.
Definition unsub_call (p : port) : call := match p with PMsg s => CUnsubMessage s | PReq s => CUnsubRequest s | PResp s => CUnsubResponse s end.
Inductive called (mem : bool) (alloc : nat -> bool) (r' : can_rx) : list call -> sub_result -> list bx_op -> list can_op -> list can_out -> Prop :=
| called_none b : called mem alloc r' [] b [] [] []
| called_push t b : called mem alloc r' [CPush t] b [] [] []
| called_sub p timeout max : called mem alloc r' [sub_call p timeout max] SubOk [OpFilters (fst (rx_filters r')) (snd (rx_filters r')) alloc] [CSub p timeout max mem] [CSubbed SubscribeOk]
| called_fail p timeout max b o : b <> SubOk -> o <> SubscribeOk -> called mem alloc r' [sub_call p timeout max] b [] [CSub p timeout max mem] [CSubbed o]
| called_unsub p b : called mem alloc r' [unsub_call p] b [OpFilters (fst (rx_filters r')) (snd (rx_filters r')) alloc] [CUnsub p] [CDone]
| called_id id b : called mem alloc r' [NodeModel.CSetId id] b [] [CanRxSpec.CSetId (Some id)] [CDone].

(** The operations on driver and receiver in a step *)
Definition step_op (script : nat -> N * list nat) (P : N -> list N -> Prop) (r' : can_rx) (o : bx_op) : Prop :=
  match o with
  | OpTransmit now f => held P f /\ exists j, now = fst (script j)
  | OpReceive now => now < 2 ^ 32
  | OpFilters local ps _ => local = rx_id r' /\ ps = snd (rx_filters r')
  | OpAcceptAll => False
  | OpArrive b => forall data, b_data b = Some data -> bytes_ok data
  | _ => True
  end.
Definition transfers_in (couts : list can_out) : list transfer := flat_map (fun o => match o with CGot (RxTransfer t) => [t] | _ => [] end) couts.

Lemma step_parts script cap P ev z z' res l : event_fine ev -> can_node_step script ev z = Ok (z', res) -> holds cap (cn_queue z) l -> Forall (held P) l -> boxes P (bx_can (cn_driver z)) ->
  exists ops outs rops couts,
    bx_run ops (cn_driver z) = Ok (cn_driver z', outs) /\ can_run (cn_receiver z) rops = Ok (cn_receiver z', couts) /\ given_frames rops = flat_map received outs /\
    on_bus ops = (match ev with EvArrive b => [b] | _ => [] end) /\ transfers_in couts = (match res with ResReceive (Received t) => [t] | _ => [] end) /\
    Forall (step_op script P (cn_receiver z')) ops /\
    match ev with
    | EvCall o mem alloc => exists a b calls out, res = ResCall (with_answers a b o) calls out /\ core_step (cn_core z) (with_answers a b o) = (cn_core z', calls, out) /\ out <> OPanic /\ called mem alloc (cn_receiver z') calls b ops rops couts
    | EvReceive clock mem => Forall (fun o => exists f i, o = CFrame f (mem i)) rops /\ Forall (fun o => exists now, o = OpReceive now) ops /\ exists a, res = ResReceive a
    | EvFlush _ => rops = [] /\ Forall (flush_op script P) ops /\ exists a, res = ResFlush a
    | _ => rops = [] /\ Forall (fun o => match o with OpSend _ | OpArrive _ | OpOverrun => True | _ => False end) ops /\ res = ResNothing
    end.
Proof.
  intros Hf E Hq Hl Hb. destruct z as [n q r x k]. cbn [cn_queue cn_driver cn_receiver cn_core] in *. destruct ev as [o mem alloc|fuel|clock mem|m|b|].
  - destruct (call_inv _ _ _ _ _ _ _ _ _ _ _ E) as (a & b & calls & out & Er & E1 & Ho & _ & Hp). subst res.
    destruct Hp as [a b|t q' e b Ep|c p timeout max r' x' a Hc Hn Es Ef Ec|c p timeout max r' a b Hc Hn Es Hne Ec|c p r' x' a b Hc Hn Er Ef Ec|id a b].
    + exists [], [], [], []. split; [reflexivity|]. split; [reflexivity|]. split; [reflexivity|]. split; [reflexivity|]. split; [reflexivity|]. split; [constructor|]. exists a, b, [], out. split; [reflexivity|]. split; [exact E1|]. split; [exact Ho|constructor].
    + exists [], [], [], []. split; [reflexivity|]. split; [reflexivity|]. split; [reflexivity|]. split; [reflexivity|]. split; [reflexivity|]. split; [constructor|]. exists (told e), b, [CPush t], out. split; [reflexivity|]. split; [exact E1|]. split; [exact Ho|constructor].
    + exists [OpFilters (fst (rx_filters r')) (snd (rx_filters r')) alloc], [(OpFilters (fst (rx_filters r')) (snd (rx_filters r')) alloc, OutNothing)], [CSub p timeout max mem], [CSubbed SubscribeOk].
      split; [cbn [bx_run bx_step]; rewrite Ef; reflexivity|]. split; [cbn [can_run can_step]; rewrite Es; reflexivity|]. split; [reflexivity|]. split; [reflexivity|]. split; [reflexivity|]. split; [constructor; [split; reflexivity|constructor]|].
      exists a, SubOk, [c], out. split; [reflexivity|]. split; [exact E1|]. split; [exact Ho|]. rewrite Ec. fold (sub_call p timeout max). constructor.
    + exists [], [], [CSub p timeout max mem], [CSubbed (match b with SubError _ => SubscribeMemory | _ => SubscribeAnonymous end)].
      split; [reflexivity|]. split; [cbn [can_run can_step]; rewrite Es; reflexivity|]. split; [reflexivity|]. split; [reflexivity|]. split; [reflexivity|]. split; [constructor|].
      exists a, b, [c], out. split; [reflexivity|]. split; [exact E1|]. split; [exact Ho|]. rewrite Ec. fold (sub_call p timeout max). constructor; [exact Hne|]. destruct b; discriminate.
    + exists [OpFilters (fst (rx_filters r')) (snd (rx_filters r')) alloc], [(OpFilters (fst (rx_filters r')) (snd (rx_filters r')) alloc, OutNothing)], [CUnsub p], [CDone].
      split; [cbn [bx_run bx_step]; rewrite Ef; reflexivity|]. split; [cbn [can_run can_step]; rewrite Er; reflexivity|]. split; [reflexivity|]. split; [reflexivity|]. split; [reflexivity|]. split; [constructor; [split; reflexivity|constructor]|].
      exists a, b, [c], out. split; [reflexivity|]. split; [exact E1|]. split; [exact Ho|]. rewrite Ec. fold (unsub_call p). constructor.
    + exists [], [], [CanRxSpec.CSetId (Some id)], [CDone]. split; [reflexivity|]. split; [reflexivity|]. split; [reflexivity|]. split; [reflexivity|]. split; [reflexivity|]. split; [constructor|]. exists a, b, [NodeModel.CSetId id], out. split; [reflexivity|]. split; [exact E1|]. split; [exact Ho|constructor].
  - cbn [can_node_step] in E. destruct (bx_flush script fuel q (Ok x, k)) as [ [ [ [q' [ [x'|] k'] ] a]|]|] eqn:Ef; try discriminate E. injection E as <- <-. destruct (flush_run script P cap _ _ _ _ _ _ _ _ _ Hq Hl Hb Ef) as (ops & outs & R1 & R2).
    exists ops, outs, [], []. cbn [cn_driver cn_receiver]. split; [exact R1|]. split; [reflexivity|].
    assert (N : flat_map received outs = []).
    { clear -R1 R2. revert x outs R1. induction R2 as [|o ops Ho _ IH]; intros x outs E; cbn [bx_run] in E; [injection E as _ <-; reflexivity|]. destruct (bx_step o x) as [ [x1 out]|] eqn:Es; [|discriminate]. destruct (bx_run ops x1) as [ [x2 l]|] eqn:Er; [|discriminate].
      injection E as <- <-. cbn [flat_map]. rewrite (IH _ _ Er), app_nil_r. destruct o; try destruct Ho; cbn [bx_step] in Es; [destruct (bx_transmit _ _ _) as [ [x3 r3]|]; [|discriminate]; injection Es as _ <-; reflexivity|injection Es as _ <-; reflexivity]. }
    split; [symmetry; exact N|]. split; [clear -R2; induction R2 as [|o ops Ho _ IH]; [reflexivity|]; unfold on_bus in *; cbn [flat_map]; rewrite IH; destruct o; try reflexivity; destruct Ho|]. split; [reflexivity|].
    split; [eapply Forall_impl; [|exact R2]; intros o Ho; destruct o; try exact I; try destruct Ho; split; assumption|]. split; [reflexivity|]. split; [exact R2|]. eexists. reflexivity.
  - cbn [can_node_step] in E. destruct (bx_pnp_receive _ _ _ _ _ _) as [ [ [r' x'] a]|] eqn:Er; [|discriminate]. injection E as <- <-. destruct (receive_run _ _ _ _ _ _ _ _ _ Er) as (ops & outs & rops & couts & H1 & H2 & H3 & H4 & H5 & H6).
    exists ops, outs, rops, couts. cbn [cn_driver cn_receiver]. split; [exact H1|]. split; [exact H3|]. split; [exact H4|].
    split; [clear -H2; induction H2 as [|o ops (i & ->) _ IH]; [reflexivity|exact IH]|]. split; [exact H6|]. split; [eapply Forall_impl; [|exact H2]; intros o (i & ->); exact (Hf i)|].
    split; [eapply Forall_impl; [|exact H5]; intros o (i & f & ->); eexists _, _; reflexivity|]. split; [eapply Forall_impl; [|exact H2]; intros o (i & ->); eexists; reflexivity|]. eexists. reflexivity.
  - cbn [can_node_step] in E. injection E as <- <-. exists [OpSend m], [(OpSend m, OutNothing)], [], []. split; [reflexivity|]. split; [reflexivity|]. split; [reflexivity|]. split; [reflexivity|]. split; [reflexivity|]. split; [constructor; [exact I|constructor]|]. split; [reflexivity|]. split; [constructor; [exact I|constructor]|reflexivity].
  - cbn [can_node_step] in E. injection E as <- <-. exists [OpArrive b], [(OpArrive b, OutNothing)], [], []. split; [reflexivity|]. split; [reflexivity|]. split; [reflexivity|]. split; [reflexivity|]. split; [reflexivity|]. split; [constructor; [exact Hf|constructor]|]. split; [reflexivity|]. split; [constructor; [exact I|constructor]|reflexivity].
  - cbn [can_node_step] in E. injection E as <- <-. exists [OpOverrun], [(OpOverrun, OutNothing)], [], []. split; [reflexivity|]. split; [reflexivity|]. split; [reflexivity|]. split; [reflexivity|]. split; [reflexivity|]. split; [constructor; [exact I|constructor]|]. split; [reflexivity|]. split; [constructor; [exact I|constructor]|reflexivity].
Qed.

(** * Frames in queue and mailboxes *)

Lemma path_hist cap banks script k P R id h z : node_path script (can_node_new cap banks k P R id) h z -> core_hist (core_new TransportCan k P R id) (node_calls h) (cn_core z) /\ Forall (fun en => op_fine (fst (fst en))) (node_calls h).
Proof. intro H. destruct (path_station _ _ _ _ _ _ _ _ _ H) as (ts & S & _). exact (station_hist _ _ _ _ _ _ _ _ _ S). Qed.

Lemma path_held cap banks script k P R id h z (Q : N -> list N -> Prop) : (forall i, fst (script i) < 2 ^ 32) -> kind_ok TransportCan k -> (forall j, id = Some j -> j <= 127) -> node_path script (can_node_new cap banks k P R id) h z ->
  (forall o calls out t fr f, In (o, calls, out) (node_calls h) -> In (CPush t) calls -> bytes_ok (t_payload t) -> frames_of t fr -> In f fr -> held Q f) ->
  exists l, holds cap (cn_queue z) l /\ Forall (held Q) l /\ boxes Q (bx_can (cn_driver z)).
Proof.
  intros Hs Hk Hid H HQ. destruct (path_station _ _ _ _ _ _ _ _ _ H) as (ts & S & Hts). destruct (station_sender _ _ _ _ _ _ _ _ _ _ _ _ Hk Hid S) as (S1 & S2). destruct (sender_system _ _ _ _ _ _ Hs S1) as (frs & F1 & F2).
  destruct (system_inv _ _ _ _ _ _ Hs F2) as (l & Hl & x & j & os & out & lost & gone & Ew & A & W). injection Ew as <- <-. exists l. split; [exact Hl|].
  assert (Hp : forall f, In f (out ++ map snd lost ++ occupied os ++ l) -> held Q f).
  { intros f Hf. assert (Hi : In (plain f) (map plain (concat frs))) by (eapply Permutation_in; [symmetry; exact (way_all _ _ _ _ _ _ W)|]; apply in_map; exact Hf).
    apply in_map_iff in Hi. destruct Hi as (g & Eg & Hg). injection Eg as _ E2 E3. destruct (in_frames _ _ _ F1 Hg) as (t & fr & Ht & Hfr & Hin). destruct (Hts t Ht) as (o & calls & r & Ho & Hc). rewrite Forall_forall in S2.
    pose proof (HQ o calls r t fr g Ho Hc (S2 t Ht) Hfr Hin) as K. unfold held in *. rewrite <- E2, <- E3. exact K. }
  split; [apply Forall_forall; intros f Hf; apply Hp; rewrite !in_app_iff; auto|]. intros b Hb. rewrite (rel_mailboxes _ _ (acc_rel _ _ _ _ A)) in Hb. apply in_map_iff in Hb. destruct Hb as ([f|] & Ef & Hf); [|discriminate Ef].
  injection Ef as <-. exists (f_data f). split; [reflexivity|]. apply (Hp f). rewrite !in_app_iff. right. right. left. unfold occupied. apply in_flat_map. exists (Some f). split; [exact Hf|left; reflexivity].
Qed.

(** * Subscriptions of the receiver *)

Definition ports (r : can_rx) : list port := map su_port (rx_subs r).
Lemma subs_ports subs : forall mem f h tl subs' o, subs_accept subs mem f h tl = Ok (subs', o) -> map su_port subs' = map su_port subs.
Proof.
  induction subs as [|su subs IH]; intros mem f h tl subs' o E; cbn [subs_accept] in E; [injection E as <- _; reflexivity|]. destruct (port_eqb _ _).
  - destruct (su_accept su mem f h tl) as [ [su' o']|] eqn:Es; [|discriminate]. injection E as <- _. cbn [map]. rewrite (su_accept_port _ _ _ _ _ _ _ Es). reflexivity.
  - destruct (subs_accept subs mem f h tl) as [ [rest o']|] eqn:Es; [|discriminate]. injection E as <- _. cbn [map]. rewrite (IH _ _ _ _ _ _ Es). reflexivity.
Qed.
Lemma accept_keeps r mem f r' o : accept_frame r mem f = Ok (r', o) -> rx_id r' = rx_id r /\ ports r' = ports r.
Proof.
  unfold accept_frame, ports. destruct (frame_check f) as [ [ [h tl]|]|]; [|intro E; injection E as <- _; split; reflexivity|discriminate].
  destruct (match h with HMsg _ => false | HReq s | HResp s => negb (f_loop f || can_accept_service r (sh_dest s)) end); [intro E; injection E as <- _; split; reflexivity|].
  unfold accept_sane. destruct (subs_accept (rx_subs r) mem f h tl) as [ [subs o']|] eqn:Es; [|discriminate]. rewrite <- (subs_ports _ _ _ _ _ _ _ Es).
  destruct o' as [ [|t| | |]|]; intro E; injection E as <- _; split; reflexivity.
Qed.
Lemma frames_keep rops : Forall (fun o => exists f m, o = CFrame f m) rops -> forall r r' couts, can_run r rops = Ok (r', couts) -> rx_id r' = rx_id r /\ ports r' = ports r.
Proof.
  induction 1 as [|o rops (f & m & ->) _ IH]; intros r r' couts E; cbn [can_run can_step] in E; [injection E as <- _; split; reflexivity|]. destruct (accept_frame r m f) as [ [r1 o1]|] eqn:Ea; [|discriminate].
  destruct (can_run r1 rops) as [ [r2 os]|] eqn:Er; [|discriminate]. injection E as <- _. destruct (IH _ _ _ Er) as (I1 & I2). destruct (accept_keeps _ _ _ _ _ Ea) as (A1 & A2). split; congruence.
Qed.
Lemma unsubscribe_ports r p q : In q (ports (rx_unsubscribe r p)) <-> In q (ports r) /\ q <> p.
Proof.
  unfold ports, rx_unsubscribe. cbn [rx_subs]. rewrite !in_map_iff. split.
  - intros (su & <- & H). apply filter_In in H. destruct H as (H & Hn). split; [exists su; split; [reflexivity|exact H]|]. destruct (port_eqb_spec (su_port su) p); [discriminate Hn|assumption].
  - intros ((su & <- & H) & Hn). exists su. split; [reflexivity|]. apply filter_In. split; [exact H|]. destruct (port_eqb_spec (su_port su) p); [contradiction|reflexivity].
Qed.
Lemma subscribe_ports r p timeout max mem r' o : rx_subscribe_port r p timeout max mem = (r', o) -> rx_id r' = rx_id r /\ (forall q, In q (ports r') <-> (In q (ports r) /\ (q <> p \/ o = SubscribeAnonymous)) \/ (q = p /\ o = SubscribeOk)).
Proof.
  intro E. assert (K : (let (r', ok) := rx_subscribe r p timeout max mem in (r', if ok then SubscribeOk else SubscribeMemory)) = (r', o) \/ (r, SubscribeAnonymous) = (r', o)).
  { unfold rx_subscribe_port in E. destruct p, (rx_id r); auto. }
  clear E. destruct K as [E|E].
  - unfold rx_subscribe in E. destruct (_ || mem); injection E as <- <-.
    + split; [reflexivity|]. intro q. unfold ports at 1. cbn [rx_subs]. rewrite map_app, in_app_iff. pose proof (unsubscribe_ports r p q) as Up. unfold ports at 1 in Up. unfold rx_unsubscribe in Up. cbn [rx_subs] in Up. cbn [rx_subs rx_unsubscribe]. rewrite Up. cbn [map In su_new su_port]. split.
      * intros [(H1 & H2)|[H|[] ] ]; [left; split; [exact H1|left; exact H2]|right; split; [symmetry; exact H|reflexivity] ].
      * intros [(H1 & [H2|H2])|(H & _)]; [left; split; assumption|discriminate H2|right; left; symmetry; exact H].
    + split; [reflexivity|]. intro q. rewrite unsubscribe_ports. split; [intros (H1 & H2); left; split; [exact H1|left; exact H2]|intros [(H1 & [H2|H2])|(_ & H)]; [split; assumption|discriminate H2|discriminate H] ].
  - injection E as <- <-. split; [reflexivity|]. intro q. split; [intro H; left; split; [exact H|right; reflexivity]|intros [(H & _)|(_ & H)]; [exact H|discriminate H] ].
Qed.
Lemma filters_ports r p : In p (snd (rx_filters r)) <-> In p (ports r).
Proof.
  unfold rx_filters, ports. cbn [snd]. rewrite !in_app_iff, !filter_In. split; [intros [H|[H|H] ]; apply H|]. intro H. destruct p; [left|right; left|right; right]; split; try exact H; reflexivity.
Qed.

(** What a function of the node calls *)
Definition calls_of (o : op) (calls : list call) (r : out) : Prop :=
  match o with
  | SubscribeMessage s m t a => calls = [sub_call (PMsg s) t m] /\ r = subscribe_out a
  | SubscribeRequest s m t a => calls = [sub_call (PReq s) t m] /\ r = subscribe_out a
  | UnsubscribeMessage s => calls = [unsub_call (PMsg s)]
  | UnsubscribeRequest s => calls = [unsub_call (PReq s)]
  | StartSendingRequests s t m pr a => (calls = [] /\ forall k, r <> OToken k) \/
      (calls = [sub_call (PResp s) t m] /\ r = match a with SubOk => OToken s | SubError err => OError err | SubAnonymous => OAnonymous end)
  | SetNodeId id => calls = [NodeModel.CSetId id]
  | _ => calls = [] \/ exists t, calls = [CPush t]
  end.
Lemma core_calls n o n' calls r : core_step n o = (n', calls, r) -> calls_of o calls r.
Proof.
  destruct o; cbn [core_step calls_of]; intro E.
  - unfold start_publishing in E. destruct (im_get _ _); [|destruct (im_insert _ _ _ _)]; injection E as _ <- _; left; reflexivity.
  - injection E as _ <- _. left. reflexivity.
  - unfold publish in E. destruct (im_get _ _); [|injection E as _ <- _; left; reflexivity]. unfold publisher_publish in E. destruct (serialize_ok _ _); injection E as _ <- _; [right; eexists; reflexivity|left; reflexivity].
  - unfold start_sending_requests in E. destruct (c_id n); [|injection E as _ <- <-; left; split; [reflexivity|discriminate] ]. destruct (im_get _ _); [injection E as _ <- <-; left; split; [reflexivity|discriminate]|].
    destruct (im_insert _ _ _ _); [|injection E as _ <- <-; left; split; [reflexivity|discriminate] ]. destruct answer; injection E as _ <- <-; right; split; reflexivity.
  - injection E as _ <- _. left. reflexivity.
  - unfold send_request in E. destruct (im_get _ _); [|injection E as _ <- _; left; reflexivity]. destruct (c_id n); [|injection E as _ <- _; left; reflexivity]. unfold requester_send in E.
    destruct (serialize_ok _ _); [|injection E as _ <- _; left; reflexivity]. destruct (tracker_next _ _ _) as [ [ [i|] ids]|]; injection E as _ <- _; [right; eexists; reflexivity|left; reflexivity|left; reflexivity].
  - injection E as _ <- <-. split; reflexivity.
  - injection E as _ <- <-. reflexivity.
  - injection E as _ <- <-. split; reflexivity.
  - injection E as _ <- <-. reflexivity.
  - unfold send_response in E. destruct (serialize_ok _ _); [|injection E as _ <- _; left; reflexivity]. destruct (c_id n); injection E as _ <- _; [right; eexists; reflexivity|left; reflexivity].
  - unfold set_node_id in E. injection E as _ <- _. reflexivity.
Qed.

(** * Filters *)

Definition msg_port (p : port) : Prop := match p with PMsg _ => True | _ => False end.
Lemma accepting_message local local' p x : msg_port p -> accepting local p x -> accepting local' p x.
Proof.
  intros Hp H b (H1 & H2 & h & M1 & M2 & M3). apply H. split; [exact H1|]. split; [exact H2|]. exists h. split; [exact M1|]. split; [exact M2|]. left. destruct p; try destruct Hp. destruct h; [reflexivity|discriminate M2|discriminate M2].
Qed.
Lemma same_banks local p x x' : d_banks (bx_can x') = d_banks (bx_can x) -> accepting local p x -> accepting local p x'.
Proof. intros E H b Hb. rewrite E. exact (H b Hb). Qed.
Definition quiet_op (o : bx_op) : Prop := match o with OpFilters _ _ _ | OpAcceptAll => False | _ => True end.
Lemma quiet_banks ops : Forall quiet_op ops -> forall x x' outs, bx_run ops x = Ok (x', outs) -> d_banks (bx_can x') = d_banks (bx_can x).
Proof.
  induction 1 as [|o ops Ho _ IH]; intros x x' outs E; cbn [bx_run] in E; [injection E as <- _; reflexivity|]. destruct (bx_step o x) as [ [x1 out]|] eqn:Es; [|discriminate]. destruct (bx_run ops x1) as [ [x2 l]|] eqn:Er; [|discriminate].
  injection E as <- _. rewrite (IH _ _ _ Er). clear IH Er. destruct o as [now f|now|l0 ps alloc| |m|b|]; try destruct Ho; cbn [bx_step] in Es.
  - destruct (bx_transmit now f x) as [ [x3 r]|] eqn:Et; [|discriminate]. injection Es as <- _. destruct (bx_transmit_rx _ _ _ _ _ Et) as ((_ & Eb) & _). exact Eb.
  - unfold bx_receive in Es. destruct (receive_from_bus now (d_fifo (bx_can x))) as [fifo [f| |] ]; [|destruct (bx_loopback x) as [|f l0]|]; injection Es as <- _; reflexivity.
  - injection Es as <- _. cbn [on_device bx_can]. unfold dev_send. destruct (nth_error _ m) as [ [b|]|]; reflexivity.
  - injection Es as <- _. cbn [on_device bx_can]. unfold dev_arrive. destruct (existsb _ _); reflexivity.
  - injection Es as <- _. reflexivity.
Qed.

Record filtered (id : option N) (h : list (node_event * node_result)) (z : can_node) : Prop := {
  fi_banked : banked (cn_driver z);
  fi_ports : Forall port_ok (ports (cn_receiver z));
  fi_id : rx_id (cn_receiver z) = id_after id (node_calls h);
  fi_node : node_ok (rx_id (cn_receiver z));
  fi_accepts : forall p, In p (ports (cn_receiver z)) -> msg_port p \/ id_changed (node_calls h) = false -> accepting (rx_id (cn_receiver z)) p (cn_driver z) }.

Lemma sub_call_ok o a b out p t m : call_fine o -> calls_of (with_answers a b o) [sub_call p t m] out -> port_ok p.
Proof.
  intros (Hf1 & Hf2) E1. destruct o; cbn [with_answers calls_of op_fine] in *; try (destruct E1 as [E1|(? & E1)]; destruct p; discriminate E1); destruct p; cbn [sub_call unsub_call port_ok] in *.
  all: try (destruct E1 as [(E1 & _)|(E1 & _)]; [discriminate E1|]); try (destruct E1 as (E1 & _)); try discriminate E1; injection E1 as <- <- <-; try exact Hf2; apply Hf1.
Qed.
(** The ID and the filters after a call *)
Lemma calls_other o a b calls out : calls_of (with_answers a b o) calls out -> (calls = [] \/ exists t, calls = [CPush t]) -> renews (with_answers a b o, calls, out) = false /\ (forall i, with_answers a b o <> SetNodeId i).
Proof.
  intros E1 Hc. destruct o; cbn [with_answers calls_of renews] in *; (split; [|intros i Ei; try discriminate Ei]); try reflexivity.
  all: try (destruct Hc as [->|(t & ->)]; try discriminate E1; try (destruct E1 as (E1 & _); discriminate E1)).
  all: try (destruct E1 as [(E1 & E2)|(E1 & _)]; [|discriminate E1]; destruct out; try reflexivity; exfalso; eapply E2; reflexivity).
Qed.
Lemma calls_fail o a b out p t m : b <> SubOk -> calls_of (with_answers a b o) [sub_call p t m] out -> renews (with_answers a b o, [sub_call p t m], out) = false.
Proof.
  intros Hb E1. destruct o; cbn [with_answers calls_of renews] in *; try reflexivity.
  - destruct E1 as [(_ & E1)|(_ & E1)]; [destruct out; try reflexivity; exfalso; eapply E1; reflexivity|]. rewrite E1. destruct b; [contradiction|reflexivity..].
  - destruct E1 as (_ & ->). destruct b; [contradiction|reflexivity..].
  - destruct p; discriminate E1.
  - destruct E1 as (_ & ->). destruct b; [contradiction|reflexivity..].
  - destruct p; discriminate E1.
Qed.
Lemma calls_not_set w calls out : calls_of w calls out -> (forall i, calls <> [NodeModel.CSetId i]) -> forall i, w <> SetNodeId i.
Proof. intros E H i ->. exact (H i E). Qed.
Lemma calls_set w i out : calls_of w [NodeModel.CSetId i] out -> w = SetNodeId i.
Proof.
  destruct w; cbn [calls_of sub_call unsub_call]; intro E; try (destruct E as [E|(? & E)]; discriminate E); try (destruct E as (E & _); discriminate E); try discriminate E.
  - destruct E as [(E & _)|(E & _)]; discriminate E.
  - injection E as <-. reflexivity.
Qed.
Lemma id_after_other id w calls out h : (forall i, w <> SetNodeId i) -> id_after id ((w, calls, out) :: h) = id_after id h.
Proof. intro H. destruct w; try reflexivity. exfalso. exact (H _ eq_refl). Qed.
Lemma id_changed_other w calls out h : renews (w, calls, out) = false -> (forall i, w <> SetNodeId i) -> id_changed ((w, calls, out) :: h) = id_changed h.
Proof. intros Hr H. cbn [id_changed]. rewrite Hr. destruct w; try reflexivity. exfalso. exact (H _ eq_refl). Qed.
Lemma sub_not_set p t m i : [sub_call p t m] <> [NodeModel.CSetId i]. Proof. destruct p; discriminate. Qed.
Lemma unsub_not_set p i : [unsub_call p] <> [NodeModel.CSetId i]. Proof. destruct p; discriminate. Qed.

Lemma with_set a b o i : with_answers a b o = SetNodeId i -> o = SetNodeId i.
Proof. destruct o; cbn [with_answers]; intro E; try discriminate E. exact E. Qed.

Lemma filtered_step script cap id h z ev z' res l : filtered id h z -> event_fine ev -> can_node_step script ev z = Ok (z', res) -> holds cap (cn_queue z) l -> boxes (fun _ _ => True) (bx_can (cn_driver z)) -> filtered id ((ev, res) :: h) z'.
Proof.
  intros [B Po Fid No Ac] Hf E Hq Hb. destruct (step_parts script cap (fun _ _ => True) ev z z' res l Hf E Hq ltac:(apply Forall_forall; intros f _; exact I) Hb) as (ops & outs & rops & couts & R1 & R2 & R3 & R4 & R5 & R6 & R7).
  assert (B' : banked (cn_driver z')) by (unfold banked in *; rewrite (run_banks _ _ _ _ R1); exact B).
  (* nothing is called, and the filters are not changed *)
  assert (Quiet : Forall quiet_op ops -> rx_id (cn_receiver z') = rx_id (cn_receiver z) -> ports (cn_receiver z') = ports (cn_receiver z) -> node_calls ((ev, res) :: h) = node_calls h -> filtered id ((ev, res) :: h) z').
  { intros Q1 Q2 Q3 Q4. split; [exact B'|rewrite Q3; exact Po|rewrite Q2, Q4; exact Fid|rewrite Q2; exact No|]. rewrite Q2, Q3, Q4. intros p Hp Hc. exact (same_banks _ _ _ _ (quiet_banks _ Q1 _ _ _ R1) (Ac p Hp Hc)). }
  destruct ev as [o mem alloc|fuel|clock mem|m|b|].
  2:{ destruct R7 as (-> & Q & a & ->). injection R2 as R2 _. apply Quiet; try reflexivity; try (rewrite <- R2; reflexivity). eapply Forall_impl; [|exact Q]. intros o Ho. destruct o; try exact I; destruct Ho. }
  2:{ destruct R7 as (Q & Q' & a & ->). destruct (frames_keep rops ltac:(eapply Forall_impl; [|exact Q]; intros o (f & i & ->); eexists _, _; reflexivity) _ _ _ R2) as (K1 & K2).
      apply Quiet; [|exact K1|exact K2|reflexivity]. eapply Forall_impl; [|exact Q']. intros o (now & ->). exact I. }
  2-4: destruct R7 as (-> & Q & ->); injection R2 as R2 _; apply Quiet; try reflexivity; try (rewrite <- R2; reflexivity); eapply Forall_impl; [|exact Q]; intros o Ho; destruct o; try exact I; destruct Ho.
  destruct R7 as (a & b & calls & out & -> & E1 & Ho & Hc). apply core_calls in E1. unfold node_calls. cbn [flat_map snd app]. change (flat_map _ h) with (node_calls h). set (w := with_answers a b o) in *.
  (* the filters are set *)
  assert (Set' : forall c, (ops = [OpFilters (fst (rx_filters (cn_receiver z'))) (snd (rx_filters (cn_receiver z'))) alloc]) -> Forall port_ok (ports (cn_receiver z')) -> rx_id (cn_receiver z') = rx_id (cn_receiver z) -> calls = [c] -> (forall i, w <> SetNodeId i) ->
    filtered id ((EvCall o mem alloc, ResCall w calls out) :: h) z').
  { intros c -> P' I' Ec Hn. cbn [bx_run bx_step] in R1. destruct (bx_filters _ _ alloc (cn_driver z)) as [x1|] eqn:Ef; [|discriminate R1]. injection R1 as R1 _. subst x1.
    split; [exact B'|exact P'| |rewrite I'; exact No|].
    - rewrite I', Fid. unfold node_calls. cbn [flat_map snd app]. symmetry. apply id_after_other, Hn.
    - intros p Hp _. assert (K : accepting (fst (rx_filters (cn_receiver z'))) p (cn_driver z')); [|exact K].
      apply (filters_accepting _ p (cn_driver z) (cn_driver z') (snd (rx_filters (cn_receiver z'))) alloc B); [|apply filters_ports, Hp|exact Ef]. split; [cbn [rx_filters fst]; rewrite I'; exact No|].
      rewrite Forall_forall in *. intros q Hq'. apply filters_ports in Hq'. exact (P' q Hq'). }
  (* they are not set *)
  assert (Keep : (ops = []) -> (forall q, In q (ports (cn_receiver z')) -> In q (ports (cn_receiver z))) -> rx_id (cn_receiver z') = rx_id (cn_receiver z) -> renews (w, calls, out) = false -> (forall i, w <> SetNodeId i) ->
    filtered id ((EvCall o mem alloc, ResCall w calls out) :: h) z').
  { intros -> P' I' Hr Hn. injection R1 as R1 _. split; [exact B'| | |rewrite I'; exact No|].
    - rewrite Forall_forall in *. intros q Hq'. exact (Po q (P' q Hq')).
    - rewrite I', Fid. unfold node_calls. cbn [flat_map snd app]. symmetry. apply id_after_other, Hn.
    - rewrite I', <- R1. unfold node_calls. cbn [flat_map snd app]. change (flat_map _ h) with (node_calls h). rewrite (id_changed_other _ _ _ _ Hr Hn). intros p Hp Hc'. exact (Ac p (P' p Hp) Hc'). }
  inversion Hc as [b' E2 E3 E4 E5 E6|t b' E2 E3 E4 E5 E6|p t m E2 E3 E4 E5 E6|p t m b' o' N1 N2 E2 E3 E4 E5 E6|p b' E2 E3 E4 E5 E6|i b' E2 E3 E4 E5 E6]; clear Hc; subst.
  - destruct (calls_other o a b _ _ E1 (or_introl eq_refl)) as (K1 & K2). injection R2 as R2. apply Keep; [reflexivity|rewrite <- R2; intros q Hq'; exact Hq'|rewrite <- R2; reflexivity|exact K1|exact K2].
  - destruct (calls_other o a b _ _ E1 (or_intror (ex_intro _ t eq_refl))) as (K1 & K2). injection R2 as R2. apply Keep; [reflexivity|rewrite <- R2; intros q Hq'; exact Hq'|rewrite <- R2; reflexivity|exact K1|exact K2].
  - cbn [can_run can_step] in R2. destruct (rx_subscribe_port (cn_receiver z) p t m mem) as [r1 o1] eqn:Es. injection R2 as R2 Eo. subst r1 o1. destruct (subscribe_ports _ _ _ _ _ _ _ Es) as (K1 & K2).
    apply (Set' (sub_call p t m)); [reflexivity| |exact K1|reflexivity|apply (calls_not_set _ _ _ E1), sub_not_set]. apply Forall_forall. intros q Hq'. apply K2 in Hq'. rewrite Forall_forall in Po. destruct Hq' as [(Hq' & _)|(-> & _)]; [exact (Po q Hq')|exact (sub_call_ok _ _ _ _ _ _ _ Hf E1)].
  - cbn [can_run can_step] in R2. destruct (rx_subscribe_port (cn_receiver z) p t m mem) as [r1 o1] eqn:Es. injection R2 as R2 Eo. subst r1 o1. destruct (subscribe_ports _ _ _ _ _ _ _ Es) as (K1 & K2).
    apply Keep; [reflexivity| |exact K1|exact (calls_fail _ _ _ _ _ _ _ N1 E1)|apply (calls_not_set _ _ _ E1), sub_not_set]. intros q Hq'. apply K2 in Hq'. destruct Hq' as [(Hq' & _)|(_ & Hq')]; [exact Hq'|contradiction].
  - cbn [can_run can_step] in R2. injection R2 as R2. apply (Set' (unsub_call p)); [reflexivity| |rewrite <- R2; reflexivity|reflexivity|apply (calls_not_set _ _ _ E1), unsub_not_set].
    rewrite <- R2. rewrite Forall_forall in *. intros q Hq'. apply unsubscribe_ports in Hq'. exact (Po q (proj1 Hq')).
  - cbn [can_run can_step] in R2. injection R2 as R2. injection R1 as R1 _. apply calls_set in E1. pose proof (with_set _ _ _ _ E1) as Eo. split; [exact B'|rewrite <- R2; exact Po| | |].
    + rewrite <- R2. unfold node_calls. cbn [flat_map snd app]. rewrite E1. reflexivity.
    + rewrite <- R2. cbn [rx_set_id rx_id]. intros n En. injection En as <-. subst o. exact (proj1 Hf).
    + intros p Hp Hc'. rewrite <- R1. rewrite <- R2 in Hp. destruct Hc' as [Hm|Hc'].
      * apply (accepting_message (rx_id (cn_receiver z)) _ _ _ Hm). apply Ac; [exact Hp|left; exact Hm].
      * unfold node_calls in Hc'. cbn [flat_map snd app] in Hc'. rewrite E1 in Hc'. discriminate Hc'.
Qed.
Lemma path_filtered cap banks script k P R id h z : (1 <= banks)%nat -> (forall i, fst (script i) < 2 ^ 32) -> kind_ok TransportCan k -> (forall j, id = Some j -> j <= 127) -> node_path script (can_node_new cap banks k P R id) h z -> filtered id h z.
Proof.
  intros Hb Hs Hk Hid H. induction H as [|h z ev z' res H IH Hf E].
  - split; [unfold banked; cbn [can_node_new cn_driver bx_new bx_can d_banks]; rewrite repeat_length; exact Hb|constructor|reflexivity|exact Hid|intros p []].
  - destruct (path_held _ _ _ _ _ _ _ _ _ (fun _ _ => True) Hs Hk Hid H ltac:(intros; exact I)) as (l & Hl & _ & Hbx). exact (filtered_step _ _ _ _ _ _ _ _ _ IH Hf E Hl Hbx).
Qed.
Lemma path_core_id cap banks script k P R id h z : kind_ok TransportCan k -> node_path script (can_node_new cap banks k P R id) h z -> c_id (cn_core z) = id_after id (node_calls h).
Proof. intros Hk H. destruct (path_hist _ _ _ _ _ _ _ _ _ H) as (Hh & _). exact (i_id _ _ _ _ _ _ _ (hist_inv _ _ _ _ _ _ _ Hk Hh)). Qed.
Lemma subscribed_ports p z : subscribed p z -> In p (ports (cn_receiver z)).
Proof.
  unfold subscribed, rx_subscribers, rx_servers, ports. destruct p as [s|s|s]; intro H; try exact H; apply in_flat_map in H; destruct H as (su & Hs & Hi); apply in_map_iff; exists su; (split; [|exact Hs]); destruct (su_port su); try destruct Hi as [ <- | [] ]; try reflexivity; destruct Hi.
Qed.

(** * What the node receives *)

Lemma segmented_bytes t fr pad cid f : h_tid (t_header t) <= 31 -> bytes_ok (t_payload t) -> segmented 8 t fr pad cid -> In f fr -> bytes_ok (f_data f).
Proof.
  intros Ht Hb (chunks & Ec & _ & _ & L & H) Hf. assert (B : bytes_ok (concat chunks)).
  { rewrite Ec. apply bytes_ok_app. split; [exact Hb|]. apply bytes_ok_app. split; [apply Forall_forall; intros b Hi; apply repeat_spec in Hi; subst b; reflexivity|].
    destruct (1 <? length chunks)%nat; [|constructor]. unfold be_bytes. apply Forall_rev. apply le_bytes_ok. }
  apply In_nth_error in Hf. destruct Hf as (i & Hi). destruct (nth_error chunks i) as [c|] eqn:En; [|apply nth_error_None in En; assert (K : nth_error fr i <> None) by congruence; apply nth_error_Some in K; lia].
  rewrite (H i c En) in Hi. injection Hi as <-. cbn [f_data]. apply bytes_ok_app. split.
  - apply nth_error_In in En. apply Forall_forall. intros b Hi. unfold bytes_ok in B. rewrite Forall_forall in B. apply B. apply in_concat. exists c. split; assumption.
  - constructor; [|constructor]. unfold is_byte. rewrite <- make_tail_tail_byte by exact Ht. apply make_tail_byte. exact Ht.
Qed.

Section Input.
Context (D : list N -> Prop).
Definition frame_p (f : frame) : Prop := f_id f < 2 ^ 29 /\ f_ts f < 2 ^ 32 /\ D (f_data f).
Definition input_p (x : bx_driver) : Prop := Forall frame_p (bx_loopback x) /\ forall b data, In (Arrived b) (d_fifo (bx_can x)) -> b_data b = Some data -> D data.
Definition io_p (o : bx_op) : Prop :=
  match o with
  | OpTransmit now f => now < 2 ^ 32 /\ f_id f < 2 ^ 29 /\ D (f_data f)
  | OpReceive now => now < 2 ^ 32
  | OpArrive b => forall data, b_data b = Some data -> D data
  | _ => True
  end.
Lemma from_bus_in now fifo : forall rest r, receive_from_bus now fifo = (rest, r) -> (forall a, In a rest -> In a fifo) /\ forall f, r = RxFrame f -> exists b, In (Arrived b) fifo /\ of_bxcan b now = Some f.
Proof.
  induction fifo as [|a fifo IH]; intros rest r E; cbn [receive_from_bus] in E; [injection E as <- <-; split; [intros a []|discriminate]|]. destruct a as [b|].
  - destruct (of_bxcan b now) as [f|] eqn:Eo.
    + injection E as <- <-. split; [intros a Ha; right; exact Ha|]. intros f' Ef. injection Ef as <-. exists b. split; [left; reflexivity|exact Eo].
    + destruct (IH _ _ E) as (I1 & I2). split; [intros a Ha; right; exact (I1 a Ha)|]. intros f Ef. destruct (I2 f Ef) as (b' & Hb & E'). exists b'. split; [right; exact Hb|exact E'].
  - injection E as <- <-. split; [intros a Ha; right; exact Ha|discriminate].
Qed.
Lemma step_input o x x' out : io_p o -> input_p x -> bx_step o x = Ok (x', out) -> input_p x' /\ Forall frame_p (received (o, out)).
Proof.
  intros Ho (Hl & Hb) E. destruct o as [now f|now|l ps alloc| |m|b|]; cbn [bx_step] in E.
  - destruct (bx_transmit now f x) as [ [x1 r]|] eqn:Et; [|discriminate]. injection E as <- <-. destruct (bx_transmit_rx _ _ _ _ _ Et) as ((Ef & _) & El). split; [|constructor]. split; [|rewrite Ef; exact Hb].
    rewrite El. apply Forall_app. split; [exact Hl|]. destruct (_ <? _)%nat; [|constructor]. apply Forall_forall. intros g Hg. cbn [copies accepted] in Hg. destruct r as [g0| |]; try destruct Hg. destruct (t_lt (f_ts f) now); [destruct Hg|].
    cbn [flat_map] in Hg. rewrite app_nil_r in Hg. destruct (f_loop f); [|destruct Hg]. destruct Hg as [<-|[] ]. destruct Ho as (H1 & H2 & H3). repeat split; assumption.
  - unfold bx_receive in E. destruct (receive_from_bus now (d_fifo (bx_can x))) as [fifo r] eqn:Er. destruct (from_bus_in _ _ _ _ Er) as (I1 & I2).
    assert (Hb' : forall b data, In (Arrived b) fifo -> b_data b = Some data -> D data) by (intros b data Hi; apply Hb, I1, Hi). destruct r as [f| |].
    + injection E as <- <-. split; [split; [exact Hl|exact Hb']|]. cbn [received]. constructor; [|constructor]. destruct (I2 f eq_refl) as (b & Hi & Eo). unfold of_bxcan in Eo. destruct (b_extended b); [|discriminate]. destruct (N.ltb_spec (b_id b) (2 ^ 29)) as [Hid|_]; [|discriminate].
      destruct (b_data b) as [data|] eqn:Ed; [|discriminate]. injection Eo as <-. split; [exact Hid|]. split; [exact Ho|exact (Hb b data Hi Ed)].
    + destruct (bx_loopback x) as [|f l] eqn:El; injection E as <- <-; [split; [split; [constructor|exact Hb']|constructor]|]. inversion Hl; subst. split; [split; assumption|constructor; [assumption|constructor] ].
    + injection E as <- <-. split; [split; [exact Hl|exact Hb']|constructor].
  - destruct (bx_filters l ps alloc x) as [x1|] eqn:Ef; [|discriminate]. injection E as <- <-. destruct (bx_filters_rx _ _ _ _ _ Ef) as (E1 & E2). split; [|constructor]. split; [rewrite E1; exact Hl|rewrite E2; exact Hb].
  - destruct (bx_accept_all x) as [x1|] eqn:Ef; [|discriminate]. injection E as <- <-. destruct (bx_accept_all_rx _ _ Ef) as (E1 & E2). split; [|constructor]. split; [rewrite E1; exact Hl|rewrite E2; exact Hb].
  - injection E as <- <-. split; [|constructor]. split; [exact Hl|]. cbn [on_device bx_can]. unfold dev_send. destruct (nth_error _ m) as [ [b|]|]; exact Hb.
  - injection E as <- <-. split; [|constructor]. split; [exact Hl|]. cbn [on_device bx_can]. unfold dev_arrive. destruct (existsb _ _); [|exact Hb]. cbn [d_fifo]. intros b' data Hi Ed. apply in_app_iff in Hi. destruct Hi as [Hi|[Hi|[] ] ]; [exact (Hb b' data Hi Ed)|]. injection Hi as <-. exact (Ho data Ed).
  - injection E as <- <-. split; [|constructor]. split; [exact Hl|]. cbn [on_device bx_can dev_overrun d_fifo]. intros b' data Hi Ed. apply in_app_iff in Hi. destruct Hi as [Hi|[Hi|[] ] ]; [exact (Hb b' data Hi Ed)|discriminate Hi].
Qed.
Lemma run_input ops : Forall io_p ops -> forall x x' outs, input_p x -> bx_run ops x = Ok (x', outs) -> input_p x' /\ Forall frame_p (flat_map received outs).
Proof.
  induction 1 as [|o ops Ho _ IH]; intros x x' outs H E; cbn [bx_run] in E; [injection E as <- <-; split; [exact H|constructor]|]. destruct (bx_step o x) as [ [x1 out]|] eqn:Es; [|discriminate]. destruct (bx_run ops x1) as [ [x2 l]|] eqn:Er; [|discriminate].
  injection E as <- <-. destruct (step_input _ _ _ _ Ho H Es) as (H1 & H2). destruct (IH _ _ _ H1 Er) as (H3 & H4). split; [exact H3|]. cbn [flat_map]. apply Forall_app. split; assumption.
Qed.
End Input.
Notation input_ok := (input_p bytes_ok).
Notation io_op := (io_p bytes_ok).

(** What the node sends has its ID *)
Lemma keeps_after id h : keeps_id h -> id_after id h = id.
Proof.
  induction h as [| [ [o calls] r] h IH]; intro H; cbn [id_after]; [reflexivity|]. assert (H' : keeps_id h) by (intros i c r0 Hi; apply (H i c r0); right; exact Hi).
  destruct o; try exact (IH H'). exfalso. eapply H. left. reflexivity.
Qed.
Lemma pushed_source k P R id h n : kind_ok TransportCan k -> core_hist (core_new TransportCan k P R id) h n -> Forall (fun en => op_fine (fst (fst en))) h -> keeps_id h ->
  forall o calls r t, In (o, calls, r) h -> In (CPush t) calls -> h_source (t_header t) = id /\ ((forall j, id = Some j -> j <= 127) -> can_header_ok (t_header t)).
Proof.
  intros Hk H. induction H as [|h n o n' calls r H IH E Hr]; intros Hf Hkeep o0 calls0 r0 t Hi Hc; [destruct Hi|]. inversion Hf as [|en h' Hf1 Hf2]; subst. pose proof (keeps_id_tail _ _ Hkeep) as Hkeep'.
  destruct Hi as [Hi|Hi]; [|exact (IH Hf2 Hkeep' o0 calls0 r0 t Hi Hc)]. injection Hi as <- <- <-. pose proof (step_effect _ _ _ _ _ _ _ _ _ _ Hk H Hf1 E Hr) as He. split.
  - pose proof (keeps_after id h Hkeep') as Ei. inversion He as [o' c' r' Hn Hq|lb subject payload e timeout prio Es|lb service payload server e timeout prio source Es Es'|kk timeout payload e source Es']; subst; [destruct (Hn t Hc)| | |]; destruct Hc as [Hc|[] ]; injection Hc as <-; cbn [t_header h_source mh_source sh_source]; congruence.
  - intro H0. exact (proj1 (effect_fine _ _ _ _ _ t H0 Hf2 Hf1 He Hc)).
Qed.

(** Frames that are not from [s] on [p] *)
Definition ours (p : port) (s : N) (id : N) (data : list N) : Prop := sent_by p s (Frame 0 id false []) = false /\ id < 2 ^ 29 /\ bytes_ok data.

Section Node.
  Context (cap banks : nat) (script : nat -> N * list nat) (k : tracker_kind) (P R : nat) (id : option N) (p : port) (s : N).
  Context (Hbanks : (1 <= banks)%nat) (Hs : forall i, fst (script i) < 2 ^ 32) (Hk : kind_ok TransportCan k) (Hid : forall j, id = Some j -> j <= 127) (Hne : id <> Some s).
  Notation start := (can_node_new cap banks k P R id).

  Lemma path_ours h z : node_path script start h z -> keeps_id (node_calls h) -> exists l, holds cap (cn_queue z) l /\ Forall (held (ours p s)) l /\ boxes (ours p s) (bx_can (cn_driver z)).
  Proof.
    intros H Hkeep. apply (path_held _ _ _ _ _ _ _ _ _ (ours p s) Hs Hk Hid H). intros o calls out t fr f Ho Hc Hb Hfr Hf. destruct (path_hist _ _ _ _ _ _ _ _ _ H) as (Hh & Hfine).
    destruct (pushed_source _ _ _ _ _ _ Hk Hh Hfine Hkeep o calls out t Ho Hc) as (Hsrc & Hok). destruct (frames_id t fr f Hfr Hf) as (_ & _ & Hlt & _). split; [|split; [exact Hlt|] ].
    - change (sent_by p s (Frame 0 (f_id f) false [])) with (sent_by p s f). rewrite (frames_by p s t fr f Hfr Hf). destruct (comes_from p s t) eqn:Ec; [|reflexivity]. apply comes_from_iff in Ec. destruct Ec as (_ & Ec). congruence.
    - destruct Hfr as (Hh' & cid & _ & _ & _ & Hseg & _). exact (segmented_bytes t fr 0 cid f ltac:(apply Hh') Hb Hseg Hf).
  Qed.
  Lemma step_not_from r' o : step_op script (ours p s) r' o -> not_from p s o /\ io_op o.
  Proof.
    destruct o as [now f|now|l ps alloc| |m|b|]; cbn [step_op not_from io_p]; intro H; try (split; [exact I|]; try exact H; exact I). destruct H as ((H1 & H2 & H3) & j & ->). split; [exact H1|]. split; [apply Hs|]. split; assumption.
  Qed.

  (** One step *)
  Definition not_set (o : can_op) : Prop := match o with CanRxSpec.CSetId _ => False | _ => True end.
  Lemma given_ok rops : Forall frame_ok (given_frames rops) -> Forall can_op_ok rops.
  Proof.
    intro H. apply Forall_forall. intros o Ho. destruct o as [f m|p' t m mem|p'|i]; try exact I. cbn [can_op_ok]. rewrite Forall_forall in H. apply H. apply in_flat_map. exists (CFrame f m). split; [exact Ho|left; reflexivity].
  Qed.
  Lemma one_step h z ev z' res : node_path script start h z -> event_fine ev -> can_node_step script ev z = Ok (z', res) -> keeps_id (node_calls ((ev, res) :: h)) -> input_ok (cn_driver z) ->
    exists ops outs rops couts,
      bx_run ops (cn_driver z) = Ok (cn_driver z', outs) /\ can_run (cn_receiver z) rops = Ok (cn_receiver z', couts) /\ given_frames rops = flat_map received outs /\
      on_bus ops = (match ev with EvArrive b => [b] | _ => [] end) /\ transfers_in couts = (match res with ResReceive (Received t) => [t] | _ => [] end) /\
      Forall (not_from p s) ops /\ Forall filters_ok ops /\ Forall (fun o => match o with OpFilters l ps _ => l = id /\ ps = snd (rx_filters (cn_receiver z')) | _ => True end) ops /\
      Forall can_op_ok rops /\ Forall not_set rops /\ input_ok (cn_driver z') /\
      match ev with
      | EvCall o mem alloc => exists a b calls out, res = ResCall (with_answers a b o) calls out /\ calls_of (with_answers a b o) calls out /\ called mem alloc (cn_receiver z') calls b ops rops couts
      | EvReceive clock mem => Forall (fun o => exists f i, o = CFrame f (mem i)) rops
      | _ => rops = []
      end.
  Proof.
    intros H Hf E Hkeep Hin. assert (Hkeep0 : keeps_id (node_calls h)) by (intros i c r Hi; apply (Hkeep i c r); unfold node_calls; cbn [flat_map]; apply in_or_app; right; exact Hi).
    destruct (path_ours _ _ H Hkeep0) as (l & Hl & Hl' & Hb). destruct (step_parts script cap (ours p s) ev z z' res l Hf E Hl Hl' Hb) as (ops & outs & rops & couts & R1 & R2 & R3 & R4 & R5 & R6 & R7).
    pose proof (path_step _ _ _ _ _ _ _ H Hf E) as H'. pose proof (path_filtered _ _ _ _ _ _ _ _ _ Hbanks Hs Hk Hid H') as [_ F2 F3 F4 _]. rewrite (keeps_after id _ Hkeep) in F3.
    assert (Hio : Forall io_op ops) by (eapply Forall_impl; [|exact R6]; intros o Ho; exact (proj2 (step_not_from _ _ Ho))). destruct (run_input bytes_ok _ Hio _ _ _ Hin R1) as (Hin' & Hfr).
    exists ops, outs, rops, couts. split; [exact R1|]. split; [exact R2|]. split; [exact R3|]. split; [exact R4|]. split; [exact R5|].
    split; [eapply Forall_impl; [|exact R6]; intros o Ho; exact (proj1 (step_not_from _ _ Ho))|]. split; [|split; [|split; [|split; [|split; [exact Hin'|] ] ] ] ].
    - eapply Forall_impl; [|exact R6]. intros o Ho. destruct o; try exact I. cbn [step_op] in Ho. destruct Ho as (-> & ->). split; [exact F4|]. rewrite Forall_forall in *. intros q Hq. apply filters_ports in Hq. exact (F2 q Hq).
    - eapply Forall_impl; [|exact R6]. intros o Ho. destruct o; try exact I. cbn [step_op] in Ho. destruct Ho as (-> & ->). split; [exact F3|reflexivity].
    - apply given_ok. rewrite R3. exact Hfr.
    - destruct ev as [o mem alloc|fuel|clock mem|m|b|]; try (destruct R7 as (-> & _); constructor).
      + destruct R7 as (a & b & calls & out & -> & E1 & _ & Hc). apply core_calls in E1. inversion Hc; subst; repeat constructor. apply calls_set in E1. exfalso. eapply Hkeep. unfold node_calls. cbn [flat_map snd app]. left. rewrite E1. reflexivity.
      + destruct R7 as (Q & _). eapply Forall_impl; [|exact Q]. intros o (f & i & ->). exact I.
    - destruct ev as [o mem alloc|fuel|clock mem|m|b|]; try (destruct R7 as (-> & _); reflexivity).
      + destruct R7 as (a & b & calls & out & -> & E1 & _ & Hc). exists a, b, calls, out. split; [reflexivity|]. split; [exact (core_calls _ _ _ _ _ E1)|exact Hc].
      + exact (proj1 R7).
  Qed.

  Lemma keeps_app h2 h : keeps_id (node_calls (h2 ++ h)) -> keeps_id (node_calls h).
  Proof. unfold node_calls. rewrite flat_map_app. intros H i c r Hi. apply (H i c r). apply in_or_app. right. exact Hi. Qed.

  (** Any history *)
  Lemma path_run h z : node_path script start h z -> keeps_id (node_calls h) -> exists ops outs rops couts,
    bx_run ops (bx_new banks) = Ok (cn_driver z, outs) /\ can_run (rx_new id) rops = Ok (cn_receiver z, couts) /\ Forall (not_from p s) ops /\ Forall can_op_ok rops /\ Forall not_set rops /\ input_ok (cn_driver z).
  Proof.
    induction 1 as [|h z ev z' res H IH Hf E]; intro Hkeep.
    - exists [], [], [], []. split; [reflexivity|]. split; [reflexivity|]. split; [constructor|]. split; [constructor|]. split; [constructor|]. split; [constructor|intros b data []].
    - destruct (IH (keeps_app [(ev, res)] h Hkeep)) as (ops & outs & rops & couts & A1 & A2 & A3 & A4 & A5 & A6). destruct (one_step h z ev z' res H Hf E Hkeep A6) as (ops' & outs' & rops' & couts' & B1 & B2 & B3 & B4 & B5 & B6 & B7 & B8 & B9 & B10 & B11 & _).
      exists (ops ++ ops'), (outs ++ outs'), (rops ++ rops'), (couts ++ couts'). split; [exact (run_app _ _ _ _ _ _ _ A1 B1)|]. split; [exact (can_run_app _ _ _ _ _ _ _ A2 B2)|].
      split; [apply Forall_app; split; assumption|]. split; [apply Forall_app; split; assumption|]. split; [apply Forall_app; split; assumption|exact B11].
  Qed.
  Lemma path_join h z h2 z2 : node_path script start h z -> node_path script z h2 z2 -> node_path script start (h2 ++ h) z2.
  Proof. intro H. induction 1 as [|h2 z2 ev z3 res _ IH Hf E]; [exact H|]. cbn [app]. exact (path_step _ _ _ _ _ _ _ IH Hf E). Qed.

  (** While the node listens *)
  Lemma port_sub q t m : call_port (sub_call q t m) = Some q. Proof. destruct q; reflexivity. Qed.
  Lemma port_unsub q : call_port (unsub_call q) = Some q. Proof. destruct q; reflexivity. Qed.
  Lemma listen_run h z : node_path script start h z -> input_ok (cn_driver z) -> In p (ports (cn_receiver z)) ->
    forall h2 z2, node_path script z h2 z2 -> keeps_id (node_calls (h2 ++ h)) -> keeps_port p (node_calls h2) -> memory_enough h2 -> exists ops outs rops couts,
      bx_run ops (cn_driver z) = Ok (cn_driver z2, outs) /\ can_run (cn_receiver z) rops = Ok (cn_receiver z2, couts) /\ given_frames rops = flat_map received outs /\ on_bus ops = node_bus h2 /\ transfers_in couts = node_got h2 /\
      Forall (not_from p s) ops /\ Forall filters_ok ops /\ Forall (filters_for id p) ops /\ Forall can_op_ok rops /\ Forall (leaves p) rops /\ In p (ports (cn_receiver z2)) /\ input_ok (cn_driver z2).
  Proof.
    intros H Hin Hp h2 z2 H2. induction H2 as [|h2 z2 ev z3 res H2 IH Hf E]; intros Hkeep Hport Hmem.
    - exists [], [], [], []. split; [reflexivity|]. split; [reflexivity|]. split; [reflexivity|]. split; [reflexivity|]. split; [reflexivity|]. split; [constructor|]. split; [constructor|]. split; [constructor|]. split; [constructor|]. split; [constructor|]. split; [exact Hp|exact Hin].
    - assert (Hport0 : keeps_port p (node_calls h2)) by (intros o c r cc Hi Hc; apply (Hport o c r cc); [|exact Hc]; unfold node_calls; cbn [flat_map]; apply in_or_app; right; exact Hi).
      assert (Hmem0 : memory_enough h2) by (intros clock mem r Hi; apply (Hmem clock mem r); right; exact Hi).
      destruct (IH (keeps_app [(ev, res)] _ Hkeep) Hport0 Hmem0) as (ops & outs & rops & couts & A1 & A2 & A3 & A4 & A5 & A6 & A7 & A8 & A9 & A10 & A11 & A12).
      destruct (one_step (h2 ++ h) z2 ev z3 res (path_join _ _ _ _ H H2) Hf E Hkeep A12) as (ops' & outs' & rops' & couts' & B1 & B2 & B3 & B4 & B5 & B6 & B7 & B8 & B9 & B10 & B11 & B12).
      assert (K : Forall (leaves p) rops' /\ In p (ports (cn_receiver z3))).
      { destruct ev as [o mem alloc|fuel|clock mem|m|b|].
        2,4-6: subst rops'; injection B2 as B2 _; split; [constructor|rewrite <- B2; exact A11].
        - destruct B12 as (a & b & calls & out & -> & E1 & Hc). assert (Hcp : forall c, In c calls -> call_port c <> Some p) by (intros c Hi; apply (Hport (with_answers a b o) calls out c); [unfold node_calls; cbn [flat_map snd app]; left; reflexivity|exact Hi]).
          inversion Hc as [b' E2 E3 E4 E5 E6|t b' E2 E3 E4 E5 E6|q t m E2 E3 E4 E5 E6|q t m b' o' N1 N2 E2 E3 E4 E5 E6|q b' E2 E3 E4 E5 E6|i b' E2 E3 E4 E5 E6]; subst.
          + injection B2 as B2. split; [constructor|rewrite <- B2; exact A11].
          + injection B2 as B2. split; [constructor|rewrite <- B2; exact A11].
          + assert (Hq : q <> p) by (intros ->; eapply Hcp; [left; reflexivity|apply port_sub]). split; [constructor; [exact Hq|constructor]|]. cbn [can_run can_step] in B2. destruct (rx_subscribe_port (cn_receiver z2) q t m mem) as [r1 o1] eqn:Es. injection B2 as B2 Eo. subst r1 o1.
            apply (proj2 (subscribe_ports _ _ _ _ _ _ _ Es)). left. split; [exact A11|left; congruence].
          + assert (Hq : q <> p) by (intros ->; eapply Hcp; [left; reflexivity|apply port_sub]). split; [constructor; [exact Hq|constructor]|]. cbn [can_run can_step] in B2. destruct (rx_subscribe_port (cn_receiver z2) q t m mem) as [r1 o1] eqn:Es. injection B2 as B2 Eo. subst r1 o1.
            apply (proj2 (subscribe_ports _ _ _ _ _ _ _ Es)). left. split; [exact A11|left; congruence].
          + assert (Hq : q <> p) by (intros ->; eapply Hcp; [left; reflexivity|apply port_unsub]). split; [constructor; [exact Hq|constructor]|]. cbn [can_run can_step] in B2. injection B2 as B2. rewrite <- B2. apply unsubscribe_ports. split; [exact A11|congruence].
          + inversion B10 as [|? ? K _]; destruct K.
        - destruct (frames_keep rops' ltac:(eapply Forall_impl; [|exact B12]; intros o (f & i & ->); eexists _, _; reflexivity) _ _ _ B2) as (_ & K2). split; [|rewrite K2; exact A11].
          eapply Forall_impl; [|exact B12]. intros o (f & i & ->). exact (Hmem clock mem res (or_introl eq_refl) i). }
      destruct K as (K1 & K2). exists (ops ++ ops'), (outs ++ outs'), (rops ++ rops'), (couts ++ couts'). split; [exact (run_app _ _ _ _ _ _ _ A1 B1)|]. split; [exact (can_run_app _ _ _ _ _ _ _ A2 B2)|].
      split; [unfold given_frames in *; rewrite !flat_map_app, A3, B3; reflexivity|].
      split; [unfold on_bus in *; rewrite flat_map_app, A4, B4; cbn [node_bus]; destruct ev; try apply app_nil_r; reflexivity|].
      split; [unfold transfers_in in *; rewrite flat_map_app, A5, B5; cbn [node_got]; destruct res as [ | |[ | |]| ]; try apply app_nil_r; reflexivity|].
      split; [apply Forall_app; split; assumption|]. split; [apply Forall_app; split; assumption|]. split; [apply Forall_app; split; [exact A8|]|].
      { eapply Forall_impl; [|exact B8]. intros o Ho. destruct o; try exact I. destruct Ho as (-> & ->). split; [reflexivity|apply filters_ports, K2]. }
      split; [apply Forall_app; split; assumption|]. split; [apply Forall_app; split; assumption|]. split; [exact K2|exact B11].
  Qed.

  (** The call that subscribes *)
  Lemma sub_step o a b calls out max mem alloc r' ops rops couts : subscribes p max (with_answers a b o, calls, out) -> calls_of (with_answers a b o) calls out -> called mem alloc r' calls b ops rops couts ->
    exists t, ops = [OpFilters (fst (rx_filters r')) (snd (rx_filters r')) alloc] /\ rops = [CSub p t max mem] /\ couts = [CSubbed SubscribeOk].
  Proof.
    intros Hs' Hc Hd. assert (Hr : renews (with_answers a b o, calls, out) = true) by (destruct (with_answers a b o), out; try destruct Hs'; reflexivity).
    inversion Hd as [b' E2 E3 E4 E5 E6|t b' E2 E3 E4 E5 E6|q t m E2 E3 E4 E5 E6|q t m b' o' N1 N2 E2 E3 E4 E5 E6|q b' E2 E3 E4 E5 E6|i b' E2 E3 E4 E5 E6]; subst.
    - destruct (calls_other o a b _ _ Hc (or_introl eq_refl)) as (K1 & _). congruence.
    - destruct (calls_other o a b _ _ Hc (or_intror (ex_intro _ t eq_refl))) as (K1 & _). congruence.
    - exists t. split; [reflexivity|]. assert (K : q = p /\ m = max); [|destruct K as (-> & ->); split; reflexivity].
      destruct (with_answers a SubOk o); cbn [subscribes calls_of] in *; try destruct Hs'; destruct out; try destruct Hs'; subst.
      + destruct Hc as [(Hc & _)|(Hc & _)]; [discriminate Hc|]. destruct q; try discriminate Hc. injection Hc as <- <- <-. split; reflexivity.
      + destruct Hc as (Hc & _). destruct q; try discriminate Hc. injection Hc as <- <- <-. split; reflexivity.
      + destruct Hc as (Hc & _). destruct q; try discriminate Hc. injection Hc as <- <- <-. split; reflexivity.
    - rewrite (calls_fail _ _ _ _ _ _ _ N1 Hc) in Hr. discriminate Hr.
    - exfalso. destruct (with_answers a b o); cbn [subscribes calls_of] in *; try destruct Hs'; destruct out; try destruct Hs'; destruct q; try discriminate Hc; try (destruct Hc as (Hc & _); discriminate Hc); destruct Hc as [(Hc & _)|(Hc & _)]; discriminate Hc.
    - apply calls_set in Hc. rewrite Hc in Hs'. destruct Hs'.
  Qed.
  Lemma hist_node rops : forall r r' couts h, Forall not_set rops -> can_run r rops = Ok (r', couts) -> CanRxSpec.can_node id (rev (combine rops couts) ++ h) = CanRxSpec.can_node id h.
  Proof.
    induction rops as [|o rops IH]; intros r r' couts h H E; cbn [can_run] in E; [injection E as _ <-; reflexivity|]. inversion H as [|? ? H1 H2]; subst. destruct (can_step r o) as [ [r1 c]|] eqn:Es; [|discriminate]. destruct (can_run r1 rops) as [ [r2 l]|] eqn:Er; [|discriminate].
    injection E as _ <-. cbn [combine rev]. rewrite <- app_assoc, (IH _ _ _ _ H2 Er). destruct o; try reflexivity. destruct H1.
  Qed.
End Node.

Theorem listened_reads cap banks script k P R local h z p s dest max bus ts : running cap banks script k P R local h z -> local <> Some s ->
  listened script (can_node_new cap banks k P R local) h z p s dest max bus ts -> node_reads local p s dest max bus ts.
Proof.
  intros (Hb & Hs & Hk & Hid & _ & Hkeep2) Hne (h1 & z1 & ev & o & calls & r & z2 & h2 & -> & H1 & W1 & Hf & E & Hsub & H2 & Hport & Hmem & W3 & Hbus & ->). rename z into z3.
  pose proof (keeps_app h2 _ Hkeep2) as Hkeep1. pose proof (keeps_app [(ev, ResCall o calls r)] _ Hkeep1) as Hkeep0.
  destruct (path_run cap banks script k P R local p s Hb Hs Hk Hid Hne h1 z1 H1 Hkeep0) as (ops0 & outs0 & rops0 & couts0 & A1 & A2 & A3 & A4 & A5 & A6).
  destruct (one_step cap banks script k P R local p s Hb Hs Hk Hid Hne h1 z1 ev z2 _ H1 Hf E Hkeep1 A6) as (ops1 & outs1 & rops1 & couts1 & B1 & B2 & B3 & B4 & B5 & B6 & B7 & B8 & B9 & B10 & B11 & B12).
  assert (Kv : exists o' mem alloc, ev = EvCall o' mem alloc).
  { destruct z1 as [n q rx x j]. destruct ev as [o' mem alloc|fuel|clock mem|m|b|]; [eexists _, _, _; reflexivity| | | | |]; exfalso; unfold can_node_step in E; try discriminate E.
    - destruct (bx_flush script fuel q (Ok x, j)) as [ [ [ [q' [ [x'|] k'] ] a']|]|]; discriminate E.
    - destruct (bx_pnp_receive clock mem _ 0 rx x) as [ [ [r' x'] a']|]; discriminate E. }
  destruct Kv as (o' & mem & alloc & ->). destruct B12 as (a & b & calls' & out' & Er & Hc & Hd). injection Er as -> <- <-. destruct (sub_step p o' a b calls r max mem alloc _ _ _ _ Hsub Hc Hd) as (t & -> & -> & ->).
  assert (Hp : In p (ports (cn_receiver z2))).
  { cbn [can_run can_step] in B2. destruct (rx_subscribe_port (cn_receiver z1) p t max mem) as [r1 o1] eqn:Es. injection B2 as B2 Eo. subst r1 o1. apply (proj2 (subscribe_ports _ _ _ _ _ _ _ Es)). right. split; reflexivity. }
  pose proof (path_step _ _ _ _ _ _ _ H1 Hf E) as H1'. destruct (listen_run cap banks script k P R local p s Hb Hs Hk Hid Hne _ z2 H1' B11 Hp h2 z3 H2 Hkeep2 Hport Hmem) as (ops & outs & rops & couts & C1 & C2 & C3 & C4 & C5 & C6 & C7 & C8 & C9 & C10 & _ & _).
  exists (flat_map received outs), couts. split; [|split; [|symmetry; exact C5] ].
  - exists banks, ops0, (cn_driver z1), outs0, ([OpFilters (fst (rx_filters (cn_receiver z2))) (snd (rx_filters (cn_receiver z2))) alloc] ++ ops), (cn_driver z3), (outs1 ++ outs).
    split; [exact Hb|]. split; [exact A3|]. split; [exact A1|]. split; [exact W1|]. split; [apply Forall_app; split; assumption|].
    split; [apply Forall_app; split; [|exact C8]; pose proof (Forall_inv B8) as K; cbv beta iota in K; constructor; [|constructor]; split; [exact (proj1 K)|apply filters_ports, Hp]|]. split; [eexists _, _; split; [reflexivity|exact I]|].
    split; [apply Forall_app; split; assumption|]. split; [exact (run_app _ _ _ _ _ _ _ B1 C1)|]. split; [rewrite flat_map_app, <- B3; reflexivity|]. split; [|exact W3].
    unfold on_bus in *. rewrite flat_map_app. cbn [flat_map app]. rewrite C4. exact Hbus.
  - exists local, ((CSub p t max mem, CSubbed SubscribeOk) :: rev (combine rops0 couts0)), (cn_receiver z2), t, rops, (cn_receiver z3).
    assert (Hh : can_hist local (rev (combine rops0 couts0)) (cn_receiver z1)) by (rewrite <- (app_nil_r (rev _)); exact (CanRxProps.run_hist local rops0 [] (rx_new local) _ _ (CanRxSpec.ch_new local) A4 A2)).
    split; [|split; [|split; [|split; [|split; [|split; [exact C3|split; [exact C9|split; [exact C10|exact C2] ] ] ] ] ] ] ].
    + cbn [can_run] in B2. destruct (can_step (cn_receiver z1) (CSub p t max mem)) as [ [r1 c1]|] eqn:Es; [|discriminate B2]. injection B2 as B2 Ec. subst r1 c1. exact (CanRxSpec.ch_step local _ _ (CSub p t max mem) _ _ Hh I Es).
    + cbn [CanRxSpec.can_node]. rewrite <- (app_nil_r (rev _)). exact (hist_node local _ _ _ _ [] A5 A2).
    + cbn [can_active]. rewrite port_eqb_refl. reflexivity.
    + cbn [CanRxSpec.pending]. rewrite port_eqb_refl. reflexivity.
    + cbn [last_delivery]. rewrite port_eqb_refl. reflexivity.
Qed.

(** * What the node sends *)

Lemma running_station cap banks script k P R id h z p s dest : running cap banks script k P R id h z -> on_time script p s dest (node_calls h) -> exists ts,
  station cap banks script (core_new TransportCan k P R id) (node_calls h) (cn_core z) ts (cn_queue z) (Ok (cn_driver z), cn_reads z) /\ in_time script p s dest ts.
Proof.
  intros (_ & _ & _ & _ & H & _) Ht. destruct (path_station _ _ _ _ _ _ _ _ _ H) as (ts & S & Hts). exists ts. split; [exact S|]. intros t j Hi Hc. destruct (Hts t Hi) as (o & calls & r & Ho & Hp). exact (Ht o calls r t j Ho Hp Hc).
Qed.
