(** Property theorems for the CAN frame queue (C25), flushing (C26) and redundant reception (C27). *)
From Verif Require Import Base BitLemmas CoreModel CanIdModel CanTxModel CanTxSpec CanQueueModel CanQueueSpec CanQueueProofs CanFlushProofs.

(** C25: for every sequence of operations, the ring-buffer queue gives the answers of the specification; it never panics,
    never holds more than its capacity, and gives out its frames in the specified order. *)
Theorem C25_queue_refines : forall cap ops,
  exists q, aq_run (aq_new cap) ops = Ok (q, snd (spec_run cap [] ops)) /\
    drain (S cap) q = fst (spec_run cap [] ops) /\
    (length (drain (S cap) q) <= cap)%nat /\ by_priority (drain (S cap) q).
Proof.
  intros cap ops. destruct (aq_run_spec cap ops _ _ (holds_new cap)) as (q & E & H). exists q. split; [assumption|].
  rewrite (holds_drain cap q _ H). split; [reflexivity|]. split; [apply (holds_length _ _ _ H)|]. destruct H as (_ & _ & _ & H). exact H.
Qed.
Print Assumptions C25_queue_refines.

(** C25: the frame that leaves has the least identifier in the queue; the frames of each identifier form a queue of their
    own, where push adds at the end, pop takes from the front and return adds at the front.  Push and return fail exactly
    when the queue is full, and then change nothing. *)
Theorem C25_stable_priority : forall cap q op q' o, queue_reach cap q -> aq_step q op = Ok (q', o) ->
  let l := drain (S cap) q in
  let l' := drain (S cap) q' in
  match op with
  | OpReserve n => l' = l /\ o = OutBool (length l + n <=? cap)%nat
  | OpPeek => l' = l /\ o = OutFrame (hd_error l)
  | OpPush f =>
      o = OutBool (length l <? cap)%nat /\
      if (length l <? cap)%nat then
        forall id, with_id id l' = if f_id f =? id then with_id id l ++ [f] else with_id id l
      else l' = l
  | OpReturn f =>
      o = OutBool (length l <? cap)%nat /\
      if (length l <? cap)%nat then
        forall id, with_id id l' = if f_id f =? id then f :: with_id id l else with_id id l
      else l' = l
  | OpPop =>
      match o with
      | OutFrame None => l = [] /\ l' = []
      | OutFrame (Some f) =>
          (forall g, In g l -> f_id f <= f_id g) /\
          forall id, with_id id l = if f_id f =? id then f :: with_id id l' else with_id id l'
      | OutBool _ => False
      end
  end.
Proof.
  intros cap q op q' o Hq Hs l l'. destruct (reach_holds cap q Hq) as (c & Hc).
  destruct (aq_step_spec cap q c op Hc) as (q1 & E & H1). rewrite Hs in E. injection E as E1 ->. subst q1.
  unfold l, l'. rewrite (holds_drain _ _ _ Hc), (holds_drain _ _ _ H1). clear l l'. destruct Hc as (_ & _ & _ & Hc).
  destruct op as [n|f| | |f]; cbn [spec_step fst snd].
  - auto.
  - destruct (length c <? cap)%nat; cbn [fst snd]; split; auto. intro id. apply with_id_behind. assumption.
  - auto.
  - destruct c as [|f c]; cbn [hd_error tl]; [auto|]. split.
    + intros g [->|Hg]; [lia|]. inversion Hc as [|? ? _ Hall]; subst. rewrite Forall_forall in Hall. auto.
    + intro id. unfold with_id. cbn [filter]. destruct (f_id f =? id); reflexivity.
  - destruct (length c <? cap)%nat; cbn [fst snd]; split; auto. intro id. apply with_id_before. assumption.
Qed.
Print Assumptions C25_stable_priority.

Definition fr (id : N) (k : N) := Frame 0 id false [k].
Example C25_witness :
  queue_reach 3 (aq_new 3) /\
  exists q, aq_run (aq_new 3) [OpPush (fr 10 0); OpPush (fr 10 1); OpPop; OpPush (fr 9 0); OpPush (fr 10 2); OpPush (fr 1 0); OpPop; OpReturn (fr 10 3)] =
    Ok (q, [OutBool true; OutBool true; OutFrame (Some (fr 10 0)); OutBool true; OutBool true; OutBool false; OutFrame (Some (fr 9 0)); OutBool true]) /\
  drain 4 q = [fr 10 3; fr 10 1; fr 10 2].
Proof. split; [constructor|]. eexists. split; vm_compute; reflexivity. Qed.

(** C26, accounting, for every driver: [calls] is everything the clock and the driver were asked.  The frames that were in
    the queue and the frames the driver gave back are, together, exactly: the frames the driver took, frames dropped at a
    time later than their deadline, the frame the driver failed on, and the frames left in the queue.  There is a failed
    frame only if the flush reports the driver's error, and then just one.  No panic. *)
Theorem C26_flush_accounts_partial : forall cap q W (now : W -> W * N) transmit fuel w,
  queue_reach cap q ->
  match flush_queue aq_ops (rec_now now) (rec_tx transmit) fuel q (w, []) with
  | Panic => False
  | Ok None => True
  | Ok (Some (q', (w', calls), r)) =>
      flush_queue aq_ops now transmit fuel q w = Ok (Some (q', w', r)) /\
      exists dropped,
        Permutation (drain (S cap) q ++ flat_map given_back calls)
          (flat_map taken calls ++ dropped ++ flat_map failed calls ++ drain (S cap) q') /\
        Forall (fun f => exists t, In t (flat_map clock_read calls) /\ t_lt (f_ts f) t = true) dropped /\
        (r <> FlushError -> flat_map failed calls = []) /\
        (length (flat_map failed calls) <= 1)%nat /\
        (r = FlushOk -> drain (S cap) q' = [])
  end.
Proof.
  intros cap q W now transmit fuel w Hq. destruct (reach_holds cap q Hq) as (l & Hl).
  pose proof (flush_no_panic aq_ops cap (holds cap) now transmit (aq_correct cap) fuel q l w [] Hl) as Hnp.
  pose proof (flush_record aq_ops now transmit fuel q w []) as Hrec. unfold frun in Hnp, Hrec.
  destruct (flush_queue aq_ops (rec_now now) (rec_tx transmit) fuel q (w, [])) as [[[[q' [w' calls]] r]|]|] eqn:E; [|exact I|congruence].
  split.
  { destruct (flush_queue aq_ops now transmit fuel q w) as [[[[q2 w2] r2]|]|]; try contradiction. destruct Hrec as (-> & -> & ->). reflexivity. }
  destruct (flush_accounts aq_ops cap (holds cap) now transmit (aq_correct cap) fuel q l w [] q' w' calls r Hl E) as (c & l' & dropped & -> & Hl' & Hp & Hd & Hf & H1 & Hok).
  exists dropped. rewrite (holds_drain _ _ _ Hl), (holds_drain _ _ _ Hl'). cbn [app]. auto.
Qed.
Print Assumptions C26_flush_accounts_partial.

(** C26, order, for a driver that gives no frames back: the flush works through the queue from the front, reading the
    clock for each frame, dropping it if its deadline has passed and handing it to the driver otherwise; it stops at the
    first frame that is not taken.  A frame refused because the driver is busy stays at the front of the queue. *)
Theorem C26_flush_order : forall cap q W (now : W -> W * N) transmit w,
  queue_reach cap q ->
  (forall w f, match snd (transmit w f) with TxOk (Some _) => False | _ => True end) ->
  exists q' w' calls r done,
    (* cap + 1 rounds are always enough *)
    flush_queue aq_ops (rec_now now) (rec_tx transmit) (S cap) q (w, []) = Ok (Some (q', (w', calls), r)) /\
    flush_queue aq_ops now transmit (S cap) q w = Ok (Some (q', w', r)) /\
    let l := drain (S cap) q in
    let l' := drain (S cap) q' in
    let work := flat_map (fun p : frame * N => let (f, t) := p in CNow t :: if t_lt (f_ts f) t then [] else [CTx f (TxOk None)]) done in
    match r with
    | FlushOk => l = map fst done /\ l' = [] /\ calls = work
    | FlushWouldBlock => exists f t, l = map fst done ++ l' /\ hd_error l' = Some f /\ t_lt (f_ts f) t = false /\
                           calls = work ++ [CNow t; CTx f TxWouldBlock]
    | FlushError => exists f t, l = map fst done ++ f :: l' /\ t_lt (f_ts f) t = false /\ calls = work ++ [CNow t; CTx f TxError]
    end.
Proof.
  intros cap q W now transmit w Hq Hd. destruct (reach_holds cap q Hq) as (l & Hl).
  pose proof (holds_length _ _ _ Hl) as (_ & Hcap).
  destruct (flush_ends aq_ops cap (holds cap) now transmit (aq_correct cap) Hd (S cap) q l w [] Hl ltac:(lia)) as (q' & w' & calls & r & E).
  destruct (flush_order aq_ops cap (holds cap) now transmit (aq_correct cap) (S cap) q l w [] q' w' calls r Hl Hd E) as (done & l' & Hl' & Hr).
  exists q', w', calls, r, done. split; [exact E|]. split.
  { pose proof (flush_record aq_ops now transmit (S cap) q w []) as Hrec. rewrite E in Hrec.
    destruct (flush_queue aq_ops now transmit (S cap) q w) as [[[[q2 w2] r2]|]|]; try contradiction. destruct Hrec as (-> & -> & ->). reflexivity. }
  cbv zeta. rewrite (holds_drain _ _ _ Hl), (holds_drain _ _ _ Hl'). cbn [app] in Hr. destruct r.
  - exact Hr.
  - destruct Hr as (f & t & rest & -> & -> & Hx & ->). exists f, t. auto.
  - exact Hr.
Qed.
Print Assumptions C26_flush_order.

(** a driver that reports an error for every frame, with a clock that stands at 0 *)
Definition err_tx (w : unit) (f : frame) : unit * tx_res := (w, TxError).
Definition now0 (w : unit) : unit * N := (w, 0).

(** C26 is violated: when the driver reports an error other than "busy", the live frame it was offered is lost. *)
Theorem C26_flush_error_refuted : exists q q' f,
  queue_reach 2 q /\ drain 3 q = [f; fr 11 1] /\ t_lt (f_ts f) 0 = false /\
  flush_queue aq_ops now0 err_tx 3 q tt = Ok (Some (q', tt, FlushError)) /\ drain 3 q' = [fr 11 1].
Proof.
  eexists (AQ [fr 10 0; fr 11 1] 0 2), _, (fr 10 0). split.
  - eapply (QStep _ _ (OpPush (fr 11 1))); [eapply (QStep _ _ (OpPush (fr 10 0))); [constructor|vm_compute; reflexivity]|vm_compute; reflexivity].
  - split; [vm_compute; reflexivity|]. split; [vm_compute; reflexivity|]. split; vm_compute; reflexivity.
Qed.
Print Assumptions C26_flush_error_refuted.

(** a driver with room for [w] more frames *)
Definition room_tx (w : nat) (f : frame) : nat * tx_res := match w with O => (O, TxWouldBlock) | S k => (k, TxOk None) end.
Example C26_witness :
  queue_reach 3 (aq_new 3) /\
  exists q q', aq_run (aq_new 3) [OpPush (Frame 5 10 false []); OpPush (Frame 50 10 false []); OpPush (Frame 50 11 false [])] = Ok (q, [OutBool true; OutBool true; OutBool true]) /\
  flush_queue aq_ops (fun w => (w, 20)) room_tx 4 q 1%nat = Ok (Some (q', 0%nat, FlushWouldBlock)) /\ drain 4 q' = [Frame 50 11 false []].
Proof. split; [constructor|]. eexists; eexists. split; [vm_compute; reflexivity|]. split; vm_compute; reflexivity. Qed.

(** C27: with N interfaces, a frame is passed on exactly when no frame was passed on before, or it comes from the interface
    of the last frame passed on, or that frame is older than the timeout.  No panic for an index below N. *)
Theorem C27_dedup_decides : forall n timeout h d ts i, dd_hist n timeout h d -> (i < n)%nat ->
  exists d' a, dd_accept d ts i = Ok (d', a) /\
    (a = true <-> match last_accepted h with
                  | None => True
                  | Some (last, current) => i = current \/ t_lt (t_add last timeout) ts = true
                  end).
Proof. exact dd_accept_spec. Qed.
Print Assumptions C27_dedup_decides.

(** C27: while the current interface is live, that is, no other interface gets a frame later than the timeout after the
    current one's last frame, exactly the frames of the current interface are passed on. *)
Theorem C27_dedup_once : forall n timeout new h d h0 d0 ts0 cur,
  dd_hist n timeout h0 d0 -> last_accepted h0 = Some (ts0, cur) ->
  dd_hist n timeout h d -> h = new ++ h0 ->
  (forall later e earlier last j, new = later ++ e :: earlier -> e_index e <> cur ->
     last_accepted (earlier ++ h0) = Some (last, j) -> t_lt (t_add last timeout) (e_ts e) = false) ->
  forall e, In e new -> (e_accepted e = true <-> e_index e = cur).
Proof.
  intros n timeout new. induction new as [|x new IH]; intros h d h0 d0 ts0 cur H0 Hl0 Hh -> Hlive e He; [destruct He|].
  inversion Hh as [|h1 d1 ts i d1' a Hh1 Ha]; subst.
  assert (Hrest : forall e, In e new -> (e_accepted e = true <-> e_index e = cur)).
  { apply (IH (new ++ h0) d1 h0 d0 ts0 cur H0 Hl0 Hh1 eq_refl). intros later y earlier last j -> Hy Hla.
    apply (Hlive (RxEvent ts i a :: later) y earlier last j); [reflexivity|assumption|assumption]. }
  assert (Hla : exists last, last_accepted (new ++ h0) = Some (last, cur)).
  { clear -Hrest Hl0. induction new as [|y new IH]; [exists ts0; exact Hl0|]. cbn [app last_accepted].
    destruct (e_accepted y) eqn:Ey; [|apply IH; intros; apply Hrest; right; assumption]. exists (e_ts y). f_equal. f_equal.
    apply Hrest; [left; reflexivity|assumption]. }
  destruct Hla as (last & Hla). destruct He as [<-|He]; [|apply Hrest; assumption]. cbn [e_accepted e_index].
  assert (Hi : (i < n)%nat).
  { destruct (dd_inv _ _ _ _ Hh1) as (_ & Hlen & _). unfold dd_accept, store in Ha. rewrite Hlen in Ha. destruct (Nat.ltb_spec i n); [assumption|discriminate]. }
  destruct (dd_accept_spec n timeout _ d1 ts i Hh1 Hi) as (d2 & a2 & E & Hspec). rewrite Ha in E. injection E as _ <-. rewrite Hla in Hspec. rewrite Hspec.
  split; [|auto]. intros [?|Ht]; [assumption|]. destruct (Nat.eq_dec i cur) as [|Hne]; [assumption|].
  pose proof (Hlive [] (RxEvent ts i a) new last cur eq_refl Hne Hla) as Hx. cbn [e_ts] in Hx. congruence.
Qed.
Print Assumptions C27_dedup_once.

Example C27_witness : exists d0 d1 d2 d3 d4,
  dd_new 2 1000 = Ok d0 /\ dd_accept d0 10 1 = Ok (d1, true) /\ dd_accept d1 12 0 = Ok (d2, false) /\
  dd_accept d2 1010 0 = Ok (d3, false) /\ dd_accept d3 1011 0 = Ok (d4, true).
Proof. do 5 eexists. vm_compute. repeat split. Qed.
