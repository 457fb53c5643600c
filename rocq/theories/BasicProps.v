(** C50, C73-C76: basic nodes and their services.  Hypotheses of the form [kind_ok] say that the CAN tracker is used with CAN only. *)
From Verif Require Import Base CoreModel NodeModel NodeSpec NodeProofs NodeProps EncModel EncSpec GenModel GenSpec DataTypes BasicModel BasicSpec BasicProofs.
Ltac Zify.zify_post_hook ::= Z.div_mod_to_equations.

(** ** Executions for the examples *)
Fixpoint core_run (n : core) (h : list entry) (ops : list op) : core * list entry :=
  match ops with [] => (n, h) | o :: r => let '(n', c, x) := core_step n o in core_run n' ((o, c, x) :: h) r end.
Definition no_panics (h : list entry) : bool := forallb (fun e => match snd e with OPanic => false | _ => true end) h.
Lemma core_run_hist n0 ops : forall n h, core_hist n0 h n -> no_panics (snd (core_run n h ops)) = true -> core_hist n0 (snd (core_run n h ops)) (fst (core_run n h ops)).
Proof.
  induction ops as [|o ops IH]; intros n h H P; cbn [core_run] in *; [exact H|]. destruct (core_step n o) as [ [n' c] x] eqn:E. apply IH; [|exact P]. eapply ch_step; [exact H|exact E|].
  intros ->. assert (K : forall ops m g, no_panics (snd (core_run m g ops)) = true -> no_panics g = true).
  { clear. induction ops as [|o ops IH]; intros m g P; cbn [core_run] in P; [exact P|]. destruct (core_step m o) as [ [m' c] x]. apply IH in P. apply andb_true_iff in P. apply P. }
  apply K in P. discriminate.
Qed.
Fixpoint basic_run (b : basic) (l : basic_log) (ops : list basic_op) : res (basic * basic_log) :=
  match ops with [] => Ok (b, l) | o :: r => match basic_step b o with Ok (b', es) => basic_run b' ((o, es) :: l) r | Panic => Panic end end.
Lemma basic_run_hist n0 h0 info es0 ops : forall b l b' l', basic_hist n0 h0 info es0 l b -> basic_run b l ops = Ok (b', l') -> basic_hist n0 h0 info es0 l' b'.
Proof.
  induction ops as [|o ops IH]; intros b l b' l' H E; cbn [basic_run] in E; [injection E as <- <-; exact H|]. destruct (basic_step b o) as [ [b1 es]|] eqn:Es; [|discriminate]. eapply IH; [|exact E]. eapply bh_step; eassumption.
Qed.
Definition n_ex : core := core_new TransportCan KCan 4 2 (Some 11).
Definition info_ex : value := VStruct [VStruct [VUnsigned 1; VUnsigned 0]; VStruct [VUnsigned 2; VUnsigned 1]; VStruct [VUnsigned 3; VUnsigned 4]; VUnsigned 77;
  VArray (repeat (VUnsigned 5) 16); VArray [VUnsigned 111; VUnsigned 114; VUnsigned 103]; VArray [VUnsigned 9]; VArray []].
Definition b_ex : basic := match basic_new n_ex info_ex SubOk with Ok (Some b, _) => b | _ => Basic n_ex heartbeat_new (PortList Total Total (BA [] 0) (BA [] 0)) info_ex 0 end.
Definition es_ex : list entry := match basic_new n_ex info_ex SubOk with Ok (_, es) => es | Panic => [] end.
Lemma b_ex_hist : basic_hist n_ex [] info_ex (es_ex ++ []) [] b_ex.
Proof. eapply (bh_new _ _ _ n_ex SubOk); [apply ch_nil|vm_compute; reflexivity]. Qed.
Ltac all_ok := cbn [map fst]; repeat (apply Forall_cons; [cbn [basic_op_ok op_ok fst]; first [exact I|lia]|]); apply Forall_nil.
Definition sent : env := Env 5 true PushOk.
Definition blocked : env := Env 5 true PushWouldBlock.

(** * C50: port lists *)

(** Every port list that a basic node publishes says exactly which ports are in use, if all ports are used through the basic node. *)
Theorem C50_port_list_partial : forall t k P R id info es0 l b e1 e2 b' es payload e calls r,
  basic_hist (core_new t k P R id) [] info es0 l b -> Forall basic_op_ok (map fst l) -> forallb direct (map fst l) = true ->
  basic_step b (BTick e1 e2) = Ok (b', es) -> In (Publish false port_list_subject payload e, calls, r) es ->
  exists v, carries port_list_t payload v /\ says_ports_after v (inner es0 l).
Proof.
  intros t k P R id info es0 l b e1 e2 b' es payload e calls r H F D E Hi. pose proof (basic_hist_inv _ _ _ _ _ _ H F) as V. pose proof (basic_hist_ports _ _ _ _ _ H F D) as (N1 & N2 & N3 & N4).
  destruct (tick_spec b l info e1 e2 V) as (p & n1 & c & r1 & _ & _ & _ & T). cbv zeta in T. destruct T as [(R1 & T)|[(R1 & S & T)|(R1 & S & v & p2 & n2 & c2 & r2 & Ev & C & _ & T)] ]; rewrite T in E; injection E as <- <-; cbn [In] in Hi; try (destruct Hi as [X|[] ]; discriminate X).
  destruct Hi as [X|[X|[] ] ]; [|discriminate X]. assert (payload = p2) as -> by congruence. exists v. split; [exact C|]. destruct (port_list_right _ (ports_ok_fit _ (v_ports _ _ _ V))) as (v' & Ev' & _ & pl & sl & cl & rl & -> & H1 & H2 & H3 & H4). assert (v = VStruct [pl; sl; cl; rl]) as -> by congruence.
  exists pl, sl, cl, rl. split; [reflexivity|]. split; [|split; [|split] ]; intros x Hx; [rewrite H1|rewrite H2|rewrite H3|rewrite H4]; auto.
Qed.
Print Assumptions C50_port_list_partial.

(** What the node inside did is a history of a core node: the theorems of NodeProps say what is transmitted. *)
Theorem C50_history : forall n0 h0 info es0 l b, basic_hist n0 h0 info es0 l b -> core_hist n0 (inner es0 l) (b_node b).
Proof. exact basic_hist_core. Qed.
Print Assumptions C50_history.

(** A function of the basic node panics only if the one of the node inside does. *)
Theorem C50_no_panic : forall n0 h0 info es0 l b o, basic_hist n0 h0 info es0 l b -> Forall basic_op_ok (map fst l) -> basic_op_ok o ->
  basic_step b o = Panic -> exists o' n' calls, (o = BNode o' \/ o = BInner o') /\ core_step (b_node b) o' = (n', calls, OPanic).
Proof.
  intros n0 h0 info es0 l b o H F Fo E. pose proof (basic_hist_inv _ _ _ _ _ _ H F) as V. destruct o as [o|o|e1 e2|m|m|m].
  - cbn [basic_step basic_op_ok] in E, Fo. destruct (inner_step (b_node b) o) as [ [n' [ [o' c] r] ]|] eqn:Ei.
    + cbn [bind fst snd] in E. destruct (update_ports_right _ o c r (v_ports _ _ _ V) Fo) as (l' & El & _). rewrite El in E. discriminate.
    + unfold inner_step in Ei. destruct (core_step (b_node b) o) as [ [n' c] r] eqn:Es. destruct r; try discriminate. exists o, n', c. split; [left; reflexivity|exact Es].
  - cbn [basic_step] in E. unfold inner_step in E. destruct (core_step (b_node b) o) as [ [n' c] r] eqn:Es. destruct r; try discriminate. exists o, n', c. split; [right; reflexivity|exact Es].
  - destruct (tick_spec b l info e1 e2 V) as (p & n1 & c & r1 & _ & _ & _ & T). cbv zeta in T.
    destruct T as [(_ & T)|[(_ & _ & T)|(_ & _ & v & p2 & n2 & c2 & r2 & _ & _ & _ & T)] ]; rewrite T in E; clear - E; discriminate E.
  - discriminate E.
  - discriminate E.
  - discriminate E.
Qed.
Print Assumptions C50_no_panic.

(** ports started and stopped, then 11 ticks *)
Definition ops_ex : list basic_op :=
  [BNode (StartPublishing 1000 50 3); BNode (SubscribeMessage 1001 10 50 SubOk); BNode (SubscribeMessage 1002 10 50 SubOk); BNode (UnsubscribeMessage 1001); BNode (StartSendingRequests 200 50 10 3 SubOk);
   BNode (SubscribeRequest 201 10 50 SubOk); BNode (UnsubscribeRequest 430); BNode (StartPublishing 1003 50 3); BNode (StopPublishing 1000)] ++ repeat (BTick sent sent) 10.
Example C50_witness : exists b l b' payload calls rest, basic_run b_ex [] ops_ex = Ok (b, l) /\ Forall basic_op_ok (map fst l) /\ forallb direct (map fst l) = true /\
  basic_step b (BTick sent sent) = Ok (b', (Publish false port_list_subject payload sent, calls, ODone) :: rest) /\
  pub_started 1000 (inner es_ex l) = None /\ pub_started 1003 (inner es_ex l) <> None /\ length calls = 1%nat.
Proof.
  destruct (basic_run b_ex [] ops_ex) as [ [b l]|] eqn:E; [|vm_compute in E; discriminate]. vm_compute in E. injection E as <- <-.
  do 6 eexists. split; [reflexivity|]. split; [all_ok|]. split; [reflexivity|]. split; [vm_compute; reflexivity|]. split; [reflexivity|]. split; [discriminate|reflexivity].
Qed.

(** The code violates it: a port that a handler or [node_mut] starts is missing from the port lists, ... *)
Theorem C50_inner_refuted : exists info es0 l b b' es payload e calls r v,
  basic_hist n_ex [] info es0 l b /\ Forall basic_op_ok (map fst l) /\ basic_step b (BTick sent sent) = Ok (b', es) /\
  In (Publish false port_list_subject payload e, calls, r) es /\ deserialize_from_bytes port_list_t payload = Ok (DOk v) /\ ~ says_ports_after v (inner es0 l).
Proof.
  destruct (basic_run b_ex [] (BInner (StartPublishing 1000 50 3) :: repeat (BTick sent sent) 10)) as [ [b l]|] eqn:E; [|vm_compute in E; discriminate].
  pose proof (basic_run_hist _ _ _ _ _ _ _ _ _ b_ex_hist E) as H. vm_compute in E. injection E as <- <-.
  do 11 eexists. split; [exact H|]. split; [all_ok|]. split; [vm_compute; reflexivity|]. split; [left; reflexivity|]. split; [vm_compute; reflexivity|].
  intros (p & s & c & r & E & H1 & _). injection E as <- <- <- <-. specialize (H1 1000 ltac:(lia)). cbn [in_subject_list] in H1. destruct H1 as (_ & H1).
  assert (Y : forall (l : list value), ~ In (VStruct [VUnsigned 1000]) l -> In (VStruct [VUnsigned 1000]) l -> False) by tauto. eapply Y; [|apply H1; vm_compute; discriminate].
  intros [Z|[Z|[] ] ]; discriminate.
Qed.
Print Assumptions C50_inner_refuted.
(** ... and so is a port that was started before the basic node was created. *)
Theorem C50_before_refuted : exists h0 info es0 l b b' es payload e calls r v,
  basic_hist n_ex h0 info es0 l b /\ Forall basic_op_ok (map fst l) /\ forallb direct (map fst l) = true /\ basic_step b (BTick sent sent) = Ok (b', es) /\
  In (Publish false port_list_subject payload e, calls, r) es /\ deserialize_from_bytes port_list_t payload = Ok (DOk v) /\ ~ says_ports_after v (inner es0 l).
Proof.
  assert (H0 : core_hist n_ex [(StartPublishing 1000 50 3, [], ODone)] (fst (fst (core_step n_ex (StartPublishing 1000 50 3))))) by (eapply ch_step; [apply ch_nil|reflexivity|discriminate]).
  destruct (basic_new (fst (fst (core_step n_ex (StartPublishing 1000 50 3)))) info_ex SubOk) as [ [ [b0|] es0]|] eqn:E0; [|vm_compute in E0; discriminate..]. pose proof (bh_new _ _ _ _ _ _ _ H0 E0) as Hb. vm_compute in E0. injection E0 as <- <-.
  match type of Hb with basic_hist _ _ _ _ _ ?x => destruct (basic_run x [] (repeat (BTick sent sent) 10)) as [ [b l]|] eqn:E end; [|vm_compute in E; discriminate].
  pose proof (basic_run_hist _ _ _ _ _ _ _ _ _ Hb E) as H. vm_compute in E. injection E as <- <-.
  do 12 eexists. split; [exact H|]. split; [all_ok|]. split; [reflexivity|]. split; [vm_compute; reflexivity|]. split; [left; reflexivity|]. split; [vm_compute; reflexivity|].
  intros (p & s & c & r & E & H1 & _). injection E as <- <- <- <-. specialize (H1 1000 ltac:(lia)). cbn [in_subject_list] in H1. destruct H1 as (_ & H1).
  assert (Y : forall (l : list value), ~ In (VStruct [VUnsigned 1000]) l -> In (VStruct [VUnsigned 1000]) l -> False) by tauto. eapply Y; [|apply H1; vm_compute; discriminate].
  intros [Z|[Z|[] ] ]; discriminate.
Qed.
Print Assumptions C50_before_refuted.

(** * C73: heartbeats *)

(** Every call of [run_per_second_tasks] publishes first a heartbeat with the number of calls so far as the uptime, and the mode,
    health and status code that were set last. *)
Theorem C73_heartbeat : forall t k P R id info es0 l b e1 e2,
  kind_ok t k -> basic_hist (core_new t k P R id) [] info es0 l b -> Forall basic_op_ok (map fst l) ->
  exists b' rest payload calls r, basic_step b (BTick e1 e2) = Ok (b', rest ++ [(Publish false heartbeat_subject payload e1, calls, r)]) /\
    carries heartbeat_t payload (VStruct [VUnsigned (N.min (ticks l + 1) (2 ^ 32 - 1)); VStruct [VUnsigned (health_set l)]; VStruct [VUnsigned (mode_set l)]; VUnsigned (status_set l)]) /\
    match pub_started heartbeat_subject (inner es0 l) with
    | None => calls = [] /\ r = ONotPublishing
    | Some (timeout, priority) =>
        calls = [CPush {| t_header := HMsg {| mh_ts := (e_now e1 + timeout) mod 2 ^ 32; mh_tid := pub_count heartbeat_subject (inner es0 l) mod tid_range t;
                                               mh_prio := priority; mh_subject := heartbeat_subject; mh_source := id_after id (inner es0 l) |};
                          t_loopback := false; t_payload := payload |}] /\
        r = match e_push e1 with PushOk => ODone | PushWouldBlock => OWouldBlock | PushError err => OError err end
    end.
Proof.
  intros t k P R id info es0 l b e1 e2 Hk H F. pose proof (basic_hist_inv _ _ _ _ _ _ H F) as V. destruct (tick_spec b l info e1 e2 V) as (payload & n1 & calls & r & C & L & Ei & T). cbv zeta in T.
  assert (Ev : heartbeat_value (heartbeat_tick (b_heartbeat b)) = VStruct [VUnsigned (N.min (ticks l + 1) (2 ^ 32 - 1)); VStruct [VUnsigned (health_set l)]; VStruct [VUnsigned (mode_set l)]; VUnsigned (status_set l)]).
  { destruct V as [_ V2 (V3 & _) (V4 & _) (V5 & _) _ _]. unfold heartbeat_value, heartbeat_tick. cbn [hb_uptime hb_health hb_mode hb_status]. rewrite V2, V3, V4, V5. do 3 f_equal. lia. }
  rewrite Ev in C.
  assert (K : exists b' rest, basic_step b (BTick e1 e2) = Ok (b', rest ++ [(Publish false heartbeat_subject payload e1, calls, r)])).
  { destruct T as [(_ & T)|[(_ & _ & T)|(_ & _ & v & p2 & n2 & c2 & r2 & _ & _ & _ & T)] ]; rewrite T; [exists (set_node (set_heartbeat b (heartbeat_tick (b_heartbeat b))) n1), []; reflexivity|eexists; exists []; reflexivity|]. eexists. exists [(Publish false port_list_subject p2 e2, c2, r2)]. reflexivity. }
  destruct K as (b' & rest & K). exists b', rest, payload, calls, r. split; [exact K|]. split; [exact C|].
  pose proof (basic_hist_core _ _ _ _ _ _ H) as Hc. destruct (inner_step_hist _ _ _ _ _ _ Hc Ei) as (_ & _ & Es). cbn [fst snd] in Es. pose proof (C45_publish _ _ _ _ _ _ _ _ _ _ _ _ _ _ Hk Hc Es) as Q.
  destruct (pub_started heartbeat_subject (inner es0 l)) as [ [tmo prio]|]; [|exact Q]. rewrite (proj2 (Nat.ltb_ge 64 (length payload))) in Q by exact L. exact Q.
Qed.
Print Assumptions C73_heartbeat.

(** Heartbeats and port lists are published from the creation of the node on, with fixed timeouts and priorities, unless the application
    stops it. *)
Theorem C73_started : forall t k P R id info es0 l b, kind_ok t k -> basic_hist (core_new t k P R id) [] info es0 l b ->
  (forall c r, ~ In (StopPublishing heartbeat_subject, c, r) (flat_map snd l)) -> (forall c r, ~ In (StopPublishing port_list_subject, c, r) (flat_map snd l)) ->
  pub_started heartbeat_subject (inner es0 l) = Some (500000, 4) /\ pub_started port_list_subject (inner es0 l) = Some (1000000, 7).
Proof.
  intros t k P R id info es0 l b Hk H N1 N2. pose proof (basic_hist_core _ _ _ _ _ _ H) as Hc.
  assert (Z : pub_started heartbeat_subject es0 = Some (500000, 4) /\ pub_started port_list_subject es0 = Some (1000000, 7)).
  { clear N1 N2 Hc. remember [] as h0 eqn:Eh in H. induction H as [n answer b es Hn E|]; [|auto]. apply basic_new_spec in E as (n1 & n2 & c1 & c2 & c3 & cl & sv & _ & _ & _ & -> & _). split; reflexivity. }
  unfold inner in *. clear H. revert b Hc N1 N2. generalize (flat_map snd l). intro h. assert (G : forall n, core_hist (core_new t k P R id) (h ++ es0) n -> (forall c r, ~ In (StopPublishing heartbeat_subject, c, r) h) -> (forall c r, ~ In (StopPublishing port_list_subject, c, r) h) ->
    pub_started heartbeat_subject (h ++ es0) = Some (500000, 4) /\ pub_started port_list_subject (h ++ es0) = Some (1000000, 7)); [|intros b; apply G].
  induction h as [|x h IH]; intros n Hc N1 N2; [exact Z|]. cbn [app] in *. inversion Hc as [|? n1 o ? calls r Hc1 Es Hr]; subst. specialize (IH n1 Hc1 (fun c r X => N1 c r (or_intror X)) (fun c r X => N2 c r (or_intror X))). destruct IH as (I1 & I2).
  destruct o; try (split; [exact I1|exact I2]).
  - destruct (C49_start_publishing _ _ _ _ _ _ _ _ _ _ _ _ _ Hk Hc1 Es) as (_ & D & _). cbn [pub_started]. destruct r; try (split; [exact I1|exact I2]). destruct (N.eqb_spec subject heartbeat_subject) as [->|]; [rewrite I1 in D; destruct D as (_ & D); specialize (D ltac:(discriminate)); discriminate|].
    destruct (N.eqb_spec subject port_list_subject) as [->|]; [rewrite I2 in D; destruct D as (_ & D); specialize (D ltac:(discriminate)); discriminate|]. split; assumption.
  - cbn [pub_started]. destruct (N.eqb_spec subject heartbeat_subject) as [->|]; [exfalso; eapply N1; left; reflexivity|]. destruct (N.eqb_spec subject port_list_subject) as [->|]; [exfalso; eapply N2; left; reflexivity|]. split; assumption.
Qed.
Print Assumptions C73_started.
Example C73_witness : exists b l b' es payload, basic_run b_ex [] [BTick sent sent; BSetMode 3; BSetHealth 1; BSetMode 2; BTick blocked sent; BSetStatus 200] = Ok (b, l) /\ ticks l = 2 /\ mode_set l = 2 /\ health_set l = 1 /\ status_set l = 200 /\
  basic_step b (BTick sent sent) = Ok (b', es) /\ es = [(Publish false heartbeat_subject payload sent, [CPush (Transfer (HMsg (MsgH 500005 2 4 heartbeat_subject (Some 11))) false payload)], ODone)] /\ payload = [3; 0; 0; 0; 1; 2; 200].
Proof. do 5 eexists. split; [vm_compute; reflexivity|]. do 6 (split; [vm_compute; reflexivity|]). reflexivity. Qed.

(** * C74: when port lists are published *)

(** A call of [run_per_second_tasks] publishes a port list if and only if its heartbeat was accepted, and the number of calls before
    with accepted heartbeats is a multiple of 10 other than 0. *)
Theorem C74_period_partial : forall t k P R id info es0 l b e1 e2 b' es,
  basic_hist (core_new t k P R id) [] info es0 l b -> Forall basic_op_ok (map fst l) -> basic_step b (BTick e1 e2) = Ok (b', es) ->
  (existsb (published port_list_subject) es = true <-> existsb (accepted heartbeat_subject) es = true /\ heartbeats l mod 10 = 0 /\ heartbeats l <> 0).
Proof.
  intros t k P R id info es0 l b e1 e2 b' es H F E. pose proof (basic_hist_inv _ _ _ _ _ _ H F) as V. destruct (tick_spec b l info e1 e2 V) as (payload & n1 & calls & r & _ & _ & _ & T). cbv zeta in T. pose proof (v_seconds _ _ _ V) as S.
  destruct T as [(R1 & T)|[(-> & X & T)|(-> & X & v & p2 & n2 & c2 & r2 & _ & _ & _ & T)] ]; rewrite T in E; injection E as <- <-; clear T V H; cbn [existsb published accepted].
  - change (heartbeat_subject =? port_list_subject) with false. cbn [orb]. split; [discriminate|]. intros (A & _). destruct r; try discriminate A. contradiction.
  - change (heartbeat_subject =? port_list_subject) with false. cbn [orb]. split; [discriminate|]. intros (_ & A & B). exfalso. apply X. rewrite S. destruct (N.eqb_spec (heartbeats l) 0); [contradiction|]. clear - A B. lia.
  - rewrite N.eqb_refl. split; [|reflexivity]. intros _. split; [destruct r2; reflexivity|]. rewrite S in X. destruct (N.eqb_spec (heartbeats l) 0); [discriminate X|]. clear - X n. lia.
Qed.
Print Assumptions C74_period_partial.
Example C74_witness : exists b l b' es, basic_run b_ex [] (repeat (BTick sent sent) 5 ++ [BTick blocked sent; BTick sent sent] ++ repeat (BTick sent sent) 4) = Ok (b, l) /\ ticks l = 11 /\ heartbeats l = 10 /\ basic_step b (BTick sent blocked) = Ok (b', es) /\ existsb (published port_list_subject) es = true.
Proof. do 4 eexists. do 4 (split; [vm_compute; reflexivity|]). vm_compute. reflexivity. Qed.

(** The documentation promises a port list every 10 seconds.  The code violates it: calls whose heartbeat is not accepted do not count,
    and there is no port list in 10 calls, or in 100, if the transmitter is not ready for heartbeats. *)
Theorem C74_blocked_refuted : forall n, exists es0 l b, basic_hist n_ex [] info_ex es0 l b /\ ticks l = N.of_nat n /\ existsb (published port_list_subject) (flat_map snd l) = false.
Proof.
  intro n. assert (G : exists es0 l b, basic_hist n_ex [] info_ex es0 l b /\ Forall basic_op_ok (map fst l) /\ ticks l = N.of_nat n /\ heartbeats l = 0 /\ existsb (published port_list_subject) (flat_map snd l) = false); [|destruct G as (es0 & l & b & H & _ & T & _ & X); exists es0, l, b; auto].
  induction n as [|n (es0 & l & b & H & F & T & A & X)].
  - exists (es_ex ++ []), [], b_ex. split; [exact b_ex_hist|]. split; [constructor|]. repeat split; reflexivity.
  - destruct (C73_heartbeat TransportCan KCan 4 2 (Some 11) info_ex es0 l b blocked blocked eq_refl H F) as (b' & rest & payload & calls & r & E & _ & Q). pose proof (C74_period_partial _ _ _ _ _ _ _ _ _ _ _ _ _ H F E) as Pp. rewrite A in Pp.
    exists es0, ((BTick blocked blocked, rest ++ [(Publish false heartbeat_subject payload blocked, calls, r)]) :: l), b'. split; [eapply bh_step; eassumption|]. split; [constructor; [exact I|exact F]|]. cbn [ticks heartbeats flat_map snd]. split; [rewrite T; lia|].
    assert (NP : existsb (published port_list_subject) (rest ++ [(Publish false heartbeat_subject payload blocked, calls, r)]) = false) by (match goal with |- ?x = false => destruct x end; [destruct Pp as (Pp & _); destruct (Pp eq_refl) as (_ & _ & Y); contradiction|reflexivity]).
    split; [|rewrite existsb_app, NP, X; reflexivity]. rewrite A.
    pose proof (basic_hist_inv _ _ _ _ _ _ H F) as V. destruct (tick_spec b l info_ex blocked blocked V) as (p' & n1 & c' & r' & _ & _ & _ & T'). cbv zeta in T'. pose proof (v_seconds _ _ _ V) as S. rewrite A in S. cbn [N.eqb] in S.
    destruct T' as [(R1 & T')|[(-> & Y & T')|(-> & Y & _)] ]; [| |rewrite S in Y; discriminate Y]; rewrite T' in E; apply (f_equal (fun x => match x with Ok y => snd y | Panic => [] end)) in E; cbn [snd] in E; clear T' V.
    + rewrite <- E. destruct r'; try contradiction; reflexivity.
    + destruct rest as [|? [|] ]; cbn [app] in E; [|discriminate E..]. assert (r = ODone) as -> by congruence. destruct (pub_started _ _) as [ [? ?]|]; destruct Q as (_ & Q); discriminate Q.
Qed.
Print Assumptions C74_blocked_refuted.

(** * C75: node information *)

(** [receive] answers every request for node information with the information given at the creation, and gives everything else to
    the handler of the application. *)
Theorem C75_get_info : forall W get put env_of crash info (user : handler W) s request rest w source,
  kept get_info_t info = true -> c_id (get w) = Some source -> sh_service s = get_info_service ->
  exists payload calls r token, carries get_info_t payload info /\
    basic_receive get put env_of crash info user (RecvTransfer {| t_header := HReq s; t_loopback := false; t_payload := request |} :: rest) w =
    basic_receive get put env_of crash info user rest (put w (get w) (SendResponse token 1000000 payload (env_of w), calls, r)) /\
    if (64 <? length payload)%nat && negb (e_alloc (env_of w)) then calls = [] /\ r = OError EOutOfMemory
    else calls = [CPush {| t_header := HResp {| sh_ts := (e_now (env_of w) + 1000000) mod 2 ^ 32; sh_tid := sh_tid s; sh_prio := sh_prio s;
                                                 sh_service := get_info_service; sh_source := source; sh_dest := sh_source s |};
                           t_loopback := false; t_payload := payload |}] /\
         r = match e_push (env_of w) with PushOk => ODone | PushWouldBlock => OWouldBlock | PushError err => OError err end.
Proof.
  intros W get put env_of crash info user s request rest w source K Hid Hs. destruct (get_info_payload info K) as (payload & E & C & _). exists payload.
  unfold basic_receive. cbn [core_receive handle_incoming t_loopback t_header t_payload handler_chain on_request node_info_handler]. rewrite Hs, N.eqb_refl, E. cbn [bind]. unfold inner_step. cbn [core_step]. unfold send_response, serialize_ok. rewrite Hid.
  cbn [rt_service rt_client rt_transfer rt_priority]. rewrite Nat.leb_antisym. destruct (64 <? length payload)%nat eqn:L; cbn [negb orb andb].
  - destruct (e_alloc (env_of w)); cbn [negb]; [destruct (e_push (env_of w))|]; do 3 eexists; (split; [exact C|]); (split; [reflexivity|]); split; reflexivity.
  - destruct (e_push (env_of w)); do 3 eexists; (split; [exact C|]); (split; [reflexivity|]); split; reflexivity.
Qed.
Print Assumptions C75_get_info.
Theorem C75_others : forall W get put env_of crash info (user : handler W) t rest w,
  (forall s, t_header t = HReq s -> t_loopback t = false -> sh_service s <> get_info_service) ->
  basic_receive get put env_of crash info user (RecvTransfer t :: rest) w = basic_receive get put env_of crash info user rest (snd (ask t user w)).
Proof.
  intros W get put env_of crash info user t rest w H. unfold basic_receive. cbn [core_receive]. f_equal. f_equal. unfold handle_incoming, ask. destruct t as [hd lb p]. cbn [t_loopback t_header t_payload] in *. destruct lb; [reflexivity|]. destruct hd as [m|s|s]; try reflexivity.
  cbn [handler_chain on_request node_info_handler]. specialize (H s eq_refl eq_refl). apply N.eqb_neq in H. rewrite H. reflexivity.
Qed.
Print Assumptions C75_others.
Definition world_ex : Type := core * list entry.
Example C75_witness : kept get_info_t info_ex = true /\
  exists payload c, basic_receive (fun w : world_ex => fst w) (fun w n e => (n, e :: snd w)) (fun _ => sent) (fun w => w) info_ex (handler_default world_ex)
    [RecvTransfer (Transfer (HReq (SvcH 0 3 2 430 99 11)) false []); RecvTransfer (Transfer (HReq (SvcH 0 3 2 431 99 11)) false []); RecvNone] (n_ex, []) = (true, (n_ex, [(SendResponse (Token 430 99 3 2) 1000000 payload sent, c, ODone)])) /\ length payload = 44%nat.
Proof. split; [vm_compute; reflexivity|]. do 2 eexists. split; vm_compute; reflexivity. Qed.

(** * C76: the port list service *)

Lemma pub_started_ok s h : Forall (fun e => op_ok (fst (fst e))) h -> pub_started s h <> None -> s <= 8191.
Proof.
  induction h as [| [ [o c] r] h IH]; intros F P; [contradiction|]. inversion F as [|? ? F1 F2]; subst. cbn [fst] in F1. destruct o; cbn [pub_started op_ok] in *; try (apply IH; assumption).
  - destruct r; try (apply IH; assumption). destruct (N.eqb_spec subject s) as [->|]; [assumption|apply IH; assumption].
  - destruct (N.eqb_spec subject s) as [->|]; [contradiction|apply IH; assumption].
Qed.
Lemma req_started_ok s h : Forall (fun e => op_ok (fst (fst e))) h -> req_started s h <> None -> s <= 511.
Proof.
  induction h as [| [ [o c] r] h IH]; intros F P; [contradiction|]. inversion F as [|? ? F1 F2]; subst. cbn [fst] in F1. destruct o; cbn [req_started op_ok] in *; try (apply IH; assumption).
  - destruct r; try (apply IH; assumption). destruct (N.eqb_spec service s) as [->|]; [assumption|apply IH; assumption].
  - destruct (N.eqb_spec service s) as [->|]; [contradiction|apply IH; assumption].
Qed.
(** The port list service publishes what the node and its receiver report, if that is at most 255 subjects each. *)
Theorem C76_service_partial : forall t k P R id h n subscribers servers e,
  kind_ok t k -> core_hist (core_new t k P R id) h n -> Forall (fun x => op_ok (fst (fst x))) h -> Forall (fun s => s <= 8191) subscribers -> Forall (fun s => s <= 511) servers ->
  (length (publishers n) <= 255)%nat -> (length subscribers <= 255)%nat ->
  exists n' payload calls r v, service_publish n subscribers servers e = Ok (n', (Publish false port_list_subject payload e, calls, r)) /\
    carries port_list_t payload v /\ says_ports v (fun s => pub_started s h <> None) (fun s => In s subscribers) (fun s => req_started s h <> None) (fun s => In s servers).
Proof.
  intros t k P R id h n subscribers servers e Hk Hh Ho Fs Fv L1 L2. destruct (C49_ports _ _ _ _ _ _ _ Hk Hh) as (_ & Hp & _ & _ & Hc & _). unfold service_publish, service_port_list, collect_subjects.
  rewrite (proj2 (Nat.leb_le _ _) L1), (proj2 (Nat.leb_le _ _) L2). cbn [bind]. destruct (mask_new 64 512) as (a & Ea & Ma & Ha); [lia|]. rewrite Ea. cbn [bind].
  destruct (mask_set_all 512 (clients n) a Ma) as (c & Ec & Mc & Hcb). { apply Forall_forall. intros x Hx. apply Hc, (req_started_ok _ _ Ho) in Hx. lia. }
  destruct (mask_set_all 512 servers a Ma) as (v & Ev & Mv & Hvb). { apply Forall_forall. intros x Hx. rewrite Forall_forall in Fv. specialize (Fv x Hx). lia. }
  rewrite Ec, Ev. cbn [bind]. set (l := PortList (Sparse (publishers n)) (Sparse subscribers) c v).
  destruct (port_list_right l) as (val & El & K & S).
  { split; [cbn [pl_publishers l list_fits]; split; [assumption|]; apply Forall_forall; intros x Hx; apply Hp, (pub_started_ok _ _ Ho) in Hx; lia|]. split; [cbn [pl_subscribers l list_fits]; split; [assumption|]; apply Forall_forall; intros x Hx; rewrite Forall_forall in Fs; specialize (Fs x Hx); lia|]. split; assumption. }
  rewrite El. cbn [bind]. destruct (port_list_payload val K) as (payload & Ep & C & _). unfold publish_value. rewrite Ep. cbn [bind]. destruct (inner_publish n port_list_subject payload e) as (n' & calls & r & Ei). exists n', payload, calls, r, val. split; [exact Ei|]. split; [exact C|].
  destruct S as (p & s & cl & sv & -> & H1 & H2 & H3 & H4). exists p, s, cl, sv. split; [reflexivity|]. split; [intros x Hx; rewrite (H1 x Hx); apply Hp|]. split; [exact H2|]. split; intros x Hx.
  - rewrite (H3 x Hx). cbn [l pl_clients]. rewrite Hcb, <- Hc. specialize (Ha x). tauto.
  - rewrite (H4 x Hx). cbn [l pl_servers]. rewrite Hvb. specialize (Ha x). tauto.
Qed.
Print Assumptions C76_service_partial.
Example C76_witness : exists h n n' payload calls, core_run (core_new TransportCan KCan 4 2 (Some 11)) [] [StartPublishing 7510 100 7; StartPublishing 20 100 7; StartSendingRequests 300 50 10 3 SubOk] = (n, h) /\
  Forall (fun x => op_ok (fst (fst x))) h /\ service_publish n [5; 6] [430] sent = Ok (n', (Publish false port_list_subject payload sent, calls, ODone)).
Proof. do 5 eexists. split; [vm_compute; reflexivity|]. split; [all_ok|vm_compute; reflexivity]. Qed.
(** The code violates it for a node with more subjects: the service panics. *)
Theorem C76_panic_refuted : exists h n, core_hist (core_new TransportCan KCan 512 2 (Some 11)) h n /\ length (publishers n) = 256%nat /\ forall subscribers servers e, service_publish n subscribers servers e = Panic.
Proof.
  set (ops := map (fun s => StartPublishing s 100 7) (map N.of_nat (seq 0 256))). pose proof (core_run_hist _ ops _ _ (ch_nil (core_new TransportCan KCan 512 2 (Some 11)))) as H.
  exists (snd (core_run (core_new TransportCan KCan 512 2 (Some 11)) [] ops)), (fst (core_run (core_new TransportCan KCan 512 2 (Some 11)) [] ops)). split; [apply H; vm_compute; reflexivity|].
  assert (L : length (publishers (fst (core_run (core_new TransportCan KCan 512 2 (Some 11)) [] ops))) = 256%nat) by (vm_compute; reflexivity). split; [exact L|]. intros. unfold service_publish, service_port_list, collect_subjects. rewrite L. reflexivity.
Qed.
Print Assumptions C76_panic_refuted.
