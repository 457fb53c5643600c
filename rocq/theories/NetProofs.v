(** Proofs about nodes that talk to each other over a CAN bus. *)
From Verif Require Import Base BitLemmas CoreModel CrcModel FilterModel CanIdModel CanSpec CanIdProofs FilterProofs CanTxModel CanTxSpec CanTxProofs CanQueueModel CanQueueSpec CanQueueProofs CanFlushProofs
  CanRxModel CanRxSpec CanRxProofs CanRxProps CanIdProps BxModel BxSpec BxProofs BxQueueProofs BxRxProofs BxProps BusSpec BusProofs NodeModel NodeSpec NodeProofs NodeProps NetSpec.

Ltac Zify.zify_post_hook ::= Z.div_mod_to_equations.
Import Permutation.

(** * The order of the frames sent *)

Section OrderOf.
  Context (cap banks : nat) (script : nat -> N * list nat) (pushed : list frame) (q : array_queue) (x : bx_driver) (k : nat) (mine : N -> bool).
  Definition wire_mine (b : bx_frame) : bool := b_extended b && mine (b_id b).
  Hypothesis Hs : forall k, fst (script k) < 2 ^ 32.
  Hypothesis Hsys : system cap banks script pushed q (Ok x, k).
  Hypothesis Hone : forall f g, In f pushed -> In g pushed -> mine (f_id f) = true -> mine (f_id g) = true -> f_id f = f_id g.
  Hypothesis Htime : forall f j, In f pushed -> mine (f_id f) = true -> t_lt (f_ts f) (fst (script j)) = false.
  Hypothesis Hp : Forall (fun b => wire_mine b = false) (BxSpec.pending (bx_can x)).
  Hypothesis Hq : Forall (fun f => mine (f_id f) = false) (drain (S cap) q).

  Lemma of_plain f : mine (f_id (plain f)) = mine (f_id f).
  Proof. reflexivity. Qed.
  Lemma of_id f g : f_id f = f_id g -> mine (f_id f) = mine (f_id g).
  Proof. intros ->. reflexivity. Qed.
  Lemma wire_mine_on f : wire_mine (on_wire f) = mine (f_id f).
  Proof. reflexivity. Qed.
  Lemma wire_mine_filter l : filter wire_mine (map on_wire l) = map on_wire (filter (fun f => mine (f_id f)) l).
  Proof. induction l as [|f l IH]; [reflexivity|]. cbn [map filter]. rewrite wire_mine_on. destruct (mine (f_id f)); cbn [map]; rewrite IH; reflexivity. Qed.

  Lemma sent_exactly_of : filter wire_mine (sent (bx_can x)) = map on_wire (filter (fun f => mine (f_id f)) pushed).
  Proof.
    destruct (C123_queue_and_driver cap banks script pushed q (Ok x, k) Hs Hsys) as (x0 & k0 & out & lost & pend & Ew & P & E1 & E2 & Hl & Ho). injection Ew as <- <-.
    rewrite E1, wire_mine_filter. pose proof (filter_perm (fun f => mine (f_id f)) _ _ P) as P'. rewrite !(plain_filter (fun f => mine (f_id f))) in P' by exact of_plain. rewrite !filter_app in P'.
    assert (Npend : filter (fun f => mine (f_id f)) pend = []).
    { apply filter_none. intros f Hf. rewrite E2 in Hp. rewrite Forall_forall in Hp. rewrite <- wire_mine_on. apply Hp, in_map, Hf. }
    assert (Nq : filter (fun f => mine (f_id f)) (drain (S cap) q) = []) by (apply filter_none; rewrite Forall_forall in Hq; exact Hq).
    assert (Nlost : filter (fun f => mine (f_id f)) (map snd lost) = []).
    { apply filter_none. intros f Hf. destruct (mine (f_id f)) eqn:Ef; [|reflexivity]. apply in_map_iff in Hf. destruct Hf as ((now & f') & Ef' & Hf). cbn [snd] in Ef'. subst f'.
      rewrite Forall_forall in Hl. destruct (Hl _ Hf) as ((j & Ej) & Hlt). cbn [fst snd] in *.
      assert (Hi : In (plain f) (map plain pushed)).
      { eapply Permutation_in; [symmetry; exact P|]. apply in_map. rewrite !in_app_iff. right. left. apply in_map_iff. exists (now, f). split; [reflexivity|exact Hf]. }
      apply in_map_iff in Hi. destruct Hi as (f0 & Ep & Hi). injection Ep as T1 T2 T3. pose proof (Htime f0 j Hi) as X. rewrite (of_id f0 f T2), T1 in X. rewrite Ej, X in Hlt by exact Ef. discriminate. }
    rewrite Npend, Nq, Nlost, !app_nil_r in P'.
    destruct (filter (fun f => mine (f_id f)) pushed) as [|f0 fs] eqn:Ep.
    { cbn [map] in P'. apply Permutation_nil in P'. destruct (filter (fun f => mine (f_id f)) out); [reflexivity|discriminate]. }
    assert (H0 : In f0 pushed /\ mine (f_id f0) = true) by (apply (filter_In (fun f => mine (f_id f))); rewrite Ep; left; reflexivity).
    assert (Hpushed : with_id (f_id f0) pushed = f0 :: fs).
    { rewrite <- Ep. apply filter_ext_in. intros f Hf. destruct (N.eqb_spec (f_id f) (f_id f0)) as [E|E].
      - rewrite (of_id f f0 E). symmetry. apply H0.
      - destruct (mine (f_id f)) eqn:Ef; [|reflexivity]. destruct E. apply Hone; [exact Hf|apply H0|exact Ef|apply H0]. }
    assert (Hout : with_id (f_id f0) out = filter (fun f => mine (f_id f)) out).
    { apply filter_ext_in. intros f Hf. destruct (N.eqb_spec (f_id f) (f_id f0)) as [E|E].
      - rewrite (of_id f f0 E). symmetry. apply H0.
      - destruct (mine (f_id f)) eqn:Ef; [|reflexivity]. destruct E.
        assert (Hi : In (plain f) (map plain pushed)) by (eapply Permutation_in; [symmetry; exact P|]; apply in_map; rewrite !in_app_iff; left; exact Hf).
        apply in_map_iff in Hi. destruct Hi as (g & Eg & Hi). injection Eg as T1 T2 T3. rewrite <- T2. apply Hone; [exact Hi|apply H0|rewrite (of_id g f T2); exact Ef|apply H0]. }
    specialize (Ho (f_id f0)). rewrite Hpushed, E1, filter_app, wire_with_id, Hout in Ho.
    assert (Hlen : length (filter (fun f => mine (f_id f)) out) = length (f0 :: fs)) by (apply Permutation_length in P'; rewrite !map_length in P'; symmetry; exact P').
    assert (Hsub : subsequence (map on_wire (filter (fun f => mine (f_id f)) out)) (map on_wire (f0 :: fs))).
    { eapply sub_trans; [exact Ho|]. rewrite <- (app_nil_r (map on_wire (filter (fun f => mine (f_id f)) out))) at 1. apply sub_app; [apply sub_refl|constructor]. }
    apply sub_full in Hsub; [exact Hsub|]. rewrite !map_length. exact Hlen.
  Qed.
End OrderOf.
(** * The receiving driver *)

(** The frames with the identifiers [mine] that the driver hands out are those on the bus *)
Lemma step_banks o x x' out : bx_step o x = Ok (x', out) -> length (d_banks (bx_can x')) = length (d_banks (bx_can x)).
Proof.
  intro E. destruct o as [now f|now|l ps alloc| |m|b|]; cbn [bx_step] in E.
  - destruct (bx_transmit now f x) as [ [x1 r]|] eqn:Et; [|discriminate]. injection E as <- _. destruct (bx_transmit_rx _ _ _ _ _ Et) as ((_ & Eb) & _). rewrite Eb. reflexivity.
  - unfold bx_receive in E. destruct (receive_from_bus now (d_fifo (bx_can x))) as [fifo [f| |] ]; [|destruct (bx_loopback x) as [|f l]|]; injection E as <- _; reflexivity.
  - unfold bx_filters, bx_accept_all in E. destruct (optimize_filters _ _ _ _) as [ [fs|]|]; [destruct (enable_banks _ _ _) eqn:Eb|unfold enable_bank, store in E; destruct (_ <? _)%nat|]; try discriminate E; injection E as <- _; cbn [set_banks bx_can d_banks].
    + rewrite (enable_banks_length _ _ _ _ Eb). apply clear_length.
    + rewrite upd_length. apply clear_length.
  - unfold bx_accept_all, enable_bank, store in E. destruct (_ <? _)%nat; [|discriminate]. injection E as <- _. cbn [set_banks bx_can d_banks]. rewrite upd_length. apply clear_length.
  - injection E as <- _. cbn [on_device bx_can]. unfold dev_send. destruct (nth_error _ m) as [ [b|]|]; reflexivity.
  - injection E as <- _. cbn [on_device bx_can]. unfold dev_arrive. destruct (existsb _ _); reflexivity.
  - injection E as <- _. reflexivity.
Qed.
Lemma run_banks ops : forall x x' outs, bx_run ops x = Ok (x', outs) -> length (d_banks (bx_can x')) = length (d_banks (bx_can x)).
Proof.
  induction ops as [|o ops IH]; intros x x' outs E; cbn [bx_run] in E; [injection E as <- _; reflexivity|].
  destruct (bx_step o x) as [ [x1 out]|] eqn:Es; [|discriminate]. destruct (bx_run ops x1) as [ [x2 l]|] eqn:Er; [|discriminate]. injection E as <- _. rewrite (IH _ _ _ Er). exact (step_banks _ _ _ _ Es).
Qed.
Lemma run_loops ops : forall x x' outs, bx_run ops x = Ok (x', outs) -> Forall (fun f => f_loop f = true) (bx_loopback x) -> Forall (fun f => f_loop f = true) (bx_loopback x').
Proof.
  induction ops as [|o ops IH]; intros x x' outs E H; cbn [bx_run] in E; [injection E as <- _; exact H|].
  destruct (bx_step o x) as [ [x1 out]|] eqn:Es; [|discriminate]. destruct (bx_run ops x1) as [ [x2 l]|] eqn:Er; [|discriminate]. injection E as <- _. apply (IH _ _ _ Er). apply (step_rx _ _ _ _ Es H).
Qed.
Lemma driver_receives_of (mine : N -> bool) local p s n ops0 x outs0 ops y outs l : (forall f, mine (f_id f) = true -> sent_by p s f = true) ->
  (1 <= n)%nat -> Forall (not_from p s) ops0 -> bx_run ops0 (bx_new n) = Ok (x, outs0) -> Forall (fun b => wire_mine mine b = false) (waiting (bx_can x)) ->
  Forall filters_ok ops -> Forall (filters_for local p) ops -> (exists o r, ops = o :: r /\ sets_filters o) -> Forall (not_from p s) ops ->
  bx_run ops x = Ok (y, outs) -> Forall (fun b => wire_mine mine b = false) (waiting (bx_can y)) ->
  filter (wire_mine mine) (on_bus ops) = filter (wire_mine mine) (map on_wire l) -> (forall f, In f l -> mine (f_id f) = true -> f_id f < 2 ^ 29 /\ wanted local p (f_id f)) ->
  map on_wire (filter (fun f => mine (f_id f)) (flat_map received outs)) = map on_wire (filter (fun f => mine (f_id f)) l) /\ Forall (fun g => f_loop g = false) (filter (sent_by p s) (flat_map received outs)).
Proof.
  intros Hmine Hn Hnot0 Hrun0 Hwait0 Hok Hf Hset Hnot Hrun Hwait Hbus Hgood.
  assert (HL0 : Forall (fun f => f_loop f = true) (bx_loopback (bx_new n))) by constructor. destruct (run_rx ops0 (bx_new n) x outs0 Hrun0 HL0) as (_ & E0 & _).
  pose proof (run_loops ops0 (bx_new n) x outs0 Hrun0 HL0) as HL. destruct (run_rx ops x y outs Hrun HL) as (E1 & E2 & _).
  assert (Hloop : filter (sent_by p s) (looped (flat_map received outs)) = []).
  { apply filter_none. intros g Hg. pose proof (copies_not_from p s outs ltac:(rewrite (run_outs _ _ _ _ Hrun); exact Hnot)) as Hc. pose proof (copies_not_from p s outs0 ltac:(rewrite (run_outs _ _ _ _ Hrun0); exact Hnot0)) as Hc0.
    rewrite Forall_forall in Hc, Hc0. assert (Hi : In g (bx_loopback x ++ flat_map copies outs)) by (apply (sub_in _ _ _ E2), in_or_app; left; exact Hg). apply in_app_iff in Hi. destruct Hi as [Hi|Hi]; [|apply Hc, Hi].
    apply Hc0. assert (Hj : In g (bx_loopback (bx_new n) ++ flat_map copies outs0)) by (apply (sub_in _ _ _ E0), in_or_app; right; exact Hi). exact Hj. }
  assert (Hbusonly : forall P : frame -> bool, (forall f, P f = true -> sent_by p s f = true) -> filter P (flat_map received outs) = filter P (from_bus (flat_map received outs))).
  { intros P HP. revert Hloop. unfold looped, from_bus. generalize (flat_map received outs). induction l0 as [|g l0 IH]; [reflexivity|]. cbn [filter]. destruct (f_loop g) eqn:Eg; cbn [negb filter].
    - specialize (HP g). destruct (sent_by p s g); [discriminate|]. destruct (P g); [specialize (HP eq_refl); discriminate|]. exact IH.
    - intro H. rewrite (IH H). reflexivity. }
  split.
  - rewrite (Hbusonly _ Hmine), <- !wire_mine_filter, <- Hbus. apply (f_equal (filter (wire_mine mine))) in E1. unfold deliver in E1. rewrite !filter_app in E1.
    assert (W : filter (wire_mine mine) (filter deliverable (waiting (bx_can y))) = []).
    { apply filter_none. intros b Hb. apply filter_In in Hb. rewrite Forall_forall in Hwait. apply Hwait, Hb. }
    assert (W0 : filter (wire_mine mine) (filter deliverable (waiting (bx_can x))) = []).
    { apply filter_none. intros b Hb. apply filter_In in Hb. rewrite Forall_forall in Hwait0. apply Hwait0, Hb. }
    rewrite W, W0, app_nil_r in E1. cbn [app] in E1. rewrite E1.
    assert (G : forall b, In b (on_bus ops) -> wire_mine mine b = true -> good local p b /\ deliverable b = true).
    { intros b Hb Hw. assert (Hi : In b (filter (wire_mine mine) (map on_wire l))) by (rewrite <- Hbus; apply filter_In; split; assumption).
      rewrite wire_mine_filter in Hi. apply in_map_iff in Hi. destruct Hi as (f & <- & Hf'). apply filter_In in Hf'. destruct Hf' as (Hf' & Hs). destruct (Hgood f Hf' Hs) as (H1 & H2).
      split; [split; [reflexivity|split; assumption]|]. unfold deliverable. cbn [on_wire b_extended b_id b_data andb]. apply N.ltb_lt in H1. rewrite H1. reflexivity. }
    rewrite <- (run_passed local p (wire_mine mine) ops x y outs Hok Hf ltac:(unfold banked; rewrite (run_banks _ _ _ _ Hrun0); unfold bx_new; cbn [bx_can d_banks]; rewrite repeat_length; exact Hn) (or_intror Hset) Hrun) by (intros b Hb Hw; apply (G b Hb Hw)).
    assert (D : forall b, In b (passed ops x) -> wire_mine mine b = true -> deliverable b = true).
    { assert (Sub : forall os z b, In b (passed os z) -> In b (on_bus os)).
      { clear. induction os as [|o os IH]; intros z b; cbn [passed]; [intros []|]. unfold on_bus in *. cbn [flat_map]. rewrite !in_app_iff. intros [H|H].
        - left. destruct o; try contradiction. destruct (existsb _ _); [exact H|contradiction].
        - right. destruct (bx_step o z) as [ [z' out]|]; [exact (IH _ _ H)|contradiction]. }
      intros b Hb Hw. apply (G b (Sub _ _ _ Hb) Hw). }
    revert D. generalize (passed ops x). induction l0 as [|b l0 IH]; intro D; [reflexivity|]. cbn [filter]. specialize (IH (fun b' H => D b' (or_intror H))).
    destruct (wire_mine mine b) eqn:Eb; [rewrite (D b (or_introl eq_refl) Eb); cbn [filter]; rewrite Eb, IH; reflexivity|]. destruct (deliverable b); cbn [filter]; rewrite ?Eb; exact IH.
  - rewrite (Hbusonly _ (fun f H => H)). apply Forall_forall. intros g Hg. apply filter_In in Hg. destruct Hg as (Hg & _). apply filter_In in Hg. destruct Hg as (_ & Hg). destruct (f_loop g); [discriminate|reflexivity].
Qed.

(** * The receiver *)

Lemma receive_differing id p s timeout max mine frss : Forall2 frames_of mine frss -> forall h r gs,
  can_hist id h r -> can_active p h = Some (timeout, max) ->
  Forall (fun t => h_port (t_header t) = p /\ h_source (t_header t) = Some s /\ bytes_ok (t_payload t) /\ forall d, h_dest (t_header t) = Some d -> can_node id h = Some d) mine ->
  differing (map (fun t => h_tid (t_header t)) mine) ->
  map on_wire gs = map on_wire (concat frss) -> Forall (fun g => f_loop g = false) gs -> Forall frame_ok gs ->
  (forall t, hd_error mine = Some t -> (forall g, In g (CanRxSpec.pending p s h) -> ~ with_tid (h_tid (t_header t)) g /\ ~ with_tid (tid_incr (h_tid (t_header t))) g) /\
     (forall d, last_delivery p s h = Some d -> h_tid (t_header d) <> h_tid (t_header t))) ->
  exists r' outs, can_run r (map (fun g => CFrame g true) gs) = Ok (r', outs) /\ Forall2 (received_as max) mine (flat_map (delivered p s) outs).
Proof.
  induction 1 as [|t fr mine frss Hfr Hrest IH]; intros h r gs Hh Hact Hall Hcons Hgs Hloop Hok Hstart.
  - destruct gs; [|discriminate]. exists r, []. split; [reflexivity|constructor].
  - cbn [concat] in Hgs. rewrite map_app in Hgs. apply map_eq_app in Hgs. destruct Hgs as (gs1 & gs2 & -> & E1 & E2). apply Forall_app in Hloop. destruct Hloop as (L1 & L2). apply Forall_app in Hok. destruct Hok as (O1 & O2).
    inversion Hall as [|? ? (Hp & Hs & Hb & Hd) Hall']; subst. destruct Hfr as (Hho & cid & Hid & Hm & Hc & Hseg & Hfits & Hsame & Hne). destruct (Hstart t eq_refl) as (S1 & S2).
    pose proof (same_wires fr gs1 E1 L1 O1) as Hgs1. destruct gs1 as [|g0 gs1]; [destruct fr; [congruence|discriminate]|].
    destruct (C18_end_to_end id h r t s 8 fr 0 cid timeout max (g0 :: gs1) false g0 Hh Hho Hb Hs Hseg Hm Hact (or_intror Hd) Hgs1 eq_refl S1) as (r1 & Er1).
    { intros d Ed Et. destruct (S2 d Ed Et). }
    set (X := Transfer (h_set_ts (t_header t) (f_ts g0)) false (firstn max (t_payload t ++ repeat 0 0))) in *.
    destruct (exists_last (l := g0 :: gs1) ltac:(discriminate)) as (gi & gl & Egl).
    assert (Hlast : sent_by (h_port (t_header t)) s gl = true).
    { apply (sent_by_iff _ _ gl (t_header t)); [|auto]. replace (f_id gl) with cid; [exact Hm|].
      assert (Hin : In gl (g0 :: gs1)) by (rewrite Egl; apply in_or_app; right; left; reflexivity). apply (in_map on_wire) in Hin. rewrite E1 in Hin. apply in_map_iff in Hin. destruct Hin as (f & Ef & Hf).
      rewrite Forall_forall in Hsame. destruct (Hsame f Hf) as (Ec & _). unfold on_wire in Ef. injection Ef as Ef _. congruence. }
    set (outs1 := repeat (CGot RxNone) (length (g0 :: gs1) - 1) ++ [CGot (RxTransfer X)]) in *.
    set (h1 := rev (combine (map (fun g => CFrame g true) (g0 :: gs1)) outs1) ++ h).
    assert (Hh1 : can_hist id h1 r1).
    { apply (CanRxProps.run_hist id (map (fun g => CFrame g true) (g0 :: gs1)) h r r1 outs1 Hh); [|exact Er1]. apply Forall_map. exact O1. }
    assert (Eh1 : exists rest, h1 = (CFrame gl true, CGot (RxTransfer X)) :: rest).
    { unfold h1, outs1. rewrite Egl, map_app, combine_app_same; [|rewrite map_length, repeat_length, app_length; cbn [length]; lia]. cbn [map combine]. rewrite rev_app_distr. cbn [rev app]. eexists. reflexivity. }
    assert (Hact1 : can_active (h_port (t_header t)) h1 = Some (timeout, max)) by (unfold h1; rewrite frames_active; exact Hact).
    destruct (IH h1 r1 gs2 Hh1 Hact1) as (r2 & outs2 & Er2 & F2); [| |exact E2|exact L2|exact O2| |].
    + apply Forall_forall. intros t' Ht'. rewrite Forall_forall in Hall'. destruct (Hall' t' Ht') as (A1 & A2 & A3 & A4). unfold h1. rewrite frames_node. auto.
    + destruct mine as [|t2 mine]; [exact I|]. cbn [map differing] in Hcons. apply Hcons.
    + intros t2 Et2. destruct mine as [|t2' mine]; [discriminate|]. injection Et2 as ->. cbn [map differing] in Hcons. destruct Hcons as (Hnext & _).
      destruct Eh1 as (rest & Eh1). rewrite Eh1. cbn [CanRxSpec.pending last_delivery]. rewrite Hlast. split; [intros g []|]. intros d Ed. injection Ed as <-. unfold X. cbn [t_header]. rewrite h_tid_set. exact Hnext.
    + exists r2, (outs1 ++ outs2). split; [rewrite map_app; exact (can_run_app _ _ _ _ _ _ _ Er1 Er2)|]. rewrite flat_map_app. unfold outs1 at 1. rewrite flat_map_app, delivered_nones. cbn [flat_map app delivered].
      assert (Ec : comes_from (h_port (t_header t)) s X = true).
      { unfold comes_from, X. cbn [t_header]. rewrite h_port_set, h_source_set, Hs, N.eqb_refl. destruct (port_eqb_spec (h_port (t_header t)) (h_port (t_header t))); [reflexivity|congruence]. }
      rewrite Ec. cbn [app]. constructor; [|exact F2]. split; [exists (f_ts g0); reflexivity|]. split; [reflexivity|]. unfold X. cbn [t_payload repeat]. rewrite app_nil_r. reflexivity.
Qed.

(** Frames to other nodes do not matter *)
Definition meant (dest : option N) (g : frame) : bool := match dest with Some d => bits_at (f_id g) 7 7 =? d | None => true end.
Lemma addressed_meant p s dest g : addressed p s dest (f_id g) = sent_by p s g && meant dest g.
Proof. reflexivity. Qed.
Lemma not_meant id p s dest f : frame_ok f -> sent_by p s f = true -> f_loop f = false -> dest_fits p dest -> (forall d, dest = Some d -> id = Some d) -> meant dest f = false -> for_channel id p s f = None.
Proof.
  intros Hf Hs Hl Hfit Hid Hm. unfold for_channel. destruct (route id f) as [ [h tl]|] eqn:Er; [|reflexivity]. destruct (route_spec _ _ _ _ Hf Er) as (Ec & Ha). destruct (frame_check_spec _ _ _ Hf Ec) as (Hi & _).
  destruct (sent_by_iff p s f h Hi) as (Hsent & _). destruct (Hsent Hs) as (Hp & _). unfold admits in Ha. rewrite Hl in Ha. cbn [orb] in Ha. unfold meant in Hm. destruct dest as [d|]; [|discriminate Hm].
  rewrite (Hid d eq_refl) in Ha. destruct Hi as (_ & _ & Hi). destruct h as [m|x|x]; cbn [h_dest h_port] in *.
  - subst p. destruct Hfit.
  - destruct Hi as (_ & _ & _ & Hd & _). rewrite Hd in Hm. rewrite N.eqb_sym, Hm in Ha. discriminate Ha.
  - destruct Hi as (_ & _ & _ & Hd & _). rewrite Hd in Hm. rewrite N.eqb_sym, Hm in Ha. discriminate Ha.
Qed.
Lemma run_meant p s dest gs : dest_fits p dest -> Forall (fun g => f_loop g = false) gs -> Forall frame_ok gs -> Forall (fun g => sent_by p s g = true) gs -> forall r1 r2 r1' outs,
  (forall d, dest = Some d -> rx_id r1 = Some d) -> same_chan p s r1 r2 -> can_run r1 (map (fun g => CFrame g true) gs) = Ok (r1', outs) ->
  exists r2' outs2, can_run r2 (map (fun g => CFrame g true) (filter (meant dest) gs)) = Ok (r2', outs2) /\ flat_map (delivered p s) outs = flat_map (delivered p s) outs2.
Proof.
  intro Hfit. induction gs as [|g gs IH]; intros Hl Hok Hs r1 r2 r1' outs Hid Hsame E; cbn [map can_run] in E.
  - injection E as _ <-. exists r2, []. split; reflexivity.
  - inversion Hl; subst. inversion Hok; subst. inversion Hs; subst. destruct (can_step r1 (CFrame g true)) as [ [ra o]|] eqn:Ea; [|discriminate]. destruct (can_run ra (map (fun g => CFrame g true) gs)) as [ [rb os]|] eqn:Eb; [|discriminate].
    injection E as _ <-. pose proof (step_same r1 r2 (CFrame g true) ra o p s ltac:(assumption) Hsame Ea) as Hst. cbn [concerns] in Hst.
    assert (Hg : sent_by p s g = true) by assumption. rewrite Hg in Hst. destruct Hst as (r2' & E2 & Hsame2).
    pose proof (step_id r1 (CFrame g true) ra o ltac:(assumption) Ea) as Hida. cbv beta iota in Hida.
    assert (Hid' : forall d, dest = Some d -> rx_id ra = Some d) by (intros d Ed; rewrite Hida; exact (Hid d Ed)).
    cbn [filter]. destruct (meant dest g) eqn:Em.
    + destruct (IH ltac:(assumption) ltac:(assumption) ltac:(assumption) ra r2' rb os Hid' Hsame2 Eb) as (r2'' & outs2 & E3 & E4). cbn [map can_run]. rewrite E2, E3. exists r2'', (o :: outs2). split; [reflexivity|]. cbn [flat_map]. rewrite E4. reflexivity.
    + cbn [can_step] in Ea. destruct (accept_frame r1 true g) as [ [ra' o']|] eqn:Ef; [|discriminate]. injection Ea as -> <-. pose proof (accept_frame_chan r1 true g p s ltac:(assumption)) as Hc. rewrite Ef in Hc. destruct Hc as (_ & Hc).
      rewrite (not_meant (rx_id r1) p s dest g ltac:(assumption) Hg ltac:(assumption) Hfit Hid Em) in Hc. destruct Hc as (Hc & Ho). rewrite (Ho Hg).
      assert (Hsame3 : same_chan p s ra r2) by (destruct Hsame as (S1 & S2); split; congruence).
      destruct (IH ltac:(assumption) ltac:(assumption) ltac:(assumption) ra r2 rb os Hid' Hsame3 Eb) as (r2'' & outs2 & E3 & E4). exists r2'', outs2. split; [exact E3|]. cbn [flat_map delivered app]. exact E4.
Qed.

(** * All together *)

Lemma same_dest_iff a b : same_dest a b = true <-> a = b.
Proof. destruct a as [x|], b as [y|]; cbn [same_dest]; rewrite ?N.eqb_eq; split; congruence. Qed.
Lemma comes_to_iff p s dest t : comes_to p s dest t = true <-> h_port (t_header t) = p /\ h_source (t_header t) = Some s /\ h_dest (t_header t) = dest.
Proof. unfold comes_to. rewrite andb_true_iff, comes_from_iff, same_dest_iff. tauto. Qed.
Lemma frames_to p s dest t fr f : dest_fits p dest -> frames_of t fr -> In f fr -> addressed p s dest (f_id f) = comes_to p s dest t.
Proof.
  intros Hfit Hfr Hf. unfold comes_to. rewrite addressed_meant, (frames_by p s t fr f Hfr Hf). destruct (comes_from p s t) eqn:Ec; [|reflexivity]. cbn [andb]. apply comes_from_iff in Ec. destruct Ec as (Ep & _).
  destruct (frames_id t fr f Hfr Hf) as (_ & _ & _ & (_ & _ & Hm)). destruct (t_header t) as [m|x|x]; cbn [h_port h_dest] in *; subst p; destruct dest as [d|]; try destruct Hfit; cbn [meant same_dest]; [reflexivity| |].
  - destruct Hm as (_ & _ & _ & -> & _). reflexivity.
  - destruct Hm as (_ & _ & _ & -> & _). reflexivity.
Qed.
Lemma frames_filter_to p s dest ts frs : dest_fits p dest -> Forall2 frames_of ts frs ->
  exists frss, Forall2 frames_of (filter (comes_to p s dest) ts) frss /\ filter (fun f => addressed p s dest (f_id f)) (concat frs) = concat frss.
Proof.
  intro Hfit. induction 1 as [|t fr ts frs H _ (frss & I1 & I2)]; [exists []; split; constructor|]. cbn [filter concat]. rewrite filter_app, I2.
  destruct (comes_to p s dest t) eqn:Ec.
  - exists (fr :: frss). split; [constructor; assumption|]. cbn [concat]. f_equal. rewrite (filter_ext_in _ (fun _ => true)); [clear; induction fr as [|f fr IH]; [reflexivity|cbn [filter]; f_equal; exact IH]|].
    intros f Hf. rewrite (frames_to p s dest t fr f Hfit H Hf). exact Ec.
  - exists frss. split; [exact I1|]. rewrite filter_none; [reflexivity|]. intros f Hf. rewrite (frames_to p s dest t fr f Hfit H Hf). exact Ec.
Qed.
Lemma delivered_filter p s couts : flat_map (delivered p s) couts = filter (comes_from p s) (flat_map (fun o => match o with CGot (RxTransfer t) => [t] | _ => [] end) couts).
Proof.
  induction couts as [|o couts IH]; [reflexivity|]. cbn [flat_map]. rewrite filter_app, IH. f_equal. destruct o as [ [|t|]| |]; cbn [delivered filter]; try reflexivity.
Qed.

Lemma transfers_delivered cap banks script ts q x k p s prio dest local max ds :
  (forall j, fst (script j) < 2 ^ 32) -> sender cap banks script ts q (Ok x, k) -> dest_fits p dest -> (forall d, dest = Some d -> local = Some d) ->
  Forall (fun t => h_prio (t_header t) = prio /\ bytes_ok (t_payload t)) (filter (comes_to p s dest) ts) -> in_time script p s dest ts ->
  differing (map (fun t => h_tid (t_header t)) (filter (comes_to p s dest) ts)) -> all_sent cap p s dest q x -> node_reads local p s dest max (sent (bx_can x)) ds ->
  Forall2 (received_as max) (filter (comes_to p s dest) ts) (filter (comes_from p s) ds).
Proof.
  intros Hs Hsend Hfit Hlocal Hmine Htime Hdiff (Hpend & Hq) (frames & couts & (n & ops0 & x0 & outs0 & ops & y & outs & Hn & Hnot0 & Hrun0 & Hwait0 & Hops & Hfil & Hset & Hnot & Hrun & Hframes & Hbus & Hwait) & (id & h & r & timeout & rops & r' & Hh & Hnode & Hact & Hp0 & Hl0 & Hgiven & Hrok & Hleaves & Hcrun) & ->).
  subst frames. rewrite <- delivered_filter.
  destruct (sender_system cap banks script ts q (Ok x, k) Hs Hsend) as (frs & Hfrs & Hsys). destruct (frames_filter_to p s dest ts frs Hfit Hfrs) as (frss & Hfrss & Efrss).
  assert (Hmine' : forall t fr f, In t ts -> frames_of t fr -> In f fr -> addressed p s dest (f_id f) = true -> comes_to p s dest t = true /\ h_prio (t_header t) = prio).
  { intros t fr f Ht Hfr Hf Hby. rewrite (frames_to p s dest t fr f Hfit Hfr Hf) in Hby. rewrite Forall_forall in Hmine. destruct (Hmine t ltac:(apply filter_In; split; assumption)) as (H1 & _). auto. }
  assert (Hsent : filter (wire_mine (addressed p s dest)) (sent (bx_can x)) = map on_wire (filter (fun f => addressed p s dest (f_id f)) (concat frs))).
  { apply (sent_exactly_of cap banks script (concat frs) q x k (addressed p s dest) Hs Hsys); [| |exact Hpend|exact Hq].
    - intros f g Hf Hg Bf Bg. destruct (in_frames _ _ _ Hfrs Hf) as (t & fr & Ht & Hfr & Hf'). destruct (in_frames _ _ _ Hfrs Hg) as (t' & fr' & Ht' & Hfr' & Hg').
      destruct (Hmine' t fr f Ht Hfr Hf' Bf) as (C1 & C2). destruct (Hmine' t' fr' g Ht' Hfr' Hg' Bg) as (D1 & D2). apply comes_to_iff in C1, D1. destruct C1 as (C1 & C3 & C4), D1 as (D1 & D3 & D4).
      rewrite (proj1 (frames_id _ _ _ Hfr Hf')), (proj1 (frames_id _ _ _ Hfr' Hg')). apply (can_id_same t t' s); congruence.
    - intros f j Hf Bf. destruct (in_frames _ _ _ Hfrs Hf) as (t & fr & Ht & Hfr & Hf'). destruct (Hmine' t fr f Ht Hfr Hf' Bf) as (C1 & _). rewrite (proj1 (proj2 (frames_id _ _ _ Hfr Hf'))). apply Htime; assumption. }
  destruct (driver_receives_of (addressed p s dest) local p s n ops0 x0 outs0 ops y outs (concat frs)) as (R1 & R2); try assumption.
  { intros f Hf. rewrite addressed_meant in Hf. apply andb_true_iff in Hf. apply Hf. }
  { change (wire_mine (addressed p s dest)) with (wire_to p s dest) in Hsent |- *. rewrite Hbus, Hsent. symmetry. apply (wire_mine_filter (addressed p s dest)). }
  { intros f Hf Bf. destruct (in_frames _ _ _ Hfrs Hf) as (t & fr & Ht & Hfr & Hf'). destruct (frames_id _ _ _ Hfr Hf') as (_ & _ & F3 & F4). split; [exact F3|]. destruct (Hmine' t fr f Ht Hfr Hf' Bf) as (C1 & _).
    apply comes_to_iff in C1. destruct C1 as (C1 & _ & C3). exists (t_header t). split; [exact F4|]. split; [exact C1|]. rewrite C3. destruct dest as [d|]; [right; rewrite (Hlocal d eq_refl); split; [reflexivity|discriminate]|left; reflexivity]. }
  rewrite Efrss in R1. set (gs := filter (sent_by p s) (flat_map received outs)) in *.
  assert (Egs : filter (fun f => addressed p s dest (f_id f)) (flat_map received outs) = filter (meant dest) gs).
  { unfold gs. generalize (flat_map received outs). clear. induction l as [|g l IH]; [reflexivity|]. cbn [filter]. rewrite addressed_meant. destruct (sent_by p s g); cbn [andb filter]; [destruct (meant dest g); [f_equal|]; exact IH|exact IH]. }
  rewrite Egs in R1.
  assert (Gok : Forall frame_ok gs).
  { apply Forall_forall. intros g Hg. apply filter_In in Hg. destruct Hg as (Hg & _). rewrite <- Hgiven in Hg. unfold given_frames in Hg. apply in_flat_map in Hg. destruct Hg as (op & Hop & Hg). rewrite Forall_forall in Hrok. specialize (Hrok op Hop).
    destruct op as [f mem|a b c d|a|a]; try contradiction. destruct Hg as [<-|[] ]. exact Hrok. }
  assert (Gby : Forall (fun g => sent_by p s g = true) gs) by (apply Forall_forall; intros g Hg; apply filter_In in Hg; apply Hg).
  assert (Hall : Forall (fun t => h_port (t_header t) = p /\ h_source (t_header t) = Some s /\ bytes_ok (t_payload t) /\ forall d, h_dest (t_header t) = Some d -> can_node id h = Some d) (filter (comes_to p s dest) ts)).
  { apply Forall_forall. intros t Ht. rewrite Forall_forall in Hmine. destruct (Hmine t Ht) as (_ & H2). apply filter_In in Ht. destruct Ht as (_ & Ht). apply comes_to_iff in Ht. destruct Ht as (T1 & T2 & T3). split; [exact T1|]. split; [exact T2|]. split; [exact H2|].
    intros d Ed. rewrite Hnode. apply Hlocal. congruence. }
  assert (Sub : forall P : frame -> Prop, Forall P gs -> Forall P (filter (meant dest) gs)).
  { intros P HP. apply Forall_forall. intros g Hg. apply filter_In in Hg. rewrite Forall_forall in HP. apply HP, Hg. }
  destruct (receive_differing id p s timeout max _ frss Hfrss h r (filter (meant dest) gs) Hh Hact Hall Hdiff R1 (Sub _ R2) (Sub _ Gok)) as (r1 & outs1 & E1 & F1).
  { intros t _. rewrite Hp0, Hl0. split; [intros g []|intros d; discriminate]. }
  rewrite (delivered_concerning p s r rops r' couts Hrok Hcrun). destruct (C19_no_interference r rops r' couts p s Hrok Hcrun) as ((r2 & E2) & _).
  rewrite (leaves_concerns p s rops Hleaves), Hgiven in E2. fold gs in E2.
  destruct (run_meant p s dest gs Hfit R2 Gok Gby r r _ _ ltac:(intros d Ed; rewrite (hist_id _ _ _ Hh), Hnode; exact (Hlocal d Ed)) (conj eq_refl eq_refl) E2) as (r3 & outs3 & E3 & E4).
  rewrite E1 in E3. injection E3 as _ <-. rewrite E4. exact F1.
Qed.

(** * What a node gives to the queue *)

(** An operation that sends nothing does not report that it did *)
Definition quiet (o : op) (r : out) : Prop := match o, r with Publish _ _ _ _, ODone | SendRequest _ _ _ _ _, OTransferId _ | SendResponse _ _ _ _, ODone => False | _, _ => True end.
Inductive effect (id0 : option N) (h : list entry) : op -> list call -> out -> Prop :=
| effect_quiet o calls r : (forall t, ~ In (CPush t) calls) -> quiet o r -> effect id0 h o calls r
| effect_message lb subject payload e timeout prio : pub_started subject h = Some (timeout, prio) ->
    effect id0 h (Publish lb subject payload e) [CPush (Transfer (HMsg (MsgH ((e_now e + timeout) mod 2 ^ 32) (pub_count subject h mod 32) prio subject (id_after id0 h))) lb payload)]
      (match e_push e with PushOk => ODone | PushWouldBlock => OWouldBlock | PushError err => OError err end)
| effect_request lb service payload server e timeout prio source : req_started service h = Some (timeout, prio) -> id_after id0 h = Some source ->
    effect id0 h (SendRequest lb service payload server e) [CPush (Transfer (HReq (SvcH ((e_now e + timeout) mod 2 ^ 32) (req_count service server h mod 32) prio service source server)) lb payload)]
      (match e_push e with PushOk => OTransferId (req_count service server h mod 32) | PushWouldBlock => OWouldBlock | PushError err => OError err end)
| effect_response k timeout payload e source : id_after id0 h = Some source ->
    effect id0 h (SendResponse k timeout payload e) [CPush (Transfer (HResp (SvcH ((e_now e + timeout) mod 2 ^ 32) (rt_transfer k) (rt_priority k) (rt_service k) source (rt_client k))) false payload)]
      (match e_push e with PushOk => ODone | PushWouldBlock => OWouldBlock | PushError err => OError err end).

Ltac not_pushed := let Hi := fresh in intros ? Hi; repeat (destruct Hi as [Hi|Hi]; [discriminate Hi|]); destruct Hi.
Lemma step_effect k P R id0 h n o n' calls r : kind_ok TransportCan k -> core_hist (core_new TransportCan k P R id0) h n -> op_fine o -> core_step n o = (n', calls, r) -> r <> OPanic -> effect id0 h o calls r.
Proof.
  intros Hk Hh Hf E Hr. pose proof (hist_inv _ _ _ _ _ _ _ Hk Hh) as V. destruct o; cbn [core_step] in E.
  - unfold start_publishing in E. destruct (im_get _ _); [|destruct (im_insert _ _ _ _)]; injection E as _ <- <-; apply effect_quiet; try exact I; not_pushed.
  - unfold stop_publishing in E. injection E as _ <- <-; apply effect_quiet; try exact I; not_pushed.
  - change (core_step n (Publish loopback subject payload e) = (n', calls, r)) in E. rewrite (publish_spec _ _ _ _ _ _ _ loopback subject payload e V) in E.
    destruct (pub_started subject h) as [ [tmo prio]|] eqn:Es; [|injection E as _ <- <-; apply effect_quiet; [not_pushed|exact I] ].
    destruct (serialize_ok e payload); injection E as _ <- <-; [apply effect_message; exact Es|apply effect_quiet; [not_pushed|exact I] ].
  - unfold start_sending_requests in E. destruct (c_id n); [|injection E as _ <- <-; apply effect_quiet; [not_pushed|exact I] ].
    destruct (im_get _ _); [injection E as _ <- <-; apply effect_quiet; [not_pushed|exact I]|]. destruct (im_insert _ _ _ _); [|injection E as _ <- <-; apply effect_quiet; [not_pushed|exact I] ].
    destruct answer; injection E as _ <- <-; apply effect_quiet; try exact I; not_pushed.
  - unfold stop_sending_requests in E. injection E as _ <- <-; apply effect_quiet; try exact I; not_pushed.
  - change (core_step n (SendRequest loopback service payload destination e) = (n', calls, r)) in E. destruct Hf as (_ & Hd & _).
    pose proof (send_request_spec _ _ _ _ _ _ _ loopback service payload destination e V ltac:(destruct k; cbn [destination_ok]; [lia|exact I] || (destruct k; cbn [destination_ok]; [exact I|lia]))) as S.
    destruct (req_started service h) as [ [tmo prio]|] eqn:Es; [|rewrite S in E; injection E as _ _ <-; congruence]. destruct (id_after id0 h) as [source|] eqn:Ei; [|rewrite S in E; injection E as _ _ <-; congruence].
    destruct S as [ (_ & S)|(_ & _ & tr' & _ & S)]; rewrite S in E; injection E as _ <- <-; [apply effect_quiet; [not_pushed|exact I]|]. apply effect_request; assumption.
  - injection E as _ <- <-. apply effect_quiet; [not_pushed|exact I].
  - injection E as _ <- <-. apply effect_quiet; [not_pushed|exact I].
  - injection E as _ <- <-. apply effect_quiet; [not_pushed|exact I].
  - injection E as _ <- <-. apply effect_quiet; [not_pushed|exact I].
  - unfold send_response in E. rewrite (i_id _ _ _ _ _ _ _ V) in E. destruct (serialize_ok e payload); [|injection E as _ <- <-; apply effect_quiet; [not_pushed|exact I] ].
    destruct (id_after id0 h) as [source|] eqn:Ei; injection E as _ <- <-; [|congruence]. apply effect_response. exact Ei.
  - unfold set_node_id in E. injection E as _ <- <-. apply effect_quiet; [not_pushed|exact I].
Qed.

Lemma station_hist cap banks script n0 h n ts q w : station cap banks script n0 h n ts q w -> core_hist n0 h n /\ Forall (fun en => op_fine (fst (fst en))) h.
Proof.
  induction 1 as [|h n ts q w o n' calls r q' taken _ (I1 & I2) Hf E Hr _| | |]; try assumption; [split; constructor|]. split; [econstructor; eassumption|constructor; assumption].
Qed.
Lemma pub_started_in subject h timeout prio : pub_started subject h = Some (timeout, prio) -> exists calls r, In (StartPublishing subject timeout prio, calls, r) h.
Proof.
  induction h as [| [ [o calls] r] h IH]; cbn [pub_started]; [discriminate|].
  assert (K : (exists calls r, In (StartPublishing subject timeout prio, calls, r) h) -> exists calls' r', In (StartPublishing subject timeout prio, calls', r') ((o, calls, r) :: h)) by (intros (c & r0 & H); exists c, r0; right; exact H).
  destruct o as [s t p|s| | | | | | | | | |]; try (intro H; exact (K (IH H))).
  - destruct r; try (intro H; exact (K (IH H))). destruct (N.eqb_spec s subject) as [->|]; [|intro H; exact (K (IH H))]. intro H. injection H as -> ->. exists calls, ODone. left. reflexivity.
  - destruct (s =? subject); [discriminate|intro H; exact (K (IH H))].
Qed.
Lemma req_started_in service h timeout prio : req_started service h = Some (timeout, prio) -> exists max a calls r, In (StartSendingRequests service timeout max prio a, calls, r) h.
Proof.
  induction h as [| [ [o calls] r] h IH]; cbn [req_started]; [discriminate|].
  assert (K : (exists max a calls r, In (StartSendingRequests service timeout max prio a, calls, r) h) -> exists max a calls' r', In (StartSendingRequests service timeout max prio a, calls', r') ((o, calls, r) :: h)) by (intros (m & a & c & r0 & H); exists m, a, c, r0; right; exact H).
  destruct o as [| | |s t m p a|s| | | | | | |]; try (intro H; exact (K (IH H))).
  - destruct r; try (intro H; exact (K (IH H))). destruct (N.eqb_spec s service) as [->|]; [|intro H; exact (K (IH H))]. intro H. injection H as -> ->. eexists m, a, calls, _. left. reflexivity.
  - destruct (s =? service); [discriminate|intro H; exact (K (IH H))].
Qed.
Lemma id_after_fine id0 h i : (forall j, id0 = Some j -> j <= 127) -> Forall (fun en => op_fine (fst (fst en))) h -> id_after id0 h = Some i -> i <= 127.
Proof.
  intros H0. induction 1 as [| [ [o calls] r] h Ho _ IH]; cbn [id_after]; [apply H0|]. cbn [fst] in Ho. destruct o; try exact IH. intro E. injection E as <-. exact Ho.
Qed.
Lemma effect_fine id0 h o calls r t : (forall j, id0 = Some j -> j <= 127) -> Forall (fun en => op_fine (fst (fst en))) h -> op_fine o -> effect id0 h o calls r -> In (CPush t) calls -> can_header_ok (t_header t) /\ bytes_ok (t_payload t).
Proof.
  intros H0 Hh Ho He Hi. assert (Hin : forall en, In en h -> op_fine (fst (fst en))) by (rewrite Forall_forall in Hh; exact Hh). assert (B : forall a, a mod 2 ^ 32 < 2 ^ 32) by (intro a; apply N.mod_lt; discriminate).
  assert (B' : forall a, a mod 32 <= 31) by (intro a; pose proof (N.mod_lt a 32 ltac:(discriminate)); lia).
  inversion He as [o' c' r' Hn Hq|lb subject payload e timeout prio Es|lb service payload server e timeout prio source Es Ei|k timeout payload e source Ei]; subst; [destruct (Hn t Hi)| | |]; destruct Hi as [Hi|[] ]; injection Hi as <-; cbn [t_header t_payload op_fine] in *.
  - destruct Ho as (Ho & Hb). destruct (pub_started_in _ _ _ _ Es) as (c & r0 & Hs). destruct (Hin _ Hs) as (_ & Hp). cbn [fst] in Hp. split; [|exact Hb]. repeat split; cbn [h_prio h_tid h_ts mh_prio mh_tid mh_ts mh_subject mh_source]; auto.
    intros s Es'. exact (id_after_fine id0 h s H0 Hh Es').
  - destruct Ho as (Ho & Hd & Hb). destruct (req_started_in _ _ _ _ Es) as (m & a & c & r0 & Hs). destruct (Hin _ Hs) as (_ & Hp). cbn [fst] in Hp. split; [|exact Hb].
    repeat split; cbn [h_prio h_tid h_ts sh_prio sh_tid sh_ts sh_service sh_source sh_dest]; auto. exact (id_after_fine id0 h source H0 Hh Ei).
  - destruct Ho as ((K1 & K2 & K3 & K4) & Hb). split; [|exact Hb]. repeat split; cbn [h_prio h_tid h_ts sh_prio sh_tid sh_ts sh_service sh_source sh_dest]; auto. exact (id_after_fine id0 h source H0 Hh Ei).
Qed.

Lemma station_sender cap banks script k P R id0 h n ts q w : kind_ok TransportCan k -> (forall j, id0 = Some j -> j <= 127) -> station cap banks script (core_new TransportCan k P R id0) h n ts q w ->
  sender cap banks script ts q w /\ Forall (fun t => bytes_ok (t_payload t)) ts.
Proof.
  intros Hk H0. induction 1 as [|h n ts q w o n' calls r q' taken Hst (I1 & I2) Hf E Hr Hq|h n ts q w fuel q' w' r _ (I1 & I2) E|h n ts q x j m _ (I1 & I2)|h n ts q x j o x' out _ (I1 & I2) Ho Hx].
  - split; constructor.
  - destruct (station_hist _ _ _ _ _ _ _ _ _ Hst) as (Hh & Hfine). pose proof (step_effect _ _ _ _ _ _ _ _ _ _ Hk Hh Hf E Hr) as He. destruct Hq as [calls Hn|t q' a Hp Ha].
    + rewrite app_nil_r. split; assumption.
    + destruct (effect_fine _ _ _ _ _ t H0 Hfine Hf He (or_introl eq_refl)) as (F1 & F2). destruct a; cbv beta iota in *; rewrite ?app_nil_r.
      * split; [eapply sender_push; eassumption|]. apply Forall_app. split; [exact I2|constructor; [exact F2|constructor] ].
      * split; [|exact I2]. eapply sender_refused; [exact I1|exact F1|exact Hp|discriminate].
      * split; [|exact I2]. eapply sender_refused; [exact I1|exact F1|exact Hp|discriminate].
      * split; [|exact I2]. eapply sender_refused; [exact I1|exact F1|exact Hp|discriminate].
  - split; [eapply sender_flush; eassumption|exact I2].
  - split; [apply sender_send; exact I1|exact I2].
  - split; [eapply sender_receive; eassumption|exact I2].
Qed.

(** * Which transfers these are *)

Lemma keeps_id_after id h : keeps_id h -> id_after (Some id) h = Some id.
Proof.
  induction h as [| [ [o calls] r] h IH]; intro H; cbn [id_after]; [reflexivity|]. assert (H' : keeps_id h) by (intros i c r0 Hi; apply (H i c r0); right; exact Hi).
  destruct o; try exact (IH H'). destruct (H id0 calls r). left. reflexivity.
Qed.
Lemma keeps_id_tail en h : keeps_id (en :: h) -> keeps_id h.
Proof. intros H i c r Hi. apply (H i c r). right. exact Hi. Qed.

Definition is_that (p : port) (s : N) (dest : option N) (prio : N) (t : transfer) (m : N * list N) : Prop :=
  h_port (t_header t) = p /\ h_source (t_header t) = Some s /\ h_dest (t_header t) = dest /\ h_prio (t_header t) = prio /\ h_tid (t_header t) = fst m /\ t_payload t = snd m.

Section Which.
  Context (cap banks : nat) (script : nat -> N * list nat) (k : tracker_kind) (P R : nat) (id : N).
  Hypothesis Hk : kind_ok TransportCan k.
  Let n0 := core_new TransportCan k P R (Some id).

  Lemma station_messages subject prio h n ts q w : station cap banks script n0 h n ts q w -> keeps_id h -> publishes_with subject prio h ->
    Forall2 (is_that (PMsg subject) id None prio) (filter (comes_to (PMsg subject) id None) ts) (sent_messages subject h).
  Proof.
    induction 1 as [|h n ts q w o n' calls r q' taken Hst IH Hf E Hr Hq|h n ts q w fuel q' w' r _ IH E|h n ts q x j m _ IH|h n ts q x j o x' out _ IH Ho Hx]; intros Hid Hprio; [constructor| |exact (IH Hid Hprio)..].
    assert (Hid' := keeps_id_tail _ _ Hid). assert (Hprio' : publishes_with subject prio h) by (intros t0 p0 c0 r0 Hi; apply (Hprio t0 p0 c0 r0); right; exact Hi). specialize (IH Hid' Hprio').
    destruct (station_hist _ _ _ _ _ _ _ _ _ Hst) as (Hh & _). pose proof (step_effect _ _ _ _ _ _ _ _ _ _ Hk Hh Hf E Hr) as He. clear E Hst Hh.
    destruct He as [o calls r Hn Hquiet|lb s payload e timeout p Es|lb s payload server e timeout p source Es Ei|tok timeout payload e source Ei].
    - destruct Hq as [calls _|t q' a _ _]; [|destruct (Hn t (or_introl eq_refl))]. rewrite app_nil_r. destruct o; try exact IH. destruct r; try exact IH. destruct Hquiet.
    - inversion Hq as [calls Hn|t q1 a Hpush Ha]; subst; [destruct (Hn _ (or_introl eq_refl))|]. cbn [answered] in Ha. rewrite Ha. rewrite filter_app. destruct a; cbn [told]; cbn [sent_messages]; rewrite ?app_nil_r; try exact IH.
      apply Forall2_app; [exact IH|]. cbn [filter]. rewrite (keeps_id_after id h Hid').
      destruct (N.eqb_spec s subject) as [->|Hne].
      + replace (comes_to (PMsg subject) id None _) with true by (symmetry; apply comes_to_iff; auto). constructor; [|constructor]. destruct (pub_started_in _ _ _ _ Es) as (c & r0 & Hs). rewrite (Hprio' _ _ _ _ Hs). repeat split.
      + destruct (comes_to (PMsg subject) id None _) eqn:Ec; [|constructor]. apply comes_to_iff in Ec. destruct Ec as (Ec & _). cbn [t_header h_port mh_subject] in Ec. congruence.
    - inversion Hq as [calls Hn|t q1 a Hpush Ha]; subst; [destruct (Hn _ (or_introl eq_refl))|]. rewrite filter_app. replace (sent_messages subject _) with (sent_messages subject h) by reflexivity.
      destruct a; cbn [filter]; rewrite ?app_nil_r; exact IH.
    - inversion Hq as [calls Hn|t q1 a Hpush Ha]; subst; [destruct (Hn _ (or_introl eq_refl))|]. rewrite filter_app. replace (sent_messages subject _) with (sent_messages subject h) by reflexivity.
      destruct a; cbn [filter]; rewrite ?app_nil_r; exact IH.
  Qed.

  Lemma station_requests service server prio h n ts q w : station cap banks script n0 h n ts q w -> keeps_id h -> requests_with service prio h ->
    Forall2 (is_that (PReq service) id (Some server) prio) (filter (comes_to (PReq service) id (Some server)) ts) (sent_requests service server h).
  Proof.
    induction 1 as [|h n ts q w o n' calls r q' taken Hst IH Hf E Hr Hq|h n ts q w fuel q' w' r _ IH E|h n ts q x j m _ IH|h n ts q x j o x' out _ IH Ho Hx]; intros Hid Hprio; [constructor| |exact (IH Hid Hprio)..].
    assert (Hid' := keeps_id_tail _ _ Hid). assert (Hprio' : requests_with service prio h) by (intros t0 m0 p0 a0 c0 r0 Hi; apply (Hprio t0 m0 p0 a0 c0 r0); right; exact Hi). specialize (IH Hid' Hprio').
    destruct (station_hist _ _ _ _ _ _ _ _ _ Hst) as (Hh & _). pose proof (step_effect _ _ _ _ _ _ _ _ _ _ Hk Hh Hf E Hr) as He. clear E Hst Hh.
    destruct He as [o calls r Hn Hquiet|lb s payload e timeout p Es|lb s payload sv e timeout p source Es Ei|tok timeout payload e source Ei].
    - destruct Hq as [calls _|t q' a _ _]; [|destruct (Hn t (or_introl eq_refl))]. rewrite app_nil_r. destruct o; try exact IH. destruct r; try exact IH. destruct Hquiet.
    - inversion Hq as [calls Hn|t q1 a Hpush Ha]; subst; [destruct (Hn _ (or_introl eq_refl))|]. rewrite filter_app. replace (sent_requests service server _) with (sent_requests service server h) by reflexivity.
      destruct a; cbn [filter]; rewrite ?app_nil_r; exact IH.
    - inversion Hq as [calls Hn|t q1 a Hpush Ha]; subst; [destruct (Hn _ (or_introl eq_refl))|]. cbn [answered] in Ha. rewrite Ha. rewrite filter_app. destruct a; cbn [told]; cbn [sent_requests]; rewrite ?app_nil_r; try exact IH.
      apply Forall2_app; [exact IH|]. cbn [filter]. rewrite (keeps_id_after id h Hid') in Ei. injection Ei as <-.
      destruct (N.eqb_spec s service) as [->|Hne]; [destruct (N.eqb_spec sv server) as [->|Hne]|]; cbn [andb].
      + replace (comes_to (PReq service) id (Some server) _) with true by (symmetry; apply comes_to_iff; auto). constructor; [|constructor]. destruct (req_started_in _ _ _ _ Es) as (m & a & c & r0 & Hs). rewrite (Hprio' _ _ _ _ _ _ Hs). repeat split.
      + destruct (comes_to (PReq service) id (Some server) _) eqn:Ec; [|constructor]. apply comes_to_iff in Ec. destruct Ec as (_ & _ & Ec). cbn [t_header h_dest sh_dest] in Ec. congruence.
      + destruct (comes_to (PReq service) id (Some server) _) eqn:Ec; [|constructor]. apply comes_to_iff in Ec. destruct Ec as (Ec & _). cbn [t_header h_port sh_service] in Ec. congruence.
    - inversion Hq as [calls Hn|t q1 a Hpush Ha]; subst; [destruct (Hn _ (or_introl eq_refl))|]. rewrite filter_app. replace (sent_requests service server _) with (sent_requests service server h) by reflexivity.
      destruct a; cbn [filter]; rewrite ?app_nil_r; exact IH.
  Qed.

  Definition token_pair (x : response_token * list N) : N * list N := (rt_transfer (fst x), snd x).
  Lemma station_responses service client prio h n ts q w : station cap banks script n0 h n ts q w -> keeps_id h -> Forall (fun x => rt_priority (fst x) = prio) (sent_responses service client h) ->
    Forall2 (is_that (PResp service) id (Some client) prio) (filter (comes_to (PResp service) id (Some client)) ts) (map token_pair (sent_responses service client h)).
  Proof.
    induction 1 as [|h n ts q w o n' calls r q' taken Hst IH Hf E Hr Hq|h n ts q w fuel q' w' r _ IH E|h n ts q x j m _ IH|h n ts q x j o x' out _ IH Ho Hx]; intros Hid Hprio; [constructor| |exact (IH Hid Hprio)..].
    assert (Hid' := keeps_id_tail _ _ Hid).
    destruct (station_hist _ _ _ _ _ _ _ _ _ Hst) as (Hh & _). pose proof (step_effect _ _ _ _ _ _ _ _ _ _ Hk Hh Hf E Hr) as He. clear E Hst Hh.
    destruct He as [o calls r Hn Hquiet|lb s payload e timeout p Es|lb s payload sv e timeout p source Es Ei|tok timeout payload e source Ei].
    - destruct Hq as [calls _|t q' a _ _]; [|destruct (Hn t (or_introl eq_refl))]. rewrite app_nil_r. destruct o; try exact (IH Hid' Hprio). destruct r; try exact (IH Hid' Hprio). destruct Hquiet.
    - inversion Hq as [calls Hn|t q1 a Hpush Ha]; subst; [destruct (Hn _ (or_introl eq_refl))|]. specialize (IH Hid' Hprio). rewrite filter_app. replace (sent_responses service client _) with (sent_responses service client h) by reflexivity.
      destruct a; cbn [filter]; rewrite ?app_nil_r; exact IH.
    - inversion Hq as [calls Hn|t q1 a Hpush Ha]; subst; [destruct (Hn _ (or_introl eq_refl))|]. specialize (IH Hid' Hprio). rewrite filter_app. replace (sent_responses service client _) with (sent_responses service client h) by reflexivity.
      destruct a; cbn [filter]; rewrite ?app_nil_r; exact IH.
    - inversion Hq as [calls Hn|t q1 a Hpush Ha]; subst; [destruct (Hn _ (or_introl eq_refl))|]. cbn [answered] in Ha. rewrite Ha in *. rewrite filter_app. destruct a; cbn [told] in *; cbn [sent_responses] in *; rewrite ?app_nil_r; try exact (IH Hid' Hprio).
      apply Forall_app in Hprio. destruct Hprio as (Hprio & Hnew). rewrite map_app.
      apply Forall2_app; [exact (IH Hid' Hprio)|]. cbn [filter]. rewrite (keeps_id_after id h Hid') in Ei. injection Ei as <-.
      destruct (N.eqb_spec (rt_service tok) service) as [Es|Hne]; [destruct (N.eqb_spec (rt_client tok) client) as [Ec|Hne]|]; cbn [andb] in *.
      + replace (comes_to (PResp service) id (Some client) _) with true by (symmetry; apply comes_to_iff; cbn [t_header h_port h_source h_dest sh_service sh_source sh_dest]; split; [congruence|split; congruence]).
        constructor; [|constructor]. apply Forall_inv in Hnew. cbn [fst] in Hnew. unfold is_that. cbn [t_header t_payload h_port h_source h_dest h_prio h_tid sh_service sh_source sh_dest sh_prio sh_tid token_pair fst snd]. repeat split; congruence.
      + destruct (comes_to (PResp service) id (Some client) _) eqn:Ec; [|constructor]. apply comes_to_iff in Ec. destruct Ec as (_ & _ & Ec). cbn [t_header h_dest sh_dest] in Ec. congruence.
      + destruct (comes_to (PResp service) id (Some client) _) eqn:Ec; [|constructor]. apply comes_to_iff in Ec. destruct Ec as (Ec & _). cbn [t_header h_port sh_service] in Ec. congruence.
  Qed.
End Which.

(** From the transfers of a node to those delivered *)
Lemma that_tids p s dest prio ts ms : Forall2 (is_that p s dest prio) ts ms -> map (fun t => h_tid (t_header t)) ts = map fst ms.
Proof. induction 1 as [|t m ts ms (_ & _ & _ & _ & H & _) _ IH]; [reflexivity|]. cbn [map]. rewrite H, IH. reflexivity. Qed.
Lemma that_prio p s dest prio ts ms : Forall2 (is_that p s dest prio) ts ms -> Forall (fun t => h_prio (t_header t) = prio) ts.
Proof. induction 1 as [|t m ts ms (_ & _ & _ & H & _) _ IH]; constructor; assumption. Qed.

Lemma station_delivered cap banks script k P R id h n ts q x j p dest prio ms local max ds : (forall i, fst (script i) < 2 ^ 32) -> kind_ok TransportCan k -> id <= 127 ->
  station cap banks script (core_new TransportCan k P R (Some id)) h n ts q (Ok x, j) -> Forall2 (is_that p id dest prio) (filter (comes_to p id dest) ts) ms -> differing (map fst ms) ->
  dest_fits p dest -> (forall d, dest = Some d -> local = Some d) -> in_time script p id dest ts -> all_sent cap p id dest q x -> node_reads local p id dest max (sent (bx_can x)) ds ->
  Forall2 (is_that p id dest prio) (filter (comes_from p id) ds) (map (fun m => (fst m, firstn max (snd m))) ms) /\ Forall (fun t => t_loopback t = false) (filter (comes_from p id) ds).
Proof.
  intros Hs Hk Hid Hst Hms Hdiff Hfit Hlocal Htime Hsent Hreads. destruct (station_sender cap banks script k P R (Some id) h n ts q (Ok x, j) Hk ltac:(intros i E; injection E as <-; exact Hid) Hst) as (Hsender & Hbytes).
  pose proof (transfers_delivered cap banks script ts q x j p id prio dest local max ds Hs Hsender Hfit Hlocal) as D.
  assert (Hd : Forall2 (received_as max) (filter (comes_to p id dest) ts) (filter (comes_from p id) ds)).
  { apply D; try assumption; [|rewrite (that_tids _ _ _ _ _ _ Hms); exact Hdiff]. apply Forall_forall. intros t Ht. pose proof (that_prio _ _ _ _ _ _ Hms) as Hp. rewrite Forall_forall in Hp, Hbytes. split; [exact (Hp t Ht)|]. apply filter_In in Ht. apply Hbytes, Ht. }
  clear D. revert Hms Hd. generalize (filter (comes_to p id dest) ts). generalize (filter (comes_from p id) ds). clear. intros l l' H1. revert l. induction H1 as [|t m ts ms H _ IH]; intros l H2; inversion H2 as [|? d ? ds (( now & E1) & E2 & E3) Hr]; subst; [split; constructor|].
  destruct (IH _ Hr) as (I1 & I2). split; [|constructor; assumption]. cbn [map]. constructor; [|exact I1]. destruct H as (A1 & A2 & A3 & A4 & A5 & A6). unfold is_that. rewrite E1, E3. cbn [fst snd].
  destruct (t_header t); cbn [h_set_ts h_port h_source h_dest h_prio h_tid] in *; repeat split; try assumption; congruence.
Qed.

(** * What the handlers write down *)

Lemma log_of_fold {A} (hd : handler (list A)) ts : log_of hd ts = fold_left (fun w t => snd (ask t hd w)) ts [].
Proof. unfold log_of. rewrite (proj1 (C63_receive _ hd ts [] [])). reflexivity. Qed.
Lemma fold_log {A} (step : list A -> transfer -> list A) (P : transfer -> bool) (get : transfer -> A) ts : (forall w t, In t ts -> step w t = if P t then w ++ [get t] else w) -> forall w, fold_left step ts w = w ++ map get (filter P ts).
Proof.
  induction ts as [|t ts IH]; intros H w; cbn [fold_left filter map]; [rewrite app_nil_r; reflexivity|]. rewrite (H w t (or_introl eq_refl)). rewrite IH by (intros w' t' Ht'; apply H; right; exact Ht').
  destruct (P t); [cbn [map]; rewrite <- app_assoc; reflexivity|reflexivity].
Qed.
Lemma message_logged subject s ds : Forall (fun t => t_loopback t = false) (filter (comes_from (PMsg subject) s) ds) ->
  log_of (message_log subject s) ds = map (fun t => (h_tid (t_header t), t_payload t)) (filter (comes_from (PMsg subject) s) ds).
Proof.
  intro Hl. rewrite log_of_fold. rewrite (fold_log _ (comes_from (PMsg subject) s) (fun t => (h_tid (t_header t), t_payload t))); [reflexivity|].
  intros w t Ht. assert (K : comes_from (PMsg subject) s t = true -> t_loopback t = false) by (intro Hc; rewrite Forall_forall in Hl; apply Hl, filter_In; split; assumption).
  destruct (comes_from (PMsg subject) s t) eqn:Ec.
  - rewrite comes_from_iff in Ec. unfold ask. rewrite (K eq_refl). destruct (t_header t) as [m|m|m]; cbn [h_port h_source] in Ec; destruct Ec as (E1 & E2); try discriminate E1. injection E1 as E1.
    cbn [message_log on_message snd]. rewrite E1, E2, N.eqb_refl. cbn [same_dest]. rewrite N.eqb_refl. reflexivity.
  - unfold ask. destruct (t_loopback t); [reflexivity|]. destruct (t_header t) as [m|m|m] eqn:Eh; try reflexivity. cbn [message_log on_message snd].
    destruct (N.eqb_spec (mh_subject m) subject) as [E1|]; [|reflexivity]. destruct (same_dest (mh_source m) (Some s)) eqn:E2; [|reflexivity]. apply same_dest_iff in E2.
    assert (comes_from (PMsg subject) s t = true) by (apply comes_from_iff; rewrite Eh; cbn [h_port h_source]; split; congruence). congruence.
Qed.
Lemma request_logged service client ds : Forall (fun t => t_loopback t = false) (filter (comes_from (PReq service) client) ds) ->
  log_of (request_log service client) ds = map (fun t => (Token service client (h_tid (t_header t)) (h_prio (t_header t)), t_payload t)) (filter (comes_from (PReq service) client) ds).
Proof.
  intro Hl. rewrite log_of_fold. rewrite (fold_log _ (comes_from (PReq service) client) (fun t => (Token service client (h_tid (t_header t)) (h_prio (t_header t)), t_payload t))); [reflexivity|].
  intros w t Ht. assert (K : comes_from (PReq service) client t = true -> t_loopback t = false) by (intro Hc; rewrite Forall_forall in Hl; apply Hl, filter_In; split; assumption).
  destruct (comes_from (PReq service) client t) eqn:Ec.
  - rewrite comes_from_iff in Ec. unfold ask. rewrite (K eq_refl). destruct (t_header t) as [m|m|m]; cbn [h_port h_source] in Ec; destruct Ec as (E1 & E2); try discriminate E1. injection E1 as E1. injection E2 as E2.
    cbn [request_log on_request snd]. rewrite E1, E2, !N.eqb_refl. reflexivity.
  - unfold ask. destruct (t_loopback t); [reflexivity|]. destruct (t_header t) as [m|m|m] eqn:Eh; try reflexivity. cbn [request_log on_request snd].
    destruct (N.eqb_spec (sh_service m) service) as [E1|]; [|reflexivity]. destruct (N.eqb_spec (sh_source m) client) as [E2|]; [|reflexivity].
    assert (comes_from (PReq service) client t = true) by (apply comes_from_iff; rewrite Eh; cbn [h_port h_source]; split; congruence). congruence.
Qed.
Lemma response_logged service server ds : Forall (fun t => t_loopback t = false) (filter (comes_from (PResp service) server) ds) ->
  log_of (response_log service server) ds = map (fun t => (h_tid (t_header t), t_payload t)) (filter (comes_from (PResp service) server) ds).
Proof.
  intro Hl. rewrite log_of_fold. rewrite (fold_log _ (comes_from (PResp service) server) (fun t => (h_tid (t_header t), t_payload t))); [reflexivity|].
  intros w t Ht. assert (K : comes_from (PResp service) server t = true -> t_loopback t = false) by (intro Hc; rewrite Forall_forall in Hl; apply Hl, filter_In; split; assumption).
  destruct (comes_from (PResp service) server t) eqn:Ec.
  - rewrite comes_from_iff in Ec. unfold ask. rewrite (K eq_refl). destruct (t_header t) as [m|m|m]; cbn [h_port h_source] in Ec; destruct Ec as (E1 & E2); try discriminate E1. injection E1 as E1. injection E2 as E2.
    cbn [response_log on_response snd]. rewrite E1, E2, !N.eqb_refl. reflexivity.
  - unfold ask. destruct (t_loopback t); [reflexivity|]. destruct (t_header t) as [m|m|m] eqn:Eh; try reflexivity. cbn [response_log on_response snd].
    destruct (N.eqb_spec (sh_service m) service) as [E1|]; [|reflexivity]. destruct (N.eqb_spec (sh_source m) server) as [E2|]; [|reflexivity].
    assert (comes_from (PResp service) server t = true) by (apply comes_from_iff; rewrite Eh; cbn [h_port h_source]; split; congruence). congruence.
Qed.
Lemma that_pairs p s dest prio ts ms : Forall2 (is_that p s dest prio) ts ms -> map (fun t => (h_tid (t_header t), t_payload t)) ts = ms.
Proof. induction 1 as [|t [a b] ts ms (_ & _ & _ & _ & H1 & H2) _ IH]; [reflexivity|]. cbn [map fst snd] in *. rewrite H1, H2, IH. reflexivity. Qed.
Lemma that_tokens service client p s dest prio ts ms : Forall2 (is_that p s dest prio) ts ms ->
  map (fun t => (Token service client (h_tid (t_header t)) (h_prio (t_header t)), t_payload t)) ts = map (fun m => (Token service client (fst m) prio, snd m)) ms.
Proof. induction 1 as [|t [a b] ts ms (_ & _ & _ & H0 & H1 & H2) _ IH]; [reflexivity|]. cbn [map fst snd] in *. rewrite H0, H1, H2, IH. reflexivity. Qed.

(** * When transfer IDs do not repeat *)

Lemma mod_differs i : N.of_nat i mod 32 <> N.of_nat (S i) mod 32.
Proof. lia. Qed.
Lemma differing_seq n : forall a, differing (map (fun i => N.of_nat i mod 32) (seq a n)).
Proof.
  induction n as [|n IH]; intro a; [exact I|]. cbn [seq map]. destruct n as [|n]; [exact I|]. specialize (IH (S a)). cbn [seq map] in *. split; [apply mod_differs|exact IH].
Qed.
Lemma no_messages subject calls : (forall t, ~ In (CPush t) calls) -> messages subject calls = 0.
Proof.
  intro H. unfold messages. replace (filter (is_message subject) calls) with (@nil call); [reflexivity|]. symmetry. apply filter_none. intros c Hc. destruct c; try reflexivity. destruct (H t Hc).
Qed.
Lemma no_requests service server calls : (forall t, ~ In (CPush t) calls) -> requests service server calls = 0.
Proof.
  intro H. unfold requests. replace (filter (is_request service server) calls) with (@nil call); [reflexivity|]. symmetry. apply filter_none. intros c Hc. destruct c; try reflexivity. destruct (H t Hc).
Qed.
Definition counted (ids : list N) (count : N) : Prop := count = N.of_nat (length ids) /\ ids = map (fun i => N.of_nat i mod 32) (seq 0 (length ids)).
Lemma counted_next ids count : counted ids count -> counted (ids ++ [count mod 32]) (1 + count).
Proof.
  intros (E1 & E2). unfold counted. rewrite app_length. cbn [length]. split; [lia|]. rewrite Nat.add_1_r, seq_S, map_app, <- E2. cbn [map Nat.add]. rewrite E1. reflexivity.
Qed.

Lemma message_ids k P R id0 subject h n : kind_ok TransportCan k -> core_hist (core_new TransportCan k P R id0) h n -> Forall (fun en => op_fine (fst (fst en))) h -> no_message_refused subject h ->
  counted (map fst (sent_messages subject h)) (pub_count subject h) /\ (length (filter (starts_publishing subject) h) = 0%nat -> sent_messages subject h = [] /\ pub_started subject h = None).
Proof.
  intros Hk H. induction H as [|h n o n' calls r Hh IH E Hr]; intros Hf (Hc & Hall); [split; [split; reflexivity|split; reflexivity]|].
  inversion Hf as [|? ? Ho Hf']; subst. cbn [fst] in Ho. assert (Hall' : forall lb payload e calls r, In (Publish lb subject payload e, calls, r) h -> r = ODone \/ r = ONotPublishing) by (intros lb payload e c r0 Hi; apply (Hall lb payload e c r0); right; exact Hi).
  pose proof (step_effect _ _ _ _ _ _ _ _ _ _ Hk Hh Ho E Hr) as He. clear E.
  assert (Hc' : (length (filter (starts_publishing subject) h) <= 1)%nat) by (cbn [filter] in Hc; destruct (starts_publishing subject (o, calls, r)); cbn [length] in Hc; lia).
  specialize (IH Hf' (conj Hc' Hall')). destruct IH as (I1 & I2).
  destruct He as [o calls r Hn Hquiet|lb s payload e timeout p Es|lb s payload server e timeout p source Es Ei|tok timeout payload e source Ei].
  - pose proof (no_messages subject calls Hn) as M. destruct o; cbn [sent_messages pub_count pub_started filter starts_publishing] in *; rewrite ?M, ?N.add_0_l; try (split; [exact I1|exact I2]).
    + destruct (N.eqb_spec subject0 subject) as [->|].
      * assert (L : length (filter (starts_publishing subject) h) = 0%nat) by (cbn [length] in Hc; lia). destruct (I2 L) as (I3 & I4). rewrite I3. cbn [map]. split; [|cbn [length]; discriminate].
        destruct r; try (split; reflexivity); rewrite I3 in I1; exact I1.
      * destruct r; split; try exact I1; exact I2.
    + split; [exact I1|]. intro L. destruct (I2 L) as (I3 & I4). split; [exact I3|]. destruct (subject0 =? subject); [reflexivity|exact I4].
    + destruct r; try (split; [exact I1|exact I2]). destruct Hquiet.
  - assert (M : messages subject [CPush (Transfer (HMsg (MsgH ((e_now e + timeout) mod 2 ^ 32) (pub_count s h mod 32) p s (id_after id0 h))) lb payload)] = if s =? subject then 1 else 0).
    { unfold messages. cbn [filter is_message mh_subject]. destruct (s =? subject); reflexivity. }
    cbn [sent_messages pub_count pub_started filter starts_publishing] in *. rewrite M. destruct (N.eqb_spec s subject) as [->|Hne].
    + destruct (Hall lb payload e _ _ (or_introl eq_refl)) as [Er|Er]; rewrite Er; [|destruct (e_push e); discriminate Er]. rewrite map_app. cbn [map fst message_id h_tid t_header mh_tid]. split; [apply counted_next, I1|].
      intro L. destruct (I2 L) as (_ & I4). congruence.
    + rewrite N.add_0_l. destruct (e_push e); rewrite ?app_nil_r; split; try exact I1; exact I2.
  - cbn [sent_messages pub_count pub_started filter starts_publishing] in *. match goal with |- context [messages subject ?c] => change (messages subject c) with 0 end. rewrite N.add_0_l. split; [exact I1|exact I2].
  - cbn [sent_messages pub_count pub_started filter starts_publishing] in *. match goal with |- context [messages subject ?c] => change (messages subject c) with 0 end. rewrite N.add_0_l. split; [exact I1|exact I2].
Qed.

Lemma request_ids k P R id0 service server h n : kind_ok TransportCan k -> core_hist (core_new TransportCan k P R id0) h n -> Forall (fun en => op_fine (fst (fst en))) h -> no_request_refused service server h ->
  counted (map fst (sent_requests service server h)) (req_count service server h) /\ (length (filter (starts_requests service) h) = 0%nat -> sent_requests service server h = [] /\ req_started service h = None).
Proof.
  intros Hk H. induction H as [|h n o n' calls r Hh IH E Hr]; intros Hf (Hc & Hall); [split; [split; reflexivity|split; reflexivity]|].
  inversion Hf as [|? ? Ho Hf']; subst. cbn [fst] in Ho. assert (Hall' : forall lb payload e calls r, In (SendRequest lb service payload server e, calls, r) h -> exists id, r = OTransferId id) by (intros lb payload e c r0 Hi; apply (Hall lb payload e c r0); right; exact Hi).
  pose proof (step_effect _ _ _ _ _ _ _ _ _ _ Hk Hh Ho E Hr) as He. clear E.
  assert (Hc' : (length (filter (starts_requests service) h) <= 1)%nat) by (cbn [filter] in Hc; destruct (starts_requests service (o, calls, r)); cbn [length] in Hc; lia).
  specialize (IH Hf' (conj Hc' Hall')). destruct IH as (I1 & I2).
  destruct He as [o calls r Hn Hquiet|lb s payload e timeout p Es|lb s payload sv e timeout p source Es Ei|tok timeout payload e source Ei].
  - pose proof (no_requests service server calls Hn) as M. destruct o; cbn [sent_requests req_count req_started filter starts_requests] in *; rewrite ?M, ?N.add_0_l; try (split; [exact I1|exact I2]).
    + destruct (N.eqb_spec service0 service) as [->|].
      * assert (L : length (filter (starts_requests service) h) = 0%nat) by (cbn [length] in Hc; lia). destruct (I2 L) as (I3 & I4). rewrite I3. cbn [map]. split; [|cbn [length]; discriminate].
        destruct r; try (split; reflexivity); rewrite I3 in I1; exact I1.
      * destruct r; split; try exact I1; exact I2.
    + split; [exact I1|]. intro L. destruct (I2 L) as (I3 & I4). split; [exact I3|]. destruct (service0 =? service); [reflexivity|exact I4].
    + destruct r; try (split; [exact I1|exact I2]). destruct Hquiet.
  - cbn [sent_requests req_count req_started filter starts_requests] in *. match goal with |- context [requests service server ?c] => change (requests service server c) with 0 end. rewrite N.add_0_l. split; [exact I1|exact I2].
  - assert (M : requests service server [CPush (Transfer (HReq (SvcH ((e_now e + timeout) mod 2 ^ 32) (req_count s sv h mod 32) p s source sv)) lb payload)] = if (s =? service) && (sv =? server) then 1 else 0).
    { unfold requests. cbn [filter is_request sh_service sh_dest]. destruct (s =? service), (sv =? server); reflexivity. }
    cbn [sent_requests req_count req_started filter starts_requests] in *. rewrite M. destruct (N.eqb_spec s service) as [->|Hne]; [destruct (N.eqb_spec sv server) as [->|Hne]|]; cbn [andb].
    + destruct (Hall lb payload e _ _ (or_introl eq_refl)) as (i & Er). rewrite Er. destruct (e_push e); try discriminate Er. injection Er as <-. rewrite map_app. cbn [map fst]. split; [apply counted_next, I1|].
      intro L. destruct (I2 L) as (_ & I4). congruence.
    + rewrite N.add_0_l. destruct (e_push e); rewrite ?app_nil_r; split; try exact I1; exact I2.
    + rewrite N.add_0_l. destruct (e_push e); rewrite ?app_nil_r; split; try exact I1; exact I2.
  - cbn [sent_requests req_count req_started filter starts_requests] in *. match goal with |- context [requests service server ?c] => change (requests service server c) with 0 end. rewrite N.add_0_l. split; [exact I1|exact I2].
Qed.
Lemma counted_differing ids count : counted ids count -> differing ids.
Proof. intros (_ & ->). apply differing_seq. Qed.
