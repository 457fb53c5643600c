(** Proofs about transfers over a CAN bus. *)
From Verif Require Import Base BitLemmas CoreModel CrcModel FilterModel CanIdModel CanSpec CanIdProofs FilterProofs CanTxModel CanTxSpec CanTxProofs CanQueueModel CanQueueSpec CanQueueProofs CanFlushProofs
  CanRxModel CanRxSpec CanRxProofs CanRxProps CanIdProps BxModel BxSpec BxProofs BxQueueProofs BxRxProofs BxProps BusSpec.

Ltac Zify.zify_post_hook ::= Z.div_mod_to_equations.
Import Permutation.

(** * From transfers to frames *)

Definition frames_of (t : transfer) (fr : list frame) : Prop :=
  can_header_ok (t_header t) /\ exists cid, make_can_id (t_header t) (t_payload t) = Ok cid /\ id_means cid (t_header t) /\ cid < 2 ^ 29 /\ segmented 8 t fr 0 cid /\ Forall fits fr /\
    Forall (fun f => f_id f = cid /\ f_ts f = h_ts (t_header t)) fr /\ fr <> [].

Lemma segmented_each mtu t fr pad cid : segmented mtu t fr pad cid -> Forall (fun f => f_id f = cid /\ f_ts f = h_ts (t_header t)) fr /\ fr <> [].
Proof.
  intros (chunks & _ & L1 & _ & L2 & H). split.
  - apply Forall_forall. intros f Hf. apply In_nth_error in Hf. destruct Hf as (i & Hi).
    destruct (nth_error chunks i) as [c|] eqn:Ec; [|apply nth_error_None in Ec; assert (nth_error fr i <> None) by congruence; apply nth_error_Some in H0; lia].
    rewrite (H i c Ec) in Hi. injection Hi as <-. split; reflexivity.
  - intros ->. cbn [length] in L2. lia.
Qed.

Lemma send_all_system cap banks script w fs : Forall fits fs -> forall pushed q q',
  send_all (lift_transmit aq_ops) (Ok q) fs = (Ok q', PushOk) -> system cap banks script pushed q w -> system cap banks script (pushed ++ fs) q' w.
Proof.
  induction 1 as [|f fs Hf _ IH]; intros pushed q q' E H; cbn [send_all] in E.
  - injection E as <-. rewrite app_nil_r. exact H.
  - cbn [lift_transmit] in E. unfold qd_transmit in E. cbn [q_push aq_ops] in E. destruct (aq_push q f) as [ [q1 [|] ]|] eqn:Ep; [|discriminate|discriminate].
    replace (pushed ++ f :: fs) with ((pushed ++ [f]) ++ fs) by (rewrite <- app_assoc; reflexivity). apply (IH _ q1 q' E). eapply system_push; eassumption.
Qed.

Lemma sender_system cap banks script ts q w : (forall k, fst (script k) < 2 ^ 32) -> sender cap banks script ts q w -> exists frs, Forall2 frames_of ts frs /\ system cap banks script (concat frs) q w.
Proof.
  intro Hs. induction 1 as [|ts q w t q' _ (frs & I1 & I2) Hh E|ts q w t q' r _ (frs & I1 & I2) Hh E Hr|ts q w fuel q' w' r _ (frs & I1 & I2) E|ts q x k m _ (frs & I1 & I2)|ts q x k o x' out _ (frs & I1 & I2) Ho Hx].
  - exists []. split; constructor.
  - destruct (push_inner_spec 8 8 t (or_introl eq_refl) (le_n _) Hh) as (fr & pad & cid & Hid & Hseg & Hlen & _ & _ & Hpad & _ & _ & Hp). rewrite (Hpad eq_refl) in Hseg. clear Hpad.
    destruct (segmented_each _ _ _ _ _ Hseg) as (He & Hne). pose proof Hid as Hid'. rewrite make_can_id_spec in Hid' by exact Hh. injection Hid' as Ecid.
    assert (Hm : id_means cid (t_header t)) by (rewrite <- Ecid; apply can_id_value_means, Hh).
    assert (Hc : cid < 2 ^ 29) by (rewrite <- Ecid; apply can_id_value_bound, Hh).
    assert (Hf : Forall fits fr).
    { apply Forall_forall. intros f Hf. rewrite Forall_forall in He, Hlen. destruct (He f Hf) as (E1 & E2). destruct (Hlen f Hf) as (_ & L). unfold fits. rewrite E1, E2. split; [exact Hc|]. split; [apply L|apply Hh]. }
    exists (frs ++ [fr]). split; [apply Forall2_app; [exact I1|constructor; [|constructor] ]; split; [exact Hh|]; exists cid; auto 10|].
    rewrite concat_app. cbn [concat]. rewrite app_nil_r. rewrite Hp in E. injection E as E.
    cbn [lift_reserve q_reserve aq_ops] in E. destruct (aq_reserve q (length fr)) as [ [|]|]; [|discriminate|discriminate]. apply (send_all_system _ _ _ _ fr Hf _ q q' E I2).
  - destruct (system_inv cap banks script _ _ _ Hs I2) as (l & Hl & _).
    destruct (push_inner_spec 8 8 t (or_introl eq_refl) (le_n _) Hh) as (fr & pad & cid & Hid & Hseg & Hlen & _ & _ & Hpad & _ & _ & Hp).
    exists frs. split; [exact I1|]. rewrite Hp in E. injection E as E. cbn [lift_reserve q_reserve aq_ops] in E. rewrite (aq_reserve_spec cap q l _ Hl) in E.
    destruct (Nat.leb_spec (length l + length fr) cap) as [Hle|_]; [|injection E as <- <-; exact I2].
    destruct (send_all_queue aq_ops cap (holds cap) (aq_correct cap) fr q l Hl Hle) as (q1 & E1 & _). rewrite E1 in E. injection E as _ <-. congruence.
  - exists frs. split; [exact I1|]. eapply system_flush; eassumption.
  - exists frs. split; [exact I1|]. apply system_send. exact I2.
  - exists frs. split; [exact I1|]. eapply system_receive; eassumption.
Qed.

(** * The order of the frames sent *)

Lemma sub_full {A} (a b : list A) : subsequence a b -> length a = length b -> a = b.
Proof.
  induction 1 as [l|x a b H IH|x a b H IH]; cbn [length]; intro E; [destruct l; [reflexivity|discriminate]|f_equal; apply IH; lia|].
  apply sub_length in H. lia.
Qed.
Lemma filter_perm {A} (f : A -> bool) a b : Permutation a b -> Permutation (filter f a) (filter f b).
Proof.
  induction 1 as [|x a b H IH|x y l|a b c H1 I1 H2 I2]; cbn [filter]; [constructor| | |etransitivity; eassumption].
  - destruct (f x); [constructor|]; exact IH.
  - destruct (f x), (f y); try reflexivity. constructor.
Qed.
Lemma plain_filter (P : frame -> bool) l : (forall f, P (plain f) = P f) -> filter P (map plain l) = map plain (filter P l).
Proof. intro H. induction l as [|f l IH]; [reflexivity|]. cbn [map filter]. rewrite H. destruct (P f); cbn [map]; rewrite IH; reflexivity. Qed.
Lemma filter_none {A} (P : A -> bool) l : (forall x, In x l -> P x = false) -> filter P l = [].
Proof. induction l as [|x l IH]; intro H; [reflexivity|]. cbn [filter]. rewrite (H x (or_introl eq_refl)). apply IH. intros y Hy. apply H. right. exact Hy. Qed.

Section Order.
  Context (cap banks : nat) (script : nat -> N * list nat) (pushed : list frame) (q : array_queue) (x : bx_driver) (k : nat) (p : port) (s : N).
  Hypothesis Hs : forall k, fst (script k) < 2 ^ 32.
  Hypothesis Hsys : system cap banks script pushed q (Ok x, k).
  Hypothesis Hone : forall f g, In f pushed -> In g pushed -> sent_by p s f = true -> sent_by p s g = true -> f_id f = f_id g.
  Hypothesis Htime : forall f j, In f pushed -> sent_by p s f = true -> t_lt (f_ts f) (fst (script j)) = false.
  Hypothesis Hp : Forall (fun b => wire_by p s b = false) (pending (bx_can x)).
  Hypothesis Hq : Forall (fun f => sent_by p s f = false) (drain (S cap) q).

  Lemma by_plain f : sent_by p s (plain f) = sent_by p s f.
  Proof. reflexivity. Qed.
  Lemma by_id f g : f_id f = f_id g -> sent_by p s f = sent_by p s g.
  Proof. unfold sent_by. intros ->. reflexivity. Qed.
  Lemma wire_by_on f : wire_by p s (on_wire f) = sent_by p s f.
  Proof. unfold wire_by. cbn [on_wire b_extended b_id andb]. apply by_id. reflexivity. Qed.
  Lemma wire_filter l : filter (wire_by p s) (map on_wire l) = map on_wire (filter (sent_by p s) l).
  Proof. induction l as [|f l IH]; [reflexivity|]. cbn [map filter]. rewrite wire_by_on. destruct (sent_by p s f); cbn [map]; rewrite IH; reflexivity. Qed.

  Lemma sent_exactly : filter (wire_by p s) (sent (bx_can x)) = map on_wire (filter (sent_by p s) pushed).
  Proof.
    destruct (C123_queue_and_driver cap banks script pushed q (Ok x, k) Hs Hsys) as (x0 & k0 & out & lost & pend & Ew & P & E1 & E2 & Hl & Ho). injection Ew as <- <-.
    rewrite E1, wire_filter. pose proof (filter_perm (sent_by p s) _ _ P) as P'. rewrite !(plain_filter (sent_by p s)) in P' by exact by_plain. rewrite !filter_app in P'.
    assert (Npend : filter (sent_by p s) pend = []).
    { apply filter_none. intros f Hf. rewrite E2 in Hp. rewrite Forall_forall in Hp. rewrite <- wire_by_on. apply Hp, in_map, Hf. }
    assert (Nq : filter (sent_by p s) (drain (S cap) q) = []) by (apply filter_none; rewrite Forall_forall in Hq; exact Hq).
    assert (Nlost : filter (sent_by p s) (map snd lost) = []).
    { apply filter_none. intros f Hf. destruct (sent_by p s f) eqn:Ef; [|reflexivity]. apply in_map_iff in Hf. destruct Hf as ((now & f') & Ef' & Hf). cbn [snd] in Ef'. subst f'.
      rewrite Forall_forall in Hl. destruct (Hl _ Hf) as ((j & Ej) & Hlt). cbn [fst snd] in *.
      assert (Hi : In (plain f) (map plain pushed)).
      { eapply Permutation_in; [symmetry; exact P|]. apply in_map. rewrite !in_app_iff. right. left. apply in_map_iff. exists (now, f). split; [reflexivity|exact Hf]. }
      apply in_map_iff in Hi. destruct Hi as (f0 & Ep & Hi). injection Ep as T1 T2 T3. pose proof (Htime f0 j Hi) as X. rewrite (by_id f0 f T2), T1 in X. rewrite Ej, X in Hlt by exact Ef. discriminate. }
    rewrite Npend, Nq, Nlost, !app_nil_r in P'.
    destruct (filter (sent_by p s) pushed) as [|f0 fs] eqn:Ep.
    { cbn [map] in P'. apply Permutation_nil in P'. destruct (filter (sent_by p s) out); [reflexivity|discriminate]. }
    assert (H0 : In f0 pushed /\ sent_by p s f0 = true) by (apply filter_In; rewrite Ep; left; reflexivity).
    assert (Hpushed : with_id (f_id f0) pushed = f0 :: fs).
    { rewrite <- Ep. apply filter_ext_in. intros f Hf. destruct (N.eqb_spec (f_id f) (f_id f0)) as [E|E].
      - rewrite (by_id f f0 E). symmetry. apply H0.
      - destruct (sent_by p s f) eqn:Ef; [|reflexivity]. destruct E. apply Hone; [exact Hf|apply H0|exact Ef|apply H0]. }
    assert (Hout : with_id (f_id f0) out = filter (sent_by p s) out).
    { apply filter_ext_in. intros f Hf. destruct (N.eqb_spec (f_id f) (f_id f0)) as [E|E].
      - rewrite (by_id f f0 E). symmetry. apply H0.
      - destruct (sent_by p s f) eqn:Ef; [|reflexivity]. destruct E.
        assert (Hi : In (plain f) (map plain pushed)) by (eapply Permutation_in; [symmetry; exact P|]; apply in_map; rewrite !in_app_iff; left; exact Hf).
        apply in_map_iff in Hi. destruct Hi as (g & Eg & Hi). injection Eg as T1 T2 T3. rewrite <- T2. apply Hone; [exact Hi|apply H0|rewrite (by_id g f T2); exact Ef|apply H0]. }
    specialize (Ho (f_id f0)). rewrite Hpushed, E1, filter_app, wire_with_id, Hout in Ho.
    assert (Hlen : length (filter (sent_by p s) out) = length (f0 :: fs)) by (apply Permutation_length in P'; rewrite !map_length in P'; symmetry; exact P').
    assert (Hsub : subsequence (map on_wire (filter (sent_by p s) out)) (map on_wire (f0 :: fs))).
    { eapply sub_trans; [exact Ho|]. rewrite <- (app_nil_r (map on_wire (filter (sent_by p s) out))) at 1. apply sub_app; [apply sub_refl|constructor]. }
    apply sub_full in Hsub; [exact Hsub|]. rewrite !map_length. exact Hlen.
  Qed.
End Order.

(** * The receiving driver *)

Section Receiving.
  Context (local : option N) (p : port).
  Definition good (b : bx_frame) : Prop := b_extended b = true /\ b_id b < 2 ^ 29 /\ wanted local p (b_id b).
  Definition accepting (x : bx_driver) : Prop := forall b, good b -> existsb (bank_accepts b) (d_banks (bx_can x)) = true.
  Definition banked (x : bx_driver) : Prop := (1 <= length (d_banks (bx_can x)))%nat.

  Lemma accept_all_accepting x x' : banked x -> bx_accept_all x = Ok x' -> accepting x' /\ banked x'.
  Proof.
    unfold banked, accepting, bx_accept_all, enable_bank, store. rewrite clear_length. intro B. destruct (0 <? _)%nat; [|discriminate]. intro E. injection E as <-. cbn [set_banks bx_can d_banks].
    split; [|rewrite upd_length, clear_length; exact B]. intros b _. apply existsb_exists. exists (Some BankAll). split; [|reflexivity].
    destruct (d_banks (bx_can x)) as [|k ks]; cbn [length] in B; [lia|]. left. reflexivity.
  Qed.
  Lemma filters_accepting x x' ps alloc : banked x -> op_ok (OpFilters local ps alloc) -> In p ps -> bx_filters local ps alloc x = Ok x' -> accepting x' /\ banked x'.
  Proof.
    intros B (Hn & Hps) Hp. unfold bx_filters. destruct (optimize_filters local ps (length (d_banks (bx_can x))) alloc) as [ [fs|]|] eqn:Eo; [|apply accept_all_accepting, B|discriminate].
    destruct (enable_banks 0 fs (clear_banks (d_banks (bx_can x)))) as [bs|] eqn:Eb; [|discriminate]. intro E. injection E as <-. unfold accepting, banked. cbn [set_banks bx_can d_banks].
    split; [|rewrite (enable_banks_length _ _ _ _ Eb), clear_length; exact B]. intros b (He & Hid & Hw). rewrite (enabled_accepts fs _ _ b Eb He). apply existsb_exists.
    destruct (C29_subscriptions_not_blocked local ps (length (d_banks (bx_can x))) alloc fs Hps Hn ltac:(exact B) Eo) as (_ & K). exact (K p (b_id b) Hp Hid Hw).
  Qed.
  Lemma step_accepting o x x' out : filters_ok o -> filters_for local p o -> banked x -> accepting x \/ sets_filters o -> bx_step o x = Ok (x', out) -> accepting x' /\ banked x'.
  Proof.
    intros Ho Hf B Ha E. destruct o as [now f|now|l ps alloc| |m|b|]; cbn [bx_step sets_filters filters_for] in *.
    - destruct (bx_transmit now f x) as [ [x1 r]|] eqn:Et; [|discriminate]. injection E as <- _. destruct (bx_transmit_rx _ _ _ _ _ Et) as ((_ & Eb) & _). unfold accepting, banked in *. rewrite Eb. destruct Ha as [Ha|[] ]. auto.
    - destruct (bx_receive now x) as [x1 r] eqn:Er. injection E as <- _. destruct Ha as [Ha|[] ]. unfold bx_receive in Er. destruct (receive_from_bus now (d_fifo (bx_can x))) as [fifo r0].
      assert (Eb : d_banks (bx_can x1) = d_banks (bx_can x)) by (destruct r0; try destruct (bx_loopback x); inversion Er; reflexivity).
      unfold accepting, banked in *. rewrite Eb. auto.
    - destruct Hf as (-> & Hp). destruct (bx_filters local ps alloc x) as [x1|] eqn:Ef; [|discriminate]. injection E as <- _. exact (filters_accepting x x1 ps alloc B Ho Hp Ef).
    - destruct (bx_accept_all x) as [x1|] eqn:Ef; [|discriminate]. injection E as <- _. exact (accept_all_accepting x x1 B Ef).
    - injection E as <- _. destruct Ha as [Ha|[] ]. unfold accepting, banked in *. cbn [on_device bx_can]. unfold dev_send. destruct (nth_error (d_mailboxes (bx_can x)) m) as [ [b|]|]; cbn [d_banks]; auto.
    - injection E as <- _. destruct Ha as [Ha|[] ]. unfold accepting, banked in *. cbn [on_device bx_can]. unfold dev_arrive. destruct (existsb _ _); cbn [d_banks]; auto.
    - injection E as <- _. destruct Ha as [Ha|[] ]. unfold accepting, banked in *. cbn [on_device bx_can dev_overrun d_banks]. auto.
  Qed.

  (** Frames that are wanted pass the filters *)
  Lemma run_passed (P : bx_frame -> bool) ops : forall x x' outs, Forall filters_ok ops -> Forall (filters_for local p) ops -> banked x -> (accepting x \/ exists o r, ops = o :: r /\ sets_filters o) ->
    bx_run ops x = Ok (x', outs) -> (forall b, In b (on_bus ops) -> P b = true -> good b) -> filter P (passed ops x) = filter P (on_bus ops).
  Proof.
    induction ops as [|o ops IH]; intros x x' outs Hok Hf B Ha E Hg; [reflexivity|]. inversion Hok; subst. inversion Hf; subst. cbn [bx_run] in E.
    destruct (bx_step o x) as [ [x1 out]|] eqn:Es; [|discriminate]. destruct (bx_run ops x1) as [ [x2 l]|] eqn:Er; [|discriminate].
    assert (Ha' : accepting x \/ sets_filters o) by (destruct Ha as [Ha|(o' & r & Ea & Ha)]; [left; exact Ha|right; injection Ea as -> _; exact Ha]).
    destruct (step_accepting o x x1 out ltac:(assumption) ltac:(assumption) B Ha' Es) as (A1 & B1).
    cbn [passed]. rewrite Es. unfold on_bus in *. cbn [flat_map] in *. rewrite !filter_app. rewrite (IH x1 x2 l ltac:(assumption) ltac:(assumption) B1 (or_introl A1) Er) by (intros b Hb; apply Hg, in_or_app; right; exact Hb).
    f_equal. destruct o as [now f|now|l0 ps alloc| |m|b|]; try reflexivity. destruct (P b) eqn:Ep; [|destruct (existsb _ _); cbn [filter]; rewrite ?Ep; reflexivity].
    destruct Ha' as [Ha'|[] ]. rewrite (Ha' b); [reflexivity|]. apply Hg; [|exact Ep]. apply in_or_app. left. left. reflexivity.
  Qed.
End Receiving.

Lemma ops_filters_ok ops : Forall op_ok ops -> Forall filters_ok ops.
Proof. apply Forall_impl. intros o Ho. destruct o; try exact I. exact Ho. Qed.

Lemma on_bus_filter_good local p s ops l : filter (wire_by p s) (on_bus ops) = filter (wire_by p s) (map on_wire l) ->
  (forall f, In f l -> sent_by p s f = true -> f_id f < 2 ^ 29 /\ wanted local p (f_id f)) -> forall b, In b (on_bus ops) -> wire_by p s b = true -> good local p b /\ deliverable b = true.
Proof.
  intros E H b Hb Hw. assert (Hi : In b (filter (wire_by p s) (map on_wire l))) by (rewrite <- E; apply filter_In; split; assumption).
  rewrite wire_filter in Hi. apply in_map_iff in Hi. destruct Hi as (f & <- & Hf). apply filter_In in Hf. destruct Hf as (Hf & Hs). destruct (H f Hf Hs) as (H1 & H2).
  split; [split; [reflexivity|split; assumption]|]. unfold deliverable. cbn [on_wire b_extended b_id b_data andb]. apply N.ltb_lt in H1. rewrite H1. reflexivity.
Qed.

Lemma run_outs ops : forall x x' outs, bx_run ops x = Ok (x', outs) -> map fst outs = ops.
Proof.
  induction ops as [|o ops IH]; intros x x' outs E; cbn [bx_run] in E; [injection E as _ <-; reflexivity|].
  destruct (bx_step o x) as [ [x1 out]|]; [|discriminate]. destruct (bx_run ops x1) as [ [x2 l]|] eqn:Er; [|discriminate]. injection E as _ <-. cbn [map fst]. f_equal. exact (IH _ _ _ Er).
Qed.
Lemma copies_not_from p s outs : Forall (not_from p s) (map fst outs) -> Forall (fun f => sent_by p s f = false) (flat_map copies outs).
Proof.
  intro H. apply Forall_forall. intros g Hg. apply in_flat_map in Hg. destruct Hg as ((o & out) & Ho & Hg). rewrite Forall_forall in H. specialize (H o ltac:(apply in_map_iff; exists (o, out); auto)).
  destruct o as [now f|now|l ps alloc| |m|b|]; cbn [copies not_from accepted] in *; try contradiction. destruct out as [ [g'| |]|r|]; try contradiction. destruct (t_lt (f_ts f) now); [contradiction|].
  cbn [flat_map] in Hg. rewrite app_nil_r in Hg. destruct (f_loop f); [|contradiction]. destruct Hg as [<-|[] ]. exact H.
Qed.

(** The frames from [s] on [p] that the driver hands out are those on the bus *)
Lemma driver_receives local p s n ops y outs l : (1 <= n)%nat -> Forall op_ok ops -> Forall (filters_for local p) ops -> (exists o r, ops = o :: r /\ sets_filters o) -> Forall (not_from p s) ops ->
  bx_run ops (bx_new n) = Ok (y, outs) -> Forall (fun b => wire_by p s b = false) (waiting (bx_can y)) ->
  filter (wire_by p s) (on_bus ops) = filter (wire_by p s) (map on_wire l) -> (forall f, In f l -> sent_by p s f = true -> f_id f < 2 ^ 29 /\ wanted local p (f_id f)) ->
  map on_wire (filter (sent_by p s) (flat_map received outs)) = map on_wire (filter (sent_by p s) l) /\ Forall (fun g => f_loop g = false) (filter (sent_by p s) (flat_map received outs)).
Proof.
  intros Hn Hok Hf Hset Hnot Hrun Hwait Hbus Hgood. destruct (C121_received n ops y outs Hrun) as (E1 & _ & _). destruct (C120_loopback_partial n ops y outs Hrun) as (E2 & _).
  assert (Hloop : filter (sent_by p s) (looped (flat_map received outs)) = []).
  { apply filter_none. intros g Hg. pose proof (copies_not_from p s outs ltac:(rewrite (run_outs _ _ _ _ Hrun); exact Hnot)) as Hc. rewrite Forall_forall in Hc. apply Hc. apply (sub_in _ _ _ E2). apply in_or_app. left. exact Hg. }
  assert (Hbusonly : filter (sent_by p s) (flat_map received outs) = filter (sent_by p s) (from_bus (flat_map received outs))).
  { revert Hloop. unfold looped, from_bus. generalize (flat_map received outs). induction l0 as [|g l0 IH]; [reflexivity|]. cbn [filter]. destruct (f_loop g) eqn:Eg; cbn [negb filter].
    - destruct (sent_by p s g); [discriminate|]. exact IH.
    - intro H. rewrite (IH H). reflexivity. }
  split.
  - rewrite Hbusonly, <- !wire_filter, <- Hbus. apply (f_equal (filter (wire_by p s))) in E1. rewrite filter_app in E1.
    assert (W : filter (wire_by p s) (filter deliverable (waiting (bx_can y))) = []).
    { apply filter_none. intros b Hb. apply filter_In in Hb. rewrite Forall_forall in Hwait. apply Hwait, Hb. }
    rewrite W, app_nil_r in E1. rewrite E1. pose proof (on_bus_filter_good local p s ops l Hbus Hgood) as G.
    rewrite <- (run_passed local p (wire_by p s) ops (bx_new n) y outs (ops_filters_ok _ Hok) Hf ltac:(unfold banked, bx_new; cbn [bx_can d_banks]; rewrite repeat_length; exact Hn) (or_intror Hset) Hrun) by (intros b Hb Hw; apply (G b Hb Hw)).
    assert (D : forall b, In b (passed ops (bx_new n)) -> wire_by p s b = true -> deliverable b = true).
    { assert (Sub : forall os z b, In b (passed os z) -> In b (on_bus os)).
      { clear. induction os as [|o os IH]; intros z b; cbn [passed]; [intros []|]. unfold on_bus in *. cbn [flat_map]. rewrite !in_app_iff. intros [H|H].
        - left. destruct o; try contradiction. destruct (existsb _ _); [exact H|contradiction].
        - right. destruct (bx_step o z) as [ [z' out]|]; [exact (IH _ _ H)|contradiction]. }
      intros b Hb Hw. apply (G b (Sub _ _ _ Hb) Hw). }
    revert D. generalize (passed ops (bx_new n)). induction l0 as [|b l0 IH]; intro D; [reflexivity|]. cbn [filter]. specialize (IH (fun b' H => D b' (or_intror H))).
    destruct (wire_by p s b) eqn:Eb; [rewrite (D b (or_introl eq_refl) Eb); cbn [filter]; rewrite Eb, IH; reflexivity|]. destruct (deliverable b); cbn [filter]; rewrite ?Eb; exact IH.
  - rewrite Hbusonly. apply Forall_forall. intros g Hg. apply filter_In in Hg. destruct Hg as (Hg & _). apply filter_In in Hg. destruct Hg as (_ & Hg). destruct (f_loop g); [discriminate|reflexivity].
Qed.

(** * The receiver *)

Lemma can_run_app a : forall r r1 o1 b r2 o2, can_run r a = Ok (r1, o1) -> can_run r1 b = Ok (r2, o2) -> can_run r (a ++ b) = Ok (r2, o1 ++ o2).
Proof.
  induction a as [|op a IH]; intros r r1 o1 b r2 o2 E1 E2; cbn [can_run app] in *; [injection E1 as <- <-; exact E2|].
  destruct (can_step r op) as [ [r0 o]|]; [|discriminate]. destruct (can_run r0 a) as [ [r3 os]|] eqn:Er; [|discriminate]. injection E1 as <- <-. rewrite (IH _ _ _ _ _ _ Er E2). reflexivity.
Qed.
Lemma frames_active p gs : forall outs h, can_active p (rev (combine (map (fun g => CFrame g true) gs) outs) ++ h) = can_active p h.
Proof.
  induction gs as [|g gs IH]; intros outs h; [reflexivity|]. destruct outs as [|o outs]; [reflexivity|]. cbn [map combine rev]. rewrite <- app_assoc. rewrite IH. reflexivity.
Qed.
Lemma frames_node id gs : forall outs h, can_node id (rev (combine (map (fun g => CFrame g true) gs) outs) ++ h) = can_node id h.
Proof.
  induction gs as [|g gs IH]; intros outs h; [reflexivity|]. destruct outs as [|o outs]; [reflexivity|]. cbn [map combine rev]. rewrite <- app_assoc. rewrite IH. reflexivity.
Qed.
Lemma combine_app_same {A B} (a1 : list A) : forall (b1 : list B) a2 b2, length a1 = length b1 -> combine (a1 ++ a2) (b1 ++ b2) = combine a1 b1 ++ combine a2 b2.
Proof. induction a1 as [|x a1 IH]; intros [|y b1] a2 b2 E; try discriminate; [reflexivity|]. cbn [app combine]. rewrite IH by (injection E; auto). reflexivity. Qed.
Lemma delivered_nones p s n : flat_map (delivered p s) (repeat (CGot RxNone) n) = [].
Proof. induction n as [|n IH]; [reflexivity|]. exact IH. Qed.
Lemma same_wires fr : forall gs, map on_wire gs = map on_wire fr -> Forall (fun g => f_loop g = false) gs -> Forall frame_ok gs ->
  Forall2 (fun f g => f_id g = f_id f /\ f_data g = f_data f /\ f_loop g = false /\ frame_ok g) fr gs.
Proof.
  induction fr as [|f fr IH]; intros [|g gs] E H1 H2; try discriminate; [constructor|]. cbn [map] in E. assert (Ew : on_wire g = on_wire f) by congruence. assert (Er : map on_wire gs = map on_wire fr) by congruence.
  inversion H1; subst. inversion H2; subst. constructor; [|apply IH; assumption]. unfold on_wire in Ew. injection Ew as E1 E2. auto.
Qed.
Lemma tid_incr_differs a : a <= 31 -> tid_incr a <> a.
Proof. unfold tid_incr. intro H. destruct (N.eqb_spec a 31); lia. Qed.
Lemma h_tid_set h now : h_tid (h_set_ts h now) = h_tid h.
Proof. destruct h; reflexivity. Qed.

Lemma receive_sequence id p s timeout max mine frss : Forall2 frames_of mine frss -> forall h r gs,
  can_hist id h r -> can_active p h = Some (timeout, max) ->
  Forall (fun t => h_port (t_header t) = p /\ h_source (t_header t) = Some s /\ bytes_ok (t_payload t) /\ forall d, h_dest (t_header t) = Some d -> can_node id h = Some d) mine ->
  consecutive (map (fun t => h_tid (t_header t)) mine) ->
  map on_wire gs = map on_wire (concat frss) -> Forall (fun g => f_loop g = false) gs -> Forall frame_ok gs ->
  (forall t, hd_error mine = Some t -> (forall g, In g (CanRxSpec.pending p s h) -> ~ with_tid (h_tid (t_header t)) g /\ ~ with_tid (tid_incr (h_tid (t_header t))) g) /\
     (forall d, last_delivery p s h = Some d -> h_tid (t_header d) <> h_tid (t_header t))) ->
  exists r' outs, can_run r (map (fun g => CFrame g true) gs) = Ok (r', outs) /\ Forall2 (received_as max) mine (flat_map (delivered p s) outs).
Proof.
  induction 1 as [|t fr mine frss Hfr Hrest IH]; intros h r gs Hh Hact Hall Hcons Hgs Hloop Hok Hstart.
  - destruct gs; [|discriminate]. exists r, []. split; [reflexivity|constructor].
  - cbn [concat] in Hgs. rewrite map_app in Hgs. apply map_eq_app in Hgs. destruct Hgs as (gs1 & gs2 & -> & E1 & E2). apply Forall_app in Hloop. destruct Hloop as (L1 & L2). apply Forall_app in Hok. destruct Hok as (O1 & O2).
    inversion Hall as [|? ? (Hp & Hs & Hb & Hd) Hall']; subst. destruct Hfr as (Hho & cid & Hid & Hm & Hc & Hseg & Hfits & Hsame & Hne). destruct (Hstart t eq_refl) as (S1 & S2).
    pose proof (same_wires fr gs1 E1 L1 O1) as Hgs1. destruct gs1 as [|g0 gs1]; [destruct fr; [congruence|discriminate]|].
    destruct (C18_end_to_end id h r t s 8 fr 0 cid timeout max (g0 :: gs1) false g0 Hh Hho Hb Hs Hseg Hm Hact (or_intror Hd) Hgs1 eq_refl S1) as (r1 & Er1).
    { intros d Ed Et. destruct (S2 d Ed Et). }
    set (X := Transfer (h_set_ts (t_header t) (f_ts g0)) false (firstn max (t_payload t ++ repeat 0 0))) in *.
    destruct (exists_last (l := g0 :: gs1) ltac:(discriminate)) as (gi & gl & Egl).
    assert (Hlast : sent_by (h_port (t_header t)) s gl = true).
    { apply (sent_by_iff _ _ gl (t_header t)); [|auto]. replace (f_id gl) with cid; [exact Hm|].
      assert (Hin : In gl (g0 :: gs1)) by (rewrite Egl; apply in_or_app; right; left; reflexivity). apply (in_map on_wire) in Hin. rewrite E1 in Hin. apply in_map_iff in Hin. destruct Hin as (f & Ef & Hf).
      rewrite Forall_forall in Hsame. destruct (Hsame f Hf) as (Ec & _). unfold on_wire in Ef. injection Ef as Ef _. congruence. }
    set (outs1 := repeat (CGot RxNone) (length (g0 :: gs1) - 1) ++ [CGot (RxTransfer X)]) in *.
    set (h1 := rev (combine (map (fun g => CFrame g true) (g0 :: gs1)) outs1) ++ h).
    assert (Hh1 : can_hist id h1 r1).
    { apply (run_hist id (map (fun g => CFrame g true) (g0 :: gs1)) h r r1 outs1 Hh); [|exact Er1]. apply Forall_map. exact O1. }
    assert (Eh1 : exists rest, h1 = (CFrame gl true, CGot (RxTransfer X)) :: rest).
    { unfold h1, outs1. rewrite Egl, map_app, combine_app_same; [|rewrite map_length, repeat_length, app_length; cbn [length]; lia]. cbn [map combine]. rewrite rev_app_distr. cbn [rev app]. eexists. reflexivity. }
    assert (Hact1 : can_active (h_port (t_header t)) h1 = Some (timeout, max)) by (unfold h1; rewrite frames_active; exact Hact).
    destruct (IH h1 r1 gs2 Hh1 Hact1) as (r2 & outs2 & Er2 & F2); [| |exact E2|exact L2|exact O2| |].
    + apply Forall_forall. intros t' Ht'. rewrite Forall_forall in Hall'. destruct (Hall' t' Ht') as (A1 & A2 & A3 & A4). unfold h1. rewrite frames_node. auto.
    + destruct mine as [|t2 mine]; [exact I|]. cbn [map consecutive] in Hcons. apply Hcons.
    + intros t2 Et2. destruct mine as [|t2' mine]; [discriminate|]. injection Et2 as ->. cbn [map consecutive] in Hcons. destruct Hcons as (Hnext & _).
      destruct Eh1 as (rest & Eh1). rewrite Eh1. cbn [CanRxSpec.pending last_delivery]. rewrite Hlast. split; [intros g []|]. intros d Ed. injection Ed as <-. unfold X. cbn [t_header]. rewrite h_tid_set, Hnext.
      intro E. symmetry in E. revert E. apply tid_incr_differs, Hho.
    + exists r2, (outs1 ++ outs2). split; [rewrite map_app; exact (can_run_app _ _ _ _ _ _ _ Er1 Er2)|]. rewrite flat_map_app. unfold outs1 at 1. rewrite flat_map_app, delivered_nones. cbn [flat_map app delivered].
      assert (Ec : comes_from (h_port (t_header t)) s X = true).
      { unfold comes_from, X. cbn [t_header]. rewrite h_port_set, h_source_set, Hs, N.eqb_refl. destruct (port_eqb_spec (h_port (t_header t)) (h_port (t_header t))); [reflexivity|congruence]. }
      rewrite Ec. cbn [app]. constructor; [|exact F2]. split; [exists (f_ts g0); reflexivity|]. split; [reflexivity|]. unfold X. cbn [t_payload repeat]. rewrite app_nil_r. reflexivity.
Qed.

(** Only frames from [s] on [p] deliver transfers from there *)
Lemma delivered_concerning p s r ops r' outs : Forall can_op_ok ops -> can_run r ops = Ok (r', outs) ->
  flat_map (delivered p s) outs = flat_map (delivered p s) (map snd (filter (fun x => concerns p s (fst x)) (combine ops outs))).
Proof.
  intros Hok Hrun. destruct (C19_no_interference r ops r' outs p s Hok Hrun) as (_ & K).
  assert (L : length ops = length outs).
  { clear Hok K. revert r r' outs Hrun. induction ops as [|op ops IH]; intros r r' outs Hrun; cbn [can_run] in Hrun; [injection Hrun as _ <-; reflexivity|].
    destruct (can_step r op) as [ [r1 o]|]; [|discriminate]. destruct (can_run r1 ops) as [ [r2 os]|] eqn:Er; [|discriminate]. injection Hrun as _ <-. cbn [length]. f_equal. exact (IH _ _ _ Er). }
  clear Hrun Hok. revert outs L K. induction ops as [|op ops IH]; intros [|o outs] L K; try discriminate; [reflexivity|]. cbn [combine filter fst flat_map].
  rewrite (IH outs ltac:(injection L; auto) (fun op' t H => K op' t (or_intror H))). destruct (concerns p s op) eqn:Ec; [reflexivity|].
  replace (delivered p s o) with (@nil transfer); [reflexivity|]. destruct o as [ [|t|]| |]; cbn [delivered]; try reflexivity. destruct (comes_from p s t) eqn:Et; [|reflexivity].
  unfold comes_from in Et. apply andb_true_iff in Et. destruct Et as (E1 & E2). destruct (port_eqb_spec (h_port (t_header t)) p) as [E3|]; [|discriminate]. destruct (h_source (t_header t)) as [n|] eqn:E4; [|discriminate].
  apply N.eqb_eq in E2. subst n. rewrite (K op t (or_introl eq_refl) E3 E4) in Ec. discriminate.
Qed.
Lemma leaves_concerns p s ops : Forall (leaves p) ops -> filter (concerns p s) ops = map (fun g => CFrame g true) (filter (sent_by p s) (given_frames ops)).
Proof.
  induction 1 as [|op ops H _ IH]; [reflexivity|]. unfold given_frames in *. cbn [filter flat_map]. rewrite filter_app, map_app, IH. destruct op as [f mem|p' ti ma mem|p'|n]; cbn [concerns leaves filter map] in *.
  - subst mem. destruct (sent_by p s f); reflexivity.
  - destruct (port_eqb_spec p' p); [contradiction|reflexivity].
  - destruct (port_eqb_spec p' p); [contradiction|reflexivity].
  - contradiction.
Qed.

(** * All together *)

Lemma comes_from_iff p s t : comes_from p s t = true <-> h_port (t_header t) = p /\ h_source (t_header t) = Some s.
Proof.
  unfold comes_from. rewrite andb_true_iff. destruct (port_eqb_spec (h_port (t_header t)) p) as [E|E]; [|split; [intros ([=] & _)|intros (E' & _); congruence] ].
  destruct (h_source (t_header t)) as [n|]; [rewrite N.eqb_eq; split; intros (_ & E'); split; congruence|split; intros (_ & E'); discriminate].
Qed.
Lemma frames_by p s t fr f : frames_of t fr -> In f fr -> sent_by p s f = comes_from p s t.
Proof.
  intros (_ & cid & _ & Hm & _ & _ & _ & Hsame & _) Hf. rewrite Forall_forall in Hsame. destruct (Hsame f Hf) as (E & _). rewrite <- E in Hm. apply eq_true_iff_eq. rewrite (sent_by_iff p s f _ Hm), comes_from_iff. reflexivity.
Qed.
Lemma frames_filter p s ts frs : Forall2 frames_of ts frs -> exists frss, Forall2 frames_of (filter (comes_from p s) ts) frss /\ filter (sent_by p s) (concat frs) = concat frss.
Proof.
  induction 1 as [|t fr ts frs H _ (frss & I1 & I2)]; [exists []; split; constructor|]. cbn [filter concat]. rewrite filter_app, I2.
  destruct (comes_from p s t) eqn:Ec.
  - exists (fr :: frss). split; [constructor; assumption|]. cbn [concat]. f_equal. rewrite (filter_ext_in _ (fun _ => true)); [clear; induction fr as [|f fr IH]; [reflexivity|cbn [filter]; f_equal; exact IH]|].
    intros f Hf. rewrite (frames_by p s t fr f H Hf). exact Ec.
  - exists frss. split; [exact I1|]. rewrite filter_none; [reflexivity|]. intros f Hf. rewrite (frames_by p s t fr f H Hf). exact Ec.
Qed.
Lemma in_frames ts frs f : Forall2 frames_of ts frs -> In f (concat frs) -> exists t fr, In t ts /\ frames_of t fr /\ In f fr.
Proof.
  induction 1 as [|t fr ts frs H _ IH]; cbn [concat]; [intros []|]. rewrite in_app_iff. intros [Hf|Hf]; [exists t, fr; split; [left; reflexivity|split; assumption]|].
  destruct (IH Hf) as (t' & fr' & H1 & H2). exists t', fr'. split; [right; exact H1|exact H2].
Qed.
Lemma can_id_same t t' s : h_port (t_header t) = h_port (t_header t') -> h_source (t_header t) = Some s -> h_source (t_header t') = Some s -> h_prio (t_header t) = h_prio (t_header t') -> h_dest (t_header t) = h_dest (t_header t') ->
  can_id_value (t_header t) (t_payload t) = can_id_value (t_header t') (t_payload t').
Proof.
  destruct t as [ [m|x|x] l d], t' as [ [m'|x'|x'] l' d']; cbn [t_header t_payload h_port h_source h_prio h_dest]; intros E1 E2 E3 E4 E5; try discriminate; injection E1 as E1.
  - unfold can_id_value, h_src_id. cbn [h_source]. rewrite E1, E2, E3, E4. reflexivity.
  - unfold can_id_value. injection E2 as E2. injection E3 as E3. injection E5 as E5. rewrite E1, E2, E3, E4, E5. reflexivity.
  - unfold can_id_value. injection E2 as E2. injection E3 as E3. injection E5 as E5. rewrite E1, E2, E3, E4, E5. reflexivity.
Qed.
Lemma frames_id t fr f : frames_of t fr -> In f fr -> f_id f = can_id_value (t_header t) (t_payload t) /\ f_ts f = h_ts (t_header t) /\ f_id f < 2 ^ 29 /\ id_means (f_id f) (t_header t).
Proof.
  intros (Hh & cid & Hid & Hm & Hc & _ & _ & Hsame & _) Hf. rewrite Forall_forall in Hsame. destruct (Hsame f Hf) as (E & Et). rewrite make_can_id_spec in Hid by exact Hh. injection Hid as Hid. rewrite E. split; [congruence|auto].
Qed.
