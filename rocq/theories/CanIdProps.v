(** Property theorems for CAN identifiers (C13, C14), identifier filters (C28) and filter reduction (C29). *)
From Verif Require Import Base CoreModel FilterModel CanIdModel CanSpec CanIdProofs FilterProofs.

(** C13: the identifier built for a header is a 29-bit number that means exactly this header and parses back to it;
    the pseudo node ID used for anonymous messages is not one of the two reserved for diagnostics. *)
Theorem C13_can_id_round_trip : forall h payload,
  can_header_ok h ->
  exists id, make_can_id h payload = Ok id /\ id < 2 ^ 29 /\ id_means id h /\
    parse_can_id id (h_ts h) (h_tid h) = Ok (Some h) /\
    (h_source h = None -> bits_at id 0 7 < 126).
Proof.
  intros h payload H. exists (can_id_value h payload). split; [apply make_can_id_spec, H|].
  pose proof (can_id_value_bound h payload H) as Hb. pose proof (can_id_value_means h payload H) as Hm.
  split; [assumption|]. split; [assumption|]. split; [apply parse_can_id_iff; auto|].
  intro Hs. destruct h as [m|s|s]; try discriminate. cbn [h_source] in Hs. unfold can_id_value, h_src_id, bits_at. cbn [h_source].
  rewrite Hs. pose proof (pseudo_id_bound payload) as Hp.
  replace (make_pseudo_id payload + mh_subject m * 2 ^ 8 + 3 * 2 ^ 21 + 1 * 2 ^ 24 + mh_prio m * 2 ^ 26)
    with (make_pseudo_id payload + (mh_subject m * 2 + 3 * 2 ^ 14 + 2 ^ 17 + mh_prio m * 2 ^ 19) * 2 ^ 7)
    by (change (2 ^ 8) with 256; change (2 ^ 21) with 2097152; change (2 ^ 24) with 16777216; change (2 ^ 26) with 67108864;
        change (2 ^ 14) with 16384; change (2 ^ 17) with 131072; change (2 ^ 19) with 524288; change (2 ^ 7) with 128; lia).
  change (2 ^ 0) with 1. rewrite N.div_1_r, N.mod_add by discriminate. rewrite N.mod_small; [lia|]. change (2 ^ 7) with 128. lia.
Qed.
Print Assumptions C13_can_id_round_trip.

(** C13: two non-anonymous headers that get the same identifier differ at most in time stamp and transfer ID. *)
Theorem C13_can_id_injective : forall h1 h2 p1 p2 id,
  can_header_ok h1 -> can_header_ok h2 -> h_source h1 <> None -> h_source h2 <> None ->
  make_can_id h1 p1 = Ok id -> make_can_id h2 p2 = Ok id ->
  h_port h1 = h_port h2 /\ h_prio h1 = h_prio h2 /\ h_source h1 = h_source h2 /\ h_dest h1 = h_dest h2.
Proof.
  intros h1 h2 p1 p2 id H1 H2 S1 S2 E1 E2. rewrite make_can_id_spec in E1, E2 by assumption.
  assert (E1' : can_id_value h1 p1 = id) by congruence. assert (E2' : can_id_value h2 p2 = id) by congruence.
  pose proof (can_id_value_means h1 p1 H1) as M1. pose proof (can_id_value_means h2 p2 H2) as M2. rewrite E1' in M1. rewrite E2' in M2.
  pose proof (can_id_value_bound h1 p1 H1) as B. rewrite E1' in B.
  assert (P1 : parse_can_id id 0 0 = Ok (Some (set_ts_tid h1 0 0))).
  { apply parse_can_id_iff; [assumption|]. split; [destruct h1; exact M1|]. destruct h1; split; reflexivity. }
  assert (P2 : parse_can_id id 0 0 = Ok (Some (set_ts_tid h2 0 0))).
  { apply parse_can_id_iff; [assumption|]. split; [destruct h2; exact M2|]. destruct h2; split; reflexivity. }
  rewrite P1 in P2. assert (E : set_ts_tid h1 0 0 = set_ts_tid h2 0 0) by congruence.
  destruct h1 as [[]|[]|[]], h2 as [[]|[]|[]]; cbn in E; try discriminate; injection E; intros; subst; repeat split.
Qed.
Print Assumptions C13_can_id_injective.

Example C13_witness :
  can_header_ok (HReq (SvcH 9 31 7 511 127 126)) /\ can_header_ok (HMsg (MsgH 9 0 0 8191 None)) /\
  make_can_id (HReq (SvcH 9 31 7 511 127 126)) [] = Ok 0x1f7fff7f /\
  make_can_id (HMsg (MsgH 9 0 0 8191 None)) [0x2a] = Ok 0x017fff7d /\
  make_can_id (HMsg (MsgH 0 0 4 4919 (Some 59))) [] = Ok 0x1073373b.
Proof. repeat split; try (vm_compute; congruence). Qed.

(** C14: every 29-bit identifier is parsed or rejected without a panic; it is rejected exactly when reserved bit 23 is
    set, or reserved bit 7 of a message; otherwise the header is the one the identifier means, with fields in range. *)
Theorem C14_can_id_parse_total : forall id ts tid,
  id < 2 ^ 29 -> ts < 2 ^ 32 -> tid <= 31 ->
  exists r, parse_can_id id ts tid = Ok r /\
    (r = None <-> bits_at id 23 1 = 1 \/ (bits_at id 25 1 = 0 /\ bits_at id 7 1 = 1)) /\
    (forall h, r = Some h <-> id_means id h /\ h_ts h = ts /\ h_tid h = tid) /\
    (forall h, r = Some h -> can_header_ok h).
Proof.
  intros id ts tid Hid Hts Htid. destruct (parse_can_id_total id ts tid Hid) as (r & E & Hr). exists r.
  split; [assumption|]. split; [assumption|]. split.
  - intro h. rewrite <- parse_can_id_iff by assumption. rewrite E. split; [intros ->; reflexivity|congruence].
  - intros h ->. eapply parse_ok_fields; eauto.
Qed.
Print Assumptions C14_can_id_parse_total.

Example C14_witness :
  parse_can_id 0x1073373b 5 6 = Ok (Some (HMsg (MsgH 5 6 4 4919 (Some 59)))) /\
  parse_can_id 0x10f3373b 5 6 = Ok None /\ parse_can_id 0x107337bb 5 6 = Ok None /\
  parse_can_id 0x136b957b 0 1 = Ok (Some (HReq (SvcH 0 1 4 430 123 42))).
Proof. repeat split; vm_compute; reflexivity. Qed.

(** The frames a node with the given ID wants because of a subscription: those whose identifier parses to the port and,
    for services, is addressed to the node. *)
Definition wanted (local : option N) (p : port) (id : N) : Prop :=
  exists h, id_means id h /\ h_port h = p /\ (h_dest h = None \/ (h_dest h = local /\ local <> None)).
Definition port_ok (p : port) : Prop := match p with PMsg s => s <= 8191 | PReq s | PResp s => s <= 511 end.
Definition node_ok (local : option N) : Prop := forall n, local = Some n -> n <= 127.

(** C28: the filter generated for a subscription accepts exactly the identifiers wanted; there is none (and nothing is
    wanted) for services on an anonymous node. *)
Theorem C28_filter_exact : forall p local,
  port_ok p -> node_ok local ->
  match make_filter p local with
  | Some f => forall id, id < 2 ^ 29 -> (accepts f id = true <-> wanted local p id)
  | None => forall id, ~ wanted local p id
  end.
Proof.
  assert (Hprio : forall id, bits_at id 26 3 = bits_at id 26 3) by reflexivity.
  intros p local Hp Hn. destruct p as [s|s|s]; cbn [make_filter].
  - intros id Hid. rewrite subject_filter_spec by assumption. split.
    + intros (H1 & H2 & H3 & H4).
      assert (H24 : bits_at id 24 1 = 0 \/ bits_at id 24 1 = 1) by apply mod2_cases.
      destruct H24 as [H24|H24].
      * exists (HMsg (MsgH 0 0 (bits_at id 26 3) s (Some (bits_at id 0 7)))). repeat split; auto.
      * exists (HMsg (MsgH 0 0 (bits_at id 26 3) s None)). repeat split; auto.
    + intros (h & (M1 & M2 & M3) & Hport & _). destruct h as [m|x|x]; try discriminate. injection Hport as Hport.
      destruct M3 as (? & ? & ? & _). repeat split; congruence.
  - destruct local as [n|]; cbn [option_map].
    + intros id Hid. rewrite (service_filter_spec true s n id Hp (Hn n eq_refl)). split.
      * intros (H1 & H2 & H3 & H4 & H5). exists (HReq (SvcH 0 0 (bits_at id 26 3) s (bits_at id 0 7) n)). repeat split; auto.
        right. split; [reflexivity|discriminate].
      * intros (h & (M1 & M2 & M3) & Hport & Hd). destruct h as [m|x|x]; try discriminate. injection Hport as Hport.
        destruct M3 as (? & ? & ? & ? & _). destruct Hd as [Hd|(Hd & _)]; [discriminate|]. injection Hd as Hd. repeat split; cbn; congruence.
    + intros id (h & _ & Hport & Hd). destruct h as [m|x|x]; try discriminate. destruct Hd as [Hd|(_ & Hd)]; [discriminate|congruence].
  - destruct local as [n|]; cbn [option_map].
    + intros id Hid. rewrite (service_filter_spec false s n id Hp (Hn n eq_refl)). split.
      * intros (H1 & H2 & H3 & H4 & H5). exists (HResp (SvcH 0 0 (bits_at id 26 3) s (bits_at id 0 7) n)). repeat split; auto.
        right. split; [reflexivity|discriminate].
      * intros (h & (M1 & M2 & M3) & Hport & Hd). destruct h as [m|x|x]; try discriminate. injection Hport as Hport.
        destruct M3 as (? & ? & ? & ? & _). destruct Hd as [Hd|(Hd & _)]; [discriminate|]. injection Hd as Hd. repeat split; cbn; congruence.
    + intros id (h & _ & Hport & Hd). destruct h as [m|x|x]; try discriminate. destruct Hd as [Hd|(_ & Hd)]; [discriminate|congruence].
Qed.
Print Assumptions C28_filter_exact.

Example C28_witness :
  accepts (subject_filter 4919) 0x1073373b = true /\ accepts (subject_filter 4918) 0x1073373b = false /\
  accepts (request_filter 430 42) 0x136b957b = true /\ accepts (response_filter 430 42) 0x136b957b = false /\
  accepts (request_filter 430 43) 0x136b957b = false /\ accepts (subject_filter 4919) 0x10f3373b = false.
Proof. repeat split; vm_compute; reflexivity. Qed.

(** C29: reducing any list of filters to at most [max] (at least one) never panics (the debug assertions included) and
    gives min(length, max) filters that together accept every identifier accepted before; a list that fits is returned
    unchanged.  [mask, id] are arbitrary arguments of [Filter::new]. *)
Theorem C29_optimize_covers : forall (specs : list (N * N)) max,
  (1 <= max)%nat ->
  let l := map (fun '(mask, id) => filter_new mask id) specs in
  exists out, optimize l max = Ok out /\
    length out = Nat.min (length l) max /\
    (forall id f, In f l -> accepts f id = true -> exists f', In f' out /\ accepts f' id = true) /\
    ((length l <= max)%nat -> out = l).
Proof.
  intros specs max Hm l.
  assert (Hl : Forall (fun f => is_valid f = true) l).
  { apply Forall_forall. intros f Hf. apply in_map_iff in Hf as ((a, b) & <- & _). apply filter_new_wf. }
  destruct (optimize_spec l max ltac:(lia) Hl) as (out & E & Hlen & _ & Hc & Hid). exists out. do 2 (split; [assumption|]). split; [|assumption].
  intros id f Hf Ha. destruct (Hc id) as (f' & ? & _ & ?); [|eauto]. exists f. rewrite Forall_forall in Hl. auto.
Qed.
Print Assumptions C29_optimize_covers.

(** C29: each merge picks, among all pairs of remaining filters, one whose merged mask keeps the most bits. *)
Theorem C29_greedy_choice : forall l i j f g,
  nth_error l i = Some f -> nth_error l j = Some g -> i <> j -> is_valid f = true -> is_valid g = true ->
  exists a b fa fb, pick l = (a, b) /\ (a < b)%nat /\ nth_error l a = Some fa /\ nth_error l b = Some fb /\
    is_valid fa = true /\ is_valid fb = true /\
    merge_step l = fset (fset l a (merge fa fb)) b invalid /\
    (rank (merge f g) <= rank (merge fa fb))%nat.
Proof.
  assert (Hsym : forall f g, rank (merge f g) = rank (merge g f)).
  { intros f g. unfold rank, merge, filter_new, merge_masks. cbn [fl_mask]. do 2 f_equal.
    rewrite (N.land_comm (fl_mask f)), (N.lxor_comm (filter_id f)). reflexivity. }
  assert (Hget : forall l i f, nth_error l i = Some f -> fget l i = f /\ (i < length l)%nat).
  { intros l i f H. split; [unfold fget; apply nth_error_nth; assumption|]. apply nth_error_Some. congruence. }
  assert (Hnth : forall l i, (i < length l)%nat -> nth_error l i = Some (fget l i)).
  { intros l i H. unfold fget. apply nth_error_nth'. assumption. }
  intros l i j f g Hi Hj Hne Hf Hg. destruct (Hget _ _ _ Hi) as (Ei & Li). destruct (Hget _ _ _ Hj) as (Ej & Lj).
  assert (H2 : (2 <= valid_count l)%nat).
  { pose proof (vc_fset l i invalid Li) as E1. pose proof (vc_fset (fset l i invalid) j invalid ltac:(rewrite fset_length; lia)) as E2.
    rewrite fget_fset in E2 by lia. replace (i =? j)%nat with false in E2 by (symmetry; apply Nat.eqb_neq; lia).
    rewrite Ei, Hf in E1. rewrite Ej, Hg in E2. change (is_valid invalid) with false in *. cbn [Nat.b2n] in *. lia. }
  destruct (pick_spec l H2) as (Hab & (Va & Vb) & Hmax). destruct (pick l) as [a b] eqn:Ep. cbn [fst snd] in *.
  exists a, b, (fget l a), (fget l b). split; [reflexivity|]. split; [lia|]. split; [apply Hnth; lia|]. split; [apply Hnth; lia|].
  split; [assumption|]. split; [assumption|]. split; [unfold merge_step; rewrite Ep; reflexivity|].
  destruct (Nat.lt_total i j) as [Hlt|[Heq|Hgt]]; [|congruence|].
  - specialize (Hmax i j ltac:(lia)). unfold valid_pair, pair_rank in Hmax. cbn [fst snd] in Hmax. rewrite Ei, Ej in Hmax. auto.
  - specialize (Hmax j i ltac:(lia)). unfold valid_pair, pair_rank in Hmax. cbn [fst snd] in Hmax. rewrite Ei, Ej in Hmax. rewrite Hsym. auto.
Qed.
Print Assumptions C29_greedy_choice.

(** C28 + C29: whatever the number of hardware filters, the filters computed for a node's subscriptions let through every
    frame the node wants. *)
Theorem C29_subscriptions_not_blocked : forall local ps max alloc fs,
  Forall port_ok ps -> node_ok local -> (1 <= max)%nat ->
  optimize_filters local ps max alloc = Ok (Some fs) ->
  (length fs <= max)%nat /\
  forall p id, In p ps -> id < 2 ^ 29 -> wanted local p id -> exists f, In f fs /\ accepts f id = true.
Proof.
  intros local ps max alloc fs Hps Hn Hmax. unfold optimize_filters. generalize O as n0. intro n0.
  destruct (make_filters ps local alloc n0) as [l|] eqn:E; [|discriminate].
  assert (Hl : Forall (fun f => is_valid f = true) l /\ forall p f, In p ps -> make_filter p local = Some f -> In f l).
  { revert n0 l E. induction Hps as [|p ps Hp _ IH]; intros n0 l; cbn [make_filters].
    - intro E. injection E as <-. split; [constructor|]. intros ? ? [].
    - destruct (make_filter p local) as [f|] eqn:Ef.
      + destruct (alloc n0); [|discriminate]. destruct (make_filters ps local alloc (S n0)) as [l'|] eqn:El; [|discriminate].
        cbn [option_map]. intro E. injection E as <-. destruct (IH _ _ El) as (Ha & Hb). split.
        * constructor; [|assumption]. destruct p, local; cbn in Ef; try discriminate; injection Ef as <-; apply filter_new_wf.
        * intros p' f' [<-|Hin] E'; [left; congruence|right; eauto].
      + intro E. destruct (IH _ _ E) as (Ha & Hb). split; [assumption|]. intros p' f' [<-|Hin] E'; [congruence|eauto]. }
  destruct Hl as (Hv & Hin). destruct (optimize_spec l max ltac:(lia) Hv) as (out & Eo & Hlen & _ & Hc & _).
  rewrite Eo. intro E'. injection E' as <-. split; [lia|]. intros p id Hp Hid Hw.
  rewrite Forall_forall in Hps. pose proof (C28_filter_exact p local (Hps p Hp) Hn) as Hex.
  destruct (make_filter p local) as [f|] eqn:Ef; [|destruct (Hex id Hw)].
  destruct (Hc id) as (f' & ? & _ & ?); [|eauto]. exists f. rewrite Forall_forall in Hv. split; [eauto|]. split; [eauto|]. apply Hex; assumption.
Qed.
Print Assumptions C29_subscriptions_not_blocked.

Example C29_witness :
  let l := [filter_exact 0x107d552a; filter_exact 0x11733775; filter_exact 0x136b957b; filter_exact 0x126bbdaa; filter_exact 0x1073373b] in
  (exists out, optimize l 2 = Ok out /\ length out = 2%nat /\ existsb (fun f => accepts f 0x11733775) out = true /\
     existsb (fun f => accepts f 0x000002aa) out = false) /\
  optimize l 0 = Ok [] /\
  (exists fs, optimize_filters (Some 42) [PMsg 4919; PReq 430; PResp 430; PMsg 7] 2 (fun _ => true) = Ok (Some fs) /\ length fs = 2%nat).
Proof.
  cbv zeta. split; [eexists; split; [vm_compute; reflexivity|repeat split; vm_compute; reflexivity]|].
  split; [reflexivity|]. eexists; split; vm_compute; reflexivity.
Qed.

(** C29: the slice that [optimize] leaves behind must not be used again: with an invalid (used up) filter in it, the loop
    counts that filter as one to merge and (in debug builds) fails an assertion. *)
Theorem C29_reoptimize_refuted :
  exists a b, optimize [a; b] 1 <> Panic /\
    match merge_filters [a; b] 1 with Ok rest => optimize rest 1 = Panic | Panic => False end.
Proof. exists (filter_exact 1), (filter_exact 2). split; [vm_compute; discriminate|vm_compute; reflexivity]. Qed.
Print Assumptions C29_reoptimize_refuted.
