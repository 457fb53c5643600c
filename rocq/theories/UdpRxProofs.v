(** Proofs about the UDP receiver. *)
From Verif Require Import Base BitLemmas CrcModel CrcProofs CoreModel TabModel TabProofs HeaderModel HeaderSpec HeaderProofs UdpModel UdpSpec.
Ltac Zify.zify_post_hook ::= Z.div_mod_to_equations.

(** ** Feeding bytes through the CRC tracker *)

Lemma feed_run cap bs : forall crc pl, (length pl <= cap)%nat ->
  feed cap crc pl bs = (fst (tracker_run crc bs), pl ++ firstn (cap - length pl) (snd (tracker_run crc bs))).
Proof.
  induction bs as [|b bs IH]; intros crc pl Hl; cbn [feed tracker_run].
  - cbn [fst snd]. rewrite firstn_nil, app_nil_r. reflexivity.
  - destruct (tracker_digest crc b) as [crc' o]. destruct o as [x|].
    + destruct (Nat.ltb_spec (length pl) cap) as [H|H].
      * rewrite IH by (rewrite app_length; cbn [length]; lia). destruct (tracker_run crc' bs) as [t out]. cbn [fst snd].
        rewrite app_length. cbn [length]. replace (cap - length pl)%nat with (S (cap - (length pl + 1))) by lia. cbn [firstn]. rewrite <- app_assoc. reflexivity.
      * rewrite IH by assumption. destruct (tracker_run crc' bs) as [t out]. cbn [fst snd]. replace (cap - length pl)%nat with O by lia. reflexivity.
    + rewrite IH by assumption. destruct (tracker_run crc' bs) as [t out]. reflexivity.
Qed.

Lemma feed_app cap a : forall crc pl b, feed cap crc pl (a ++ b) = let (c, p) := feed cap crc pl a in feed cap c p b.
Proof.
  induction a as [|x a IH]; intros crc pl b; cbn [feed app]; [reflexivity|]. destruct (tracker_digest crc x) as [crc' o]. apply IH.
Qed.

Lemma feed_spec cap bs : bytes_ok bs ->
  (tracker_correct (fst (feed cap tracker_new [] bs)) = true <-> exists data, bs = data ++ le_bytes 4 (crc32 data)) /\
  snd (feed cap tracker_new [] bs) = firstn cap (firstn (length bs - 4) bs).
Proof.
  intro Hb. rewrite feed_run by (cbn [length]; lia). cbn [length app]. rewrite Nat.sub_0_r.
  pose proof (tracker_spec bs Hb) as H. destruct (tracker_run tracker_new bs) as [t out]. destruct H as (-> & H). cbn [fst snd]. auto.
Qed.

Lemma firstn_data data : firstn (length (data ++ le_bytes 4 (crc32 data)) - 4) (data ++ le_bytes 4 (crc32 data)) = data.
Proof.
  rewrite app_length. change (length (le_bytes 4 (crc32 data))) with 4%nat. rewrite Nat.add_sub, firstn_app, Nat.sub_diag, firstn_O, app_nil_r. apply firstn_all.
Qed.

Lemma feed_good cap data : bytes_ok (data ++ le_bytes 4 (crc32 data)) ->
  feed cap tracker_new [] (data ++ le_bytes 4 (crc32 data)) = (fst (feed cap tracker_new [] (data ++ le_bytes 4 (crc32 data))), firstn cap data) /\
  tracker_correct (fst (feed cap tracker_new [] (data ++ le_bytes 4 (crc32 data)))) = true.
Proof.
  intro Hb. destruct (feed_spec cap _ Hb) as (Hc & Hp). rewrite firstn_data in Hp. split.
  - rewrite <- Hp. apply surjective_pairing.
  - apply Hc. eauto.
Qed.

(** ** Channels *)

Definition chan (r : urx) (p : port) (s : N) : option (nat * N * option usession) :=
  match subs_find p (ur_subs r) with Some su => Some (us_max su, us_timeout su, us_sessions su s) | None => None end.

(** what a datagram does to the session of its source *)
Definition chan_frame (max : nat) (timeout : N) (se : option usession) (h : fheader) (bs : list N) (now : N) (palloc salloc : bool)
  : res (option usession * uout) :=
  match se, salloc with
  | None, false => Ok (None, UMemory)
  | s, _ =>
      match session_for s h now timeout with
      | Panic => Panic
      | Ok None => Ok (s, UNone)
      | Ok (Some a) =>
          let (a', r) := session_frame a h bs max palloc in
          match r with
          | HDone payload => Ok (Some (UComplete (a_time a) (a_tid a)), UDeliver (convert_result payload h (a_time a)))
          | HMore => Ok (Some (UActive a'), UNone)
          | HMemory | HErr => Ok (None, UNone)
          end
      end
  end.

Lemma sub_frame_chan su src h bs now pa sa :
  match chan_frame (us_max su) (us_timeout su) (us_sessions su src) h bs now pa sa with
  | Panic => sub_frame su src h bs now pa sa = Panic
  | Ok (se', o) => exists su', sub_frame su src h bs now pa sa = Ok (su', o) /\ us_max su' = us_max su /\ us_timeout su' = us_timeout su /\
      us_sessions su' src = se' /\ forall k, k <> src -> us_sessions su' k = us_sessions su k
  end.
Proof.
  unfold chan_frame, sub_frame.
  assert (Hset : forall v, let su' := USubscription (us_max su) (us_timeout su) (sess_set (us_sessions su) src v) in
     us_max su' = us_max su /\ us_timeout su' = us_timeout su /\ us_sessions su' src = v /\ forall k, k <> src -> us_sessions su' k = us_sessions su k).
  { intro v. cbn [us_max us_timeout us_sessions]. unfold sess_set. rewrite N.eqb_refl. do 3 (split; [reflexivity|]).
    intros k Hk. destruct (N.eqb_spec src k); [congruence|reflexivity]. }
  destruct (us_sessions su src) as [se|] eqn:Ese.
  - destruct (session_for (Some se) h now (us_timeout su)) as [[a|]|]; [|exists su; auto|reflexivity].
    destruct (session_frame a h bs (us_max su) pa) as [a' []]; eexists; (split; [reflexivity|apply Hset]).
  - destruct sa; [|exists su; auto].
    destruct (session_for None h now (us_timeout su)) as [[a|]|]; [|exists su; auto|reflexivity].
    destruct (session_frame a h bs (us_max su) pa) as [a' []]; eexists; (split; [reflexivity|apply Hset]).
Qed.

Lemma as_core_port f ts : h_port (as_core_header f ts) = dspec_port (fh_spec f).
Proof. unfold as_core_header. destruct (fh_spec f); reflexivity. Qed.
Lemma as_core_source f ts : h_source (as_core_header f ts) = dspec_source (fh_spec f).
Proof. unfold as_core_header. destruct (fh_spec f); reflexivity. Qed.
Lemma as_core_tid f ts : h_tid (as_core_header f ts) = fh_tid f.
Proof. unfold as_core_header. destruct (fh_spec f); reflexivity. Qed.
Lemma as_core_ts f ts : h_ts (as_core_header f ts) = ts.
Proof. unfold as_core_header. destruct (fh_spec f); reflexivity. Qed.

Lemma is_fromb_spec p s f : is_fromb p s f = true <-> dspec_port (fh_spec f) = p /\ dspec_source (fh_spec f) = Some s.
Proof.
  unfold is_fromb. rewrite as_core_port, as_core_source. rewrite andb_true_iff. destruct (port_eqb_spec (dspec_port (fh_spec f)) p) as [E|E].
  - destruct (dspec_source (fh_spec f)) as [s'|]; [|intuition discriminate]. rewrite N.eqb_eq. intuition congruence.
  - intuition congruence.
Qed.

(** the anonymous case *)
Definition anon_frame (max : nat) (h : fheader) (bs : list N) (now : N) (palloc : bool) : uout :=
  match snd (session_frame (Act now (fh_tid h) None) h bs max palloc) with
  | HDone payload => UDeliver (convert_result payload h now)
  | HMore => UNone | HMemory => UMemory | HErr => UNone
  end.

Definition sub_at (r : urx) (p : port) : option (nat * N) :=
  match subs_find p (ur_subs r) with Some su => Some (us_max su, us_timeout su) | None => None end.

Lemma accept_chan mtu r d now pa sa :
  match parsed mtu d with
  | None => udp_accept mtu r d now pa sa = Ok (r, UNone)
  | Some (f, body) =>
      let p := dspec_port (fh_spec f) in
      match sub_at r p with
      | None => udp_accept mtu r d now pa sa = Ok (r, UNone)
      | Some (max, timeout) =>
          match dspec_source (fh_spec f) with
          | None => exists r', udp_accept mtu r d now pa sa = Ok (r', anon_frame max f body now pa) /\ ur_node r' = ur_node r /\
                      (forall q s, chan r' q s = chan r q s)
          | Some src =>
              exists se, chan r p src = Some (max, timeout, se) /\
              match chan_frame max timeout se f body now pa sa with
              | Panic => udp_accept mtu r d now pa sa = Panic
              | Ok (se', o) => exists r', udp_accept mtu r d now pa sa = Ok (r', o) /\ ur_node r' = ur_node r /\
                  forall q s, chan r' q s = if is_fromb q s f then Some (max, timeout, se') else chan r q s
              end
          end
      end
  end.
Proof.
  unfold parsed, udp_accept. change MIN_PACKET_SIZE with 28%nat. change SIZE with 24%nat.
  destruct (length (firstn mtu d) <? 28)%nat; [reflexivity|]. destruct (header_decode (firstn 24 (firstn mtu d))) as [f|]; [|reflexivity].
  set (body := skipn 24 (firstn mtu d)). cbv zeta. unfold sub_at. destruct (subs_find (dspec_port (fh_spec f)) (ur_subs r)) as [su|] eqn:Es; [|reflexivity].
  unfold sub_handle. destruct (dspec_source (fh_spec f)) as [src|] eqn:Esrc.
  - exists (us_sessions su src). split; [unfold chan; rewrite Es; reflexivity|].
    pose proof (sub_frame_chan su src f body now pa sa) as H. destruct (chan_frame _ _ _ _ _ _ _ _) as [[se' o]|].
    + destruct H as (su' & -> & H1 & H2 & H3 & H4). eexists. split; [reflexivity|]. split; [reflexivity|]. intros q s. unfold chan. cbn [ur_subs].
      rewrite subs_update_spec. destruct (is_fromb q s f) eqn:Ef.
      * apply is_fromb_spec in Ef as (<- & E). rewrite Esrc in E. injection E as <-. destruct (port_eqb_spec (dspec_port (fh_spec f)) (dspec_port (fh_spec f))); [|congruence].
        rewrite Es. cbn [option_map]. rewrite H1, H2, H3. reflexivity.
      * destruct (port_eqb_spec (dspec_port (fh_spec f)) q) as [E|E]; [|reflexivity]. subst q. rewrite Es. cbn [option_map]. rewrite H1, H2.
        rewrite H4; [reflexivity|]. intros ->. assert (is_fromb (dspec_port (fh_spec f)) src f = true) by (apply is_fromb_spec; auto). congruence.
    + rewrite H. reflexivity.
  - unfold anon_frame. destruct (session_frame _ f body (us_max su) pa) as [a' r0]. cbn [snd]. eexists. split; [destruct r0; reflexivity|]. split; [destruct r0; reflexivity|].
    intros q s. unfold chan. destruct r0; cbn [ur_subs]; rewrite subs_update_spec; (destruct (port_eqb_spec (dspec_port (fh_spec f)) q) as [E|E]; [|reflexivity]; subst q; rewrite Es; reflexivity).
Qed.

(** ** Subscription changes *)

Definition subs_sorted (t : subs usub) : Prop := sorted (sb_msg t) /\ sorted (sb_req t) /\ sorted (sb_resp t).

Lemma subs_put_spec p su t : subs_sorted t ->
  subs_sorted (subs_put p su t) /\ forall q, subs_find q (subs_put p su t) = if port_eqb p q then Some su else subs_find q t.
Proof.
  intros (H1 & H2 & H3). unfold subs_sorted. destruct p as [k|k|k]; cbn [subs_put sb_msg sb_req sb_resp].
  - destruct (bt_insert_spec k su _ H1) as (Ha & Hb). split; [auto|]. intros [q|q|q]; cbn [subs_find sb_msg sb_req sb_resp port_eqb]; auto.
  - destruct (bt_insert_spec k su _ H2) as (Ha & Hb). split; [auto|]. intros [q|q|q]; cbn [subs_find sb_msg sb_req sb_resp port_eqb]; auto.
  - destruct (bt_insert_spec k su _ H3) as (Ha & Hb). split; [auto|]. intros [q|q|q]; cbn [subs_find sb_msg sb_req sb_resp port_eqb]; auto.
Qed.
Lemma subs_drop_spec p t : subs_sorted t ->
  subs_sorted (subs_drop p t) /\ forall q, subs_find q (subs_drop p t) = if port_eqb p q then None else subs_find q t.
Proof.
  intros (H1 & H2 & H3). unfold subs_sorted. destruct p as [k|k|k]; cbn [subs_drop sb_msg sb_req sb_resp].
  - destruct (bt_remove_spec k _ H1) as (Ha & Hb). split; [auto|]. intros [q|q|q]; cbn [subs_find sb_msg sb_req sb_resp port_eqb]; auto.
  - destruct (bt_remove_spec k _ H2) as (Ha & Hb). split; [auto|]. intros [q|q|q]; cbn [subs_find sb_msg sb_req sb_resp port_eqb]; auto.
  - destruct (bt_remove_spec k _ H3) as (Ha & Hb). split; [auto|]. intros [q|q|q]; cbn [subs_find sb_msg sb_req sb_resp port_eqb]; auto.
Qed.

Lemma sorted_keys (a b : list (N * usub)) : map fst a = map fst b -> sorted a -> sorted b.
Proof.
  revert b. induction a as [|[k s] a IH]; intros [|[k' s'] b] E; try discriminate; [auto|]. cbn [map fst] in E. injection E as <- E. cbn [sorted].
  intros (H & Hs). rewrite <- E. split; [assumption|]. eauto.
Qed.

Lemma subs_update_sorted p f (t : subs usub) : subs_sorted t -> subs_sorted (subs_update p f t).
Proof.
  unfold subs_sorted. intros (H1 & H2 & H3). destruct p; cbn [subs_update sb_msg sb_req sb_resp]; repeat split; auto;
    (eapply sorted_keys; [symmetry; apply update_keys|assumption]).
Qed.

Lemma udp_accept_sorted mtu r d now pa sa r' o : subs_sorted (ur_subs r) -> udp_accept mtu r d now pa sa = Ok (r', o) -> subs_sorted (ur_subs r').
Proof.
  intro Hs. unfold udp_accept. destruct (length (firstn mtu d) <? MIN_PACKET_SIZE)%nat; [intro E; injection E as <- _; assumption|].
  destruct (header_decode _) as [f|]; [|intro E; injection E as <- _; assumption].
  destruct (subs_find _ _) as [su|]; [|intro E; injection E as <- _; assumption].
  destruct (sub_handle _ _ _ _ _ _) as [[su' o']|]; [|discriminate]. intro E. injection E as <- _. cbn [ur_subs]. apply subs_update_sorted. assumption.
Qed.

(** ** The invariant of a session *)

Notation heard_t := (list (N * (fheader * list N))).
Definition bodies (fs : heard_t) : list N := concat (map (fun x => snd (snd x)) fs).

(** the buildup [b] holds the datagrams [fs] *)
Definition holds (max : nat) (b : buildup) (f0 : fheader) (fs : heard_t) : Prop :=
  bu_cap b = max /\ (bu_crc b, bu_bytes b) = feed max tracker_new [] (bodies fs) /\
  bu_next b = fh_index f0 + N.of_nat (length fs) /\ bu_prio b = fh_prio f0 /\ bu_tid b = fh_tid f0 /\
  forall i t f body, nth_error fs i = Some (t, (f, body)) ->
    fh_index f = fh_index f0 + N.of_nat i /\ fh_prio f = fh_prio f0 /\ fh_tid f = fh_tid f0 /\ ((0 < i)%nat -> fh_last f = false).

Definition sess_ok (max : nat) (hs : heard_t) (se : option usession) : Prop :=
  match se with
  | None => True
  | Some (UComplete time tid) => exists f body, In (time, (f, body)) hs /\ fh_tid f = tid
  | Some (UActive a) => exists pre f0 b0 rest b, hs = pre ++ (a_time a, (f0, b0)) :: rest /\ a_tid a = fh_tid f0 /\ a_bu a = Some b /\
      single f0 = false /\ holds max b f0 ((a_time a, (f0, b0)) :: rest)
  end.

Definition parsed_ok (f : fheader) (body : list N) : Prop := bytes_ok body /\ (4 <= length body)%nat.

Lemma bytes_ok_firstn n l : bytes_ok l -> bytes_ok (firstn n l).
Proof. intro H. revert n. induction H as [|b l Hb _ IH]; intros [|n]; cbn [firstn]; constructor; [assumption|apply IH]. Qed.
Lemma bytes_ok_skipn n l : bytes_ok l -> bytes_ok (skipn n l).
Proof. intro H. revert n. induction H as [|b l Hb Hl IH]; intros [|n]; cbn [skipn]; [constructor|constructor|constructor; assumption|apply IH]. Qed.

Lemma parsed_spec mtu d f body : bytes_ok d -> parsed mtu d = Some (f, body) ->
  parsed_ok f body /\ fheader_ok f /\ firstn mtu d = firstn 24 d ++ body /\ header_decode (firstn 24 d) = Some f /\ length (firstn 24 d) = 24%nat.
Proof.
  intros Hb. unfold parsed. destruct (Nat.ltb_spec (length (firstn mtu d)) 28) as [|Hl]; [discriminate|].
  rewrite firstn_length in Hl. rewrite firstn_firstn. replace (Nat.min 24 mtu) with 24%nat by lia.
  destruct (header_decode (firstn 24 d)) as [f'|] eqn:Ed; [|discriminate]. intro E. assert (f' = f) by congruence. assert (Eb : body = skipn 24 (firstn mtu d)) by congruence. rewrite Eb. clear E Eb. subst f'.
  assert (Hl24 : length (firstn 24 d) = 24%nat) by (rewrite firstn_length; lia).
  split; [split; [apply bytes_ok_skipn, bytes_ok_firstn, Hb|rewrite skipn_length, firstn_length; lia]|].
  split; [eapply header_decode_ok; [| |eassumption]; [apply bytes_ok_firstn, Hb|assumption]|].
  split; [|auto]. rewrite <- (firstn_skipn 24 (firstn mtu d)) at 1. rewrite firstn_firstn. replace (Nat.min 24 mtu) with 24%nat by lia. reflexivity.
Qed.

Lemma bodies_snoc fs x : bodies (fs ++ [x]) = bodies fs ++ snd (snd x).
Proof. unfold bodies. rewrite map_app, concat_app. cbn [map concat]. rewrite app_nil_r. reflexivity. Qed.

(** adding a datagram to a buildup *)
Lemma bu_push_holds max b f0 fs now f body : holds max b f0 fs -> fs <> [] ->
  match bu_push b f body with
  | None => True
  | Some b' => (fh_last f = false -> holds max b' f0 (fs ++ [(now, (f, body))])) /\
      (bu_crc b', bu_bytes b') = feed max tracker_new [] (bodies (fs ++ [(now, (f, body))])) /\
      fh_index f = fh_index f0 + N.of_nat (length fs) /\ fh_prio f = fh_prio f0 /\ fh_tid f = fh_tid f0
  end.
Proof.
  intros (H1 & H2 & H3 & H4 & H5 & H6) Hne. unfold bu_push.
  destruct (N.eqb_spec (fh_index f) (bu_next b)) as [E1|]; cbn [negb]; [|exact I].
  destruct (N.eqb_spec (fh_tid f) (bu_tid b)) as [E2|]; cbn [negb]; [|exact I].
  destruct (N.eqb_spec (fh_prio f) (bu_prio b)) as [E3|]; cbn [negb]; [|exact I].
  assert (Hfeed : feed (bu_cap b) (bu_crc b) (bu_bytes b) body = feed max tracker_new [] (bodies (fs ++ [(now, (f, body))]))).
  { rewrite bodies_snoc, feed_app, <- H2, H1. reflexivity. }
  rewrite Hfeed. destruct (feed max tracker_new [] (bodies (fs ++ [(now, (f, body))]))) as [c pl] eqn:Ef.
  cbn [bu_crc bu_bytes]. split; [|repeat split; congruence].
  intro Hlast. unfold holds. cbn [bu_cap bu_crc bu_bytes bu_next bu_prio bu_tid]. rewrite Ef, app_length. cbn [length].
  do 2 (split; [auto|]). split; [lia|]. do 2 (split; [auto|]).
  intros i t g bd Hi. destruct (Nat.lt_ge_cases i (length fs)) as [Hlt|Hge].
  - rewrite nth_error_app1 in Hi by assumption. eauto.
  - rewrite nth_error_app2 in Hi by assumption. destruct (i - length fs)%nat as [|k] eqn:Ek; [|destruct k; discriminate Hi].
    cbn [nth_error] in Hi. injection Hi as <- <- <-. assert (i = length fs) by lia. subst i. repeat split; try congruence.
Qed.

Lemma bu_new_holds max f now body : holds max (bu_new f body max) f [(now, (f, body))].
Proof.
  unfold bu_new. replace (feed max tracker_new [] body) with (feed max tracker_new [] (bodies [(now, (f, body))])) by (unfold bodies; cbn [map concat snd]; rewrite app_nil_r; reflexivity).
  unfold holds. destruct (feed max tracker_new [] (bodies [(now, (f, body))])) as [c pl]. cbn [bu_cap bu_crc bu_bytes bu_next bu_prio bu_tid length].
  do 5 (split; [auto; lia|]). intros [|[|i]] t g bd Hi; try discriminate Hi. injection Hi as <- <- <-. repeat split; lia.
Qed.

Lemma bytes_ok_app2 a b : bytes_ok a -> bytes_ok b -> bytes_ok (a ++ b).
Proof. intros. apply Forall_app. auto. Qed.

Definition heard_ok (hs : heard_t) : Prop := Forall (fun x => parsed_ok (fst (snd x)) (snd (snd x))) hs.
Lemma heard_bodies fs : heard_ok fs -> bytes_ok (bodies fs).
Proof. induction 1 as [|x fs Hx _ IH]; [constructor|]. unfold bodies. cbn [map concat]. apply bytes_ok_app2; [apply Hx|apply IH]. Qed.

(** the datagrams of one transfer lead to this result *)
Lemma single_assembled max f body ts t0 : parsed_ok f body -> single f = true ->
  tracker_correct (fst (feed max tracker_new [] body)) = true ->
  assembled max (convert_result (snd (feed max tracker_new [] body)) f ts) [(t0, (f, body))].
Proof.
  intros (Hb & Hl) Hs Hc. destruct (feed_spec max body Hb) as (H1 & H2). apply H1 in Hc as (data & E).
  exists data, f, body, t0, t0, (f, body). cbn [map snd concat length]. rewrite app_nil_r.
  split; [|split; [reflexivity|split; [reflexivity|split; [assumption|split; [|]]]]].
  - intros [|[|i]] g bd g0 bd0 Hg0 Hg; try discriminate Hg. cbn [nth_error] in *. assert (g = g0) by congruence. subst g0. assert (g = f) by congruence. subst g.
    cbn [length]. unfold single in Hs. apply andb_true_iff in Hs as (_ & Hs). repeat split; auto; lia.
  - unfold convert_result. cbn [t_payload]. rewrite H2, E, firstn_data. reflexivity.
  - unfold convert_result. cbn [t_header t_loopback]. rewrite as_core_ts. repeat split; auto. lia.
Qed.

Lemma chan_frame_ok max timeout hs se now f body pa sa :
  heard_ok hs -> sess_ok max hs se -> parsed_ok f body ->
  match chan_frame max timeout se f body now pa sa with
  | Panic => exists time tid f' body', se = Some (UComplete time tid) /\ In (time, (f', body')) hs /\ t_since now time = None
  | Ok (se', o) =>
      sess_ok max (hs ++ [(now, (f, body))]) se' /\
      match o with
      | UDeliver t => (exists pre fs, hs ++ [(now, (f, body))] = pre ++ fs /\ assembled max t fs) /\
                      (exists ts, t_header t = as_core_header f ts) /\
                      (exists ts tid, se' = Some (UComplete ts tid) /\ ts = h_ts (t_header t) /\
                        (fh_index f <> 0 \/ Forall (fun x => single (fst (snd x)) = true) hs -> tid = fh_tid f))
      | _ => True
      end
  end.
Proof.
  intros Hhs Hse Hp. assert (Hsnoc : forall x : N * (fheader * list N), In x hs -> In x (hs ++ [(now, (f, body))])) by (intros; apply in_or_app; auto).
  assert (Hkeep : sess_ok max (hs ++ [(now, (f, body))]) None) by exact I.
  (* a fresh session *)
  assert (Hfresh : let (a', r) := session_frame (Act now (fh_tid f) None) f body max pa in
    match r with
    | HDone payload => (exists pre fs, hs ++ [(now, (f, body))] = pre ++ fs /\ assembled max (convert_result payload f now) fs)
    | HMore => sess_ok max (hs ++ [(now, (f, body))]) (Some (UActive a'))
    | _ => True end).
  { unfold session_frame. change TRANSFER_CRC_SIZE with 4%nat. destruct (Nat.ltb_spec (length body) 4) as [H|_]; [destruct Hp; lia|].
    fold (single f). destruct (single f) eqn:Es.
    - destruct (negb pa); [exact I|]. destruct (feed max tracker_new [] body) as [c pl] eqn:Ef. destruct (tracker_correct c) eqn:Ec; [|exact I].
      exists hs, [(now, (f, body))]. split; [reflexivity|]. pose proof (single_assembled max f body now now Hp Es) as H. rewrite Ef in H. cbn [fst snd] in H. auto.
    - cbn [a_bu a_time a_tid]. destruct pa; [|exact I]. cbn [sess_ok a_time a_tid a_bu]. exists hs, f, body, [], (bu_new f body max).
      do 3 (split; [reflexivity|]). split; [assumption|]. apply bu_new_holds. }
  (* the same, as a result of the whole function *)
  assert (Hfin : match (let (a', r) := session_frame (Act now (fh_tid f) None) f body max pa in
          match r with
          | HDone payload => Ok (Some (UComplete now (fh_tid f)), UDeliver (convert_result payload f now))
          | HMore => Ok (Some (UActive a'), UNone)
          | HMemory | HErr => Ok (None, UNone)
          end) with
    | Panic => False
    | Ok (se', o) =>
      sess_ok max (hs ++ [(now, (f, body))]) se' /\
      match o with
      | UDeliver t => (exists pre fs, hs ++ [(now, (f, body))] = pre ++ fs /\ assembled max t fs) /\
                      (exists ts, t_header t = as_core_header f ts) /\
                      (exists ts tid, se' = Some (UComplete ts tid) /\ ts = h_ts (t_header t) /\
                        (fh_index f <> 0 \/ Forall (fun x => single (fst (snd x)) = true) hs -> tid = fh_tid f))
      | _ => True
      end end).
  { destruct (session_frame (Act now (fh_tid f) None) f body max pa) as [a' []]; cbn [sess_ok]; auto.
    split; [exists f, body; split; [apply in_or_app; right; left; reflexivity|reflexivity]|].
    split; [assumption|]. split; [exists now; reflexivity|]. exists now, (fh_tid f). unfold convert_result. cbn [t_header]. rewrite as_core_ts. auto. }
  unfold chan_frame. destruct se as [[a|time tid]|].
  - (* assembling *)
    cbn [session_for]. destruct Hse as (pre & f0 & b0 & rest & b & Ehs & Etid & Ebu & Hns & Hh).
    unfold session_frame. change TRANSFER_CRC_SIZE with 4%nat. destruct (Nat.ltb_spec (length body) 4) as [H|_]; [destruct Hp; lia|].
    assert (Hin0 : sess_ok max (hs ++ [(now, (f, body))]) (Some (UComplete (a_time a) (a_tid a)))).
    { cbn [sess_ok]. exists f0, b0. split; [apply in_or_app; left; rewrite Ehs; apply in_or_app; right; left; reflexivity|congruence]. }
    fold (single f). destruct (single f) eqn:Es.
    + destruct (negb pa); [auto|]. destruct (feed max tracker_new [] body) as [c pl] eqn:Ef. destruct (tracker_correct c) eqn:Ec; [|auto].
      split; [assumption|]. split; [|split].
      * exists hs, [(now, (f, body))]. split; [reflexivity|]. pose proof (single_assembled max f body (a_time a) now Hp Es) as H. rewrite Ef in H. cbn [fst snd] in H. auto.
      * eexists. reflexivity.
      * exists (a_time a), (a_tid a). unfold convert_result. cbn [t_header]. rewrite as_core_ts. split; [reflexivity|]. split; [reflexivity|].
        intros [Hi|Hall].
        -- unfold single in Es. apply andb_true_iff in Es as (Es & _). apply N.eqb_eq in Es. contradiction.
        -- rewrite Ehs in Hall. apply Forall_app in Hall as (_ & Hall). inversion Hall as [|? ? Hx]. cbn [fst snd] in Hx. congruence.
    + rewrite Ebu. pose proof (bu_push_holds max b f0 ((a_time a, (f0, b0)) :: rest) now f body Hh ltac:(discriminate)) as Hpush.
      destruct (bu_push b f body) as [b'|]; [|auto]. destruct Hpush as (Hh' & Hfeed & Hi & Hpr & Ht).
      set (fs := (a_time a, (f0, b0)) :: rest) in *. assert (Happ : hs ++ [(now, (f, body))] = pre ++ (fs ++ [(now, (f, body))])) by (rewrite Ehs, app_assoc; reflexivity).
      destruct (fh_last f) eqn:El.
      * destruct (tracker_correct (bu_crc b')) eqn:Ec; [|auto]. split; [assumption|].
        assert (Hok : bytes_ok (bodies (fs ++ [(now, (f, body))]))).
        { apply heard_bodies. apply Forall_app. split; [|constructor; [assumption|constructor]]. unfold heard_ok in Hhs. rewrite Ehs in Hhs. apply Forall_app in Hhs. apply Hhs. }
        destruct (feed_spec max _ Hok) as (F1 & F2). rewrite <- Hfeed in F1, F2. cbn [fst snd] in F1, F2. apply F1 in Ec as (data & Ed).
        split; [|split].
        -- exists pre, (fs ++ [(now, (f, body))]). split; [assumption|].
           exists data, f, body, now, (a_time a), (f0, b0). destruct Hh as (_ & _ & _ & _ & _ & Hall).
           split; [|split; [reflexivity|split; [|split; [assumption|split; [|]]]]].
           ++ intros i g bd g0 bd0 Hg0 Hg. unfold fs in Hg0. cbn [map app nth_error snd] in Hg0. injection Hg0 as <- <-.
              rewrite map_length. rewrite app_length in *. cbn [length] in *. rewrite map_app in Hg. cbn [map] in Hg.
              destruct (Nat.lt_ge_cases i (length fs)) as [Hlt|Hge].
              ** rewrite nth_error_app1 in Hg by (rewrite map_length; assumption). rewrite nth_error_map in Hg. destruct (nth_error fs i) as [[tg xg]|] eqn:En; [|discriminate].
                 cbn [option_map snd] in Hg. assert (xg = (g, bd)) by congruence. subst xg. destruct (Hall i tg g bd En) as (A1 & A2 & A3 & A4).
                 do 3 (split; [assumption|]). split; [lia|]. auto.
              ** rewrite nth_error_app2, map_length in Hg by (rewrite map_length; assumption). destruct (i - length fs)%nat as [|k] eqn:Ek; [|destruct k; discriminate Hg].
                 cbn [nth_error snd] in Hg. assert (g = f) by congruence. subst g. assert (i = length fs) by lia. subst i. repeat split; auto; lia.
           ++ rewrite app_length. cbn [length]. rewrite Nat.add_sub, nth_error_app2, Nat.sub_diag by lia. reflexivity.
           ++ unfold convert_result. cbn [t_payload]. rewrite F2, Ed, firstn_data. reflexivity.
           ++ unfold convert_result. cbn [t_header t_loopback]. rewrite as_core_ts. do 3 (split; [auto|]). rewrite app_length. unfold fs. cbn [length]. lia.
        -- eexists. reflexivity.
        -- exists (a_time a), (a_tid a). unfold convert_result. cbn [t_header]. rewrite as_core_ts. split; [reflexivity|]. split; [reflexivity|]. intro. congruence.
      * split; [|exact I]. cbn [sess_ok a_time a_tid a_bu]. exists pre, f0, b0, (rest ++ [(now, (f, body))]), b'.
        split; [assumption|]. split; [assumption|]. split; [reflexivity|]. split; [assumption|]. apply Hh'. reflexivity.
  - (* complete *)
    cbn [session_for]. destruct Hse as (f' & body' & Hin & Ht). destruct (t_since now time) as [age|] eqn:Ea; [|exists time, tid, f', body'; auto].
    destruct (negb _).
    + split; [|exact I]. cbn [sess_ok]. exists f', body'. auto.
    + cbn [a_time a_tid]. revert Hfin. match goal with |- match ?X with Ok _ => _ | Panic => _ end -> _ => destruct X as [[se' o]|] end; [exact (fun H => H)|contradiction].
  - destruct sa; [|auto]. cbn [session_for a_time a_tid]. revert Hfin. match goal with |- match ?X with Ok _ => _ | Panic => _ end -> _ => destruct X as [[se' o]|] end; [exact (fun H => H)|contradiction].
Qed.

(** ** Histories *)

Lemma heard_hist_ok mtu id h r p s : udp_hist mtu id h r -> heard_ok (heard mtu p s h).
Proof.
  induction 1 as [|h r op r' o _ IH Hok _]; [constructor|]. destruct op as [d now pa sa|q max timeout jok|q lok|n]; cbn [heard udp_op_ok] in *; auto.
  - destruct (parsed mtu d) as [[f body]|] eqn:Ep; [|assumption]. destruct (is_fromb p s f); [|assumption]. apply Forall_app. split; [assumption|].
    constructor; [|constructor]. cbn [fst snd]. destruct Hok as (Hb & _). apply (parsed_spec mtu d f body Hb Ep).
  - destruct o as [o|[] c|c|]; auto. destruct (port_eqb q p); [constructor|assumption].
Qed.

Lemma chan_sub_at r p s : chan r p s = match sub_at r p with Some (m, t) => match subs_find p (ur_subs r) with Some su => Some (m, t, us_sessions su s) | None => None end | None => None end.
Proof. unfold chan, sub_at. destruct (subs_find p (ur_subs r)); reflexivity. Qed.

Lemma sub_at_chan r p s : sub_at r p = option_map fst (chan r p s).
Proof. unfold chan, sub_at. destruct (subs_find p (ur_subs r)); reflexivity. Qed.

(** the effect of the other operations *)
Lemma subscribe_spec r p max timeout jok : subs_sorted (ur_subs r) ->
  let '(r', o, _) := udp_subscribe r p max timeout jok in
  ur_node r' = ur_node r /\ subs_sorted (ur_subs r') /\
  match o with
  | SubOk => (forall q s, chan r' q s = if port_eqb p q then Some (max, timeout, None) else chan r q s) /\
             (match p with PMsg _ => True | _ => ur_node r <> None end)
  | _ => r' = r
  end.
Proof.
  intro Hs. unfold udp_subscribe. destruct (subs_put_spec p (USubscription max timeout (fun _ => None)) _ Hs) as (Hsort & Hfind).
  set (r1 := URx (ur_node r) (subs_put p (USubscription max timeout (fun _ => None)) (ur_subs r))).
  assert (Hok : forall P : Prop, P -> ur_node r1 = ur_node r /\ subs_sorted (ur_subs r1) /\
      ((forall q s, chan r1 q s = if port_eqb p q then Some (max, timeout, None) else chan r q s) /\ P)).
  { intros P HP. split; [reflexivity|]. split; [assumption|]. split; [|assumption]. intros q s. unfold chan, r1. cbn [ur_subs]. rewrite Hfind. destruct (port_eqb p q); reflexivity. }
  destruct p as [k|k|k].
  - destruct jok; [apply Hok; exact I|auto].
  - destruct (ur_node r) as [n|] eqn:En; [|auto]. destruct (any_service (ur_subs r)); [apply Hok; discriminate|]. destruct jok; [apply Hok; discriminate|auto].
  - destruct (ur_node r) as [n|] eqn:En; [|auto]. destruct (any_service (ur_subs r)); [apply Hok; discriminate|]. destruct jok; [apply Hok; discriminate|auto].
Qed.

Lemma unsubscribe_state r p lok : fst (udp_unsubscribe r p lok) = URx (ur_node r) (subs_drop p (ur_subs r)).
Proof.
  unfold udp_unsubscribe. destruct p as [k|k|k]; [reflexivity| |]; (destruct (ur_node r); [destruct (any_service _)|]; reflexivity).
Qed.
Lemma unsubscribe_spec r p lok : subs_sorted (ur_subs r) ->
  ur_node (fst (udp_unsubscribe r p lok)) = ur_node r /\ subs_sorted (ur_subs (fst (udp_unsubscribe r p lok))) /\
  forall q s, chan (fst (udp_unsubscribe r p lok)) q s = if port_eqb p q then None else chan r q s.
Proof.
  intro Hs. rewrite unsubscribe_state. destruct (subs_drop_spec p _ Hs) as (H1 & H2). split; [reflexivity|]. split; [assumption|].
  intros q s. unfold chan. cbn [ur_subs]. rewrite H2. destruct (port_eqb p q); reflexivity.
Qed.

Definition not_active (se : option usession) : Prop := match se with Some (UActive _) => False | _ => True end.

Lemma chan_frame_deliver max timeout se f body now pa sa se' t :
  chan_frame max timeout se f body now pa sa = Ok (se', UDeliver t) -> exists ts tid, se' = Some (UComplete ts tid).
Proof.
  unfold chan_frame. destruct se as [u|]; [|destruct sa; [|discriminate]];
    (destruct (session_for _ f now timeout) as [[a|]|]; [destruct (session_frame a f body max pa) as [a' []]|discriminate|discriminate]); try discriminate;
    intro E; assert (E' : se' = Some (UComplete (a_time a) (a_tid a))) by congruence; eauto.
Qed.

Lemma hist_inv mtu id h r : udp_hist mtu id h r ->
  subs_sorted (ur_subs r) /\ ur_node r = udp_node id h /\
  forall p, sub_at r p = udp_active p h /\
    forall s max timeout se, chan r p s = Some (max, timeout, se) ->
      sess_ok max (heard mtu p s h) se /\ (idle mtu p s h = true -> not_active se).
Proof.
  induction 1 as [|h r op r' o Hh (Hsort & Hnode & IH) Hok E].
  - split; [split; [exact I|split; exact I]|]. split; [reflexivity|]. intros p. split; [destruct p; reflexivity|]. intros s max timeout se H. destruct p; discriminate H.
  - destruct op as [d now pa sa|q max timeout jok|q lok|n]; cbn [udp_step] in E.
    + pose proof (accept_chan mtu r d now pa sa) as H. destruct (udp_accept mtu r d now pa sa) as [[r1 o1]|] eqn:Ea; [|discriminate].
      assert (E' : r1 = r' /\ o = GGot o1) by (split; congruence). destruct E' as (-> & ->). clear E.
      split; [eapply udp_accept_sorted; eassumption|].
      cbn [udp_node udp_active heard idle]. destruct (parsed mtu d) as [[f body]|] eqn:Ep.
      2: { assert (r' = r) by congruence. subst r'. split; [assumption|]. assumption. }
      destruct Hok as (Hb & Hnow). pose proof (parsed_spec mtu d f body Hb Ep) as (Hp & _). cbv zeta in H.
      destruct (sub_at r (dspec_port (fh_spec f))) as [[max timeout]|] eqn:Esub.
      2: { assert (r' = r) by congruence. subst r'. split; [assumption|]. intro p. destruct (IH p) as (I1 & I2). split; [assumption|]. intros s max timeout se Hc.
           destruct (is_fromb p s f) eqn:Ef; [|eauto]. apply is_fromb_spec in Ef as (<- & _). rewrite (sub_at_chan r _ s), Hc in Esub. discriminate. }
      destruct (dspec_source (fh_spec f)) as [src|] eqn:Esrc.
      * destruct H as (se & Hc & H). pose proof (chan_frame_ok max timeout (heard mtu (dspec_port (fh_spec f)) src h) se now f body pa sa) as Hcf.
        pose proof (chan_frame_deliver max timeout se f body now pa sa) as Hdel.
        destruct (chan_frame max timeout se f body now pa sa) as [[se' o']|]; [|discriminate].
        destruct H as (r2 & E2 & Hn & Hch). assert (E' : r2 = r' /\ o' = o1) by (split; congruence). destruct E' as (-> & ->). clear E2.
        split; [congruence|]. intro p. destruct (IH p) as (I1 & I2).
        assert (Hsub : sub_at r' p = sub_at r p).
        { rewrite !(sub_at_chan _ p src), Hch. destruct (is_fromb p src f) eqn:Ef; [|reflexivity]. apply is_fromb_spec in Ef as (<- & _). rewrite Hc. reflexivity. }
        split; [congruence|]. intros s mx tm se2 Hc2. rewrite Hch in Hc2. destruct (is_fromb p s f) eqn:Ef.
        -- injection Hc2 as <- <- <-. apply is_fromb_spec in Ef as (<- & Es). rewrite Esrc in Es. injection Es as <-.
           destruct Hcf as (Hs & _); [eapply heard_hist_ok; eassumption|eapply IH; eassumption|assumption|]. split; [assumption|].
           destruct o1 as [|t|]; try discriminate. intros _. destruct (Hdel _ _ eq_refl) as (ts & tid & ->). exact I.
        -- eapply I2. eassumption.
      * destruct H as (r2 & E2 & Hn & Hch). assert (E' : r2 = r') by congruence. subst r2. clear E2. split; [congruence|]. intro p. destruct (IH p) as (I1 & I2).
        split; [rewrite (sub_at_chan r' p 0), Hch, <- (sub_at_chan r p 0); assumption|]. intros s mx tm se2 Hc2. rewrite Hch in Hc2.
        destruct (is_fromb p s f) eqn:Ef; [|eauto]. apply is_fromb_spec in Ef as (_ & Es). congruence.
    + pose proof (subscribe_spec r q max timeout jok Hsort) as H. destruct (udp_subscribe r q max timeout jok) as [[r1 o1] c].
      assert (E' : r1 = r' /\ o = GSubbed o1 c) by (split; congruence). destruct E' as (-> & ->). clear E. destruct H as (Hn & Hs & H).
      split; [assumption|]. cbn [udp_node udp_active heard idle]. split; [congruence|]. intro p. destruct (IH p) as (I1 & I2).
      destruct o1.
      * destruct H as (H & _). split.
        -- rewrite (sub_at_chan r' p 0), H. destruct (port_eqb q p); [reflexivity|]. rewrite <- (sub_at_chan r p 0). assumption.
        -- intros s mx tm se Hc. rewrite H in Hc. destruct (port_eqb q p); [|eauto]. injection Hc as <- <- <-. split; [exact I|]. intros _. exact I.
      * subst r'. split; [destruct (port_eqb q p); assumption|]. eauto.
      * subst r'. split; [destruct (port_eqb q p); assumption|]. eauto.
    + pose proof (unsubscribe_spec r q lok Hsort) as H. destruct (udp_unsubscribe r q lok) as [r1 c]. cbn [fst] in H.
      assert (E' : r1 = r' /\ o = GUnsubbed c) by (split; congruence). destruct E' as (-> & ->). clear E. destruct H as (Hn & Hs & H).
      split; [assumption|]. cbn [udp_node udp_active heard idle]. split; [congruence|]. intro p. destruct (IH p) as (I1 & I2). split.
      * rewrite (sub_at_chan r' p 0), H. destruct (port_eqb q p); [reflexivity|]. rewrite <- (sub_at_chan r p 0). assumption.
      * intros s mx tm se Hc. rewrite H in Hc. destruct (port_eqb q p); [discriminate|eauto].
    + assert (E' : r' = udp_set_id r n /\ o = GDone) by (split; congruence). destruct E' as (-> & ->). split; [assumption|]. split; [reflexivity|]. assumption.
Qed.

(** ** Datagrams of a transfer, in order *)

Lemma set_ts_core f x ts : h_set_ts (as_core_header f x) ts = as_core_header f ts.
Proof. unfold as_core_header. destruct (fh_spec f); reflexivity. Qed.

Lemma datagram_parsed mtu h i last body d : datagram_of h i last body d -> (4 <= length body)%nat -> (24 + length body <= mtu)%nat ->
  exists f, parsed mtu d = Some (f, body) /\ dspec_port (fh_spec f) = h_port h /\ dspec_source (fh_spec f) = h_source h /\
    fh_tid f = h_tid h /\ fh_prio f = h_prio h /\ fh_index f = N.of_nat i /\ fh_last f = last /\ forall ts, as_core_header f ts = h_set_ts h ts.
Proof.
  intros (Ed & Hl & f & Hdec & Hcore & Hi & Hlast & _) H4 Hm. exists f.
  assert (Hlen : length d = (24 + length body)%nat) by (rewrite Ed, app_length, Hl; reflexivity).
  split.
  - unfold parsed. rewrite (firstn_all2 d) by lia. destruct (Nat.ltb_spec (length d) 28); [lia|]. rewrite Hdec.
    do 2 f_equal. rewrite Ed at 1. rewrite skipn_app, Hl, Nat.sub_diag, skipn_O. rewrite <- Hl at 1. rewrite skipn_all. reflexivity.
  - rewrite <- Hcore at 1 2 3 4. rewrite as_core_port, as_core_source, as_core_tid. repeat split; auto.
    + unfold as_core_header. destruct (fh_spec f); reflexivity.
    + intro ts. rewrite <- Hcore, set_ts_core. reflexivity.
Qed.

Section InOrder.
  Context (mtu n : nat) (h : header) (s : N) (max : nat) (timeout : N) (data : list N).
  Context (Hsrc : h_source h = Some s) (Hdata : bytes_ok data).

  (** the datagrams [L] carry the bodies [Bs], numbered from [k] *)
  Fixpoint carries (k : nat) (Bs : list (list N)) (L : list (list N * N)) : Prop :=
    match Bs, L with
    | [], [] => True
    | body :: Bs', x :: L' => datagram_of h k (S k =? n)%nat body (fst x) /\ (4 <= length body)%nat /\ (24 + length body <= mtu)%nat /\ carries (S k) Bs' L'
    | _, _ => False
    end.

  Lemma crc_bytes_ok : bytes_ok (data ++ le_bytes 4 (crc32 data)).
  Proof. apply bytes_ok_app2; [assumption|]. apply le_bytes_ok. Qed.

  Lemma mid_run Bs : forall L r t0 fs f0 b,
    carries (length fs) Bs L -> Bs <> [] -> n = (length fs + length Bs)%nat -> fs <> [] ->
    chan r (h_port h) s = Some (max, timeout, Some (UActive (Act t0 (h_tid h) (Some b)))) ->
    holds max b f0 fs -> fh_index f0 = 0 -> fh_tid f0 = h_tid h -> fh_prio f0 = h_prio h ->
    bodies fs ++ concat Bs = data ++ le_bytes 4 (crc32 data) ->
    exists r', udp_run mtu r (map arrive L) =
      Ok (r', repeat (GGot UNone) (length L - 1) ++ [GGot (UDeliver (Transfer (h_set_ts h t0) false (firstn max data)))]).
  Proof.
    induction Bs as [|body Bs IH]; intros L r t0 fs f0 b Hcar HBs Hn Hfs Hc Hh Hi0 Ht0 Hp0 Hcat; [congruence|].
    destruct L as [|[d now] L]; [destruct Hcar|]. destruct Hcar as (Hd & H4 & Hm & Hcar). cbn [fst] in Hd.
    destruct (datagram_parsed mtu h _ _ body d Hd H4 Hm) as (f & Hpar & Hport & Hs & Htid & Hprio & Hidx & Hlast & Hcore).
    cbn [map udp_run]. unfold arrive at 1. cbn [fst snd udp_step].
    pose proof (accept_chan mtu r d now true true) as H. rewrite Hpar in H. cbv zeta in H. rewrite Hport, (sub_at_chan r _ s), Hc in H. cbn [option_map fst] in H.
    rewrite Hs, Hsrc in H. destruct H as (se & Hse & H). rewrite Hc in Hse. assert (E : se = Some (UActive (Act t0 (h_tid h) (Some b)))) by congruence. subst se. clear Hse.
    assert (Hpush : exists b', bu_push b f body = Some b').
    { destruct Hh as (_ & _ & Hnext & Hpr & Htd & _). unfold bu_push. rewrite Hidx, Htid, Hprio, Hnext, Hpr, Htd, Hi0, Ht0, Hp0, N.add_0_l, !N.eqb_refl. cbn [negb].
      destruct (feed _ _ _ _). eauto. }
    destruct Hpush as (b' & Epush). pose proof (bu_push_holds max b f0 fs now f body Hh Hfs) as Hb'. rewrite Epush in Hb'. destruct Hb' as (Hh' & Hfeed & _).
    assert (Hcf : chan_frame max timeout (Some (UActive (Act t0 (h_tid h) (Some b)))) f body now true true =
       if fh_last f then
         if tracker_correct (bu_crc b') then Ok (Some (UComplete t0 (h_tid h)), UDeliver (convert_result (bu_bytes b') f t0)) else Ok (None, UNone)
       else Ok (Some (UActive (Act t0 (h_tid h) (Some b'))), UNone)).
    { unfold chan_frame. cbn [session_for]. unfold session_frame. change TRANSFER_CRC_SIZE with 4%nat. destruct (Nat.ltb_spec (length body) 4); [lia|].
      rewrite Hidx. destruct (N.eqb_spec (N.of_nat (length fs)) 0) as [E0|_]; [destruct fs; [congruence|cbn [length] in E0; lia]|]. cbn [andb a_bu a_time a_tid].
      rewrite Epush. destruct (fh_last f); [destruct (tracker_correct (bu_crc b'))|]; reflexivity. }
    rewrite Hcf in H. clear Hcf. rewrite Hlast in H. destruct Bs as [|body2 Bs].
    - destruct L as [|]; [|destruct Hcar]. replace (S (length fs) =? n)%nat with true in H by (symmetry; apply Nat.eqb_eq; cbn [length] in Hn; lia).
      assert (Hall : bodies (fs ++ [(now, (f, body))]) = data ++ le_bytes 4 (crc32 data)) by (rewrite bodies_snoc; cbn [snd concat] in *; rewrite app_nil_r in Hcat; assumption).
      rewrite Hall in Hfeed. destruct (feed_good max data crc_bytes_ok) as (F1 & F2). rewrite F1 in Hfeed.
      assert (Ec : bu_crc b' = fst (feed max tracker_new [] (data ++ le_bytes 4 (crc32 data))) /\ bu_bytes b' = firstn max data) by (split; congruence).
      destruct Ec as (Ec & Eb). rewrite Ec, F2, Eb in H. destruct H as (r' & -> & _). exists r'. cbn [map udp_run length Nat.sub repeat app]. unfold convert_result. rewrite Hcore. reflexivity.
    - replace (S (length fs) =? n)%nat with false in H by (symmetry; apply Nat.eqb_neq; cbn [length] in Hn; lia).
      destruct H as (r1 & -> & _ & Hch). assert (Hx : is_fromb (h_port h) s f = true) by (apply is_fromb_spec; split; congruence).
      destruct (IH L r1 t0 (fs ++ [(now, (f, body))]) f0 b') as (r' & E).
      + rewrite app_length. cbn [length]. rewrite Nat.add_1_r. assumption.
      + discriminate.
      + rewrite app_length. cbn [length] in *. lia.
      + destruct fs; discriminate.
      + rewrite Hch, Hx. reflexivity.
      + apply Hh'. rewrite Hlast. apply Nat.eqb_neq. cbn [length] in Hn. lia.
      + assumption.
      + assumption.
      + assumption.
      + rewrite bodies_snoc, <- app_assoc. exact Hcat.
      + rewrite E. exists r'. destruct L as [|y L]; [destruct Hcar|]. cbn [length]. rewrite !Nat.sub_succ, !Nat.sub_0_r. cbn [repeat app]. reflexivity.
  Qed.

  (** a whole transfer, when the receiver is ready for it *)
  Lemma whole_run Bs L r se d0 now0 : carries 0 Bs L -> Bs <> [] -> n = length Bs -> hd_error L = Some (d0, now0) ->
    chan r (h_port h) s = Some (max, timeout, se) ->
    (forall f, fh_tid f = h_tid h -> session_for se f now0 timeout = Ok (Some (Act now0 (h_tid h) None))) ->
    concat Bs = data ++ le_bytes 4 (crc32 data) ->
    exists r', udp_run mtu r (map arrive L) =
      Ok (r', repeat (GGot UNone) (length L - 1) ++ [GGot (UDeliver (Transfer (h_set_ts h now0) false (firstn max data)))]).
  Proof.
    intros Hcar HBs Hn Hhd Hc Hready Hcat. destruct Bs as [|body Bs]; [congruence|]. destruct L as [|[d now] L]; [destruct Hcar|].
    cbn [hd_error] in Hhd. assert (E : d = d0 /\ now = now0) by (split; congruence). destruct E as (-> & ->).
    destruct Hcar as (Hd & H4 & Hm & Hcar). cbn [fst] in Hd.
    destruct (datagram_parsed mtu h _ _ body d0 Hd H4 Hm) as (f & Hpar & Hport & Hs & Htid & Hprio & Hidx & Hlast & Hcore).
    cbn [map udp_run]. unfold arrive at 1. cbn [fst snd udp_step].
    pose proof (accept_chan mtu r d0 now0 true true) as H. rewrite Hpar in H. cbv zeta in H. rewrite Hport, (sub_at_chan r _ s), Hc in H. cbn [option_map fst] in H.
    rewrite Hs, Hsrc in H. destruct H as (se' & Hse & H). rewrite Hc in Hse. assert (E : se' = se) by congruence. subst se'. clear Hse.
    assert (Hcf : chan_frame max timeout se f body now0 true true =
       if (1 =? n)%nat then
         if tracker_correct (fst (feed max tracker_new [] body)) then Ok (Some (UComplete now0 (h_tid h)), UDeliver (convert_result (snd (feed max tracker_new [] body)) f now0)) else Ok (None, UNone)
       else Ok (Some (UActive (Act now0 (h_tid h) (Some (bu_new f body max)))), UNone)).
    { assert (Hsf : session_frame (Act now0 (h_tid h) None) f body max true =
        if (1 =? n)%nat then (Act now0 (h_tid h) None, if tracker_correct (fst (feed max tracker_new [] body)) then HDone (snd (feed max tracker_new [] body)) else HErr)
        else (Act now0 (h_tid h) (Some (bu_new f body max)), HMore)).
      { unfold session_frame. change TRANSFER_CRC_SIZE with 4%nat. destruct (Nat.ltb_spec (length body) 4); [lia|].
        rewrite Hidx, Hlast. change (N.of_nat 0 =? 0) with true. cbn [andb negb a_bu a_time a_tid]. destruct (1 =? n)%nat; [|reflexivity].
        destruct (feed max tracker_new [] body) as [c pl]. reflexivity. }
      unfold chan_frame. destruct se as [u|]; rewrite Hready, Hsf by assumption;
        (destruct (1 =? n)%nat; [destruct (tracker_correct _); reflexivity|reflexivity]). }
    rewrite Hcf in H. clear Hcf. destruct Bs as [|body2 Bs].
    - destruct L as [|]; [|destruct Hcar]. rewrite Hn in H. change (1 =? length [body])%nat with true in H.
      cbn [concat] in Hcat. rewrite app_nil_r in Hcat. rewrite Hcat in H. destruct (feed_good max data crc_bytes_ok) as (F1 & F2). rewrite F2 in H. rewrite F1 in H. cbn [snd] in H.
      destruct H as (r' & -> & _). exists r'. cbn [map udp_run length Nat.sub repeat app]. unfold convert_result. rewrite Hcore. reflexivity.
    - replace (1 =? n)%nat with false in H by (symmetry; apply Nat.eqb_neq; cbn [length] in Hn; lia).
      destruct H as (r1 & -> & _ & Hch). assert (Hx : is_fromb (h_port h) s f = true) by (apply is_fromb_spec; split; congruence).
      destruct (mid_run (body2 :: Bs) L r1 now0 [(now0, (f, body))] f (bu_new f body max)) as (r' & E).
      + assumption.
      + discriminate.
      + cbn [length] in *. lia.
      + discriminate.
      + rewrite Hch, Hx. reflexivity.
      + apply bu_new_holds.
      + assumption.
      + assumption.
      + assumption.
      + unfold bodies. cbn [map concat snd app]. rewrite app_nil_r. exact Hcat.
      + rewrite E. exists r'. destruct L as [|y L]; [destruct Hcar|]. cbn [length]. rewrite !Nat.sub_succ, !Nat.sub_0_r. cbn [repeat app]. reflexivity.
  Qed.
End InOrder.

(** ** No interference *)

Definition same_keys (a b : subs usub) : Prop :=
  map fst (sb_msg a) = map fst (sb_msg b) /\ map fst (sb_req a) = map fst (sb_req b) /\ map fst (sb_resp a) = map fst (sb_resp b).
Definition same (p : port) (s : N) (r1 r2 : urx) : Prop :=
  ur_node r1 = ur_node r2 /\ same_keys (ur_subs r1) (ur_subs r2) /\ subs_sorted (ur_subs r1) /\ subs_sorted (ur_subs r2) /\ chan r1 p s = chan r2 p s.

Lemma bt_insert_fst k (v w : usub) a : forall b : list (N * usub), map fst a = map fst b -> map fst (bt_insert k v a) = map fst (bt_insert k w b).
Proof.
  induction a as [|[ka va] a IH]; intros [|[kb vb] b] E; try discriminate; [reflexivity|]. cbn [map fst] in E. injection E as <- E. cbn [bt_insert].
  destruct (k <? ka); [cbn [map fst]; congruence|]. destruct (k =? ka); cbn [map fst]; [congruence|]. f_equal. auto.
Qed.
Lemma bt_remove_fst k (a : list (N * usub)) : forall b : list (N * usub), map fst a = map fst b -> map fst (bt_remove k a) = map fst (bt_remove k b).
Proof.
  induction a as [|[ka va] a IH]; intros [|[kb vb] b] E; try discriminate; [reflexivity|]. cbn [map fst] in E. injection E as <- E. cbn [bt_remove].
  destruct (k =? ka); [assumption|]. cbn [map fst]. f_equal. auto.
Qed.

Lemma same_keys_any a b : same_keys a b -> any_service a = any_service b.
Proof.
  intros (_ & H2 & H3). unfold any_service. destruct (sb_req a), (sb_req b); try discriminate; [|reflexivity]. destruct (sb_resp a), (sb_resp b); try discriminate; reflexivity.
Qed.
Lemma same_keys_put p v w a b : same_keys a b -> same_keys (subs_put p v a) (subs_put p w b).
Proof. intros (H1 & H2 & H3). destruct p; repeat split; cbn [subs_put sb_msg sb_req sb_resp]; auto using bt_insert_fst. Qed.
Lemma same_keys_drop p a b : same_keys a b -> same_keys (subs_drop p a) (subs_drop p b).
Proof. intros (H1 & H2 & H3). destruct p; repeat split; cbn [subs_drop sb_msg sb_req sb_resp]; auto using bt_remove_fst. Qed.
Lemma same_keys_sym a b : same_keys a b -> same_keys b a.
Proof. unfold same_keys. intuition. Qed.
Lemma same_keys_trans a b c : same_keys a b -> same_keys b c -> same_keys a c.
Proof. unfold same_keys. intuition congruence. Qed.

Lemma accept_keys mtu r d now pa sa r' o : udp_accept mtu r d now pa sa = Ok (r', o) -> same_keys (ur_subs r') (ur_subs r).
Proof.
  unfold udp_accept. destruct (length (firstn mtu d) <? MIN_PACKET_SIZE)%nat; [intro E; injection E as <- _; repeat split|].
  destruct (header_decode _) as [f|]; [|intro E; injection E as <- _; repeat split].
  destruct (subs_find _ _) as [su|]; [|intro E; injection E as <- _; repeat split].
  destruct (sub_handle _ _ _ _ _ _) as [[su' o']|]; [|discriminate]. intro E. injection E as <- _. cbn [ur_subs].
  destruct (dspec_port (fh_spec f)); repeat split; cbn [subs_update sb_msg sb_req sb_resp]; apply update_keys.
Qed.

Lemma accept_node mtu r d now pa sa r' o : udp_accept mtu r d now pa sa = Ok (r', o) -> ur_node r' = ur_node r.
Proof.
  unfold udp_accept. destruct (length (firstn mtu d) <? MIN_PACKET_SIZE)%nat; [congruence|].
  destruct (header_decode _) as [f|]; [|congruence]. destruct (subs_find _ _) as [su|]; [|congruence].
  destruct (sub_handle _ _ _ _ _ _) as [[su' o']|]; [|discriminate]. intro E. assert (E' : r' = URx (ur_node r) (subs_update (dspec_port (fh_spec f)) (fun _ => su') (ur_subs r))) by congruence. rewrite E'. reflexivity.
Qed.

Lemma step_same mtu p s r1 r2 op r1' o : same p s r1 r2 -> udp_step mtu r1 op = Ok (r1', o) ->
  if keeps mtu p s op then exists r2', udp_step mtu r2 op = Ok (r2', o) /\ same p s r1' r2' else same p s r1' r2.
Proof.
  intros (Hn & Hk & Hs1 & Hs2 & Hc) E. destruct op as [d now pa sa|q max timeout jok|q lok|n]; cbn [udp_step keeps] in *.
  - pose proof (accept_chan mtu r1 d now pa sa) as H1. pose proof (accept_chan mtu r2 d now pa sa) as H2.
    destruct (udp_accept mtu r1 d now pa sa) as [[ra oa]|] eqn:Ea; [|discriminate]. assert (E' : ra = r1' /\ o = GGot oa) by (split; congruence). destruct E' as (-> & ->). clear E.
    assert (Hbase : forall x, chan r1' p s = x -> x = chan r2 p s -> same p s r1' r2).
    { intros x Hx Hy. split; [rewrite (accept_node _ _ _ _ _ _ _ _ Ea); assumption|]. split; [eapply same_keys_trans; [eapply accept_keys; eassumption|assumption]|].
      split; [eapply udp_accept_sorted; [exact Hs1|exact Ea]|]. split; [assumption|congruence]. }
    destruct (parsed mtu d) as [[f body]|]; cbv zeta in *.
    2: { assert (r1' = r1) by congruence. subst r1'. eapply Hbase; eauto. }
    destruct (is_fromb p s f) eqn:Ef.
    + apply is_fromb_spec in Ef as (Hp & Hsrc). rewrite Hp, Hsrc in *. rewrite (sub_at_chan r1 p s) in H1. rewrite (sub_at_chan r2 p s), <- Hc in H2.
      destruct (chan r1 p s) as [[[max timeout] se]|] eqn:Ech; cbn [option_map fst] in H1, H2.
      * destruct H1 as (se1 & E1 & H1). destruct H2 as (se2 & E2 & H2). assert (se1 = se) by congruence. assert (se2 = se) by congruence. subst se1 se2.
        destruct (chan_frame max timeout se f body now pa sa) as [[se' o']|]; [|discriminate].
        destruct H1 as (rx & Ex & _ & Hx). destruct H2 as (ry & Ey & _ & Hy). assert (E' : rx = r1' /\ o' = oa) by (split; congruence). destruct E' as (-> & ->).
        rewrite Ey. exists ry. split; [reflexivity|]. assert (Hf : is_fromb p s f = true) by (apply is_fromb_spec; auto).
        split; [rewrite (accept_node _ _ _ _ _ _ _ _ Ea), (accept_node _ _ _ _ _ _ _ _ Ey); assumption|].
        split; [eapply same_keys_trans; [eapply accept_keys; eassumption|eapply same_keys_trans; [eassumption|apply same_keys_sym; eapply accept_keys; eassumption]]|].
        split; [eapply udp_accept_sorted; [exact Hs1|exact Ea]|]. split; [eapply udp_accept_sorted; [exact Hs2|eassumption]|]. rewrite Hx, Hy, Hf. reflexivity.
      * rewrite H2. assert (r1' = r1 /\ oa = UNone) as (-> & ->) by (split; congruence). exists r2. split; [reflexivity|]. eapply Hbase; [reflexivity|congruence].
    + destruct (sub_at r1 (dspec_port (fh_spec f))) as [[max timeout]|].
      2: { assert (r1' = r1) by congruence. subst r1'. eapply Hbase; eauto. }
      destruct (dspec_source (fh_spec f)) as [src|].
      * destruct H1 as (se & _ & H1). destruct (chan_frame max timeout se f body now pa sa) as [[se' o']|]; [|discriminate].
        destruct H1 as (rx & Ex & _ & Hx). assert (rx = r1') by congruence. subst rx. eapply Hbase; [rewrite Hx, Ef; reflexivity|assumption].
      * destruct H1 as (rx & Ex & _ & Hx). assert (rx = r1') by congruence. subst rx. eapply Hbase; [rewrite Hx; reflexivity|assumption].
  - pose proof (subscribe_spec r1 q max timeout jok Hs1) as H1. pose proof (subscribe_spec r2 q max timeout jok Hs2) as H2.
    assert (Hsame : snd (fst (udp_subscribe r1 q max timeout jok)) = snd (fst (udp_subscribe r2 q max timeout jok)) /\
                    snd (udp_subscribe r1 q max timeout jok) = snd (udp_subscribe r2 q max timeout jok) /\
                    same_keys (ur_subs (fst (fst (udp_subscribe r1 q max timeout jok)))) (ur_subs (fst (fst (udp_subscribe r2 q max timeout jok))))).
    { unfold udp_subscribe. rewrite <- (same_keys_any _ _ Hk), <- Hn.
      pose proof (same_keys_put q (USubscription max timeout (fun _ => None)) (USubscription max timeout (fun _ => None)) _ _ Hk) as Hput.
      destruct q as [k|k|k]; [destruct jok; auto| |]; (destruct (ur_node r1); [destruct (any_service (ur_subs r1)); [auto|destruct jok; auto]|auto]). }
    destruct (udp_subscribe r1 q max timeout jok) as [[ra oa] ca]. destruct (udp_subscribe r2 q max timeout jok) as [[rb ob] cb]. cbn [fst snd] in Hsame.
    destruct Hsame as (<- & <- & Hkk). assert (ra = r1' /\ o = GSubbed oa ca) as (-> & ->) by (split; congruence).
    exists rb. split; [reflexivity|]. destruct H1 as (A1 & A2 & A3). destruct H2 as (B1 & B2 & B3).
    split; [congruence|]. split; [assumption|]. split; [assumption|]. split; [assumption|]. destruct oa.
    + destruct A3 as (A3 & _). destruct B3 as (B3 & _). rewrite A3, B3. destruct (port_eqb q p); [reflexivity|assumption].
    + subst. assumption.
    + subst. assumption.
  - pose proof (unsubscribe_spec r1 q lok Hs1) as H1. pose proof (unsubscribe_spec r2 q lok Hs2) as H2.
    assert (Hsame : snd (udp_unsubscribe r1 q lok) = snd (udp_unsubscribe r2 q lok)).
    { unfold udp_unsubscribe. cbn [ur_subs]. rewrite <- (same_keys_any _ _ (same_keys_drop q _ _ Hk)), <- Hn. destruct q as [k|k|k]; [reflexivity| |];
        (destruct (ur_node r1); [destruct (any_service (subs_drop _ (ur_subs r1)))|]; reflexivity). }
    pose proof (unsubscribe_state r1 q lok) as U1. pose proof (unsubscribe_state r2 q lok) as U2.
    destruct (udp_unsubscribe r1 q lok) as [ra ca]. destruct (udp_unsubscribe r2 q lok) as [rb cb]. cbn [fst snd] in *.
    assert (ra = r1' /\ o = GUnsubbed ca) as (-> & ->) by (split; congruence). subst cb. exists rb. split; [reflexivity|].
    destruct H1 as (A1 & A2 & A3). destruct H2 as (B1 & B2 & B3). split; [congruence|]. split; [rewrite U1, U2; apply same_keys_drop; assumption|].
    split; [assumption|]. split; [assumption|]. rewrite A3, B3. destruct (port_eqb q p); [reflexivity|assumption].
  - assert (r1' = udp_set_id r1 n /\ o = GDone) as (-> & ->) by (split; congruence). exists (udp_set_id r2 n). split; [reflexivity|].
    split; [reflexivity|]. split; [assumption|]. split; [assumption|]. split; assumption.
Qed.

Lemma run_same mtu p s ops : forall r1 r2 r1' outs, same p s r1 r2 -> udp_run mtu r1 ops = Ok (r1', outs) ->
  exists r2', udp_run mtu r2 (filter (keeps mtu p s) ops) = Ok (r2', map snd (filter (fun x => keeps mtu p s (fst x)) (combine ops outs))) /\ same p s r1' r2'.
Proof.
  induction ops as [|op ops IH]; intros r1 r2 r1' outs Hs; cbn [udp_run filter].
  - intro E. assert (r1' = r1 /\ outs = []) as (-> & ->) by (split; congruence). exists r2. auto.
  - destruct (udp_step mtu r1 op) as [[ra o]|] eqn:Ea; [|discriminate]. destruct (udp_run mtu ra ops) as [[rb os]|] eqn:Eb; [|discriminate].
    intro E. assert (rb = r1' /\ outs = o :: os) as (-> & ->) by (split; congruence). pose proof (step_same mtu p s r1 r2 op ra o Hs Ea) as Hst. cbn [combine filter fst]. destruct (keeps mtu p s op).
    + destruct Hst as (r2' & E2 & Hs2). destruct (IH ra r2' r1' os Hs2 Eb) as (r2'' & E3 & Hs3). cbn [udp_run map snd]. rewrite E2, E3. exists r2''. split; [reflexivity|assumption].
    + exact (IH ra r2 r1' os Hst Eb).
Qed.
