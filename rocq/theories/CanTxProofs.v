(** Proofs about CAN segmentation and transmission. *)
From Verif Require Import Base BitLemmas CoreModel CrcModel CrcProofs CanIdModel CanSpec CanIdProofs CanTxModel CanTxSpec.
Ltac Zify.zify_post_hook ::= Z.div_mod_to_equations.

(** the bytes as they go into frames *)
Fixpoint tagged (start toggle : bool) (tid : N) (cs : list (list N)) : list (list N) :=
  match cs with
  | [] => []
  | c :: r => (c ++ [make_tail start false toggle tid]) :: tagged false (negb toggle) tid r
  end.

Fixpoint flip (n : nat) (b : bool) : bool := match n with O => b | S k => flip k (negb b) end.

Lemma tagged_app s t tid a b :
  tagged s t tid (a ++ b) = tagged s t tid a ++ tagged (match a with [] => s | _ => false end) (flip (length a) t) tid b.
Proof.
  revert s t; induction a as [|c a IH]; intros s t; [reflexivity|]. cbn [app tagged length flip]. rewrite IH. destruct a; reflexivity.
Qed.
Lemma tagged_length s t tid a : length (tagged s t tid a) = length a.
Proof. revert s t; induction a; intros; cbn; auto. Qed.

Section Send.
Context {D : Type}.
Variable transmit : D -> frame -> D * tx_res.
Variables (fcap : nat) (ts id : N) (loop : bool).
Let send := push_frame transmit fcap ts id loop.
Let mk := Frame ts id loop.

Lemma send_all_app d a b : send_all transmit d (a ++ b) =
  match send_all transmit d a with (d', PushOk) => send_all transmit d' b | r => r end.
Proof.
  revert d; induction a as [|f a IH]; intro d; [reflexivity|]. cbn [app send_all].
  destruct (transmit d f) as [d' [o| |]]; [apply IH|reflexivity|reflexivity].
Qed.

Lemma push_bytes_spec mtu tid bytes : (1 < mtu <= 64)%nat -> (mtu <= fcap)%nat ->
  forall cur s t d n, (length cur <= mtu - 1)%nat ->
  exists cs cur',
    cur ++ bytes = concat cs ++ cur' /\ Forall (fun c => length c = (mtu - 1)%nat) cs /\ (length cur' <= mtu - 1)%nat /\
    (cur = [] /\ bytes = [] \/ cur' <> []) /\
    match send_all transmit d (map mk (tagged s t tid cs)) with
    | (d', PushOk) =>
        push_bytes send bytes d (Breakdown mtu tid s t cur) n =
        Ok (d', Breakdown mtu tid (match cs with [] => s | _ => false end) (flip (length cs) t) cur', (n + length cs)%nat, None)
    | (d', e) => exists b' n', push_bytes send bytes d (Breakdown mtu tid s t cur) n = Ok (d', b', n', Some e)
    end.
Proof.
  intros Hm Hf. induction bytes as [|byte bytes IH]; intros cur s t d n Hc.
  - exists [], cur. cbn. rewrite app_nil_r, Nat.add_0_r. repeat split; auto. destruct cur; [left; auto|right; discriminate].
  - cbn [push_bytes]. unfold bd_add. cbn [bd_frame bd_mtu bd_tid bd_start bd_toggle].
    destruct (Nat.eqb_spec (length cur) (mtu - 1)) as [E|E].
    + unfold vec64_push. replace (length cur <? 64)%nat with true by (symmetry; apply Nat.ltb_lt; lia). cbn [length].
      change (0 <? 64)%nat with true. cbn [app].
      assert (Hs : send d (cur ++ [make_tail s false t tid]) =
        match transmit d (mk (cur ++ [make_tail s false t tid])) with
        | (d', TxOk _) => Ok (d', None) | (d', TxWouldBlock) => Ok (d', Some PushWouldBlock) | (d', TxError) => Ok (d', Some PushDriver) end).
      { unfold send, push_frame, frame_new, mk. rewrite app_length. cbn [length].
        replace (length cur + 1 <=? fcap)%nat with true by (symmetry; apply Nat.leb_le; lia). reflexivity. }
      rewrite Hs. destruct (transmit d (mk (cur ++ [make_tail s false t tid]))) as [d1 r1] eqn:Et.
      destruct (IH [byte] false (negb t) d1 (S n) ltac:(cbn; lia)) as (cs & cur' & Hcat & Hall & Hl & Hne & Hrun).
      exists (cur :: cs), cur'. split; [cbn [concat]; rewrite <- app_assoc, <- Hcat; reflexivity|].
      split; [constructor; assumption|]. split; [assumption|].
      split; [right; destruct Hne as [[? _]|?]; [discriminate|assumption]|].
      cbn [tagged map send_all]. rewrite Et. destruct r1 as [o| |]; [|eauto|eauto].
      destruct (send_all transmit d1 (map mk (tagged false (negb t) tid cs))) as [d' []]; try exact Hrun.
      rewrite Hrun. cbn [length flip]. replace (S n + length cs)%nat with (n + S (length cs))%nat by lia. destruct cs; reflexivity.
    + unfold vec64_push. replace (length cur <? 64)%nat with true by (symmetry; apply Nat.ltb_lt; lia).
      destruct (IH (cur ++ [byte]) s t d n ltac:(rewrite app_length; cbn; lia)) as (cs & cur' & Hcat & Hall & Hl & Hne & Hrun).
      exists cs, cur'. split; [rewrite <- Hcat, <- app_assoc; reflexivity|]. split; [assumption|]. split; [assumption|].
      split; [right; destruct Hne as [[E' _]|?]; [destruct cur; discriminate|assumption]|]. exact Hrun.
Qed.
End Send.

Lemma concat_length_const m (cs : list (list N)) : Forall (fun c => length c = m) cs -> length (concat cs) = (m * length cs)%nat.
Proof. induction 1 as [|c cs Hc _ IH]; cbn [concat length]; [lia|]. rewrite app_length, IH, Hc. lia. Qed.

(** frame statistics *)
Lemma round_up_spec n : (n <= 64)%nat ->
  exists r, round_up n = Ok r /\ (n <= r <= 64)%nat /\ valid_len r /\ (forall k, (n <= k < r)%nat -> ~ valid_len k).
Proof.
  intro H. unfold round_up, valid_len.
  repeat (match goal with |- context [(n <=? ?k)%nat] => destruct (Nat.leb_spec n k) end);
    try (eexists; split; [reflexivity|]; split; [lia|]; split; [cbn; lia|]; intros k Hk; cbn; lia); try lia.
Qed.

Lemma div_ceil_spec a b q : (0 < b)%nat -> (b * (q - 1) < a <= b * q)%nat -> div_ceil a b = q.
Proof.
  intros Hb H. unfold div_ceil. pose proof (Nat.div_mod a b ltac:(lia)) as E. pose proof (Nat.mod_upper_bound a b ltac:(lia)) as Hm.
  generalize dependent (a / b)%nat; generalize dependent (a mod b)%nat; intros r Hr x E.
  destruct (Nat.eqb_spec r 0) as [Hz|Hz]; nia.
Qed.

Lemma div_ceil_ex a b : (0 < b)%nat -> (0 < a)%nat -> exists q, (1 <= q)%nat /\ (b * (q - 1) < a <= b * q)%nat /\ div_ceil a b = q.
Proof.
  intros Hb Ha. exists (div_ceil a b). unfold div_ceil. pose proof (Nat.div_mod a b ltac:(lia)) as E. pose proof (Nat.mod_upper_bound a b ltac:(lia)) as Hm.
  generalize dependent (a / b)%nat; generalize dependent (a mod b)%nat; intros r Hr x E.
  destruct (Nat.eqb_spec r 0) as [Hz|Hz].
  - split; [nia|]. split; [nia|reflexivity].
  - split; [lia|]. split; [nia|reflexivity].
Qed.

(** Total length of the data in the frames without tail bytes, for [len] bytes of payload. *)
Lemma frame_stats_spec len mtu : mtu = 8%nat \/ mtu = 64%nat ->
  let crc := if (len <=? mtu - 1)%nat then O else 2%nat in
  exists frames pad last,
    frame_stats len mtu = Ok (frames, pad) /\ (1 <= frames)%nat /\
    (len + pad + crc + frames = mtu * (frames - 1) + last)%nat /\ (1 <= last <= mtu)%nat /\ ((2 <= frames)%nat -> (2 <= last)%nat) /\
    valid_len last /\ (forall k, (last - pad <= k < last)%nat -> ~ valid_len k) /\ (pad <= last)%nat /\
    (frames = 1%nat <-> (len <= mtu - 1)%nat) /\ (mtu = 8%nat -> pad = O).
Proof.
  intros Hmtu crc. unfold frame_stats.
  replace (mtu <=? 64)%nat with true by (symmetry; apply Nat.leb_le; lia).
  replace (1 <? mtu)%nat with true by (symmetry; apply Nat.ltb_lt; lia). cbn [negb]. fold crc. cbv zeta.
  assert (Hq : exists q, (1 <= q)%nat /\ ((mtu - 1) * (q - 1) <= len + crc <= (mtu - 1) * q)%nat /\
     ((2 <= q)%nat -> ((mtu - 1) * (q - 1) < len + crc)%nat) /\ Nat.max 1 (div_ceil (len + crc) (mtu - 1)) = q /\ (q = 1%nat <-> (len <= mtu - 1)%nat)).
  { destruct (Nat.eq_dec (len + crc) 0) as [E|E].
    - exists 1%nat. rewrite E. split; [lia|]. split; [nia|]. split; [lia|]. split; [destruct Hmtu as [-> | ->]; reflexivity|]. lia.
    - destruct (div_ceil_ex (len + crc) (mtu - 1) ltac:(lia) ltac:(lia)) as (q & H1 & H2 & H3). exists q.
      split; [lia|]. split; [lia|]. split; [lia|]. split; [lia|]. unfold crc in *.
      destruct (Nat.leb_spec len (mtu - 1)); nia. }
  destruct Hq as (q & Hq1 & Hq2 & Hq3 & -> & Hq4). set (T := (len + crc + q)%nat).
  assert (HT : (mtu * (q - 1) < T <= mtu * q)%nat) by (unfold T; nia).
  rewrite (div_ceil_spec T mtu q) by lia.
  set (l := (T - mtu * (q - 1))%nat). assert (Hl : (1 <= l <= mtu)%nat) by (unfold l; nia).
  assert (Hmod : (T mod mtu = if (l =? mtu)%nat then 0 else l)%nat).
  { assert (ET : T = (l + (q - 1) * mtu)%nat) by (unfold l; nia). rewrite ET, Nat.mod_add by lia.
    destruct (Nat.eqb_spec l mtu) as [->|]; [apply Nat.mod_same; lia|apply Nat.mod_small; lia]. }
  rewrite Hmod. clear Hmod. destruct (Nat.eqb_spec l mtu) as [El|El].
  - change (round_up 0) with (Ok 0%nat). exists q, 0%nat, mtu. split; [reflexivity|]. split; [assumption|]. split; [unfold l, T in *; nia|].
    split; [lia|]. split; [lia|]. split; [destruct Hmtu as [-> | ->]; unfold valid_len; cbn; lia|]. split; [intros; lia|]. split; [lia|]. split; [assumption|auto].
  - destruct (round_up_spec l ltac:(lia)) as (r & -> & Hr & Hv & Hmin). exists q, (r - l)%nat, r.
    assert (Hrm : (r <= mtu)%nat).
    { destruct (Nat.le_gt_cases r mtu) as [|Hgt]; [assumption|]. exfalso. apply (Hmin mtu); [lia|]. destruct Hmtu as [-> | ->]; unfold valid_len; cbn; lia. }
    split; [reflexivity|]. split; [assumption|]. split; [unfold l, T in *; nia|]. split; [lia|]. split; [intro; unfold l, T in *; nia|].
    split; [assumption|]. split; [intros k Hk; apply Hmin; lia|]. split; [lia|]. split; [assumption|]. intros ->.
    destruct (Nat.eq_dec r l) as [->|Hn]; [lia|]. exfalso. apply (Hmin l); [lia|]. unfold valid_len. lia.
Qed.

(** tails *)
Lemma make_tail_tail_byte s e t tid : tid <= 31 -> make_tail s e t tid = tail_byte s e t tid.
Proof. intro H. rewrite make_tail_value by assumption. unfold tail_byte. destruct s, e, t; cbn [N.b2n]; lia. Qed.

Lemma flip_even n : flip n true = Nat.even n.
Proof.
  assert (H : forall n b, flip n b = if Nat.even n then b else negb b).
  { clear. induction n as [|n IH]; intro b; [reflexivity|]. cbn [flip]. rewrite IH, Nat.even_succ, <- Nat.negb_even. destruct (Nat.even n), b; reflexivity. }
  rewrite H. destruct (Nat.even n); reflexivity.
Qed.

Lemma tagged_nth tid cs : forall s t i c, nth_error cs i = Some c ->
  nth_error (tagged s t tid cs) i = Some (c ++ [make_tail (match i with O => s | _ => false end) false (flip i t) tid]).
Proof.
  induction cs as [|c0 cs IH]; intros s t i c H; [destruct i; discriminate|]. destruct i as [|i].
  - cbn in *. congruence.
  - cbn [nth_error tagged flip] in *. rewrite (IH _ _ _ _ H). destruct i; reflexivity.
Qed.

(** all the frame data of a transfer *)
Definition all_data (tid : N) (cs : list (list N)) (last : list N) : list (list N) :=
  tagged true true tid cs ++ [last ++ [make_tail (match cs with [] => true | _ => false end) true (flip (length cs) true) tid]].

Lemma all_data_nth tid cs last i c : tid <= 31 -> nth_error (cs ++ [last]) i = Some c ->
  nth_error (all_data tid cs last) i =
  Some (c ++ [tail_byte (i =? 0)%nat (S i =? length (cs ++ [last]))%nat (Nat.even i) tid]).
Proof.
  intros Ht H. unfold all_data. rewrite app_length; cbn [length]. destruct (Nat.lt_ge_cases i (length cs)) as [Hi|Hi].
  - rewrite nth_error_app1 in H by assumption. rewrite nth_error_app1 by (rewrite tagged_length; assumption).
    rewrite (tagged_nth _ _ _ _ _ _ H). replace (S i =? length cs + 1)%nat with false by (symmetry; apply Nat.eqb_neq; lia).
    rewrite make_tail_tail_byte, flip_even by assumption. destruct i; reflexivity.
  - rewrite nth_error_app2 in H by assumption. assert (E : i = length cs).
    { assert (i - length cs < 1)%nat; [|lia]. change 1%nat with (length [last]). apply nth_error_Some. congruence. }
    subst i. rewrite Nat.sub_diag in H. cbn in H. injection H as <-.
    rewrite nth_error_app2, tagged_length, Nat.sub_diag by (rewrite tagged_length; lia). cbn [nth_error].
    rewrite Nat.add_1_r, Nat.eqb_refl. rewrite make_tail_tail_byte, flip_even by assumption. destruct cs; reflexivity.
Qed.

(** Segmentation: the main result.  [frames] does not depend on the driver. *)
Lemma push_inner_spec fcap mtu t :
  mtu = 8%nat \/ mtu = 64%nat -> (mtu <= fcap)%nat -> can_header_ok (t_header t) ->
  exists frames pad id,
    make_can_id (t_header t) (t_payload t) = Ok id /\ segmented mtu t frames pad id /\
    Forall (fun f => valid_len (length (f_data f)) /\ (1 <= length (f_data f) <= mtu)%nat) frames /\
    (forall f k, nth_error frames (length frames - 1) = Some f -> (length (f_data f) - pad <= k < length (f_data f))%nat -> ~ valid_len k) /\
    (forall f, nth_error frames (length frames - 1) = Some f -> (pad < length (f_data f))%nat) /\
    (mtu = 8%nat -> pad = O) /\
    (length frames = 1%nat <-> (length (t_payload t) <= mtu - 1)%nat) /\
    frame_stats (length (t_payload t)) mtu = Ok (length frames, pad) /\
    forall D (reserve : D -> nat -> D * bool) transmit d,
      push_inner reserve transmit fcap mtu d t =
      Ok (match reserve d (length frames) with
          | (d1, false) => (d1, PushMemory)
          | (d1, true) => send_all transmit d1 frames
          end).
Proof.
  intros Hmtu Hfc Hh. set (len := length (t_payload t)).
  destruct (frame_stats_spec len mtu Hmtu) as (nf & pad & last & Hst & Hn1 & Htot & Hlast & Hl2 & Hval & Hmin & Hpl & Hone & Hp8).
  set (crclen := if (len <=? mtu - 1)%nat then 0%nat else 2%nat) in *.
  set (id := can_id_value (t_header t) (t_payload t)). pose proof (make_can_id_spec _ (t_payload t) Hh) as Hid. fold id in Hid.
  set (tid := h_tid (t_header t)). assert (Ht : tid <= 31) by (destruct Hh as (_ & Ht & _); exact Ht).
  set (body := t_payload t ++ repeat 0 pad).
  assert (Hblen : length body = (len + pad)%nat) by (unfold body; rewrite app_length, repeat_length; reflexivity).
  (* chunks, found with a driver that takes everything *)
  destruct (push_bytes_spec (fun (d : unit) _ => (d, TxOk None)) fcap (h_ts (t_header t)) id (t_loopback t) mtu tid body ltac:(lia) Hfc [] true true tt O ltac:(cbn; lia))
    as (cs1 & cur1 & Hcat1 & Hall1 & Hlen1 & Hne1 & _). cbn [app] in Hcat1.
  assert (Hsum1 : (len + pad = (mtu - 1) * length cs1 + length cur1)%nat).
  { rewrite <- Hblen, Hcat1, app_length, (concat_length_const (mtu - 1)) by assumption. reflexivity. }
  assert (Hc1 : (0 < length cur1)%nat \/ len = O).
  { destruct Hne1 as [(_ & E)|E]; [right|left; destruct cur1; [congruence|cbn; lia]]. apply (f_equal (@length N)) in E. cbn [length] in E. lia. }
  assert (Hz0 : len = O -> pad = O).
  { intro Hz. assert (nf = 1%nat) by (apply Hone; lia). subst nf. unfold crclen in *. destruct (Nat.leb_spec len (mtu - 1)); [|lia].
    cbn [Nat.sub] in Htot. rewrite Nat.mul_0_r in Htot. destruct pad as [|p]; [reflexivity|]. exfalso. apply (Hmin 1%nat); [lia|]. unfold valid_len. lia. }
  assert (Hcs1 : length cs1 = O <-> (len <= mtu - 1)%nat).
  { split; intro Hx.
    - assert ((mtu - 1) * length cs1 = 0)%nat by (rewrite Hx; apply Nat.mul_0_r).
      destruct (Nat.le_gt_cases len (mtu - 1)); [assumption|]. lia.
    - assert (nf = 1%nat) by tauto. unfold crclen in *. destruct (Nat.leb_spec len (mtu - 1)); [|lia].
      destruct (length cs1) as [|k]; [reflexivity|]. exfalso. rewrite Nat.mul_succ_r in Hsum1. subst nf. cbn [Nat.sub] in Htot. rewrite Nat.mul_0_r in Htot.
      destruct Hc1 as [|Hz]; [lia|]. specialize (Hz0 Hz). lia. }
  set (crcb := if (length cs1 =? 0)%nat then [] else be_bytes 2 (crc16 body)).
  assert (Hcrcb : length crcb = crclen).
  { unfold crcb, crclen. destruct (Nat.eqb_spec (length cs1) 0) as [E|E]; destruct (Nat.leb_spec len (mtu - 1)); try lia; reflexivity. }
  destruct (push_bytes_spec (fun (d : unit) _ => (d, TxOk None)) fcap (h_ts (t_header t)) id (t_loopback t) mtu tid crcb ltac:(lia) Hfc cur1
      (match cs1 with [] => true | _ => false end) (flip (length cs1) true) tt O Hlen1)
    as (cs2 & cur2 & Hcat2 & Hall2 & Hlen2 & Hne2 & _).
  set (cs := cs1 ++ cs2).
  set (mk := Frame (h_ts (t_header t)) id (t_loopback t)).
  set (frames := map mk (all_data tid cs cur2)).
  assert (Hall : Forall (fun c => length c = (mtu - 1)%nat) cs) by (apply Forall_app; auto).
  assert (Hcat : concat (cs ++ [cur2]) = body ++ crcb).
  { unfold cs. rewrite !concat_app. cbn [concat]. rewrite app_nil_r, <- app_assoc, <- Hcat2, app_assoc, <- Hcat1. reflexivity. }
  assert (Hsum : (len + pad + crclen = (mtu - 1) * length cs + length cur2)%nat).
  { rewrite <- Hcrcb, <- Hblen, <- app_length, <- Hcat, concat_app, app_length, (concat_length_const (mtu - 1)) by assumption. cbn [concat]. rewrite app_nil_r. reflexivity. }
  assert (Hc2 : (0 < length cur2)%nat \/ len = O).
  { destruct Hne2 as [(E1 & _)|E]; [|left; destruct cur2; [congruence|cbn; lia]]. right. destruct Hc1 as [Hc1|Hc1]; [|assumption]. rewrite E1 in Hc1. cbn in Hc1. lia. }
  assert (Hnf : nf = S (length cs) /\ last = S (length cur2)).
  { destruct (Nat.eq_dec len 0) as [Hz|Hz].
    - assert (nf = 1%nat) by (apply Hone; lia). subst nf. unfold crclen in *. destruct (Nat.leb_spec len (mtu - 1)); [|lia].
      assert (length cs = O) by (destruct (length cs) as [|k]; [reflexivity|rewrite Nat.mul_succ_r in Hsum; lia]). lia.
    - destruct Hc2 as [Hc2|]; [|lia]. assert (1 <= last - 1 \/ nf = 1%nat)%nat by lia. nia. }
  destruct Hnf as (Hnf & Hlast').
  assert (Hflen : length frames = nf).
  { unfold frames, all_data. rewrite map_length, app_length, tagged_length. cbn [length]. lia. }
  assert (Hnth : forall i c, nth_error (cs ++ [cur2]) i = Some c ->
     nth_error frames i = Some (mk (c ++ [tail_byte (i =? 0)%nat (S i =? length (cs ++ [cur2]))%nat (Nat.even i) tid]))).
  { intros i c Hi. unfold frames. rewrite nth_error_map, (all_data_nth tid cs cur2 i c Ht Hi). reflexivity. }
  assert (Hclen : length (cs ++ [cur2]) = nf) by (rewrite app_length; cbn; lia).
  assert (Hfl : nth_error frames (length frames - 1) = Some (mk (cur2 ++ [tail_byte (length cs =? 0)%nat true (Nat.even (length cs)) tid]))).
  { rewrite Hflen, Hnf. replace (S (length cs) - 1)%nat with (length cs) by lia. rewrite (Hnth (length cs) cur2).
    - rewrite Hclen, Hnf, Nat.eqb_refl. reflexivity.
    - rewrite nth_error_app2, Nat.sub_diag by lia. reflexivity. }
  assert (Hchunk : forall i c, nth_error (cs ++ [cur2]) i = Some c -> (i < length cs)%nat /\ length c = (mtu - 1)%nat \/ i = length cs /\ c = cur2).
  { intros i c Hi. destruct (Nat.lt_ge_cases i (length cs)) as [Hx|Hx].
    - left. split; [assumption|]. rewrite nth_error_app1 in Hi by assumption. apply nth_error_In in Hi. rewrite Forall_forall in Hall. auto.
    - right. assert (i < length (cs ++ [cur2]))%nat by (apply nth_error_Some; congruence). assert (i = length cs) by lia. subst i.
      rewrite nth_error_app2, Nat.sub_diag in Hi by lia. cbn in Hi. split; congruence. }
  exists frames, pad, id. split; [exact Hid|]. split.
  { exists (cs ++ [cur2]). split; [|split; [|split; [|split]]].
    - rewrite Hcat. unfold body. rewrite <- app_assoc. f_equal. f_equal. rewrite Hclen. unfold crcb.
      destruct (Nat.eqb_spec (length cs1) 0) as [E|E].
      + replace nf with 1%nat by (symmetry; tauto). reflexivity.
      + replace (1 <? nf)%nat with true; [reflexivity|]. symmetry. apply Nat.ltb_lt.
        destruct (Nat.eq_dec nf 1) as [E'|E']; [|lia]. exfalso. apply E. tauto.
    - rewrite Hclen. assumption.
    - intros i c Hi. rewrite Hclen. destruct (Hchunk i c Hi) as [(Hx & Hy)|(-> & ->)].
      + split; [lia|]. split; [auto|]. lia.
      + split; [lia|]. split; [lia|]. intro. lia.
    - rewrite Hflen, Hclen. reflexivity.
    - exact Hnth. }
  split.
  { apply Forall_forall. intros f Hf. apply In_nth_error in Hf as (i & Hi).
    assert (Hc : exists c, nth_error (cs ++ [cur2]) i = Some c).
    { destruct (nth_error (cs ++ [cur2]) i) eqn:E; [eauto|]. apply nth_error_None in E. assert (i < length frames)%nat by (apply nth_error_Some; congruence). lia. }
    destruct Hc as (c & Hc). rewrite (Hnth i c Hc) in Hi. injection Hi as <-. unfold mk. cbn [f_data]. rewrite app_length; cbn [length].
    destruct (Hchunk i c Hc) as [(_ & Hy)|(-> & ->)].
    - rewrite Hy. replace (mtu - 1 + 1)%nat with mtu by lia. split; [|lia]. destruct Hmtu as [-> | ->]; unfold valid_len; cbn; lia.
    - replace (length cur2 + 1)%nat with last by lia. split; [assumption|lia]. }
  split.
  { intros f k Hf Hk. rewrite Hfl in Hf. injection Hf as <-. unfold mk in Hk. cbn [f_data] in Hk. rewrite app_length in Hk. cbn [length] in Hk. apply Hmin. lia. }
  split.
  { intros f Hf. rewrite Hfl in Hf. injection Hf as <-. unfold mk. cbn [f_data]. rewrite app_length. cbn [length].
    destruct (Nat.eq_dec nf 1) as [E1|E1].
    - subst nf. assert (length cs = O) by lia. rewrite H in Hsum. rewrite Nat.mul_0_r in Hsum. lia.
    - assert (Hr : ~ (len <= mtu - 1)%nat) by tauto.
      destruct (Nat.lt_ge_cases pad last) as [|Hge]; [lia|]. exfalso. apply (Hmin 8%nat); [|unfold valid_len; lia].
      assert (last <> 1%nat) by lia. assert (pad = last) by lia.
      destruct (Nat.le_gt_cases last 8) as [Hle|]; [|lia]. exfalso. apply (Hmin (last - 1)%nat); [lia|]. unfold valid_len. lia. }
  split; [assumption|]. split; [rewrite Hflen; exact Hone|]. split; [rewrite Hflen; exact Hst|].
  intros D reserve transmit d. unfold push_inner. fold len. rewrite Hst, Hflen. destruct (reserve d nf) as [d1 [|]]; [|reflexivity].
  rewrite Hid. cbv zeta. fold body. fold tid.
  destruct (push_bytes_spec transmit fcap (h_ts (t_header t)) id (t_loopback t) mtu tid body ltac:(lia) Hfc [] true true d1 O ltac:(cbn; lia))
    as (cs1' & cur1' & Hcat1' & Hall1' & Hlen1' & Hne1' & Hrun1). cbn [app] in Hcat1'.
  assert (Huniq : forall m (a b : list (list N)) x y, (1 <= m)%nat -> Forall (fun c => length c = m) a -> Forall (fun c => length c = m) b ->
    concat a ++ x = concat b ++ y -> (length x <= m)%nat -> (length y <= m)%nat -> (x <> [] /\ y <> [] \/ concat a ++ x = []) -> a = b /\ x = y).
  { clear. intros m a. induction a as [|c a IH]; intros b x y Hm Ha Hb E Hx Hy Hne; destruct b as [|c' b].
    - cbn in E. auto.
    - exfalso. cbn in E. pose proof (Forall_inv Hb) as Hc'. cbn beta in Hc'. destruct Hne as [(_ & Hy0)|Hne].
      + apply (f_equal (@length N)) in E. rewrite !app_length in E. destruct y; [congruence|]. cbn [length] in E. lia.
      + cbn in Hne. rewrite Hne in E. symmetry in E. apply app_eq_nil in E as (E & _). apply app_eq_nil in E as (-> & _). cbn in *. lia.
    - exfalso. cbn in E. pose proof (Forall_inv Ha) as Hc'. cbn beta in Hc'. destruct Hne as [(Hx0 & _)|Hne].
      + apply (f_equal (@length N)) in E. rewrite !app_length in E. destruct x; [congruence|]. cbn [length] in E. lia.
      + cbn in Hne. apply app_eq_nil in Hne as (E' & _). apply app_eq_nil in E' as (-> & _). cbn in *. lia.
    - pose proof (Forall_inv Ha) as Hc. pose proof (Forall_inv Hb) as Hc'. pose proof (Forall_inv_tail Ha) as Ha'. pose proof (Forall_inv_tail Hb) as Hb'. cbn beta in *. cbn in E. rewrite <- !app_assoc in E.
      assert (Ec : c = c').
      { apply (f_equal (firstn (length c))) in E. rewrite !firstn_app in E. rewrite Nat.sub_diag, firstn_O, app_nil_r, firstn_all in E.
        rewrite Hc, <- Hc' in E. rewrite Nat.sub_diag, firstn_O, app_nil_r, firstn_all in E. exact E. }
      subst c'. apply app_inv_head in E. destruct (IH b x y Hm Ha' Hb' E Hx Hy) as (-> & ->); [|auto].
      destruct Hne as [?|Hne]; [auto|]. cbn in Hne. apply app_eq_nil in Hne as (E' & _). apply app_eq_nil in E' as (-> & _). cbn in *. lia. }
  assert (Hsame1 : cs1' = cs1 /\ cur1' = cur1).
  { destruct (Huniq (mtu - 1)%nat cs1' cs1 cur1' cur1 ltac:(lia) Hall1' Hall1 ltac:(congruence) Hlen1' Hlen1) as (E1 & E2); [|auto].
    rewrite <- Hcat1'. destruct Hne1' as [(_ & E)|E]; [right; exact E|]. destruct Hne1 as [(_ & E')|E']; [right; exact E'|left; auto]. }
  destruct Hsame1 as (-> & ->).
  assert (Hframes : frames = map mk (tagged true true tid cs1) ++ (map mk (tagged (match cs1 with [] => true | _ => false end) (flip (length cs1) true) tid cs2) ++
      [mk (cur2 ++ [make_tail (match cs with [] => true | _ => false end) true (flip (length cs) true) tid])])).
  { unfold frames, all_data, cs. rewrite tagged_app, !map_app, <- app_assoc. reflexivity. }
  rewrite Hframes, send_all_app. fold mk in Hrun1.
  destruct (send_all transmit d1 (map mk (tagged true true tid cs1))) as [d2 [| | |]] eqn:Es1;
    try (destruct Hrun1 as (b' & n' & Hrun1); change (bd_new mtu tid) with (Breakdown mtu tid true true []); rewrite Hrun1; reflexivity).
  change (bd_new mtu tid) with (Breakdown mtu tid true true []). rewrite Hrun1. cbn [Nat.add].
  assert (Hcb : (if (length cs1 =? 0)%nat then [] else [w8 (N.shiftr (crc16 body) 8); w8 (crc16 body)]) = crcb).
  { unfold crcb. destruct (length cs1 =? 0)%nat; [reflexivity|]. rewrite be16. unfold w8. rewrite N.shiftr_div_pow2. reflexivity. }
  rewrite Hcb.
  destruct (push_bytes_spec transmit fcap (h_ts (t_header t)) id (t_loopback t) mtu tid crcb ltac:(lia) Hfc cur1
      (match cs1 with [] => true | _ => false end) (flip (length cs1) true) d2 (length cs1) Hlen1)
    as (cs2' & cur2' & Hcat2' & Hall2' & Hlen2' & Hne2' & Hrun2).
  assert (Hsame2 : cs2' = cs2 /\ cur2' = cur2).
  { destruct (Huniq (mtu - 1)%nat cs2' cs2 cur2' cur2 ltac:(lia) Hall2' Hall2 ltac:(congruence) Hlen2' Hlen2) as (E1 & E2); [|auto].
    rewrite <- Hcat2'. destruct Hne2' as [(E & E0)|E]; [right; rewrite E, E0; reflexivity|]. destruct Hne2 as [(E' & E0)|E']; [right; rewrite E', E0; reflexivity|left; auto]. }
  destruct Hsame2 as (-> & ->). rewrite send_all_app. fold mk in Hrun2.
  destruct (send_all transmit d2 (map mk (tagged (match cs1 with [] => true | _ => false end) (flip (length cs1) true) tid cs2))) as [d3 [| | |]] eqn:Es2;
    try (destruct Hrun2 as (b' & n' & Hrun2); rewrite Hrun2; reflexivity).
  rewrite Hrun2. unfold bd_finish. cbn [bd_frame bd_start bd_toggle bd_tid]. unfold vec64_push.
  replace (length cur2 <? 64)%nat with true by (symmetry; apply Nat.ltb_lt; lia).
  assert (Estart : match cs2 with [] => match cs1 with [] => true | _ => false end | _ => false end = match cs with [] => true | _ => false end)
    by (unfold cs; destruct cs1, cs2; reflexivity).
  assert (Etog : flip (length cs2) (flip (length cs1) true) = flip (length cs) true).
  { unfold cs. rewrite app_length. generalize (length cs2) as b0, (length cs1) as a, true as z. clear. intros b0 a.
    revert b0; induction a as [|a IH]; intros b0 z; [reflexivity|]. cbn [flip Nat.add]. apply IH. }
  rewrite Estart, Etog. unfold push_frame, frame_new. rewrite app_length. cbn [length].
  replace (length cur2 + 1 <=? fcap)%nat with true by (symmetry; apply Nat.leb_le; lia). fold mk. cbn [send_all].
  unfold mk. destruct (transmit d3 _) as [d4 [o| |]]; reflexivity.
Qed.
