(** Proofs about UDP datagrams that are lost, doubled or reordered. *)
From Verif Require Import Base BitLemmas CoreModel NodeModel NodeSpec NodeProofs NodeProps BusSpec BusProofs NetSpec NetProofs CanNodeModel CanNodeSpec CanNodeProofs
  HeaderModel HeaderSpec HeaderProofs SerialNodeModel SerialNodeSpec SerialNodeProofs SerialLinkProofs
  CrcModel CrcProofs TabModel UdpModel UdpSpec UdpTxProofs UdpRxProofs UdpProps NodeModel UdpNodeModel UdpNodeSpec UdpNodeProofs UdpCallSpec UdpCallProofs UdpLossSpec.

Ltac Zify.zify_post_hook ::= Z.div_mod_to_equations.
Local Strategy 1000 [core_step udp_push udp_receive udp_accept udp_datagrams].

(** * What is sent *)

Lemma frames_nth env deadline ds : forall k d, In d (fst (send_frames env deadline k ds)) -> exists i, nth_error ds i = Some d /\ (S i = length ds -> snd (send_frames env deadline k ds) = true).
Proof.
  induction ds as [|a ds IH]; intros k d Hd; cbn [send_frames] in *; [destruct Hd|]. destruct (env k) as [now ok]. destruct (t_lt now deadline).
  - destruct ok; [|destruct Hd]. specialize (IH (S k)). destruct (send_frames env deadline (S k) ds) as [sent res] eqn:Es. cbn [fst snd] in *. destruct Hd as [<-|Hd].
    + exists 0%nat. split; [reflexivity|]. cbn [length]. intro Hl. destruct ds; [|discriminate Hl]. cbn [send_frames] in Es. injection Es as _ <-. reflexivity.
    + destruct (IH d Hd) as (i & I1 & I2). exists (S i). split; [exact I1|]. cbn [length]. intro Hl. apply I2. congruence.
  - destruct (IH (S k) d Hd) as (i & I1 & I2). exists (S i). split; [exact I1|]. cbn [length]. intro Hl. apply I2. congruence.
Qed.

(** The transfer [t] was handed to the transmitter, and [d] is its [i]-th datagram, sent to the address [ip]; when it is the last one, the call returned [Ok] *)
Definition offered (mtu : nat) (h : list entry) (ip : N) (d : list N) : Prop :=
  exists o calls r t ds i, In (o, calls, r) h /\ In (CPush t) calls /\ (bytes_ok (t_payload t) /\ core_header_ok (t_header t) /\ ip = ip_of_address (dest_of_header (t_header t))) /\ udp_datagrams mtu t = Ok ds /\ udp_segmented mtu t ds /\ nth_error ds i = Some d /\ (S i = length ds -> In t (taken h)).
Lemma offered_more mtu en h ip d : offered mtu h ip d -> offered mtu (en :: h) ip d.
Proof. intros (o & calls & r & t & ds & i & H1 & H2 & H3 & H4 & H5 & H6 & H7). exists o, calls, r, t, ds, i. repeat (split; [assumption || (right; assumption)|]). intro Hl. cbn [taken]. apply in_or_app. left. exact (H7 Hl). Qed.

Lemma ip_offers mtu rmtu k P R id h z : kind_ok Transport64 k -> id < 65535 -> (28 < mtu)%nat -> ip_path mtu rmtu (ip_node_new k P R (Some id)) h z ->
  forall a d, In (a, d) (ip_out z) -> offered mtu (ip_calls h) a d.
Proof.
  intros Hk Hid Hm. assert (H0 : id_fine (Some id)) by (intros j E; injection E as <-; exact Hid). induction 1 as [|h [n r i o] ev z' res H I3 Hf E]; [intros ? d []|].
  destruct (ip_path_fine _ _ _ _ _ _ _ _ H) as (I1 & I2). cbn [ip_core ip_out] in *. destruct ev as [op env group| |answers|d].
  - destruct (ip_call_inv _ _ _ _ _ _ _ _ _ _ _ E) as (a & b & calls & ro & -> & E1 & Hro & Hi & Hp). cbn [ip_calls flat_map snd app]. fold (ip_calls h). destruct Hf as (Hf & Hlen). pose proof (serial_answers_fine a b op Hf) as Hfo.
    pose proof (step_effect64 _ _ _ _ _ _ _ _ _ _ Hk I1 E1 Hro) as He.
    inversion Hp as [a1 b1 X1|t ip sent ok' b1 Ep X1|c rop r' rr a1 Hop Es X1]; subst; try (intros ? d Hd; apply offered_more, I3; assumption).
    match goal with Hx : o ++ map (pair ip) sent = ip_out z' |- _ => rename Hx into Eout end. rewrite <- Eout in *. intros a' d Hd. apply in_app_or in Hd. destruct Hd as [Hd|Hd]; [apply offered_more, I3, Hd|]. apply in_map_iff in Hd. destruct Hd as (d' & Ed' & Hd). injection Ed' as -> ->.
    destruct (effect64_fine _ _ _ _ _ t H0 I2 Hfo He (or_introl eq_refl)) as (F1 & F2).
    assert (Hpl : length (t_payload t) = length (payload_of op)).
    { inversion He as [o' c' r' Hn Hq1 X1|lb sub payload e timeout prio Es X1 X2 X3|lb service payload server e timeout prio source Es Ei X1 X2 X3|kk timeout payload e source Ei X1 X2 X3]; subst.
      - destruct (Hn t (or_introl eq_refl)).
      - destruct op; try discriminate X1. injection X1 as _ _ -> _. reflexivity.
      - destruct op; try discriminate X1. injection X1 as _ _ -> _ _. reflexivity.
      - destruct op; try discriminate X1. injection X1 as _ _ -> _. reflexivity. }
    destruct (C30_segmentation mtu t F1 Hm ltac:(rewrite Hpl; exact Hlen)) as (ds & Eds & Hseg).
    unfold udp_push in Ep. rewrite Eds in Ep. destruct (send_frames env (h_ts (t_header t)) 0 ds) as [sent' ok2] eqn:Esf. injection Ep as Eip <- <-.
    destruct (frames_nth env (h_ts (t_header t)) ds 0 d) as (j & J1 & J2); [rewrite Esf; exact Hd|]. rewrite Esf in J2. cbn [snd] in J2.
    eexists _, _, _, t, ds, j. split; [left; reflexivity|]. split; [left; reflexivity|]. split; [split; [exact F2|split; [exact F1|symmetry; exact Eip] ]|]. split; [exact Eds|]. split; [exact Hseg|]. split; [exact J1|]. intro Hl. specialize (J2 Hl). subst ok2. cbn [taken]. apply in_or_app. right.
    pose proof (answers_answered PushOk b op) as Han.
    inversion He as [o' c' r' Hn Hq1 X1|lb sub payload e timeout prio Es X1 X2 X3|lb service payload server e timeout prio source Es Ei X1 X2 X3|kk timeout payload e source Ei X1 X2 X3]; subst.
    + destruct (Hn t (or_introl eq_refl)).
    + rewrite <- X1 in Han. cbn [answered] in Han. rewrite Han. left. reflexivity.
    + rewrite <- X1 in Han. cbn [answered] in Han. rewrite Han. left. reflexivity.
    + rewrite <- X1 in Han. cbn [answered] in Han. rewrite Han. left. reflexivity.
  - injection E as <- <-. exact I3.
  - cbn [ip_node_step] in E. destruct (udp_receive rmtu r _) as [ [ [r' a] rest]|]; [|discriminate E]. injection E as <- <-. exact I3.
  - injection E as <- <-. exact I3.
Qed.

(** * What is assembled *)

Lemma nth_ext_error {A} (l m : list A) : (forall n, nth_error l n = nth_error m n) -> l = m.
Proof.
  revert m. induction l as [|a l IH]; intros m H; destruct m as [|b m]; [reflexivity|discriminate (H 0%nat)|discriminate (H 0%nat)|]. pose proof (H 0%nat) as H0. cbn [nth_error] in H0. injection H0 as <-. f_equal. apply IH. intro n. exact (H (S n)).
Qed.
Lemma nth_skipn {A} (l : list A) : forall i n, nth_error (skipn i l) n = nth_error l (i + n).
Proof. induction l as [|a l IH]; intros i n; destruct i; cbn [skipn Nat.add]; try reflexivity; [destruct n; reflexivity|apply IH]. Qed.
Lemma concat_skipn {A} (l : list (list A)) i : concat (skipn i l) = skipn (length (concat (firstn i l))) (concat l).
Proof. rewrite <- (firstn_skipn i l) at 3. rewrite concat_app, skipn_app, Nat.sub_diag, skipn_all. reflexivity. Qed.

(** A datagram of [t] as a receiver sees it *)
Lemma datagram_seen mtu rmtu t ds i d f body : udp_segmented mtu t ds -> (mtu <= rmtu)%nat -> nth_error ds i = Some d -> parsed rmtu d = Some (f, body) ->
  fh_index f = N.of_nat i /\ fh_last f = (S i =? length ds)%nat /\ fh_tid f = h_tid (t_header t) /\ dspec_port (fh_spec f) = h_port (t_header t) /\
  forall Bs, concat Bs = t_payload t ++ le_bytes 4 (crc32 (t_payload t)) -> length ds = length Bs ->
    (forall j b, nth_error Bs j = Some b -> (0 < length b)%nat /\ (24 + length b <= mtu)%nat /\ ((S j < length Bs)%nat -> (24 + length b = mtu)%nat) /\ exists e, nth_error ds j = Some e /\ datagram_of (t_header t) j (S j =? length Bs)%nat b e) ->
    nth_error Bs i = Some body.
Proof.
  intros Hseg Hm Hd Hp.
  assert (K : forall Bs, length ds = length Bs ->
    (forall j b, nth_error Bs j = Some b -> (0 < length b)%nat /\ (24 + length b <= mtu)%nat /\ ((S j < length Bs)%nat -> (24 + length b = mtu)%nat) /\ exists e, nth_error ds j = Some e /\ datagram_of (t_header t) j (S j =? length Bs)%nat b e) ->
    nth_error Bs i = Some body /\ fh_index f = N.of_nat i /\ fh_last f = (S i =? length ds)%nat /\ fh_tid f = h_tid (t_header t) /\ dspec_port (fh_spec f) = h_port (t_header t)).
  { intros Bs Hl Hall. assert (Hlt : (i < length Bs)%nat) by (rewrite <- Hl; apply nth_error_Some; congruence). destruct (nth_error Bs i) as [b|] eqn:Eb; [|apply nth_error_None in Eb; lia].
    destruct (Hall i b Eb) as (_ & Hb & _ & e & Ee & Hdg). assert (e = d) by congruence. subst e. assert (Hlen : length d = (24 + length b)%nat) by (destruct Hdg as (Ed & Hl24 & _); rewrite Ed, app_length, Hl24; reflexivity).
    assert (H4 : (4 <= length b)%nat). { unfold parsed in Hp. rewrite (firstn_all2 d) in Hp by lia. destruct (Nat.ltb_spec (length d) 28); [discriminate Hp|lia]. }
    destruct (datagram_parsed rmtu _ _ _ _ _ Hdg H4 ltac:(lia)) as (f' & Ef & P1 & _ & P3 & _ & P5 & P6 & _). rewrite Ef in Hp. injection Hp as <- <-. rewrite Hl. split; [reflexivity|]. split; [exact P5|]. split; [exact P6|]. split; [exact P3|exact P1]. }
  pose proof Hseg as (Bs & C1 & _ & C3 & C4). destruct (K Bs C3 C4) as (_ & K2 & K3 & K4 & K5). split; [exact K2|]. split; [exact K3|]. split; [exact K4|]. split; [exact K5|]. intros Bs' _ Hl Hall. exact (proj1 (K Bs' Hl Hall)).
Qed.
Lemma full_bodies mtu (Bs : list (list N)) : (forall i b, nth_error Bs i = Some b -> (0 < length b)%nat /\ (24 + length b <= mtu)%nat /\ ((S i < length Bs)%nat -> (24 + length b = mtu)%nat)) ->
  forall i, (i < length Bs)%nat -> length (concat (firstn i Bs)) = (i * (mtu - 24))%nat /\ (length (concat (firstn i Bs)) < length (concat Bs))%nat.
Proof.
  intro H. assert (K : forall i, (i < length Bs)%nat -> length (concat (firstn i Bs)) = (i * (mtu - 24))%nat).
  { induction i as [|i IH]; intro Hi; [reflexivity|]. specialize (IH ltac:(lia)). destruct (nth_error Bs i) as [b|] eqn:Eb; [|apply nth_error_None in Eb; lia]. destruct (H i b Eb) as (_ & _ & Hb). specialize (Hb Hi).
    assert (Ef : firstn (S i) Bs = firstn i Bs ++ [b]). { clear -Eb. revert i Eb. induction Bs as [|a l IH]; intros i Eb; [destruct i; discriminate Eb|]. destruct i; [injection Eb as ->; reflexivity|]. cbn [nth_error] in Eb. cbn [firstn app]. f_equal. exact (IH i Eb). }
    rewrite Ef, concat_app, app_length, IH. cbn [concat]. rewrite app_nil_r. cbn [Nat.mul]. lia. }
  intros i Hi. split; [exact (K i Hi)|]. rewrite <- (firstn_skipn i Bs) at 2. rewrite concat_app, app_length. destruct (skipn i Bs) as [|b l] eqn:Es.
  - pose proof (f_equal (@length _) Es) as X. rewrite skipn_length in X. cbn [length] in X. lia.
  - assert (Eb : nth_error Bs i = Some b) by (pose proof (nth_skipn Bs i 0) as X; rewrite Es, Nat.add_0_r in X; cbn [nth_error] in X; congruence). destruct (H i b Eb) as (Hb & _). cbn [concat]. rewrite app_length. lia.
Qed.
Lemma tail_of mtu rmtu t ds (fs : list (N * (fheader * list N))) : udp_segmented mtu t ds -> (mtu <= rmtu)%nat -> fs <> [] -> consecutive (map snd fs) ->
  (forall x, In x fs -> exists i d, nth_error ds i = Some d /\ parsed rmtu d = Some (snd x)) -> (length fs = 1%nat -> forall x, In x fs -> fh_index (fst (snd x)) = 0) ->
  exists j, concat (map (fun x => snd (snd x)) fs) = skipn j (t_payload t ++ le_bytes 4 (crc32 (t_payload t))) /\ lost_start mtu (t_payload t) j.
Proof.
  intros Hseg Hm Hne Hcons Hx Hone. pose proof Hseg as (Bs & C1 & _ & C3 & C4). destruct fs as [|x0 fs']; [congruence|]. set (fs := x0 :: fs') in *. destruct (Hx x0 (or_introl eq_refl)) as (i0 & d0 & D1 & D2). destruct x0 as (now0 & f0 & b0). cbn [snd] in D2.
  destruct (datagram_seen _ _ _ _ _ _ _ _ Hseg Hm D1 D2) as (S1 & _).
  assert (K : forall n x, nth_error fs n = Some x -> nth_error Bs (i0 + n) = Some (snd (snd x)) /\ (S n = length fs -> S (i0 + n) = length Bs)).
  { intros n x Hn. destruct (Hx x (nth_error_In _ _ Hn)) as (i & d & E1 & E2). destruct x as (now & f & b). cbn [snd] in E2 |- *. destruct (datagram_seen _ _ _ _ _ _ _ _ Hseg Hm E1 E2) as (T1 & T2 & _ & _ & T5).
    destruct (Hcons n f b f0 b0 eq_refl) as (Q1 & _ & _ & Q4 & _); [rewrite nth_error_map, Hn; reflexivity|]. assert (i = (i0 + n)%nat) by lia. subst i. split; [exact (T5 Bs C1 C3 C4)|]. intro Hl. rewrite map_length in Q4. specialize (Q4 Hl). rewrite Q4 in T2. symmetry in T2. apply Nat.eqb_eq in T2. lia. }
  assert (Hlen : (i0 + length fs = length Bs)%nat).
  { destruct (nth_error fs (length fs - 1)) as [x|] eqn:El; [|apply nth_error_None in El; cbn [fs length] in El; lia]. destruct (K _ _ El) as (_ & K2). cbn [fs length] in *. lia. }
  assert (Hfull : forall i b, nth_error Bs i = Some b -> (0 < length b)%nat /\ (24 + length b <= mtu)%nat /\ ((S i < length Bs)%nat -> (24 + length b = mtu)%nat)) by (intros i b Hb; destruct (C4 i b Hb) as (X1 & X2 & X3 & _); split; [exact X1|split; [exact X2|exact X3] ]).
  pose proof (full_bodies mtu Bs Hfull) as Hlens. exists (length (concat (firstn i0 Bs))). split.
  2:{ destruct (Hlens i0 ltac:(cbn [fs length] in Hlen; lia)) as (Q1 & _). destruct fs' as [|x1 fs''].
      - left. specialize (Hone eq_refl _ (or_introl eq_refl)). cbn [fst snd] in Hone. assert (i0 = 0%nat) by lia. subst i0. reflexivity.
      - right. split; [exists i0; exact Q1|]. destruct (Hlens (S i0) ltac:(cbn [fs length] in Hlen; lia)) as (R1 & R2). rewrite R1, C1, app_length, le_bytes_length in R2. rewrite Q1. cbn [Nat.mul] in R2. lia. }
  rewrite <- C1, <- concat_skipn. f_equal. apply nth_ext_error. intro n. rewrite nth_skipn, nth_error_map. destruct (nth_error fs n) as [x|] eqn:En; cbn [option_map].
  - symmetry. exact (proj1 (K n x En)).
  - symmetry. apply nth_error_None. apply nth_error_None in En. lia.
Qed.
Lemma le4_inj a b : a < 2 ^ 32 -> b < 2 ^ 32 -> le_bytes 4 a = le_bytes 4 b -> a = b.
Proof. intros Ha Hb E. pose proof (from_le_le_bytes 4 a) as Xa. pose proof (from_le_le_bytes 4 b) as Xb. change (2 ^ (8 * N.of_nat 4)) with (2 ^ 32) in Xa, Xb. rewrite N.mod_small in Xa, Xb by assumption. rewrite E in Xa. congruence. Qed.
Lemma cut_tail pl data j : bytes_ok pl -> data ++ le_bytes 4 (crc32 data) = skipn j (pl ++ le_bytes 4 (crc32 pl)) -> (j <= length pl)%nat /\ data = skipn j pl /\ crc32 (skipn j pl) = crc32 pl.
Proof.
  intros Hb E. assert (Hl : (length data + 4 = length pl + 4 - j)%nat) by (pose proof (f_equal (@length N) E) as X; rewrite skipn_length, !app_length, !le_bytes_length in X; exact X).
  assert (Hj : (j <= length pl)%nat) by lia. split; [exact Hj|]. rewrite skipn_app in E. replace (j - length pl)%nat with 0%nat in E by lia. cbn [skipn] in E.
  assert (Ed : data = skipn j pl).
  { pose proof (f_equal (firstn (length data)) E) as X. rewrite firstn_app, firstn_all, Nat.sub_diag in X. cbn [firstn] in X. rewrite app_nil_r in X. rewrite firstn_app in X. rewrite skipn_length in X. replace (length data - (length pl - j))%nat with 0%nat in X by lia. cbn [firstn] in X. rewrite app_nil_r in X.
    rewrite X at 1. apply firstn_all2. rewrite skipn_length. lia. }
  split; [exact Ed|]. rewrite <- Ed in *. apply app_inv_head in E. apply le4_inj; [|apply crc32_bound, Hb|exact E]. apply crc32_bound. rewrite Ed. rewrite <- (firstn_skipn j pl) in Hb. unfold bytes_ok in *. apply Forall_app in Hb. apply Hb.
Qed.

(** * Listening *)

Lemma run_split mtu id ops : forall h r r' outs t, udp_hist mtu id h r -> udp_run mtu r ops = Ok (r', outs) -> Forall udp_op_ok ops -> In t (flat_map ugot outs) ->
  exists l d now pa sa r1, udp_hist mtu id ((ODatagram d now pa sa, GGot (UDeliver t)) :: l ++ h) r1 /\ (forall x, In x l -> In (fst x) ops) /\ In (ODatagram d now pa sa) ops.
Proof.
  induction ops as [|op ops IH]; intros h r r' outs t Hh E Hf Ht; cbn [udp_run] in E; [injection E as _ <-; destruct Ht|]. inversion Hf as [|? ? F1 F2]; subst. destruct (udp_step mtu r op) as [ [r1 o]|] eqn:E1; [|discriminate E].
  destruct (udp_run mtu r1 ops) as [ [r2 os]|] eqn:E2; [|discriminate E]. injection E as _ <-. cbn [flat_map] in Ht. pose proof (uh_step _ _ _ _ _ _ _ Hh F1 E1) as Hh1. apply in_app_or in Ht. destruct Ht as [Ht|Ht].
  - destruct op as [d now pa sa|q m ti jok|q lok|nid]; cbn [udp_step] in E1.
    + destruct (udp_accept mtu r d now pa sa) as [ [r3 u]|]; [|discriminate E1]. injection E1 as <- <-. destruct u as [|t'|]; [destruct Ht| |destruct Ht]. destruct Ht as [<-|[] ]. exists [], d, now, pa, sa, r3. split; [exact Hh1|]. split; [intros x []|left; reflexivity].
    + destruct (udp_subscribe r q m ti jok) as [ [? ?] ?]. injection E1 as _ <-. destruct Ht.
    + destruct (udp_unsubscribe r q lok). injection E1 as _ <-. destruct Ht.
    + injection E1 as _ <-. destruct Ht.
  - destruct (IH _ _ _ _ t Hh1 E2 F2 Ht) as (l & d & now & pa & sa & r3 & A1 & A2 & A3). exists (l ++ [(op, o)]), d, now, pa, sa, r3. rewrite <- app_assoc. cbn [app]. split; [exact A1|]. split; [|right; exact A3].
    intros x Hx. apply in_app_or in Hx. destruct Hx as [Hx|[<-|[] ] ]; [right; exact (A2 x Hx)|left; reflexivity].
Qed.
Lemma heard_in mtu p s hh l e : In e (heard mtu p s (l ++ hh)) -> In e (heard mtu p s hh) \/ exists d now pa sa o, In (ODatagram d now pa sa, o) l /\ parsed mtu d = Some (snd e) /\ is_fromb p s (fst (snd e)) = true.
Proof.
  induction l as [| [op o] l IH]; intro H; [left; exact H|]. cbn [app heard] in H.
  assert (K : In e (heard mtu p s (l ++ hh)) -> In e (heard mtu p s hh) \/ exists d now pa sa o', In (ODatagram d now pa sa, o') ((op, o) :: l) /\ parsed mtu d = Some (snd e) /\ is_fromb p s (fst (snd e)) = true).
  { intro H'. destruct (IH H') as [H''|(d & now & pa & sa & o' & A & B)]; [left; exact H''|]. right. exists d, now, pa, sa, o'. split; [right; exact A|exact B]. }
  destruct op as [d now pa sa|q m ti jok|q lok|nid].
  - destruct (parsed mtu d) as [ [f body]|] eqn:Ep; [|exact (K H)]. destruct (is_fromb p s f) eqn:Ef; [|exact (K H)]. apply in_app_or in H. destruct H as [H|[<-|[] ] ]; [exact (K H)|]. right. exists d, now, pa, sa, o. split; [left; reflexivity|]. split; [exact Ep|exact Ef].
  - destruct o as [|su ?| |]; try exact (K H). destruct su; try exact (K H). destruct (port_eqb q p); [destruct H|exact (K H)].
  - exact (K H).
  - exact (K H).
Qed.
Lemma active_kept p hh l : (forall x : udp_op * udp_out, In x l -> uleaves p (fst x)) -> udp_active p (l ++ hh) = udp_active p hh.
Proof.
  induction l as [| [op o] l IH]; intro H; [reflexivity|]. cbn [app udp_active]. pose proof (H _ (or_introl eq_refl)) as H1. cbn [fst] in H1. specialize (IH (fun x Hx => H x (or_intror Hx))). destruct op as [d now pa sa|q m ti jok|q lok|nid]; cbn [uleaves] in H1; try exact IH.
  - destruct (port_eqb_spec q p); [congruence|exact IH].
  - destruct (port_eqb_spec q p); [congruence|exact IH].
Qed.
Lemma ip_clock_app a b : ip_clock (a ++ b) = ip_clock b ++ ip_clock a.
Proof. induction a as [| [ev r] a IH]; cbn [app ip_clock]; [rewrite app_nil_r; reflexivity|]. destruct ev; try exact IH. rewrite IH, app_assoc. reflexivity. Qed.
Lemma ip_listened_ops mtu rmtu k P R id0 h z p max arrived ts : ip_listened mtu rmtu k P R id0 h z p max arrived ts ->
  exists hh r2 ops outs r3 timeout, udp_hist rmtu id0 hh r2 /\ udp_run rmtu r2 ops = Ok (r3, outs) /\ udp_active p hh = Some (max, timeout) /\ (forall s, heard rmtu p s hh = []) /\ flat_map odata ops = arrived /\ flat_map ugot outs = ts /\ Forall udp_op_ok ops /\ Forall (uleaves p) ops /\
    ((forall s, chan r2 p s = Some (max, timeout, None)) /\ subseq (flat_map otime ops) (ip_clock h) /\ forall subject, p = PMsg subject -> exists a calls r, In (SubscribeMessage subject max timeout a, calls, r) (ip_calls h)).
Proof.
  intros (h1 & z1 & ev & o & calls & r & z2 & h2 & -> & H1 & Hin & Hf & E & Hsub & H2 & Hport & Hin' & Hck & Hmem & Harr & ->).
  destruct (ip_receives _ _ _ _ _ H1 ltac:(constructor)) as (ops0 & outs0 & A1 & _ & _ & A4 & _). cbn [ip_node_new ip_receiver] in A1. pose proof (urun_hist _ _ _ _ _ _ _ (uh_new rmtu id0) A1 A4) as Hh1.
  destruct z1 as [n rx0 i out0]. cbn [ip_receiver ip_in] in *. subst i.
  assert (Kv : exists o' env group, ev = IpCall o' env group).
  { destruct ev as [o' env group| |answers|d]; [eexists _, _, _; reflexivity| | |]; exfalso; cbn [ip_node_step] in E; try discriminate E. destruct (udp_receive _ _ _) as [ [ [r' a] rest]|]; discriminate E. }
  destruct Kv as (o' & env & group & ->). destruct (ip_call_inv _ _ _ _ _ _ _ _ _ _ _ E) as (a & b & calls' & ro & Er & E1 & Hro & Hi2 & Hp). injection Er as -> <- <-. pose proof (core_calls _ _ _ _ _ E1) as Hc.
  assert (Ks : exists t, calls = [sub_call p t max] /\ b = NodeModel.SubOk).
  { clear -Hsub Hc. destruct o'; cbn [with_answers subscribes calls_of] in *; try contradiction.
    - destruct r; try contradiction. destruct Hsub as (-> & ->). destruct Hc as [(_ & Hc)|(-> & Hc)]; [exfalso; exact (Hc _ eq_refl)|]. eexists. split; [reflexivity|]. destruct b; try discriminate Hc; reflexivity.
    - destruct r; try contradiction. destruct Hsub as (-> & ->). destruct Hc as (-> & Hc). eexists. split; [reflexivity|]. destruct b; try discriminate Hc; reflexivity.
    - destruct r; try contradiction. destruct Hsub as (-> & ->). destruct Hc as (-> & Hc). eexists. split; [reflexivity|]. destruct b; try discriminate Hc; reflexivity. }
  destruct Ks as (t & -> & ->).
  assert (Ko : exists cs, udp_step rmtu rx0 (OSub p max t group) = Ok (ip_receiver z2, GSubbed UdpModel.SubOk cs)).
  { clear -Hp. inversion Hp as [|t1 ip sent ok1 b1 Ep X1|c rop r1 rr a1 Hop Es X1 X2 X3 X4 X5]; subst; [destruct p; discriminate|]. assert (rop = OSub p max t group) as -> by (destruct p; injection Hop as <-; reflexivity).
    pose proof Es as Es'. cbn [udp_step] in Es'. destruct (udp_subscribe rx0 p max t group) as [ [r' ro] cs]. injection Es' as _ <-. exists cs. rewrite Es. destruct ro; try reflexivity; discriminate X5. }
  destruct Ko as (cs & Es). pose proof (uh_step rmtu id0 _ _ (OSub p max t group) _ _ Hh1 I Es) as Hh2.
  assert (Epp : port_eqb p p = true) by (destruct (port_eqb_spec p p); [reflexivity|congruence]).
  destruct (ip_receives _ _ _ _ _ H2 ltac:(rewrite Hi2; constructor)) as (ops & outs & B1 & B2 & B3 & B4 & B5 & _ & B7). rewrite Hin', app_nil_r, Hi2 in B2. cbn [app] in B2. specialize (B7 p Hport Hmem).
  eexists _, _, ops, outs, _, t. split; [exact Hh2|]. split; [exact B1|]. split; [cbn [udp_active]; rewrite Epp; reflexivity|]. split; [intro s; cbn [heard]; rewrite Epp; reflexivity|]. split; [congruence|]. split; [exact B3|]. split; [exact B4|]. split; [exact B7|]. split; [|split].
  - intro s. destruct (UdpRxProofs.hist_inv _ _ _ _ Hh1) as (Hsort & _ & _). pose proof (subscribe_spec rx0 p max t group Hsort) as Hsp. cbn [udp_step] in Es. destruct (udp_subscribe rx0 p max t group) as [ [r' ro'] cs']. injection Es as -> -> _. destruct Hsp as (_ & _ & Hsp & _). rewrite Hsp, Epp. reflexivity.
  - rewrite ip_clock_app. rewrite <- (app_nil_l (flat_map otime ops)). apply subseq_app; [exact (subseq_prefix _ 0)|exact B5].
  - intros subject ->. unfold ip_calls. rewrite flat_map_app. cbn [flat_map snd app]. clear -Hsub Hc. destruct o'; cbn [with_answers subscribes calls_of] in *; try contradiction; destruct r; try contradiction; destruct Hsub as (Hsub & Hsz); try discriminate Hsub. injection Hsub as <-. subst size_max.
    destruct Hc as (Hc & _). cbn [sub_call] in Hc. injection Hc as <-. eexists _, _, _. apply in_or_app. right. left. reflexivity.
Qed.

(** * Both *)

Lemma distinct_same {A} (f : A -> N) l a b : NoDup (map f l) -> In a l -> In b l -> f a = f b -> a = b.
Proof.
  induction l as [|x l IH]; intros Hn Ha Hb E; [destruct Ha|]. cbn [map] in Hn. inversion Hn as [|? ? N1 N2]; subst. destruct Ha as [->|Ha], Hb as [->|Hb]; [reflexivity| | |exact (IH N2 Ha Hb E)].
  - exfalso. apply N1. rewrite E. apply in_map. exact Hb.
  - exfalso. apply N1. rewrite <- E. apply in_map. exact Ha.
Qed.
Lemma tried_in subject h o calls r t : In (o, calls, r) h -> In (CPush t) calls -> h_port (t_header t) = PMsg subject -> In t (tried_messages subject h).
Proof.
  intros H1 H2 H3. apply in_flat_map. exists (o, calls, r). split; [exact H1|]. cbn [fst snd]. apply in_flat_map. exists (CPush t). split; [exact H2|]. destruct (t_header t) as [m|s|s]; cbn [h_port] in H3; try discriminate H3. injection H3 as ->. rewrite N.eqb_refl. left. reflexivity.
Qed.
Lemma only_offered mtu rmtu id0 p s tried calls hh r2 ops outs r3 max timeout t : udp_hist rmtu id0 hh r2 -> udp_run rmtu r2 ops = Ok (r3, outs) -> udp_active p hh = Some (max, timeout) -> heard rmtu p s hh = [] ->
  Forall udp_op_ok ops -> Forall (uleaves p) ops -> (mtu <= rmtu)%nat -> NoDup (map (fun t => h_tid (t_header t)) tried) ->
  (forall d, In d (flat_map odata ops) -> from_node rmtu p s d = true -> exists tx ds i, In tx tried /\ bytes_ok (t_payload tx) /\ udp_datagrams mtu tx = Ok ds /\ udp_segmented mtu tx ds /\ nth_error ds i = Some d /\ (S i = length ds -> In tx (taken calls))) -> In t (flat_map ugot outs) -> h_port (t_header t) = p -> h_source (t_header t) = Some s ->
  t_loopback t = false /\ exists t0 j, In t0 (taken calls) /\ In t0 tried /\ h_port (t_header t0) = p /\ h_tid (t_header t0) = h_tid (t_header t) /\ ((j <= length (t_payload t0))%nat /\ lost_start mtu (t_payload t0) j) /\ t_payload t = firstn max (skipn j (t_payload t0)) /\ crc32 (skipn j (t_payload t0)) = crc32 (t_payload t0).
Proof.
  intros Hh Er Ha Hheard Hok Hlv Hm Hdis Hoff Ht Hport Hsrc. destruct (run_split _ _ _ _ _ _ _ t Hh Er Hok Ht) as (l & d & now & pa & sa & r1 & A1 & A2 & A3).
  destruct (C32_intact _ _ _ _ _ _ _ _ _ A1) as (max' & timeout' & B1 & B2). rewrite Hport in B1. rewrite (active_kept p hh l) in B1 by (intros x Hx; rewrite Forall_forall in Hlv; exact (Hlv _ (A2 x Hx))). rewrite Ha in B1. injection B1 as <- <-.
  rewrite Hsrc, Hport in B2. destruct B2 as (earlier & fs & C1 & (data & fl & bl & tl & t0' & d0 & D1 & D2 & D3 & D4 & D5 & D6 & D7 & _ & D9)). split; [exact D7|].
  assert (Kx : forall x, In x fs -> exists d', In d' (flat_map odata ops) /\ parsed rmtu d' = Some (snd x) /\ is_fromb p s (fst (snd x)) = true).
  { intros x Hx. assert (Hx' : In x (heard rmtu p s (((ODatagram d now pa sa, GGot (UDeliver t)) :: l) ++ hh))) by (cbn [app]; rewrite C1; apply in_or_app; right; exact Hx). destruct (heard_in _ _ _ _ _ _ Hx') as [Hn|(d' & now' & pa' & sa' & o' & E1 & E2 & E3)]; [rewrite Hheard in Hn; destruct Hn|].
    exists d'. split; [|split; assumption]. apply in_flat_map. destruct E1 as [E1|E1]; [injection E1 as <- <- <- <- _; exists (ODatagram d now pa sa); split; [exact A3|left; reflexivity]|]. exists (ODatagram d' now' pa' sa'). split; [exact (A2 _ E1)|left; reflexivity]. }
  assert (Ko : forall x, In x fs -> exists tx ds i d', In tx tried /\ bytes_ok (t_payload tx) /\ udp_datagrams mtu tx = Ok ds /\ udp_segmented mtu tx ds /\ nth_error ds i = Some d' /\ parsed rmtu d' = Some (snd x) /\ (S i = length ds -> In tx (taken calls)) /\
     fh_tid (fst (snd x)) = h_tid (t_header tx) /\ fh_last (fst (snd x)) = (S i =? length ds)%nat /\ h_port (t_header tx) = p).
  { intros x Hx. destruct (Kx x Hx) as (d' & E1 & E2 & E3). destruct (snd x) as [f body] eqn:Esx. cbn [fst] in E3 |- *. destruct (Hoff d' E1) as (tx & ds & i & O2 & O3 & O4 & O5 & O6 & O7); [unfold from_node; rewrite E2; exact E3|].
    destruct (datagram_seen _ _ _ _ _ _ _ _ O5 Hm O6 E2) as (S1 & S2 & S3 & S4 & _). apply is_fromb_spec in E3. assert (Hpx : h_port (t_header tx) = p) by (rewrite <- S4; apply E3).
    exists tx, ds, i, d'. split; [exact O2|]. repeat (split; [assumption|]). assumption. }
  assert (Hfl : In (tl, (fl, bl)) fs) by exact (nth_error_In _ _ D3). destruct (Ko _ Hfl) as (t0 & ds & i & d' & K1 & K2 & K3 & K4 & K5 & K6 & K7 & K8 & K9 & K10). cbn [snd fst] in K8, K9.
  assert (Hne : fs <> []) by (intro X; rewrite X in Hfl; destruct Hfl). assert (Hl0 : (0 < length fs)%nat) by (destruct fs; [congruence|cbn [length]; lia]).
  assert (Hfirst : nth_error (map snd fs) 0 = Some d0) by (destruct fs; [discriminate D2|]; cbn [hd_error] in D2; injection D2 as ->; reflexivity). destruct d0 as [f0 b0].
  assert (Hlast : fh_last fl = true /\ fh_tid fl = fh_tid f0).
  { destruct (D1 (length fs - 1)%nat fl bl f0 b0 Hfirst) as (_ & _ & Q3 & Q4 & _); [rewrite nth_error_map, D3; reflexivity|]. rewrite map_length in Q4. split; [apply Q4; lia|exact Q3]. }
  destruct Hlast as (Q1 & Q2). rewrite Q1 in K9. symmetry in K9. apply Nat.eqb_eq in K9. specialize (K7 K9).
  destruct (tail_of mtu rmtu t0 ds fs K4 Hm Hne D1) as (j & Hj & Hjl).
  { intros x Hx. destruct (Ko x Hx) as (tx & dsx & ix & dx & X1 & X2 & X3 & X4 & X5 & X6 & X7 & X8 & X9 & X10). apply In_nth_error in Hx. destruct Hx as (n & Hn). destruct x as (nowx & fx & bx). cbn [fst snd] in *.
    destruct (D1 n fx bx f0 b0 Hfirst) as (_ & _ & Y3 & _); [rewrite nth_error_map, Hn; reflexivity|]. assert (tx = t0) by (apply (distinct_same _ _ _ _ Hdis X1 K1); congruence). subst tx. assert (dsx = ds) by congruence. subst dsx. exists ix, dx. split; assumption. }
  { intros H1 x Hx. specialize (D9 H1). unfold single in D9. apply andb_true_iff in D9. destruct D9 as (D9 & _). apply N.eqb_eq in D9. rewrite H1 in D3. cbn [Nat.sub] in D3. destruct fs as [|y [|? ?] ]; try discriminate H1. cbn [nth_error] in D3. injection D3 as ->. destruct Hx as [<-|[] ]. exact D9. }
  rewrite D4 in Hj. destruct (cut_tail _ _ _ K2 Hj) as (J1 & J2 & J3). exists t0, j. split; [exact K7|]. split; [exact K1|]. split; [exact K10|]. split; [|split; [split; [exact J1|exact Hjl]|split; [rewrite D5, J2; reflexivity|exact J3] ] ].
  rewrite D6, <- K8. unfold as_core_header. destruct (fh_spec fl); reflexivity.
Qed.

(** * Transfer IDs *)

Section Ids.
  Context (k : tracker_kind) (P R : nat) (id : N).
  Hypothesis Hk : kind_ok Transport64 k.
  Let n0 := core_new Transport64 k P R (Some id).
  Lemma tried_none subject o calls r h : (forall t, ~ In (CPush t) calls) -> tried_messages subject ((o, calls, r) :: h) = tried_messages subject h.
  Proof.
    intro Hn. unfold tried_messages. cbn [flat_map fst snd]. match goal with |- ?a ++ _ = _ => assert (E : a = []) end; [|rewrite E; reflexivity]. revert Hn. induction calls as [|c l IH]; intro Hn; [reflexivity|]. cbn [flat_map].
    rewrite IH by (intros t Ht; exact (Hn t (or_intror Ht))). destruct c; try reflexivity. destruct (Hn t (or_introl eq_refl)).
  Qed.
  Lemma never_tried subject h n : core_hist n0 h n -> filter (starts_publishing subject) h = [] -> tried_messages subject h = [] /\ pub_started subject h = None.
  Proof.
    induction 1 as [|h n o n' calls r H IH E Hr]; intro Hf; [split; reflexivity|]. assert (Hf' : filter (starts_publishing subject) h = []) by (cbn [filter] in Hf; destruct (starts_publishing _ _); [discriminate Hf|exact Hf]). destruct (IH Hf') as (I1 & I2).
    pose proof (step_effect64 _ _ _ _ _ _ _ _ _ _ Hk H E Hr) as He. destruct He as [o calls r Hn Hquiet|lb s payload e timeout p Es|lb s payload sv e timeout p source Es Ei|tok timeout payload e source Ei].
    - rewrite (tried_none _ _ _ _ _ Hn). split; [exact I1|]. destruct o; cbn [pub_started]; try exact I2.
      + destruct r; try exact I2. destruct (N.eqb_spec subject0 subject) as [->|]; [|exact I2]. cbn [filter starts_publishing] in Hf. rewrite N.eqb_refl in Hf. discriminate Hf.
      + destruct (subject0 =? subject); [reflexivity|exact I2].
    - unfold tried_messages in *. cbn [flat_map fst snd t_header mh_subject pub_started app]. destruct (N.eqb_spec s subject) as [->|]; [congruence|]. split; assumption.
    - split; assumption.
    - split; assumption.
  Qed.
  Lemma tried_ids subject h n : core_hist n0 h n -> (length (filter (starts_publishing subject) h) <= 1)%nat -> N.of_nat (length h) < 2 ^ 64 ->
    distinct_ids subject h /\ (forall x, In x (map (fun t => h_tid (t_header t)) (tried_messages subject h)) -> x < pub_count subject h) /\ pub_count subject h <= N.of_nat (length h).
  Proof.
    unfold distinct_ids. induction 1 as [|h n o n' calls r H IH E Hr]; intros Hs Hl; [split; [constructor|split; [intros x []|apply N.le_refl] ]|].
    assert (Hs' : (length (filter (starts_publishing subject) h) <= 1)%nat) by (cbn [filter] in Hs; destruct (starts_publishing _ _); cbn [length] in Hs; lia). cbn [length] in Hl |- *. rewrite Nat2N.inj_succ in *. destruct (IH Hs' ltac:(lia)) as (I1 & I2 & I3).
    pose proof (step_effect64 _ _ _ _ _ _ _ _ _ _ Hk H E Hr) as He. destruct He as [o calls r Hn Hquiet|lb s payload e timeout p Es|lb s payload sv e timeout p source Es Ei|tok timeout payload e source Ei].
    - rewrite (tried_none _ _ _ _ _ Hn).
      assert (K : pub_count subject ((o, calls, r) :: h) = pub_count subject h \/ (pub_count subject ((o, calls, r) :: h) = 0 /\ filter (starts_publishing subject) h = [])).
      { pose proof (no_pushes_messages subject calls Hn) as Hm. destruct o; cbn [pub_count]; rewrite ?Hm; try (left; reflexivity). destruct r; rewrite ?Hm; try (left; reflexivity). destruct (N.eqb_spec subject0 subject) as [->|]; [|left; reflexivity]. right. split; [reflexivity|].
        cbn [filter starts_publishing] in Hs. rewrite N.eqb_refl in Hs. cbn [length] in Hs. destruct (filter (starts_publishing subject) h); [reflexivity|cbn [length] in Hs; lia]. }
      destruct K as [-> |(-> & K)]; [split; [exact I1|split; [exact I2|lia] ]|]. rewrite (proj1 (never_tried _ _ _ H K)). split; [constructor|]. split; [intros x []|lia].
    - assert (Ec : forall r', pub_count subject ((Publish lb s payload e, [CPush (Transfer (HMsg (MsgH ((e_now e + timeout) mod 2 ^ 32) (pub_count s h mod tid_range Transport64) p s (id_after (Some id) h))) lb payload)], r') :: h) = (if s =? subject then 1 else 0) + pub_count subject h).
      { intro r'. cbn [pub_count]. unfold messages. cbn [filter is_message mh_subject]. destruct (s =? subject); reflexivity. }
      rewrite Ec. unfold tried_messages in *. cbn [flat_map fst snd t_header mh_subject app].
      destruct (N.eqb_spec s subject) as [->|]; [|cbn [app]; rewrite N.add_0_l; split; [exact I1|split; [exact I2|lia] ] ].
      cbn [app map t_header h_tid mh_tid]. replace (pub_count subject h mod tid_range Transport64) with (pub_count subject h) by (symmetry; apply N.mod_small; change (tid_range Transport64) with (2 ^ 64); lia).
      split; [constructor; [intro Hx; specialize (I2 _ Hx); lia|exact I1]|]. split; [|lia]. intros x [<-|Hx]; [lia|specialize (I2 x Hx); lia].
    - assert (Ec : forall r', pub_count subject ((SendRequest lb s payload sv e, [CPush (Transfer (HReq (SvcH ((e_now e + timeout) mod 2 ^ 32) (req_count s sv h mod tid_range Transport64) p s source sv)) lb payload)], r') :: h) = pub_count subject h) by reflexivity. rewrite Ec.
      split; [exact I1|]. split; [exact I2|lia].
    - assert (Ec : forall r', pub_count subject ((SendResponse tok timeout payload e, [CPush (Transfer (HResp (SvcH ((e_now e + timeout) mod 2 ^ 32) (rt_transfer tok) (rt_priority tok) (rt_service tok) source (rt_client tok))) false payload)], r') :: h) = pub_count subject h) by reflexivity. rewrite Ec.
      split; [exact I1|]. split; [exact I2|lia].
  Qed.
End Ids.

(** * Messages that are lost whole *)

Lemma rising_filter {A} (g : A -> N) (f : A -> bool) l : rising (map g l) -> rising (map g (filter f l)).
Proof.
  induction l as [|a l IH]; intro H; [exact I|]. cbn [map] in H. destruct (rising_all _ _ H) as (H1 & H2). specialize (IH H1). cbn [filter]. destruct (f a); [|exact IH]. cbn [map]. destruct (filter f l) as [|b l'] eqn:Ef; [exact I|]. split; [|exact IH].
  apply H2, in_map. assert (Hb : In b (filter f l)) by (rewrite Ef; left; reflexivity). apply filter_In in Hb. apply Hb.
Qed.
Lemma survivors mtu rmtu p s lost items : (mtu <= rmtu)%nat -> Forall (item_ok mtu p s) items ->
  filter (survives rmtu lost) (concat (map snd items)) = concat (map snd (filter (fun e : transfer * list (list N) => negb (lost (h_tid (t_header (fst e))))) items)).
Proof.
  intros Hm H. induction H as [| [t ds] items ((C1 & C2 & _) & P1 & P2) _ IH]; [reflexivity|]. cbn [fst snd] in *. cbn [map snd concat filter fst]. rewrite filter_app, IH.
  assert (K : forall d, In d ds -> survives rmtu lost d = negb (lost (h_tid (t_header t)))). { intros d Hd. destruct (from_mine mtu rmtu p s t ds d Hm C1 P1 P2 Hd (C2 d Hd)) as (f & body & E1 & _ & E3). unfold survives. rewrite E1, E3. reflexivity. }
  destruct (lost (h_tid (t_header t))) eqn:El; cbn [negb] in *; [rewrite (filter_none _ _ K); reflexivity|rewrite (filter_every _ _ K); reflexivity].
Qed.

(** * Services *)

Lemma tried_to_in p node h o calls r t : In (o, calls, r) h -> In (CPush t) calls -> h_port (t_header t) = p -> h_dest (t_header t) = Some node -> In t (tried_to p node h).
Proof.
  intros H1 H2 H3 H4. apply in_flat_map. exists (o, calls, r). split; [exact H1|]. cbn [fst snd]. apply in_flat_map. exists (CPush t). split; [exact H2|]. rewrite H3, H4, N.eqb_refl. destruct (port_eqb_spec p p); [left; reflexivity|congruence].
Qed.
Lemma tried_to_dest p node h t : In t (tried_to p node h) -> h_port (t_header t) = p /\ h_dest (t_header t) = Some node.
Proof.
  intro H. apply in_flat_map in H. destruct H as (en & _ & H). apply in_flat_map in H. destruct H as (c & _ & H). destruct c as [t'| | | | | | |]; try destruct H. destruct (port_eqb_spec (h_port (t_header t')) p) as [E|]; [|destruct H]. cbn [andb] in H. destruct (h_dest (t_header t')) as [d|] eqn:Ed; [|destruct H].
  destruct (N.eqb_spec d node) as [->|]; [|destruct H]. destruct H as [<-|[] ]. split; assumption.
Qed.
Lemma only_sent_to mtu rmtu k P R id h z mtu' rmtu' k' P' R' id' h' z' p node max arrived ds : ip_running mtu rmtu k P R id h z -> node < 65535 -> (forall s, p <> PMsg s) -> distinct_ids_to p node (ip_calls h) -> (mtu <= rmtu')%nat ->
  ip_listened mtu' rmtu' k' P' R' id' h' z' p max arrived ds -> (forall d, In d arrived -> from_node rmtu' p id d = true -> In d (sent_to node (ip_out z))) ->
  forall t, In t ds -> comes_from p id t = true ->
    t_loopback t = false /\ exists t0 j, In t0 (filter (mine p (Some node)) (taken (ip_calls h))) /\ h_tid (t_header t0) = h_tid (t_header t) /\ ((j <= length (t_payload t0))%nat /\ lost_start mtu (t_payload t0) j) /\ t_payload t = firstn max (skipn j (t_payload t0)) /\ crc32 (skipn j (t_payload t0)) = crc32 (t_payload t0).
Proof.
  intros (Hk & Hid & Hm & Hp & Hkeep) Hnode Hserv Hdis Hm' Hl Hfrom t Ht Hc. destruct (ip_listened_ops _ _ _ _ _ _ _ _ _ _ _ _ Hl) as (hh & r2 & ops & outs & r3 & timeout & L1 & L2 & L3 & L4 & L5 & L6 & L7 & L8 & _).
  rewrite comes_from_iff in Hc. destruct Hc as (C1 & C2). rewrite <- L6 in Ht.
  destruct (only_offered mtu rmtu' id' p id (tried_to p node (ip_calls h)) (ip_calls h) hh r2 ops outs r3 max timeout t L1 L2 L3 (L4 id) L7 L8 Hm' Hdis) as (A0 & t0 & j & A1 & A2 & A3 & A4 & A5 & A6 & A7); [|exact Ht|exact C1|exact C2|].
  - rewrite L5. intros d Hd Hf. pose proof (Hfrom d Hd Hf) as Hs. unfold sent_to in Hs. apply in_map_iff in Hs. destruct Hs as ((ip & d') & Ed & Hs). cbn [snd] in Ed. subst d'. apply filter_In in Hs. destruct Hs as (Hs & Hip). cbn [fst] in Hip. apply N.eqb_eq in Hip.
    destruct (ip_offers _ _ _ _ _ _ _ _ Hk Hid Hm Hp ip d Hs) as (o & calls & r & tx & dsx & i & O1 & O2 & (O3 & O3' & O3'') & O4 & O5 & O6 & O7). exists tx, dsx, i. split; [|repeat (split; [assumption|]); assumption].
    assert (Hpx : h_port (t_header tx) = p). { unfold from_node in Hf. destruct (parsed rmtu' d) as [ [f body]|] eqn:Ep; [|discriminate Hf]. destruct (datagram_seen _ _ _ _ _ _ _ _ O5 Hm' O6 Ep) as (_ & _ & _ & S4 & _). apply is_fromb_spec in Hf. rewrite <- S4. apply Hf. }
    refine (tried_to_in _ _ _ _ _ _ _ O1 O2 Hpx _). rewrite Hip in O3''. destruct (t_header tx) as [m|m|m]; cbn [h_port dest_of_header h_dest core_header_ok] in *; [destruct (Hserv (mh_subject m)); congruence| |];
      (f_equal; symmetry; apply node_ip_inj; [exact Hnode|apply O3'|exact O3'']).
  - split; [exact A0|]. exists t0, j. split; [|repeat (split; [assumption|]); assumption]. apply filter_In. split; [exact A1|]. destruct (tried_to_dest _ _ _ _ A2) as (B1 & B2). unfold mine. rewrite B1, B2. destruct (port_eqb_spec p p); [|congruence]. cbn [andb]. apply N.eqb_refl.
Qed.

Section RequestIds.
  Context (k : tracker_kind) (P R : nat) (id : N).
  Hypothesis Hk : kind_ok Transport64 k.
  Let n0 := core_new Transport64 k P R (Some id).
  Lemma tried_to_none p node o calls r h : (forall t, ~ In (CPush t) calls) -> tried_to p node ((o, calls, r) :: h) = tried_to p node h.
  Proof.
    intro Hn. unfold tried_to. cbn [flat_map fst snd]. match goal with |- ?a ++ _ = _ => assert (E : a = []) end; [|rewrite E; reflexivity]. revert Hn. induction calls as [|c l IH]; intro Hn; [reflexivity|]. cbn [flat_map].
    rewrite IH by (intros t Ht; exact (Hn t (or_intror Ht))). destruct c; try reflexivity. destruct (Hn t (or_introl eq_refl)).
  Qed.
  Lemma tried_to_one p node o t r h : tried_to p node ((o, [CPush t], r) :: h) = (if port_eqb (h_port (t_header t)) p && match h_dest (t_header t) with Some d => d =? node | None => false end then [t] else []) ++ tried_to p node h.
  Proof. unfold tried_to. cbn [flat_map fst snd]. rewrite app_nil_r. reflexivity. Qed.
  Lemma never_asked service server h n : core_hist n0 h n -> filter (starts_requests service) h = [] -> tried_to (PReq service) server h = [].
  Proof.
    induction 1 as [|h n o n' calls r H IH E Hr]; intro Hs; [reflexivity|]. assert (Hs' : filter (starts_requests service) h = []) by (cbn [filter] in Hs; destruct (starts_requests _ _); [discriminate Hs|exact Hs]). specialize (IH Hs').
    pose proof (step_effect64 _ _ _ _ _ _ _ _ _ _ Hk H E Hr) as He. destruct He as [o calls r Hn Hquiet|lb s payload e timeout p Es|lb s payload sv e timeout p source Es Ei|tok timeout payload e source Ei].
    - rewrite (tried_to_none _ _ _ _ _ _ Hn). exact IH.
    - rewrite tried_to_one. exact IH.
    - rewrite tried_to_one, IH, app_nil_r. cbn [t_header h_port sh_service port_eqb]. destruct (N.eqb_spec s service) as [->|]; [|reflexivity]. destruct (req_started_in _ _ _ _ Es) as (m & a & c & r0 & Hi). pose proof (in_filter_nil _ _ _ Hs' Hi) as X. cbn [starts_requests] in X. rewrite N.eqb_refl in X. discriminate X.
    - rewrite tried_to_one. exact IH.
  Qed.
  Lemma asked_ids service server h n : core_hist n0 h n -> (length (filter (starts_requests service) h) <= 1)%nat -> N.of_nat (length h) < 2 ^ 64 ->
    distinct_ids_to (PReq service) server h /\ (forall x, In x (map (fun t => h_tid (t_header t)) (tried_to (PReq service) server h)) -> x < req_count service server h) /\ req_count service server h <= N.of_nat (length h).
  Proof.
    unfold distinct_ids_to. induction 1 as [|h n o n' calls r H IH E Hr]; intros Hs Hl; [split; [constructor|split; [intros x []|apply N.le_refl] ]|].
    assert (Hs' : (length (filter (starts_requests service) h) <= 1)%nat) by (cbn [filter] in Hs; destruct (starts_requests _ _); cbn [length] in Hs; lia). cbn [length] in Hl |- *. rewrite Nat2N.inj_succ in *. destruct (IH Hs' ltac:(lia)) as (I1 & I2 & I3).
    pose proof (step_effect64 _ _ _ _ _ _ _ _ _ _ Hk H E Hr) as He. destruct He as [o calls r Hn Hquiet|lb s payload e timeout p Es|lb s payload sv e timeout p source Es Ei|tok timeout payload e source Ei].
    - rewrite (tried_to_none _ _ _ _ _ _ Hn).
      assert (K : req_count service server ((o, calls, r) :: h) = req_count service server h \/ (req_count service server ((o, calls, r) :: h) = 0 /\ filter (starts_requests service) h = [])).
      { pose proof (no_pushes_requests service server calls Hn) as Hm. destruct o; cbn [req_count]; rewrite ?Hm; try (left; reflexivity). destruct r; rewrite ?Hm; try (left; reflexivity). destruct (N.eqb_spec service0 service) as [->|]; [|left; reflexivity]. right. split; [reflexivity|].
        cbn [filter starts_requests] in Hs. rewrite N.eqb_refl in Hs. cbn [length] in Hs. destruct (filter (starts_requests service) h); [reflexivity|cbn [length] in Hs; lia]. }
      destruct K as [-> |(-> & K)]; [split; [exact I1|split; [exact I2|lia] ]|]. rewrite (never_asked _ server _ _ H K). split; [constructor|]. split; [intros x []|lia].
    - assert (Ec : forall r', req_count service server ((Publish lb s payload e, [CPush (Transfer (HMsg (MsgH ((e_now e + timeout) mod 2 ^ 32) (pub_count s h mod tid_range Transport64) p s (id_after (Some id) h))) lb payload)], r') :: h) = req_count service server h) by reflexivity.
      rewrite Ec, tried_to_one. split; [exact I1|]. split; [exact I2|lia].
    - assert (Ec : forall r', req_count service server ((SendRequest lb s payload sv e, [CPush (Transfer (HReq (SvcH ((e_now e + timeout) mod 2 ^ 32) (req_count s sv h mod tid_range Transport64) p s source sv)) lb payload)], r') :: h) = (if (s =? service) && (sv =? server) then 1 else 0) + req_count service server h).
      { intro r'. cbn [req_count]. unfold requests. cbn [filter is_request sh_service sh_dest]. destruct ((s =? service) && (sv =? server)); reflexivity. }
      rewrite Ec, tried_to_one. cbn [t_header h_port h_dest sh_service sh_dest port_eqb].
      destruct (N.eqb_spec s service) as [->|]; cbn [andb]; [|cbn [app]; rewrite N.add_0_l; split; [exact I1|split; [exact I2|lia] ] ].
      destruct (N.eqb_spec sv server) as [->|]; [|cbn [app]; rewrite N.add_0_l; split; [exact I1|split; [exact I2|lia] ] ].
      cbn [app map t_header h_tid sh_tid]. replace (req_count service server h mod tid_range Transport64) with (req_count service server h) by (symmetry; apply N.mod_small; change (tid_range Transport64) with (2 ^ 64); lia).
      split; [constructor; [intro Hx; specialize (I2 _ Hx); lia|exact I1]|]. split; [|lia]. intros x [<-|Hx]; [lia|specialize (I2 x Hx); lia].
    - assert (Ec : forall r', req_count service server ((SendResponse tok timeout payload e, [CPush (Transfer (HResp (SvcH ((e_now e + timeout) mod 2 ^ 32) (rt_transfer tok) (rt_priority tok) (rt_service tok) source (rt_client tok))) false payload)], r') :: h) = req_count service server h) by reflexivity.
      rewrite Ec, tried_to_one. split; [exact I1|]. split; [exact I2|lia].
  Qed.
End RequestIds.

(** * Messages of one datagram *)

Lemma rising_cons a l : rising l -> Forall (fun x => a < x) l -> rising (a :: l).
Proof. intros H1 H2. destruct l as [|b l]; [exact I|]. inversion H2; subst. split; assumption. Qed.
Definition near_session (timeout : N) (se : option usession) (times : list N) : Prop := match se with None => True | Some (UComplete time _) => Forall (near timeout time) times | Some (UActive _) => False end.
Definition above (se : option usession) (ids : list N) : Prop := match se with Some (UComplete _ tid) => Forall (fun x => tid < x) ids | _ => True end.
Definition whole (mtu : nat) (d : list N) : Prop := forall f body, parsed mtu d = Some (f, body) -> fh_index f = 0 /\ fh_last f = true /\ exists pl, bytes_ok pl /\ body = pl ++ le_bytes 4 (crc32 pl).
Lemma singles_rise mtu id p s max timeout ops : forall h r r' outs se, udp_hist mtu id h r -> udp_run mtu r ops = Ok (r', outs) -> Forall udp_op_ok ops -> Forall (uleaves p) ops -> chan r p s = Some (max, timeout, se) ->
  (forall d, In d (flat_map odata ops) -> from_node mtu p s d = true -> whole mtu d) -> ForallOrdPairs (near timeout) (flat_map otime ops) -> near_session timeout se (flat_map otime ops) ->
  rising (map (fun t => h_tid (t_header t)) (filter (comes_from p s) (flat_map ugot outs))) /\ above se (map (fun t => h_tid (t_header t)) (filter (comes_from p s) (flat_map ugot outs))).
Proof.
  induction ops as [|op ops IH]; intros h r r' outs se Hh E Hf Hl Hc Hw Hn Hse; cbn [udp_run] in E.
  { injection E as _ <-. split; [exact I|]. destruct se as [ [a|time tid]|]; [exact I|constructor|exact I]. }
  destruct (udp_step mtu r op) as [ [r1 o]|] eqn:E1; [|discriminate E]. destruct (udp_run mtu r1 ops) as [ [r2 os]|] eqn:E2; [|discriminate E]. injection E as _ <-. inversion Hf as [|? ? F1 F2]; subst. inversion Hl as [|? ? G1 G2]; subst.
  pose proof (uh_step _ _ _ _ _ _ _ Hh F1 E1) as Hh1. destruct (UdpRxProofs.hist_inv _ _ _ _ Hh) as (Hsort & _ & _). pose proof (step_chan mtu r op r1 o p s max timeout se Hsort E1 Hc) as Hst.
  assert (Hw' : forall d, In d (flat_map odata ops) -> from_node mtu p s d = true -> whole mtu d) by (intros d Hd; apply Hw; cbn [flat_map]; apply in_or_app; right; exact Hd).
  assert (Quiet : chan r1 p s = Some (max, timeout, se) -> filter (comes_from p s) (ugot o) = [] -> ForallOrdPairs (near timeout) (flat_map otime ops) -> near_session timeout se (flat_map otime ops) ->
    rising (map (fun t => h_tid (t_header t)) (filter (comes_from p s) (flat_map ugot (o :: os)))) /\ above se (map (fun t => h_tid (t_header t)) (filter (comes_from p s) (flat_map ugot (o :: os))))).
  { intros Q1 Q2 Q3 Q4. cbn [flat_map]. rewrite filter_app, Q2. cbn [app]. exact (IH _ _ _ _ _ Hh1 E2 F2 G2 Q1 Hw' Q3 Q4). }
  destruct op as [d now pa sa|q m ti jok|q lok|nid].
  - cbn [flat_map otime app] in Hn, Hse. inversion Hn as [|? ? N1 N2]; subst. destruct G1 as (-> & ->).
    assert (Hse' : near_session timeout se (flat_map otime ops)) by (destruct se as [ [a|time tid]|]; [exact Hse|inversion Hse; assumption|exact I]).
    destruct (parsed mtu d) as [ [f body]|] eqn:Ep.
    + destruct (is_fromb p s f) eqn:Ef.
      * destruct Hst as (se1 & o1 & Hcf & -> & Hch). destruct (Hw d) with (f := f) (body := body) as (W1 & W2 & pl & W3 & W4); [left; reflexivity|unfold from_node; rewrite Ep; exact Ef|exact Ep|].
        assert (Hsf : forall a, session_frame a f body max true = (a, HDone (firstn max pl))).
        { intro a. unfold session_frame. change TRANSFER_CRC_SIZE with 4%nat. rewrite W4. destruct (Nat.ltb_spec (length (pl ++ le_bytes 4 (crc32 pl))) 4) as [Hx|_]; [rewrite app_length, le_bytes_length in Hx; lia|].
          rewrite W1, W2. cbn [N.eqb andb negb]. assert (Hok : bytes_ok (pl ++ le_bytes 4 (crc32 pl))) by (apply bytes_ok_app2; [assumption|apply le_bytes_ok]). destruct (feed_good max pl Hok) as (X1 & X2). rewrite X1. cbn [fst snd]. rewrite X2. reflexivity. }
        assert (New : session_for se f now timeout = Ok (Some (Act now (fh_tid f) None)) -> (match se with Some (UComplete _ tid) => tid < fh_tid f | _ => True end) ->
          rising (map (fun t => h_tid (t_header t)) (filter (comes_from p s) (flat_map ugot (GGot o1 :: os)))) /\ above se (map (fun t => h_tid (t_header t)) (filter (comes_from p s) (flat_map ugot (GGot o1 :: os))))).
        { intros Hsn Hlt. assert (Hcf' : se1 = Some (UComplete now (fh_tid f)) /\ o1 = UDeliver (convert_result (firstn max pl) f now)).
          { unfold chan_frame in Hcf. rewrite Hsn in Hcf. destruct se; rewrite Hsf in Hcf; cbn [a_time a_tid] in Hcf; injection Hcf as <- <-; split; reflexivity. }
          destruct Hcf' as (-> & ->). destruct (IH _ _ _ _ _ Hh1 E2 F2 G2 Hch Hw' N2 N1) as (I1 & I2). cbn [above] in I2.
          assert (Hcm : comes_from p s (convert_result (firstn max pl) f now) = true). { apply comes_from_iff. unfold convert_result. cbn [t_header]. rewrite as_core_port, as_core_source. apply is_fromb_spec. exact Ef. }
          cbn [flat_map ugot app filter]. rewrite Hcm. cbn [map]. assert (Ht : h_tid (t_header (convert_result (firstn max pl) f now)) = fh_tid f) by (unfold convert_result; cbn [t_header]; apply as_core_tid). rewrite Ht. split; [apply rising_cons; assumption|]. destruct se as [ [a|time tid]|]; [exact I| |exact I]. cbn [above]. constructor; [exact Hlt|]. eapply Forall_impl; [|exact I2]. cbv beta. intros x Hx. lia. }
        destruct se as [ [a|time tid]|]; [destruct Hse| |apply New; [reflexivity|exact I] ]. inversion Hse as [|? ? (age & A1 & A2) _]; subst. destruct (N.ltb_spec tid (fh_tid f)) as [Hlt|Hge].
        -- apply New; [|exact Hlt]. cbn [session_for]. rewrite A1. destruct (N.ltb_spec tid (fh_tid f)); [reflexivity|lia].
        -- assert (Hcf' : se1 = Some (UComplete time tid) /\ o1 = UNone).
           { unfold chan_frame in Hcf. cbn [session_for] in Hcf. rewrite A1 in Hcf. destruct (N.ltb_spec tid (fh_tid f)); [lia|]. destruct (N.ltb_spec timeout age); [lia|]. cbn [orb negb] in Hcf. injection Hcf as <- <-. split; reflexivity. }
           destruct Hcf' as (-> & ->). apply Quiet; [exact Hch|reflexivity|exact N2|exact Hse'].
      * destruct Hst as (Hch & Hdel). apply Quiet; [exact Hch| |exact N2|exact Hse']. destruct o as [ [|t|]| | |]; try reflexivity. cbn [ugot filter]. destruct (comes_from p s t) eqn:Ec; [|reflexivity]. apply comes_from_iff in Ec. destruct Ec as (C1 & C2). destruct (Hdel t eq_refl); contradiction.
    + destruct Hst as (-> & ->). apply Quiet; [exact Hc|reflexivity|exact N2|exact Hse'].
  - apply Quiet; [exact (Hst G1)| |exact Hn|exact Hse]. cbn [udp_step] in E1. destruct (udp_subscribe r q m ti jok) as [ [? ?] ?]. injection E1 as _ <-. reflexivity.
  - apply Quiet; [exact (Hst G1)| |exact Hn|exact Hse]. cbn [udp_step] in E1. destruct (udp_unsubscribe r q lok). injection E1 as _ <-. reflexivity.
  - apply Quiet; [exact Hst| |exact Hn|exact Hse]. cbn [udp_step] in E1. injection E1 as _ <-. reflexivity.
Qed.
Lemma one_datagram mtu rmtu t ds i d : udp_segmented mtu t ds -> (mtu <= rmtu)%nat -> bytes_ok (t_payload t) -> (length (t_payload t) + 4 <= mtu - 24)%nat -> nth_error ds i = Some d -> whole rmtu d.
Proof.
  intros Hseg Hm Hb Hlen Hd f body Hp. destruct (datagram_seen _ _ _ _ _ _ _ _ Hseg Hm Hd Hp) as (S1 & S2 & _ & _ & S5). destruct Hseg as (Bs & C1 & C2 & C3 & C4). specialize (S5 Bs C1 C3 C4).
  assert (Hfull : forall j b, nth_error Bs j = Some b -> (0 < length b)%nat /\ (24 + length b <= mtu)%nat /\ ((S j < length Bs)%nat -> (24 + length b = mtu)%nat)) by (intros j b Hj; destruct (C4 j b Hj) as (X1 & X2 & X3 & _); split; [exact X1|split; [exact X2|exact X3] ]).
  destruct Bs as [|b0 [|b1 Bs] ]; [congruence| |].
  - destruct i as [|i]; [|destruct i; discriminate S5]. cbn [nth_error] in S5. injection S5 as ->. cbn [concat] in C1. rewrite app_nil_r in C1. split; [exact S1|]. rewrite C3 in S2. split; [exact S2|]. exists (t_payload t). split; [exact Hb|exact C1].
  - destruct (full_bodies mtu _ Hfull 1 ltac:(cbn [length]; lia)) as (Q1 & Q2). rewrite Q1, C1, app_length, le_bytes_length in Q2. lia.
Qed.
