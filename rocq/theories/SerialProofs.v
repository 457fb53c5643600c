From Verif Require Import Base BitLemmas CrcModel CrcProofs CoreModel TabModel TabSpec TabProofs CobsModel CobsSpec CobsProofs
  HeaderModel HeaderSpec HeaderProofs SerialModel SerialSpec.
Ltac Zify.zify_post_hook ::= Z.div_mod_to_equations.

(** * Transmitter *)

Lemma push_all_spec cap bs : forall q,
  push_all cap q bs = if (length q + length bs <=? cap)%nat || (length bs =? 0)%nat then Ok (q ++ bs) else Panic.
Proof.
  induction bs as [|b bs IH]; intro q; cbn [push_all length].
  - rewrite orb_true_r, app_nil_r. reflexivity.
  - unfold push_back. destruct (Nat.ltb_spec (length q) cap).
    + rewrite IH, app_length, <- app_assoc. cbn [length app].
      replace (length q + 1 + length bs)%nat with (length q + S (length bs))%nat by lia.
      destruct (Nat.leb_spec (length q + S (length bs)) cap); cbn; [reflexivity|].
      destruct bs; cbn [length Nat.eqb] in *; [lia|reflexivity].
    + destruct (Nat.leb_spec (length q + S (length bs)) cap); [lia|reflexivity].
Qed.

Lemma frame_data_bytes t : bytes_ok (t_payload t) -> bytes_ok (frame_data t).
Proof.
  intro H. unfold frame_data. apply bytes_ok_app. split; [apply header_encode_bytes|].
  apply bytes_ok_app. split; [assumption|apply le_bytes_ok].
Qed.

Lemma frame_data_length t : length (frame_data t) = (length (t_payload t) + 28)%nat.
Proof.
  unfold frame_data. rewrite !app_length, le_bytes_length, (proj2 (header_encode_bytes _)). lia.
Qed.

Definition wire_frame (t : transfer) : list N := [0] ++ enc [] (frame_data t) ++ [0].

Lemma serial_push_spec cap q t alloc : (length q <= cap)%nat ->
  serial_push cap q t alloc =
  if (escaped_size (length (t_payload t) + 28) + 2 <=? cap - length q)%nat && alloc
  then Ok (true, q ++ wire_frame t) else Ok (false, q).
Proof.
  intro Hq. unfold serial_push. change PER_FRAME_ESCAPED_OVERHEAD with 28%nat. change PER_FRAME_UNESCAPED_OVERHEAD with 2%nat.
  destruct (Nat.ltb_spec cap (length q)); [lia|].
  set (es := escaped_size (length (t_payload t) + 28)).
  destruct (Nat.ltb_spec (cap - length q) (es + 2)), (Nat.leb_spec (es + 2) (cap - length q)); try lia; cbn [andb].
  { reflexivity. }
  destruct alloc; cbn [negb]; [|reflexivity].
  assert (Hle : (length (enc [] (frame_data t)) <= es)%nat).
  { unfold es. rewrite <- frame_data_length. apply enc_le_escaped. }
  rewrite escape_spec, repeat_length.
  destruct (Nat.leb_spec (length (enc [] (frame_data t))) es); [|lia].
  destruct (Nat.ltb_spec (cap - length q) (length (enc [] (frame_data t)) + 2)); [lia|].
  rewrite firstn_exact. change DELIMITER with 0. fold (wire_frame t). rewrite push_all_spec.
  assert (Hw : length (wire_frame t) = (length (enc [] (frame_data t)) + 2)%nat).
  { unfold wire_frame. rewrite !app_length. cbn [length]. lia. }
  rewrite Hw. destruct (Nat.leb_spec (length q + (length (enc [] (frame_data t)) + 2)) cap); [|lia].
  reflexivity.
Qed.

Lemma serial_flush_spec {D} (send : D -> N -> D * dres) q : forall d q' d' e,
  serial_flush send d q = (q', d', e) ->
  exists sent d1, q = sent ++ q' /\ sends send d sent d1 /\
    ((q' = [] /\ e = DOk /\ d' = d1) \/
     (exists b rest, q' = b :: rest /\ e <> DOk /\ send d1 b = (d', e))).
Proof.
  induction q as [|b q IH]; intros d q' d' e; cbn [serial_flush].
  - intro E. injection E as <- <- <-. exists [], d. repeat split; [constructor|left; auto].
  - destruct (send d b) as [d1 r] eqn:Es. destruct r.
    + intro E. apply IH in E as (sent & d2 & -> & Hs & H). exists (b :: sent), d2. repeat split; try assumption.
      econstructor; eassumption.
    + intro E. injection E as <- <- <-. exists [], d. repeat split; [constructor|]. right. exists b, q. repeat split; [discriminate|assumption].
    + intro E. injection E as <- <- <-. exists [], d. repeat split; [constructor|]. right. exists b, q. repeat split; [discriminate|assumption].
Qed.

(** * Running the receiver *)

Lemma rx_run_app r a b :
  rx_run r (a ++ b) =
  match rx_run r a with
  | Panic => Panic
  | Ok (r', os) => match rx_run r' b with Panic => Panic | Ok (r'', os') => Ok (r'', os ++ os') end
  end.
Proof.
  revert r; induction a as [|op a IH]; intro r; cbn [app rx_run].
  - destruct (rx_run r b) as [[? ?]|]; reflexivity.
  - destruct (rx_step r op) as [[r' o]|]; [|reflexivity]. rewrite IH.
    destruct (rx_run r' a) as [[r1 os]|]; [|reflexivity].
    destruct (rx_run r1 b) as [[r2 os']|]; reflexivity.
Qed.

Lemma rx_hist_run node r0 ops : forall h, rx_hist node h r0 -> forall r os,
  rx_run r0 ops = Ok (r, os) -> rx_hist node (rev (combine ops os) ++ h) r.
Proof.
  revert r0; induction ops as [|op ops IH]; intros r0 h Hh r os E; cbn [rx_run] in E.
  - injection E as <- <-. exact Hh.
  - destruct (rx_step r0 op) as [[r1 o]|] eqn:Es; [|discriminate].
    destruct (rx_run r1 ops) as [[r2 os2]|] eqn:Er; [|discriminate]. injection E as <- <-.
    cbn [combine rev]. rewrite <- app_assoc. cbn [app]. eapply IH; [|eassumption]. econstructor; eassumption.
Qed.

Lemma set_state_set r s s' : set_state (set_state r s) s' = set_state r s'.
Proof. reflexivity. Qed.

Lemma set_state_id r s : rx_state r = s -> set_state r s = r.
Proof. intros <-. destruct r; reflexivity. Qed.

Lemma repeat_app_one {A} (x : A) n : x :: repeat x n = repeat x (S n).
Proof. reflexivity. Qed.

(** * Decoding phases *)

Lemma unescape_split w : forall u u' o1 x o2,
  unescape_from u w = Some (u', o1 ++ x :: o2) ->
  exists w1 b w2 u1 u2, w = w1 ++ b :: w2 /\ unescape_from u w1 = Some (u1, o1) /\
    unesc_accept u1 b = UOk u2 (Some x) /\ unescape_from u2 w2 = Some (u', o2).
Proof.
  induction w as [|b w IH]; intros u u' o1 x o2 H; cbn [unescape_from] in H.
  - destruct o1; discriminate.
  - destruct (unesc_accept u b) as [|u1 o] eqn:Ea; [discriminate|].
    destruct (unescape_from u1 w) as [[u2 out]|] eqn:Ew; [|discriminate].
    destruct o as [y|].
    + destruct o1 as [|z o1].
      * injection H as <- <- <-. exists [], b, w, u, u1. repeat split; assumption.
      * injection H as <- <- Eo. subst out. destruct (IH _ _ _ _ _ Ew) as (w1 & b' & w2 & v1 & v2 & -> & H1 & H2 & H3).
        exists (b :: w1), b', w2, v1, v2. repeat split; try assumption. cbn [unescape_from]. rewrite Ea, H1. reflexivity.
    + injection H as <- ->. destruct (IH _ _ _ _ _ Ew) as (w1 & b' & w2 & v1 & v2 & -> & H1 & H2 & H3).
      exists (b :: w1), b', w2, v1, v2. repeat split; try assumption. cbn [unescape_from]. rewrite Ea, H1. reflexivity.
Qed.

Lemma header_phase evs : forall r u hdr u' out,
  rx_state r = SHeader u hdr -> unescape_from u (wire_bytes evs) = Some (u', out) -> (length hdr + length out < 24)%nat ->
  rx_run r (map carry evs) = Ok (set_state r (SHeader u' (hdr ++ out)), repeat ONone (length evs)).
Proof.
  induction evs as [|[b [now sa]] evs IH]; intros r u hdr u' out Hs Hu Hl; cbn [wire_bytes map] in Hu.
  - cbn in Hu. injection Hu as <- <-. rewrite app_nil_r, set_state_id by assumption. reflexivity.
  - cbn [unescape_from fst] in Hu. fold (wire_bytes evs) in Hu.
    destruct (unesc_accept u b) as [|u1 o] eqn:Ea; [discriminate|].
    destruct (unescape_from u1 (wire_bytes evs)) as [[u2 out2]|] eqn:Ew; [|discriminate].
    cbn [map rx_run carry fst snd rx_step]. unfold handle_byte. rewrite Hs, Ea.
    destruct o as [y|]; injection Hu as <- <-.
    + cbn [length] in Hl. unfold hdr_push. change SIZE with 24%nat. destruct (Nat.ltb_spec (length hdr) 24); [|lia].
      rewrite app_length. cbn [length]. destruct (Nat.eqb_spec (length hdr + 1) 24); [lia|].
      rewrite (IH _ u1 (hdr ++ [y]) u2 out2); [|reflexivity|assumption|rewrite app_length; cbn [length]; lia].
      rewrite set_state_set, <- app_assoc. reflexivity.
    + rewrite (IH _ u1 hdr u2 out2); [|reflexivity|assumption|lia]. reflexivity.
Qed.

Lemma payload_phase evs : forall r u h crc cap pl u' out,
  rx_state r = SPayload u h crc cap pl -> (length pl <= cap)%nat ->
  unescape_from u (wire_bytes evs) = Some (u', out) ->
  rx_run r (map carry evs) =
  Ok (set_state r (SPayload u' h (fst (tracker_run crc out)) cap (pl ++ firstn (cap - length pl) (snd (tracker_run crc out)))),
      repeat ONone (length evs)).
Proof.
  induction evs as [|[b [now sa]] evs IH]; intros r u h crc cap pl u' out Hs Hl Hu; cbn [wire_bytes map] in Hu.
  - cbn in Hu. injection Hu as <- <-. cbn [tracker_run fst snd]. rewrite firstn_nil, app_nil_r, set_state_id by assumption. reflexivity.
  - cbn [unescape_from fst] in Hu. fold (wire_bytes evs) in Hu.
    destruct (unesc_accept u b) as [|u1 o] eqn:Ea; [discriminate|].
    destruct (unescape_from u1 (wire_bytes evs)) as [[u2 out2]|] eqn:Ew; [|discriminate].
    cbn [map rx_run carry fst snd rx_step]. unfold handle_byte. rewrite Hs, Ea.
    destruct o as [y|]; injection Hu as <- <-.
    + cbn [tracker_run]. destruct (tracker_digest crc y) as [crc1 o1].
      set (pl' := match o1 with Some x => if (length pl <? cap)%nat then pl ++ [x] else pl | None => pl end).
      assert (Hl' : (length pl' <= cap)%nat).
      { unfold pl'. destruct o1; [|assumption]. destruct (Nat.ltb_spec (length pl) cap); [|assumption]. rewrite app_length. cbn; lia. }
      rewrite (IH _ u1 h crc1 cap pl' u2 out2); [|reflexivity|assumption..].
      destruct (tracker_run crc1 out2) as [crc2 rel]. cbn [fst snd]. rewrite set_state_set.
      do 2 f_equal. f_equal. f_equal. unfold pl'. destruct o1 as [x|]; [|reflexivity].
      destruct (Nat.ltb_spec (length pl) cap).
      * rewrite app_length. cbn [length]. replace (cap - length pl)%nat with (S (cap - (length pl + 1)))%nat by lia.
        cbn [firstn]. rewrite <- app_assoc. reflexivity.
      * replace (cap - length pl)%nat with 0%nat by lia. reflexivity.
    + rewrite (IH _ u1 h crc cap pl u2 out2); [|reflexivity|assumption..]. reflexivity.
Qed.

Lemma between_as_header r b now a sa : rx_state r = SBetween -> b <> 0 ->
  handle_byte r b now a sa = handle_byte (set_state r (SHeader unesc_new [])) b now a sa.
Proof.
  intros Hs Hb. unfold handle_byte. rewrite Hs. cbn [rx_state set_state]. unfold set_state. cbn [rx_node rx_subs].
  destruct (N.eqb_spec b 0); [contradiction|]. cbn [negb].
  unfold unesc_accept, unesc_new. cbn [u_copy u_zero]. destruct (N.eqb_spec b 0); [contradiction|].
  reflexivity.
Qed.

Lemma nonzero_run r evs : rx_state r = SBetween -> evs <> [] -> (forall b, In b (wire_bytes evs) -> b <> 0) ->
  rx_run r (map carry evs) = rx_run (set_state r (SHeader unesc_new [])) (map carry evs).
Proof.
  intros Hs Hne Hnz. destruct evs as [|[b [now sa]] evs]; [congruence|].
  cbn [map rx_run carry fst snd rx_step]. rewrite between_as_header; [reflexivity|assumption|].
  apply Hnz. left. reflexivity.
Qed.

Lemma interested_of r h sub : subs_find (h_port h) (rx_subs r) = Some sub -> fresh sub h -> is_interested r h = Some sub.
Proof.
  intros Hf Hfr. unfold is_interested. rewrite Hf. destruct (h_source h) as [s|] eqn:Es; [|reflexivity].
  destruct (lookup s (ss_sessions sub)) as [se|] eqn:El; [|reflexivity].
  specialize (Hfr s se Es El). destruct (N.ltb_spec (se_tid se) (h_tid h)); [reflexivity|lia].
Qed.

Lemma find_of r h sub : subs_find (h_port h) (rx_subs r) = Some sub -> addressed r h -> find_subscription r h = Some sub.
Proof.
  intros Hf Ha. unfold find_subscription. destruct h as [m|s|s]; [assumption|..];
    rewrite (Ha (sh_dest s) eq_refl); cbn; rewrite N.eqb_refl; assumption.
Qed.

Lemma as_core_set_ts h ts : as_core_header (of_core_header h) ts = h_set_ts h ts.
Proof. destruct h as [m|s|s]; reflexivity. Qed.

Lemma h_port_set h ts : h_port (h_set_ts h ts) = h_port h. Proof. destruct h; reflexivity. Qed.
Lemma h_dest_set h ts : h_dest (h_set_ts h ts) = h_dest h. Proof. destruct h; reflexivity. Qed.
Lemma h_source_set h ts : h_source (h_set_ts h ts) = h_source h. Proof. destruct h; reflexivity. Qed.
Lemma h_tid_set h ts : h_tid (h_set_ts h ts) = h_tid h. Proof. destruct h; reflexivity. Qed.

Lemma wire_bytes_app a b : wire_bytes (a ++ b) = wire_bytes a ++ wire_bytes b.
Proof. apply map_app. Qed.

Lemma wire_bytes_split evs w1 b w2 : wire_bytes evs = w1 ++ b :: w2 ->
  exists e1 now sa e2, evs = e1 ++ (b, (now, sa)) :: e2 /\ wire_bytes e1 = w1 /\ wire_bytes e2 = w2.
Proof.
  revert w1; induction evs as [|[c [now sa]] evs IH]; intros w1 H; cbn in H.
  - destruct w1; discriminate.
  - destruct w1 as [|x w1].
    + injection H as -> H. exists [], now, sa, evs. repeat split; assumption.
    + injection H as -> H. destruct (IH w1 H) as (e1 & n & s & e2 & -> & <- & <-).
      exists ((x, (now, sa)) :: e1), n, s, e2. repeat split.
Qed.

(** The frame body (without delimiters) received between delimiters *)
Lemma frame_received t r sub evs :
  core_header_ok (t_header t) -> bytes_ok (t_payload t) ->
  unescape (wire_bytes evs) = Some (frame_data t) ->
  rx_state r = SBetween ->
  subs_find (h_port (t_header t)) (rx_subs r) = Some sub -> fresh sub (t_header t) ->
  exists ts u crc, In ts (wire_times evs) /\ tracker_correct crc = true /\
    rx_run r (map carry evs) =
    Ok (set_state r (SPayload u (h_set_ts (t_header t) ts) crc (ss_max sub) (firstn (ss_max sub) (t_payload t))),
        repeat ONone (length evs)).
Proof.
  intros Hok Hpl Hun Hst Hsub Hfr.
  assert (Hnz : Forall (fun b => b <> 0) (wire_bytes evs)) by (apply unescape_total; congruence).
  unfold unescape in Hun. destruct (unescape_from unesc_new (wire_bytes evs)) as [[u' out]|] eqn:Eu; [|discriminate].
  cbn [option_map snd] in Hun. assert (out = frame_data t) by congruence. subst out. clear Hun.
  rewrite nonzero_run; [|assumption|intros ->; cbn [wire_bytes map unescape_from] in Eu; apply (f_equal (option_map (fun x => length (snd x)))) in Eu; cbn [option_map snd] in Eu; rewrite frame_data_length in Eu; cbn [length] in Eu; assert (forall n, Some 0%nat = Some (n + 28)%nat -> False) as Hx by (intros n Hn; congruence || (assert (n + 28 = 0)%nat by congruence; lia)); exact (Hx _ Eu)|rewrite Forall_forall in Hnz; assumption].
  set (h := t_header t) in *.
  set (hb := header_encode (of_core_header h)) in *.
  destruct (header_encode_bytes (of_core_header h)) as [Hhb Hhl]. fold hb in Hhb, Hhl.
  set (rest := t_payload t ++ le_bytes 4 (crc32 (t_payload t))) in *.
  assert (Hfd : frame_data t = hb ++ rest) by reflexivity.
  (* split off the last header byte *)
  destruct (exists_last (l := hb)) as (h23 & x & Hx); [intro E; rewrite E in Hhl; discriminate|].
  assert (Hl23 : length h23 = 23%nat) by (rewrite Hx, app_length in Hhl; cbn in Hhl; lia).
  rewrite Hfd, Hx, <- app_assoc in Eu. cbn [app] in Eu.
  destruct (unescape_split _ _ _ _ _ _ Eu) as (w1 & b & w2 & u1 & u2 & Hw & H1 & H2 & H3).
  destruct (wire_bytes_split _ _ _ _ Hw) as (e1 & now & sa & e2 & -> & <- & <-).
  set (r0 := set_state r (SHeader unesc_new [])).
  rewrite map_app, rx_run_app. rewrite (header_phase e1 r0 unesc_new [] u1 h23); [|reflexivity|assumption|cbn; lia].
  cbn [map rx_run carry fst snd rx_step app].
  unfold handle_byte. cbn [rx_state set_state]. rewrite H2. unfold hdr_push. rewrite Hl23.
  change (23 <? SIZE)%nat with true. cbv iota. rewrite <- Hx, Hhl. change (24 =? SIZE)%nat with true. cbv iota.
  destruct (core_of_core h Hok) as [Hfok _].
  unfold hb. rewrite header_round_trip by assumption. rewrite as_core_set_ts.
  set (r1 := set_state r0 (SHeader u1 h23)).
  rewrite (interested_of r1 (h_set_ts h now) sub); cycle 1.
  { rewrite h_port_set. exact Hsub. }
  { intros s se Hs Hse. rewrite h_source_set in Hs. rewrite h_tid_set. apply (Hfr s se Hs Hse). }
  set (r2 := set_state r1 _).
  rewrite (payload_phase e2 r2 u2 (h_set_ts h now) tracker_new (ss_max sub) [] u' rest); [|reflexivity|cbn; lia|assumption].
  assert (Hrest : bytes_ok rest) by (apply bytes_ok_app; split; [assumption|apply le_bytes_ok]).
  pose proof (tracker_spec rest Hrest) as Htr. destruct (tracker_run tracker_new rest) as [crc rel]. cbn [fst snd].
  destruct Htr as [Hrel Hcor].
  exists now, u', crc. split; [|split].
  - unfold wire_times. rewrite map_app. apply in_or_app. right. left. reflexivity.
  - apply Hcor. exists (t_payload t). reflexivity.
  - assert (Hrelp : rel = t_payload t).
    { rewrite Hrel. unfold but_last4, rest. rewrite app_length, le_bytes_length.
      replace (length (t_payload t) + 4 - 4)%nat with (length (t_payload t)) by lia.
      apply firstn_exact. }
    rewrite Hrelp. cbn [length app]. rewrite Nat.sub_0_r.
    do 2 f_equal. rewrite app_length. cbn [length]. rewrite repeat_app. reflexivity.
Qed.

Lemma complete_ok r h pl crc sa sub :
  tracker_correct crc = true -> find_subscription r h = Some sub ->
  exists r', complete_transfer r h pl crc sa = (r', ODeliver (Transfer h false pl)) /\
    rx_state r' = rx_state r /\ rx_node r' = rx_node r.
Proof.
  intros Hc Hf. unfold complete_transfer. rewrite Hc, Hf. cbn [negb].
  destruct (h_source h); [destruct sa|]; eexists; (split; [reflexivity|split; reflexivity]).
Qed.

Lemma delimited_frame_received t r sub evs :
  core_header_ok (t_header t) -> bytes_ok (t_payload t) -> ~ swallows_zero (frame_data t) ->
  wire_bytes evs = wire_frame t ->
  (rx_state r = SIdle \/ rx_state r = SBetween) ->
  subs_find (h_port (t_header t)) (rx_subs r) = Some sub -> fresh sub (t_header t) -> addressed r (t_header t) ->
  exists ts r', In ts (wire_times evs) /\ rx_state r' = SBetween /\
    rx_run r (map carry evs) =
    Ok (r', repeat ONone (length evs - 1) ++
            [ODeliver (Transfer (h_set_ts (t_header t) ts) false (firstn (ss_max sub) (t_payload t)))]).
Proof.
  intros Hok Hpl Hsw Hw Hst Hsub Hfr Had.
  unfold wire_frame in Hw. cbn [app] in Hw.
  destruct (wire_bytes_split evs [] 0 _ Hw) as (e0 & n0 & s0 & ev1 & -> & He0 & Hw1).
  destruct e0 as [|? ?]; [|discriminate]. clear He0 Hw.
  destruct (wire_bytes_split ev1 (enc [] (frame_data t)) 0 [] Hw1) as (body & n1 & s1 & e2 & -> & Hbody & He2).
  destruct e2; [|discriminate]. clear Hw1 He2.
  cbn [app map rx_run]. unfold carry at 1. cbn [fst snd rx_step].
  assert (Hz : handle_byte r 0 n0 true s0 = Ok (set_state r SBetween, ONone)).
  { unfold handle_byte. destruct Hst as [-> | ->]; reflexivity. }
  rewrite Hz. set (r1 := set_state r SBetween).
  rewrite map_app, rx_run_app.
  destruct (frame_received t r1 sub body) as (ts & u & crc & Hts & Hcor & Hrun); try assumption.
  { rewrite Hbody, unescape_enc_nil by (apply frame_data_bytes; assumption).
    f_equal. apply lossy_iff. assumption. }
  { reflexivity. }
  rewrite Hrun. cbn [map rx_run]. unfold carry at 1. cbn [fst snd rx_step].
  unfold handle_byte. cbn [rx_state set_state]. unfold unesc_accept. cbn [N.eqb]. rewrite set_state_set.
  set (h' := h_set_ts (t_header t) ts).
  destruct (complete_ok (set_state (set_state r1 (SPayload u h' crc (ss_max sub) (firstn (ss_max sub) (t_payload t)))) SBetween)
     h' (firstn (ss_max sub) (t_payload t)) crc s1 sub Hcor) as (r' & Hc & Hs' & Hn').
  { apply find_of; unfold h'; [rewrite h_port_set; exact Hsub|].
    intros d Hd. rewrite h_dest_set in Hd. apply (Had d Hd). }
  rewrite set_state_set in Hc. rewrite Hc. exists ts, r'. split; [|split].
  - unfold wire_times in *. cbn [map]. right. rewrite map_app. apply in_or_app. left. assumption.
  - rewrite Hs'. reflexivity.
  - cbn [length]. rewrite app_length. cbn [length].
    replace (S (length body + 1) - 1)%nat with (S (length body)) by lia. reflexivity.
Qed.

(** * Invariants *)

Definition rx_wf (r : rx) : Prop := match rx_state r with SHeader _ hdr => (length hdr < 24)%nat | _ => True end.

Lemma rx_step_wf r op : rx_wf r -> exists r' o, rx_step r op = Ok (r', o) /\ rx_wf r'.
Proof.
  intro Hwf. destruct op as [now|b now a sa|p max to al|p|id]; cbn [rx_step].
  - do 2 eexists. split; [reflexivity|exact Hwf].
  - unfold handle_byte, rx_wf in *. destruct (rx_state r) as [| |u hdr|u h crc cap pl] eqn:Es.
    + do 2 eexists. split; [reflexivity|]. cbn. destruct (N.eqb b 0); exact I.
    + unfold unesc_accept, unesc_new. cbn [u_copy u_zero]. destruct (N.eqb_spec b 0); cbn [negb].
      * do 2 eexists. split; [reflexivity|exact I].
      * do 2 eexists. split; [reflexivity|]. cbn. lia.
    + destruct (unesc_accept u b) as [|u' [x|]].
      * do 2 eexists. split; [reflexivity|exact I].
      * unfold hdr_push. change SIZE with 24%nat. destruct (Nat.ltb_spec (length hdr) 24); [|lia].
        rewrite app_length. cbn [length]. destruct (Nat.eqb_spec (length hdr + 1) 24).
        -- destruct (header_decode _) as [fh|]; [|do 2 eexists; split; [reflexivity|exact I]].
           destruct (is_interested _ _); [|do 2 eexists; split; [reflexivity|exact I]].
           destruct a; do 2 eexists; (split; [reflexivity|exact I]).
        -- do 2 eexists. split; [reflexivity|]. cbn. rewrite app_length. cbn. lia.
      * do 2 eexists. split; [reflexivity|]. cbn. assumption.
    + destruct (unesc_accept u b) as [|u' [x|]].
      * unfold complete_transfer. destruct (negb _); [do 2 eexists; split; [reflexivity|exact I]|].
        destruct (find_subscription _ _); [|do 2 eexists; split; [reflexivity|exact I]].
        destruct (h_source h); [destruct sa|]; do 2 eexists; (split; [reflexivity|exact I]).
      * destruct (tracker_digest crc x). do 2 eexists. split; [reflexivity|exact I].
      * do 2 eexists. split; [reflexivity|exact I].
  - destruct (rx_subscribe r p max to al) as [r' o] eqn:E. do 2 eexists. split; [reflexivity|].
    unfold rx_subscribe in E. destruct (subs_subscribe _ _ _ _) as [ok s].
    destruct p; [|destruct (rx_node r)..]; injection E as <- <-; exact Hwf.
  - do 2 eexists. split; [reflexivity|exact Hwf].
  - do 2 eexists. split; [reflexivity|exact Hwf].
Qed.

Lemma rx_hist_wf node h r : rx_hist node h r -> rx_wf r.
Proof.
  induction 1 as [|h r op r' o _ IH E]; [exact I|].
  destruct (rx_step_wf r op IH) as (r1 & o1 & E1 & H1). rewrite E in E1. injection E1 as <- <-. assumption.
Qed.

Lemma rx_run_wf ops : forall r, rx_wf r -> exists r' os, rx_run r ops = Ok (r', os) /\ rx_wf r'.
Proof.
  induction ops as [|op ops IH]; intros r Hwf; cbn [rx_run].
  - do 2 eexists. split; [reflexivity|assumption].
  - destruct (rx_step_wf r op Hwf) as (r1 & o1 & -> & H1). destruct (IH r1 H1) as (r2 & os & -> & H2).
    do 2 eexists. split; [reflexivity|assumption].
Qed.

Lemma after_zero r now a sa r' o : handle_byte r 0 now a sa = Ok (r', o) -> rx_state r' = SIdle \/ rx_state r' = SBetween.
Proof.
  unfold handle_byte. destruct (rx_state r) as [| |u hdr|u h crc cap pl]; cbn [N.eqb negb].
  - intro E; injection E as <- <-. right; reflexivity.
  - intro E; injection E as <- <-. right; reflexivity.
  - unfold unesc_accept. cbn [N.eqb]. intro E; injection E as <- <-. left; reflexivity.
  - unfold unesc_accept. cbn [N.eqb]. intro E; injection E as E. revert E.
    unfold complete_transfer. destruct (negb _); [intro E; injection E as <- <-; right; reflexivity|].
    destruct (find_subscription _ _); [|intro E; injection E as <- <-; right; reflexivity].
    destruct (h_source h); [destruct sa|]; intro E; injection E as <- <-; right; reflexivity.
Qed.

(** * Sessions *)

Notation skeys := (map (@fst N session)).

Lemma sess_insert_spec k v l : NoDup (skeys l) ->
  NoDup (skeys (sess_insert k v l)) /\ forall k', lookup k' (sess_insert k v l) = if N.eqb k k' then Some v else lookup k' l.
Proof.
  intro Hnd. unfold sess_insert. rewrite has_lookup. destruct (lookup k l) as [s|] eqn:E; cbn [is_some].
  - rewrite update_keys. split; [assumption|]. intro k'. rewrite lookup_update.
    destruct (N.eqb_spec k k') as [->|]; [rewrite E; reflexivity|reflexivity].
  - split; [apply nodup_snoc; assumption|]. intro k'. apply lookup_snoc. assumption.
Qed.

Lemma sess_remove_spec k l : NoDup (skeys l) ->
  NoDup (skeys (sess_remove k l)) /\ forall k', lookup k' (sess_remove k l) = if N.eqb k k' then None else lookup k' l.
Proof.
  intro Hnd. split.
  - unfold sess_remove. clear -Hnd. induction l as [|[k0 s] l IH]; cbn; [constructor|].
    inversion Hnd as [|? ? Hni Hnd']; subst. destruct (negb (N.eqb k0 k)); cbn; [|auto]. constructor; [|auto].
    intro H. apply Hni. clear -H. induction l as [|[k1 s1] l IH]; cbn in *; [contradiction|].
    destruct (negb (N.eqb k1 k)); cbn in *; tauto.
  - intro k'. clear Hnd. induction l as [|[k0 s] l IH]; cbn; [destruct (N.eqb k k'); reflexivity|].
    destruct (N.eqb_spec k0 k) as [->|Hne]; cbn.
    + unfold sess_remove in IH. rewrite IH. destruct (N.eqb_spec k k'); reflexivity.
    + unfold sess_remove in IH. rewrite IH. destruct (N.eqb_spec k0 k') as [->|]; [|reflexivity].
      destruct (N.eqb_spec k k'); [congruence|reflexivity].
Qed.

Lemma sess_remove_length k l : In k (skeys l) -> (length (sess_remove k l) < length l)%nat.
Proof.
  assert (Hle : forall l, (length (sess_remove k l) <= length l)%nat).
  { intro l0. induction l0 as [|[k0 s] l0 IH]; cbn; [lia|]. destruct (negb (N.eqb k0 k)); cbn; unfold sess_remove in IH; lia. }
  induction l as [|[k0 s] l IH]; cbn; [contradiction|]. intros [->|H].
  - rewrite N.eqb_refl. cbn. specialize (Hle l). unfold sess_remove in Hle. lia.
  - specialize (IH H). unfold sess_remove in IH. destruct (negb (N.eqb k0 k)); cbn; lia.
Qed.

Lemma last_expired_spec now l :
  match last_expired now l with
  | Some k => exists s, In (k, s) l /\ t_lt (se_exp s) now = true
  | None => forall k s, In (k, s) l -> t_lt (se_exp s) now = false
  end.
Proof.
  unfold last_expired.
  assert (H : forall acc,
    match fold_left (fun acc '(k, s) => if t_lt (se_exp s) now then Some k else acc) l acc with
    | Some k => acc = Some k \/ exists s, In (k, s) l /\ t_lt (se_exp s) now = true
    | None => acc = None /\ forall k s, In (k, s) l -> t_lt (se_exp s) now = false
    end).
  { induction l as [|[k s] l IH]; intro acc; cbn [fold_left].
    - destruct acc; [left; reflexivity|]. split; [reflexivity|]. intros ? ? [].
    - specialize (IH (if t_lt (se_exp s) now then Some k else acc)).
      destruct (fold_left _ l _) as [k'|].
      + destruct IH as [E|(s' & Hin & He)].
        * destruct (t_lt (se_exp s) now) eqn:Et; [|left; assumption]. injection E as ->. right. exists s. split; [left; reflexivity|assumption].
        * right. exists s'. split; [right; assumption|assumption].
      + destruct IH as [E Hn]. destruct (t_lt (se_exp s) now) eqn:Et; [discriminate|]. split; [assumption|].
        intros k' s' [E'|Hin]; [injection E' as <- <-; assumption|eapply Hn; eassumption]. }
  specialize (H None). destruct (fold_left _ l None) as [k|].
  - destruct H as [H|H]; [discriminate|assumption].
  - apply H.
Qed.

Definition unexpired (now : N) (o : option session) : option session :=
  match o with Some s => if t_lt (se_exp s) now then None else Some s | None => None end.

Lemma clean_loop_spec now fuel : forall l, NoDup (skeys l) -> (length l <= fuel)%nat ->
  NoDup (skeys (clean_loop fuel now l)) /\ forall k, lookup k (clean_loop fuel now l) = unexpired now (lookup k l).
Proof.
  assert (Hnone : forall l, last_expired now l = None -> forall k, lookup k l = unexpired now (lookup k l)).
  { intros l E k. pose proof (last_expired_spec now l) as H. rewrite E in H.
    destruct (lookup k l) as [s|] eqn:El; [|reflexivity]. cbn. rewrite (H k s) by (apply lookup_some_in; assumption). reflexivity. }
  induction fuel as [|fuel IH]; intros l Hnd Hl; cbn [clean_loop].
  - split; [assumption|]. destruct l; [reflexivity|cbn in Hl; lia].
  - pose proof (last_expired_spec now l) as H. destruct (last_expired now l) as [k|] eqn:E.
    + destruct H as (s & Hin & He). destruct (sess_remove_spec k l Hnd) as [Hnd' Hlk].
      assert (Hlen : (length (sess_remove k l) < length l)%nat).
      { apply sess_remove_length. change k with (fst (k, s)). apply in_map. assumption. }
      destruct (IH _ Hnd' ltac:(lia)) as [H1 H2]. split; [assumption|]. intro k'. rewrite H2, Hlk.
      destruct (N.eqb_spec k k') as [<-|]; [|reflexivity].
      rewrite (lookup_in k s l Hnd Hin). cbn. rewrite He. reflexivity.
    + split; [assumption|]. apply Hnone. assumption.
Qed.

(** * What is true of every history *)

Definition params (s : subscription) : nat * N := (ss_max s, ss_timeout s).
Definition sessions_ok (r : rx) : Prop := forall p sub, subs_find p (rx_subs r) = Some sub -> NoDup (skeys (ss_sessions sub)).

Definition in_frame_max (p : port) (cap : nat) (h : history) : Prop :=
  exists newer older timeout, h = newer ++ older /\ active p older = Some (cap, timeout) /\
    forall now a sa o, ~ In (XByte 0 now a sa, o) newer.

Definition rx_inv (node : option N) (h : history) (r : rx) : Prop :=
  subs_nodup (rx_subs r) /\ sessions_ok r /\
  (forall p, option_map params (subs_find p (rx_subs r)) = active p h) /\
  rx_node r = node_id node h /\
  match rx_state r with
  | SPayload _ hd _ cap pl => (length pl <= cap)%nat /\ in_frame_max (h_port hd) cap h
  | _ => True
  end.

Lemma in_frame_max_cons p cap op o h : (forall now a sa, op <> XByte 0 now a sa) ->
  in_frame_max p cap h -> in_frame_max p cap ((op, o) :: h).
Proof.
  intros Hop (newer & older & to & -> & Ha & Hn). exists ((op, o) :: newer), older, to. repeat split; [assumption|].
  intros now a sa o' [E|Hin]; [injection E as -> ->; eapply Hop; reflexivity|eapply Hn; eassumption].
Qed.

Lemma is_interested_sub r h sub : is_interested r h = Some sub -> subs_find (h_port h) (rx_subs r) = Some sub.
Proof.
  unfold is_interested. destruct (subs_find (h_port h) (rx_subs r)) as [s|]; [|discriminate].
  destruct (h_source h) as [k|]; [|congruence]. destruct (lookup k (ss_sessions s)) as [se|]; [|congruence].
  destruct (N.ltb _ _); congruence.
Qed.

Lemma find_subscription_sub r h sub : find_subscription r h = Some sub ->
  subs_find (h_port h) (rx_subs r) = Some sub /\ forall d, h_dest h = Some d -> rx_node r = Some d.
Proof.
  unfold find_subscription. destruct h as [m|s|s]; cbn [h_dest].
  - intro H. split; [assumption|discriminate].
  - unfold opt_N_eqb. destruct (rx_node r) as [n|]; [|discriminate]. destruct (N.eqb_spec n (sh_dest s)); [|discriminate].
    intro H. split; [assumption|]. congruence.
  - unfold opt_N_eqb. destruct (rx_node r) as [n|]; [|discriminate]. destruct (N.eqb_spec n (sh_dest s)); [|discriminate].
    intro H. split; [assumption|]. congruence.
Qed.

(** The effect of a completed frame. *)
Definition record_session (h : header) (salloc : bool) (r r' : rx) : Prop :=
  rx_state r' = rx_state r /\ rx_node r' = rx_node r /\
  (subs_nodup (rx_subs r) -> subs_nodup (rx_subs r')) /\
  (forall p, p <> h_port h -> subs_find p (rx_subs r') = subs_find p (rx_subs r)) /\
  (forall sub, subs_find (h_port h) (rx_subs r) = Some sub ->
     exists sub', subs_find (h_port h) (rx_subs r') = Some sub' /\ params sub' = params sub /\
       match h_source h with
       | Some k => if salloc then ss_sessions sub' = sess_insert k (Session (t_add (h_ts h) (ss_timeout sub)) (h_tid h)) (ss_sessions sub)
                   else sub' = sub
       | None => sub' = sub
       end).

Lemma complete_spec r h pl crc sa r' o : complete_transfer r h pl crc sa = (r', o) ->
  (r' = r /\ o = ONone) \/
  (exists sub, find_subscription r h = Some sub /\ o = ODeliver (Transfer h false pl) /\ tracker_correct crc = true /\
     record_session h sa r r').
Proof.
  unfold complete_transfer. destruct (tracker_correct crc) eqn:Hc; cbn [negb]; [|intro E; injection E as <- <-; left; auto].
  destruct (find_subscription r h) as [sub|] eqn:Ef; [|intro E; injection E as <- <-; left; auto].
  pose proof (find_subscription_sub r h sub Ef) as [Hsub _].
  intro E. right. exists sub. split; [reflexivity|].
  destruct (h_source h) as [k|] eqn:Es; [destruct sa|]; injection E as <- <-;
    (split; [reflexivity|]); (split; [reflexivity|]); unfold record_session; cbn [rx_state rx_node rx_subs]; rewrite Es.
  - split; [reflexivity|]. split; [reflexivity|]. split; [apply subs_update_nodup|]. split.
    + intros p Hp. rewrite subs_update_spec. destruct (port_eqb_spec (h_port h) p); [congruence|reflexivity].
    + intros sub0 H0. rewrite subs_update_spec, H0. destruct (port_eqb_spec (h_port h) (h_port h)); [|congruence].
      cbn [option_map]. eexists. split; [reflexivity|]. split; [reflexivity|].
      cbn [ss_sessions]. assert (sub0 = sub) by congruence. subst sub0. reflexivity.
  - do 4 (split; [auto|]). intros sub0 H0. exists sub0. auto.
  - do 4 (split; [auto|]). intros sub0 H0. exists sub0. auto.
Qed.

(** What one byte does. *)
Lemma handle_byte_spec r b now a sa r' o : handle_byte r b now a sa = Ok (r', o) ->
  (rx_node r' = rx_node r) /\
  ((rx_subs r' = rx_subs r /\ (o = ONone \/ o = OMemory) /\
    match rx_state r' with
    | SPayload _ hd _ cap pl =>
        b <> 0 /\
        ((exists sub, is_interested r hd = Some sub /\ cap = ss_max sub /\ pl = []) \/
        (exists u crc pl0, rx_state r = SPayload u hd crc cap pl0 /\ ((length pl0 <= cap)%nat -> (length pl <= cap)%nat)))
    | _ => True
    end)
   \/
   (exists u hd crc cap pl sub, rx_state r = SPayload u hd crc cap pl /\ b = 0 /\
      find_subscription r hd = Some sub /\ o = ODeliver (Transfer hd false pl) /\ rx_state r' = SBetween /\
      record_session hd sa (set_state r SBetween) r')).
Proof.
  unfold handle_byte. destruct (rx_state r) as [| |u hdr|u h crc cap pl] eqn:Es.
  - intro E. injection E as <- <-. split; [reflexivity|]. left. split; [reflexivity|]. split; [auto|]. cbn. destruct (N.eqb b 0); exact I.
  - unfold unesc_accept, unesc_new. cbn [u_copy u_zero]. destruct (N.eqb b 0); cbn [negb N.eqb];
      intro E; injection E as <- <-; (split; [reflexivity|]); left; (split; [reflexivity|]); (split; [auto|]); exact I.
  - assert (Hb : unesc_accept u b <> UErr -> b <> 0) by (unfold unesc_accept; destruct (N.eqb_spec b 0); congruence).
    destruct (unesc_accept u b) as [|u' [x|]].
    + intro E. injection E as <- <-. split; [reflexivity|]. left. split; [reflexivity|]. split; [auto|exact I].
    + destruct (hdr_push hdr x) as [hdr'|]; [|discriminate]. destruct (Nat.eqb _ _).
      * destruct (header_decode hdr') as [fh|]; [|intro E; injection E as <- <-; split; [reflexivity|]; left; split; [reflexivity|]; split; [auto|exact I]].
        destruct (is_interested r (as_core_header fh now)) as [sub|] eqn:Ei;
          [|intro E; injection E as <- <-; split; [reflexivity|]; left; split; [reflexivity|]; split; [auto|exact I]].
        destruct a; intro E; injection E as <- <-; (split; [reflexivity|]); left; (split; [reflexivity|]); (split; [auto|]); [|exact I].
        cbn. split; [apply Hb; discriminate|]. left. exists sub. auto.
      * intro E; injection E as <- <-; split; [reflexivity|]; left; split; [reflexivity|]; split; [auto|exact I].
    + intro E; injection E as <- <-; split; [reflexivity|]; left; split; [reflexivity|]; split; [auto|exact I].
  - unfold unesc_accept. destruct (N.eqb_spec b 0) as [->|Hb].
    + intro E. injection E as E. apply complete_spec in E as [[-> ->]|(sub & Hf & -> & Hc & Hrec)].
      * split; [reflexivity|]. left. split; [reflexivity|]. split; [auto|exact I].
      * split; [apply Hrec|]. right. exists u, h, crc, cap, pl, sub. split; [reflexivity|]. split; [reflexivity|].
        split; [exact Hf|]. split; [reflexivity|]. split; [apply Hrec|assumption].
    + destruct (N.eqb (u_copy u) 0).
      * destruct (u_zero u).
        -- destruct (tracker_digest crc 0) as [crc' [y|]]; intro E; injection E as <- <-; (split; [reflexivity|]); left; (split; [reflexivity|]); (split; [auto|]); cbn [rx_state set_state]; (split; [assumption|]); right; exists u, crc, pl; (split; [reflexivity|]); auto.
           intro Hl. destruct (Nat.ltb_spec (length pl) cap); [rewrite app_length; cbn; lia|assumption].
        -- intro E; injection E as <- <-; (split; [reflexivity|]); left; (split; [reflexivity|]); (split; [auto|]); cbn [rx_state set_state]; (split; [assumption|]); right; exists u, crc, pl; auto.
      * destruct (tracker_digest crc b) as [crc' [y|]]; intro E; injection E as <- <-; (split; [reflexivity|]); left; (split; [reflexivity|]); (split; [auto|]); cbn [rx_state set_state]; (split; [assumption|]); right; exists u, crc, pl; (split; [reflexivity|]); auto.
        intro Hl. destruct (Nat.ltb_spec (length pl) cap); [rewrite app_length; cbn; lia|assumption].
Qed.

Lemma rx_subscribe_spec r p max to al r' o : subs_nodup (rx_subs r) -> rx_subscribe r p max to al = (r', o) ->
  rx_state r' = rx_state r /\ rx_node r' = rx_node r /\ subs_nodup (rx_subs r') /\
  ((o = OAnonymous /\ r' = r) \/
   (o = (if al then ONone else OMemory) /\
    forall p', subs_find p' (rx_subs r') =
               if port_eqb p p' then (if al then Some (subscription_new max to) else None) else subs_find p' (rx_subs r))).
Proof.
  intros Hnd E. unfold rx_subscribe in E.
  destruct (subs_subscribe_spec p (subscription_new max to) al (rx_subs r) Hnd) as (Ha & Hb & Hc).
  destruct (subs_subscribe p (subscription_new max to) al (rx_subs r)) as [ok s]. cbn [fst snd] in *. subst ok.
  destruct p; [|destruct (rx_node r) eqn:En..]; injection E as <- <-; cbn [rx_state rx_node rx_subs];
    (split; [reflexivity|]); (split; [congruence|]); (split; [assumption|]); auto.
Qed.

Lemma rx_hist_inv node h r : rx_hist node h r -> rx_inv node h r.
Proof.
  induction 1 as [|h r op r' o _ (Hnd & Hses & Hact & Hnode & Hst) E].
  - split; [repeat split; constructor|]. split; [intros p sub H; destruct p; discriminate|].
    split; [intros []; reflexivity|]. split; [reflexivity|exact I].
  - assert (Hmono : forall cap (pl : list N) hd,
      (forall now a sa, op <> XByte 0 now a sa) ->
      (length pl <= cap)%nat /\ in_frame_max (h_port hd) cap h ->
      (length pl <= cap)%nat /\ in_frame_max (h_port hd) cap ((op, o) :: h)).
    { intros cap pl hd Hop [Hl Hm]. split; [assumption|]. apply in_frame_max_cons; assumption. }
    destruct op as [now|b now a sa|p max to al|p|id]; cbn [rx_step] in E.
    + injection E as <- <-. split; [apply subs_map_nodup; assumption|]. split.
      { intros p sub. cbn [rx_clean rx_subs]. rewrite subs_map_spec. destruct (subs_find p (rx_subs r)) as [s|] eqn:Es; [|discriminate].
        cbn. intro Ex. injection Ex as <-. cbn. apply clean_loop_spec; [|lia]. eapply Hses; eassumption. }
      split. { intro p. cbn [rx_clean rx_subs active]. rewrite <- Hact, subs_map_spec. destruct (subs_find p (rx_subs r)); reflexivity. }
      split; [assumption|]. cbn [rx_clean rx_state]. destruct (rx_state r); auto; apply Hmono; [discriminate|assumption].
    + pose proof (handle_byte_spec _ _ _ _ _ _ _ E) as [Hn [(Hs & Ho & Hp)|(u & hd & crc & cap & pl & sub & Hst' & -> & Hf & -> & Hb & Hrec)]].
      * split; [rewrite Hs; assumption|]. split; [unfold sessions_ok; rewrite Hs; assumption|].
        split; [rewrite Hs; assumption|]. split; [cbn [node_id]; congruence|].
        destruct (rx_state r') as [| |u' hdr|u' hd crc cap pl]; auto.
        destruct Hp as [Hbz [(sub & Hi & -> & ->)|(u0 & crc0 & pl0 & Hr & Hl)]].
        -- split; [cbn; lia|]. apply in_frame_max_cons; [intros; congruence|]. apply is_interested_sub in Hi. specialize (Hact (h_port hd)). rewrite Hi in Hact. cbn in Hact.
           symmetry in Hact. exists [], h, (ss_timeout sub). repeat split; [assumption|]. intros ? ? ? ? [].
        -- rewrite Hr in Hst. apply Hmono; [intros; congruence|]. split; [apply Hl|]; apply Hst.
      * destruct Hrec as (_ & _ & Hnd' & Hother & Hsame). cbn [rx_subs set_state] in *.
        destruct (find_subscription_sub _ _ _ Hf) as [Hsub _]. destruct (Hsame sub Hsub) as (sub' & Hsub' & Hpar & Hss).
        split; [auto|]. split; [|split; [|split]].
        -- intros p s Hp. destruct (port_eqb_spec p (h_port hd)) as [->|Hne]; [|rewrite Hother in Hp by assumption; eapply Hses; eassumption].
           rewrite Hsub' in Hp. injection Hp as <-. pose proof (Hses _ _ Hsub) as Hok.
           destruct (h_source hd); [destruct sa|]; [rewrite Hss; apply sess_insert_spec; assumption|subst; assumption..].
        -- intro p. cbn [active]. rewrite <- Hact. destruct (port_eqb_spec p (h_port hd)) as [->|Hne]; [|rewrite Hother by assumption; reflexivity].
           rewrite Hsub', Hsub. cbn. f_equal. assumption.
        -- cbn [node_id]. congruence.
        -- rewrite Hb. exact I.
    + injection E as E. destruct (rx_subscribe_spec _ _ _ _ _ _ _ Hnd E) as (Hs & Hn & Hnd' & Hcase).
      split; [assumption|]. split; [|split; [|split]].
      * destruct Hcase as [[-> ->]|[-> Hfind]]; [assumption|]. intros p' s. rewrite Hfind.
        destruct (port_eqb p p'); [|apply Hses]. destruct al; [|discriminate]. intro Ex; injection Ex as <-. constructor.
      * intro p'. cbn [active]. destruct Hcase as [[-> ->]|[-> Hfind]].
        -- destruct (port_eqb p p'); apply Hact.
        -- rewrite Hfind. destruct (port_eqb p p'); [|apply Hact]. destruct al; reflexivity.
      * rewrite Hn. assumption.
      * rewrite Hs. destruct (rx_state r); auto; apply Hmono; [discriminate|assumption].
    + injection E as <- <-. destruct (subs_unsubscribe_spec p _ Hnd) as [Hnd' Hfind]. cbn [rx_unsubscribe rx_subs rx_state rx_node].
      split; [assumption|]. split; [|split; [|split]].
      * intros p' s. cbn [rx_unsubscribe rx_subs]. rewrite Hfind. destruct (port_eqb p p'); [discriminate|apply Hses].
      * intro p'. cbn [active]. rewrite Hfind. destruct (port_eqb p p'); [reflexivity|apply Hact].
      * assumption.
      * cbn [rx_state rx_unsubscribe rx_set_id]. destruct (rx_state r); auto; apply Hmono; [discriminate|assumption].
    + injection E as <- <-. cbn [rx_set_id rx_subs rx_state rx_node]. split; [assumption|]. split; [assumption|]. split; [assumption|].
      split; [reflexivity|]. cbn [rx_state rx_unsubscribe rx_set_id]. destruct (rx_state r); auto; apply Hmono; [discriminate|assumption].
Qed.

Lemma delivered_byte r op r' t : subs_nodup (rx_subs r) -> rx_step r op = Ok (r', ODeliver t) ->
  exists b now a sa, op = XByte b now a sa /\
    exists u crc cap pl sub, rx_state r = SPayload u (t_header t) crc cap pl /\ t = Transfer (t_header t) false pl /\
      find_subscription r (t_header t) = Some sub /\ rx_state r' = SBetween /\
      record_session (t_header t) sa (set_state r SBetween) r'.
Proof.
  intros Hnd E. destruct op as [now|b now a sa|p max to al|p|id]; cbn [rx_step] in E; try discriminate.
  - exists b, now, a, sa. split; [reflexivity|].
    pose proof (handle_byte_spec _ _ _ _ _ _ _ E) as [Hn [(Hs & [Ho|Ho] & Hp)|(u & hd & crc & cap & pl & sub & Hst' & -> & Hf & Ho & Hb & Hrec)]];
      try discriminate. injection Ho as ->. exists u, crc, cap, pl, sub. cbn [t_header]. auto.
  - injection E as E. destruct (rx_subscribe_spec _ _ _ _ _ _ _ Hnd E) as (_ & _ & _ & [[H _]|[H _]]); [discriminate|destruct al; discriminate].
Qed.

Lemma serial_delivers_asked node h r op r' t :
  rx_hist node h r -> rx_step r op = Ok (r', ODeliver t) ->
  (exists max timeout, active (h_port (t_header t)) h = Some (max, timeout)) /\
  (forall d, h_dest (t_header t) = Some d -> node_id node h = Some d) /\
  (exists newer older max timeout, h = newer ++ older /\ (forall now a sa o, ~ In (XByte 0 now a sa, o) newer) /\
     active (h_port (t_header t)) older = Some (max, timeout) /\ (length (t_payload t) <= max)%nat).
Proof.
  intros Hh E. pose proof (rx_hist_inv _ _ _ Hh) as (Hnd & Hses & Hact & Hnode & Hst).
  destruct (delivered_byte r op r' t Hnd E) as (b & now & a & sa & -> & u & crc & cap & pl & sub & Hs & Ht & Hf & _ & _).
  destruct (find_subscription_sub _ _ _ Hf) as [Hsub Hd]. rewrite Hs in Hst. destruct Hst as [Hl (newer & older & to & Hh' & Ha & Hn)].
  split; [|split].
  - specialize (Hact (h_port (t_header t))). rewrite Hsub in Hact. cbn in Hact. eauto.
  - intros d H. rewrite <- Hnode. apply Hd. assumption.
  - exists newer, older, cap, to. repeat split; try assumption. rewrite Ht. cbn [t_payload]. assumption.
Qed.

(** * Transfer IDs *)

Lemma active_resub p op o h : ~ resubscribes p (op, o) -> active p ((op, o) :: h) = active p h.
Proof.
  intro H. destruct op as [now|b now a sa|p' max to al|p'|id]; cbn [active]; try reflexivity.
  - destruct (port_eqb_spec p' p) as [->|]; [|reflexivity]. exfalso. apply H. left. exists max, to, al. reflexivity.
  - destruct (port_eqb_spec p' p) as [->|]; [|reflexivity]. exfalso. apply H. right. reflexivity.
Qed.

(** The session of source [k] on port [p] has transfer ID [tid], and a frame being received from there is later. *)
Definition guarded (p : port) (k : N) (expiry tid : N) (r : rx) : Prop :=
  (exists sub, subs_find p (rx_subs r) = Some sub /\ lookup k (ss_sessions sub) = Some (Session expiry tid)) /\
  match rx_state r with
  | SPayload _ hd _ _ _ => h_port hd = p -> h_source hd = Some k -> tid < h_tid hd
  | _ => True
  end.

Lemma guarded_step node h r op r' o p k expiry tid :
  rx_hist node h r -> rx_step r op = Ok (r', o) -> guarded p k expiry tid r ->
  ~ resubscribes p (op, o) ->
  (forall now, op = XClean now -> t_lt expiry now = false) ->
  (forall t, o = ODeliver t -> h_port (t_header t) = p -> h_source (t_header t) <> Some k) ->
  guarded p k expiry tid r'.
Proof.
  intros Hh E [(sub & Hsub & Hse) Hst] Hre Hcl Hdel.
  pose proof (rx_hist_inv _ _ _ Hh) as (Hnd & Hses & _).
  destruct op as [now|b now a sa|p' max to al|p'|id]; cbn [rx_step] in E.
  - injection E as <- <-. split; [|exact Hst]. cbn [rx_clean rx_subs]. exists (sub_clean now sub). rewrite subs_map_spec, Hsub.
    split; [reflexivity|]. cbn. destruct (clean_loop_spec now (length (ss_sessions sub)) (ss_sessions sub)) as [_ ->]; [eapply Hses; eassumption|lia|].
    rewrite Hse. cbn. rewrite (Hcl now eq_refl). reflexivity.
  - pose proof (handle_byte_spec _ _ _ _ _ _ _ E) as [Hn [(Hs & Ho & Hp)|(u & hd & crc & cap & pl & sub1 & Hst' & -> & Hf & -> & Hb & Hrec)]].
    + split; [exists sub; rewrite Hs; auto|]. destruct (rx_state r') as [| |u' hdr|u' hd crc cap pl]; auto.
      destruct Hp as [_ [(sub1 & Hi & -> & ->)|(u0 & crc0 & pl0 & Hr & Hl)]].
      * intros Hpp Hk. unfold is_interested in Hi. rewrite Hpp, Hsub, Hk, Hse in Hi. cbn [se_tid] in Hi.
        destruct (N.ltb_spec tid (h_tid hd)); [assumption|discriminate].
      * rewrite Hr in Hst. exact Hst.
    + destruct Hrec as (_ & _ & _ & Hother & Hsame). cbn [rx_subs set_state] in *. split; [|rewrite Hb; exact I].
      destruct (port_eqb_spec p (h_port hd)) as [Hpp|Hne]; [|exists sub; rewrite Hother by assumption; auto].
      rewrite Hpp in Hsub. destruct (Hsame sub Hsub) as (sub' & Hsub' & Hpar & Hss). exists sub'. rewrite Hpp. split; [assumption|].
      specialize (Hdel _ eq_refl (eq_sym Hpp)). cbn [t_header] in Hdel.
      destruct (h_source hd) as [k'|]; [destruct sa|]; [|subst; assumption..].
      rewrite Hss. destruct (sess_insert_spec k' (Session (t_add (h_ts hd) (ss_timeout sub)) (h_tid hd)) (ss_sessions sub)) as [_ ->]; [eapply Hses; eassumption|].
      destruct (N.eqb_spec k' k); [congruence|assumption].
  - injection E as E. destruct (rx_subscribe_spec _ _ _ _ _ _ _ Hnd E) as (Hs & Hn & Hnd' & Hcase). split; [|rewrite Hs; exact Hst].
    destruct Hcase as [[-> ->]|[-> Hfind]]; [exists sub; auto|]. exists sub. rewrite Hfind.
    destruct (port_eqb_spec p' p) as [->|]; [|auto]. exfalso. apply Hre. left. exists max, to, al. reflexivity.
  - injection E as <- <-. destruct (subs_unsubscribe_spec p' _ Hnd) as [Hnd' Hfind]. split; [|exact Hst]. exists sub.
    cbn [rx_unsubscribe rx_subs]. rewrite Hfind. destruct (port_eqb_spec p' p) as [->|]; [|auto].
    exfalso. apply Hre. right. reflexivity.
  - injection E as <- <-. split; [exists sub; auto|exact Hst].
Qed.

Lemma rx_hist_app node mid h r : rx_hist node (mid ++ h) r -> exists r0, rx_hist node h r0.
Proof.
  revert r; induction mid as [|e mid IH]; intros r H; [eauto|]. inversion H; subst. eapply IH; eassumption.
Qed.

Lemma serial_tid_increases node h op1 t1 mid op2 t2 r timeout k :
  rx_hist node ((op2, ODeliver t2) :: mid ++ (op1, ODeliver t1) :: h) r ->
  h_port (t_header t1) = h_port (t_header t2) ->
  h_source (t_header t1) = Some k -> h_source (t_header t2) = Some k ->
  (forall op t, In (op, ODeliver t) mid -> h_port (t_header t) = h_port (t_header t1) -> h_source (t_header t) <> Some k) ->
  option_map snd (active (h_port (t_header t1)) h) = Some timeout ->
  h_tid (t_header t1) < h_tid (t_header t2) \/
  (exists e, In e mid /\ resubscribes (h_port (t_header t1)) e) \/
  (exists now o, In (XClean now, o) mid /\ t_lt (t_add (h_ts (t_header t1)) timeout) now = true) \/
  (exists b now a, op1 = XByte b now a false).
Proof.
  intros Hh Hport Hk1 Hk2 Hmid Hto. set (p := h_port (t_header t1)) in *.
  set (expiry := t_add (h_ts (t_header t1)) timeout).
  inversion Hh as [|? r2 ? ? ? Hh2 E2]; subst.
  assert (Hg : (exists e, In e mid /\ resubscribes p e) \/
               (exists now o, In (XClean now, o) mid /\ t_lt expiry now = true) \/
               (exists b now a, op1 = XByte b now a false) \/
               guarded p k expiry (h_tid (t_header t1)) r2).
  { clear E2 Hh. revert r2 Hh2. induction mid as [|[op o] mid IH]; intros r2 Hh2.
    - cbn [app] in Hh2. inversion Hh2 as [|? r1 ? ? ? Hh1 E1]; subst.
      pose proof (rx_hist_inv _ _ _ Hh1) as (Hnd & Hses & Hact & _).
      destruct (delivered_byte _ _ _ _ Hnd E1) as (b & now & a & sa & -> & u & crc & cap & pl & sub & Hs & Ht & Hf & Hb & Hrec).
      destruct sa; [|right; right; left; eauto]. right. right. right.
      destruct (find_subscription_sub _ _ _ Hf) as [Hsub _]. fold p in Hsub.
      destruct Hrec as (_ & _ & _ & _ & Hsame). cbn [rx_subs set_state] in Hsame. fold p in Hsame.
      destruct (Hsame sub Hsub) as (sub' & Hsub' & _ & Hss). rewrite Hk1 in Hss.
      split; [|rewrite Hb; exact I]. exists sub'. split; [assumption|]. rewrite Hss.
      destruct (sess_insert_spec k (Session (t_add (h_ts (t_header t1)) (ss_timeout sub)) (h_tid (t_header t1))) (ss_sessions sub)) as [_ ->]; [eapply Hses; eassumption|].
      rewrite N.eqb_refl. rewrite <- Hact, Hsub in Hto. cbn in Hto. injection Hto as Hto. unfold expiry. rewrite Hto. reflexivity.
    - cbn [app] in Hh2. inversion Hh2 as [|? r1 ? ? ? Hh1 E1]; subst.
      destruct (IH ltac:(intros op' t' Hin; apply (Hmid op'); right; assumption) r1 Hh1) as [(e & Hin & He)|[(now & o' & Hin & He)|[H|Hg]]].
      + left. exists e. split; [right; assumption|assumption].
      + right. left. exists now, o'. split; [right; assumption|assumption].
      + right. right. left. assumption.
      + assert (Hdec : resubscribes p (op, o) \/ ~ resubscribes p (op, o)).
        { destruct op as [now|b now a sa|p' max to al|p'|id]; try (right; intros [(? & ? & ? & H)|H]; discriminate).
          - destruct (port_eqb_spec p' p) as [->|]; [left; left; exists max, to, al; reflexivity|].
            right; intros [(? & ? & ? & H)|H]; cbn in H; congruence.
          - destruct (port_eqb_spec p' p) as [->|]; [left; right; reflexivity|].
            right; intros [(? & ? & ? & H)|H]; cbn in H; congruence. }
        destruct Hdec as [He|Hre]; [left; exists (op, o); split; [left; reflexivity|assumption]|].
        assert (Hcl : (exists now, op = XClean now /\ t_lt expiry now = true) \/ (forall now, op = XClean now -> t_lt expiry now = false)).
        { destruct op; try (right; intros ? H; discriminate). destruct (t_lt expiry now) eqn:Et; [left; eauto|].
          right. intros ? H; injection H as <-. assumption. }
        destruct Hcl as [(now & -> & Ht)|Hcl]; [right; left; exists now, o; split; [left; reflexivity|assumption]|].
        right. right. right. eapply guarded_step; try eassumption.
        intros t -> Hpp. apply (Hmid op); [left; reflexivity|assumption]. }
  destruct Hg as [H|[H|[H|[_ Hst]]]]; [auto..|]. left.
  pose proof (rx_hist_inv _ _ _ Hh2) as (Hnd & _).
  destruct (delivered_byte _ _ _ _ Hnd E2) as (b & now & a & sa & -> & u & crc & cap & pl & sub & Hs & _).
  rewrite Hs in Hst. apply Hst; [congruence|assumption].
Qed.

(** * A [receive] call is a sequence of the steps above *)
Lemma receive_decomposes r now ds r' o rest : receive r now ds = Ok (r', o, rest) ->
  exists ops os, rx_run r (XClean now :: ops) = Ok (r', ONone :: os) /\
    (forall op, In op ops -> exists b n a s, op = XByte b n a s /\ In (BByte b n a s) ds) /\
    (o = ONone -> Forall (fun x => x = ONone) os) /\
    (o <> ONone -> exists k, os = repeat ONone k ++ [o]).
Proof.
  unfold receive. cbn [rx_run rx_step]. generalize (rx_clean r now) as r0.
  assert (H : forall ds r0, receive_loop r0 ds = Ok (r', o, rest) ->
    exists ops os, rx_run r0 ops = Ok (r', os) /\
    (forall op, In op ops -> exists b n a s, op = XByte b n a s /\ In (BByte b n a s) ds) /\
    (o = ONone -> Forall (fun x => x = ONone) os) /\ (o <> ONone -> exists k, os = repeat ONone k ++ [o])).
  { clear. assert (Hnil : forall ds (r0 : rx), Ok (r0, ONone, rest) = Ok (r', o, rest) ->
      exists ops os, rx_run r0 ops = Ok (r', os) /\
      (forall op, In op ops -> exists b n a s, op = XByte b n a s /\ In (BByte b n a s) ds) /\
      (o = ONone -> Forall (fun x => x = ONone) os) /\ (o <> ONone -> exists k, os = repeat ONone k ++ [o])).
    { intros ds r0 E. injection E as -> <-. exists [], []. repeat split; [intros ? []|constructor|congruence]. }
    intro ds; induction ds as [|d ds IH]; intros r0 E; cbn [receive_loop] in E.
    - apply (Hnil []). congruence.
    - destruct d as [b n a s| |]; [|apply Hnil; congruence..].
      destruct (handle_byte r0 b n a s) as [[r1 o1]|] eqn:Eb; [|discriminate].
      assert (Hone : o1 <> ONone -> Ok (r1, o1, ds) = Ok (r', o, rest) -> exists ops os, rx_run r0 ops = Ok (r', os) /\
        (forall op, In op ops -> exists b0 n0 a0 s0, op = XByte b0 n0 a0 s0 /\ In (BByte b0 n0 a0 s0) (BByte b n a s :: ds)) /\
        (o = ONone -> Forall (fun x => x = ONone) os) /\ (o <> ONone -> exists k, os = repeat ONone k ++ [o])).
      { intros Ho Ex. injection Ex as -> -> <-. exists [XByte b n a s], [o]. cbn [rx_run rx_step]. rewrite Eb.
        split; [reflexivity|]. split; [intros op [<-|[]]; exists b, n, a, s; split; [reflexivity|left; reflexivity]|].
        split; [congruence|]. intros _. exists O. reflexivity. }
      destruct o1; try (apply Hone; [discriminate|assumption]).
      destruct (IH r1 E) as (ops & os & Hr & Hin & H1 & H2). exists (XByte b n a s :: ops), (ONone :: os).
      cbn [rx_run rx_step]. rewrite Eb, Hr. split; [reflexivity|]. split; [|split].
      + intros op [<-|H]; [exists b, n, a, s; split; [reflexivity|left; reflexivity]|].
        destruct (Hin op H) as (b0 & n0 & a0 & s0 & -> & H0). exists b0, n0, a0, s0. split; [reflexivity|right; assumption].
      + intro Ho. constructor; auto.
      + intro Ho. destruct (H2 Ho) as [k ->]. exists (S k). reflexivity. }
  intros r0 E. destruct (H ds r0 E) as (ops & os & Hr & Hin & H1 & H2). exists ops, os. rewrite Hr. auto.
Qed.
