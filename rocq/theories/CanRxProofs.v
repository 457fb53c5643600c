(** Proofs about CAN reception. *)
From Verif Require Import Base BitLemmas CoreModel CrcModel CrcProofs FilterModel CanIdModel CanSpec CanIdProofs CanTxModel CanTxSpec CanTxProofs
  CanQueueModel CanRxModel CanRxSpec.
Ltac Zify.zify_post_hook ::= Z.div_mod_to_equations.

(** ** frames *)
Lemma parse_tail_byte s e t tid : tid <= 31 -> parse_tail (tail_byte s e t tid) = Tail s e t tid.
Proof. intro H. rewrite <- make_tail_tail_byte by assumption. apply parse_make_tail, H. Qed.

Lemma tail_byte_parse b : b < 256 -> b = tail_byte (bit_set b 7) (bit_set b 6) (bit_set b 5) (N.land b 0x1f).
Proof.
  intro Hb. rewrite !bit_set_div, land_1f. change (2 ^ 7) with 128. change (2 ^ 6) with 64. change (2 ^ 5) with 32.
  unfold tail_byte. destruct (N.eqb_spec ((b / 128) mod 2) 1), (N.eqb_spec ((b / 64) mod 2) 1), (N.eqb_spec ((b / 32) mod 2) 1); lia.
Qed.

Lemma frame_check_total f : frame_ok f -> exists o, frame_check f = Ok o.
Proof.
  intros (Hid & _ & _). unfold frame_check. destruct (rev (f_data f)) as [|b l]; [eauto|].
  destruct (parse_can_id_total (f_id f) (f_ts f) (tl_tid (parse_tail b)) Hid) as (r & E & _). cbv zeta. rewrite E. destruct r; [|eauto].
  match goal with |- context[if ?c then _ else _] => destruct c end; eauto.
Qed.

Lemma frame_check_spec f h tl : frame_ok f -> frame_check f = Ok (Some (h, tl)) ->
  id_means (f_id f) h /\ h_ts h = f_ts f /\ h_tid h = tl_tid tl /\ can_header_ok h /\
  has_tail f (tl_start tl) (tl_end tl) (tl_toggle tl) (tl_tid tl) /\
  (h_source h = None -> tl_start tl = true /\ tl_end tl = true /\ tl_toggle tl = true).
Proof.
  intros (Hid & Hts & Hb). unfold frame_check. destruct (rev (f_data f)) as [|b l] eqn:Er; [discriminate|]. cbv zeta.
  assert (Hd : f_data f = rev l ++ [b]). { rewrite <- (rev_involutive (f_data f)), Er. reflexivity. }
  assert (Hbb : b < 256). { unfold bytes_ok in Hb. rewrite Hd in Hb. apply Forall_app in Hb as (_ & Hb). apply Forall_inv in Hb. exact Hb. }
  destruct (parse_can_id (f_id f) (f_ts f) (tl_tid (parse_tail b))) as [[h'|]|] eqn:Ep; try discriminate.
  match goal with |- context[if ?c then _ else _] => destruct c eqn:Ec end; [discriminate|].
  intro E. assert (Eh : h' = h) by congruence. assert (Et : parse_tail b = tl) by congruence. subst h'. clear E.
  pose proof (parse_ok_fields _ _ _ _ Hid Hts (parse_tail_tid b) Ep) as Hok.
  apply parse_can_id_iff in Ep as (Hm & H1 & H2); [|assumption]. rewrite Et in H2.
  split; [assumption|]. split; [assumption|]. split; [assumption|]. split; [assumption|]. split.
  - subst tl. split; [apply parse_tail_tid|]. exists (rev l). rewrite Hd. f_equal. f_equal. apply tail_byte_parse, Hbb.
  - intro Hs. destruct h as [m|x|x]; cbn [h_source] in Hs; try discriminate. rewrite Hs, Et in Ec. cbn [andb] in Ec.
    apply negb_false_iff in Ec. apply andb_prop in Ec as (Ec & ?). apply andb_prop in Ec as (? & ?). auto.
Qed.

Lemma frame_check_intro f h s e t : f_id f < 2 ^ 29 -> id_means (f_id f) h -> h_ts h = f_ts f -> has_tail f s e t (h_tid h) ->
  h_source h <> None -> frame_check f = Ok (Some (h, Tail s e t (h_tid h))).
Proof.
  intros Hid Hm Hts (Ht & body & Hd) Hs. unfold frame_check. rewrite Hd, rev_app_distr. cbn [rev app]. cbv zeta.
  rewrite parse_tail_byte by assumption. cbn [tl_tid].
  destruct (parse_can_id_iff (f_id f) (f_ts f) (h_tid h) h Hid) as (_ & Hp). rewrite (Hp (conj Hm (conj Hts eq_refl))).
  destruct h as [m|x|x]; cbn [andb]; try reflexivity. cbn [h_source] in Hs. destruct (mh_source m); [reflexivity|congruence].
Qed.

Lemma sent_by_iff p s f h : id_means (f_id f) h -> (sent_by p s f = true <-> h_port h = p /\ h_source h = Some s).
Proof.
  intros (H1 & H2 & H3). unfold sent_by. destruct h as [m|x|x].
  - destruct H3 as (Ha & Hb & Hc & Hd). destruct p as [y|y|y]; cbn [h_port h_source].
    + rewrite Ha, Hc. destruct (mh_source m) as [n|].
      * destruct Hd as (-> & ->). cbn [N.eqb andb]. rewrite andb_true_iff, !N.eqb_eq. split; intros (E1 & E2); [subst; auto|]. injection E1. injection E2. auto.
      * rewrite Hd. cbn [N.eqb andb]. split; [discriminate|]. intros (_ & ?). discriminate.
    + rewrite Ha. cbn [N.eqb andb]. split; [discriminate|]. intros (? & _). discriminate.
    + rewrite Ha. cbn [N.eqb andb]. split; [discriminate|]. intros (? & _). discriminate.
  - destruct H3 as (Ha & Hb & Hc & Hd & He). destruct p as [y|y|y]; cbn [h_port h_source]; rewrite Ha, Hb; cbn [N.eqb Pos.eqb andb].
    + split; [discriminate|]. intros (? & _). discriminate.
    + rewrite Hc, He, andb_true_iff, !N.eqb_eq. split; intros (E1 & E2); [subst; auto|]. injection E1. injection E2. auto.
    + split; [discriminate|]. intros (? & _). discriminate.
  - destruct H3 as (Ha & Hb & Hc & Hd & He). destruct p as [y|y|y]; cbn [h_port h_source]; rewrite Ha, Hb; cbn [N.eqb Pos.eqb andb].
    + split; [discriminate|]. intros (? & _). discriminate.
    + split; [discriminate|]. intros (? & _). discriminate.
    + rewrite Hc, He, andb_true_iff, !N.eqb_eq. split; intros (E1 & E2); [subst; auto|]. injection E1. injection E2. auto.
Qed.

(** ** which subscription handles what *)
Definition find_sub (r : can_rx) (p : port) : option subscription := find (fun su => port_eqb (su_port su) p) (rx_subs r).
Definition admits (id : option N) (f : frame) (h : header) : bool :=
  match h_dest h with None => true | Some d => f_loop f || match id with Some n => n =? d | None => false end end.
Definition route (id : option N) (f : frame) : option (header * tail) :=
  match frame_check f with Ok (Some (h, tl)) => if admits id f h then Some (h, tl) else None | _ => None end.
Definition conv (o : option sub_out) : rx_out :=
  match o with Some (SubDone t) => RxTransfer t | Some SubMemory => RxMemory | _ => RxNone end.

Lemma port_eqb_refl p : port_eqb p p = true.
Proof. destruct (port_eqb_spec p p); congruence. Qed.

Lemma su_accept_port su mem f h tl su' o : su_accept su mem f h tl = Ok (su', o) -> su_port su' = su_port su.
Proof.
  unfold su_accept. destruct (h_source h).
  - destruct (checked_accept _ _ _ _ _ _ _) as [[st o']|]; [|discriminate]. intro E. injection E as <- <-. reflexivity.
  - destruct (accept_anonymous _ _ _); [|discriminate]. intro E. injection E as <- <-. reflexivity.
Qed.

Lemma subs_accept_find subs mem f h tl p :
  match find (fun su => port_eqb (su_port su) (h_port h)) subs with
  | None => subs_accept subs mem f h tl = Ok (subs, None)
  | Some su =>
      match su_accept su mem f h tl with
      | Panic => subs_accept subs mem f h tl = Panic
      | Ok (su', o) => exists subs', subs_accept subs mem f h tl = Ok (subs', Some o) /\
          find (fun su => port_eqb (su_port su) p) subs' = (if port_eqb (h_port h) p then Some su' else find (fun su => port_eqb (su_port su) p) subs)
      end
  end.
Proof.
  induction subs as [|su subs IH]; cbn [find subs_accept]; [reflexivity|].
  destruct (port_eqb_spec (su_port su) (h_port h)) as [E|E].
  - destruct (su_accept su mem f h tl) as [[su' o]|] eqn:Ea; [|reflexivity]. eexists. split; [reflexivity|]. cbn [find].
    rewrite (su_accept_port _ _ _ _ _ _ _ Ea), E. destruct (port_eqb (h_port h) p); reflexivity.
  - destruct (find _ subs) as [su0|].
    + destruct (su_accept su0 mem f h tl) as [[su' o]|].
      * destruct IH as (subs' & -> & Hf). eexists. split; [reflexivity|]. cbn [find]. rewrite Hf.
        destruct (port_eqb_spec (su_port su) p); [|reflexivity]. destruct (port_eqb_spec (h_port h) p); [congruence|reflexivity].
      * rewrite IH. reflexivity.
    + rewrite IH. reflexivity.
Qed.

Lemma accept_frame_route r mem f : frame_ok f ->
  match route (rx_id r) f with
  | None => exists r', accept_frame r mem f = Ok (r', RxNone) /\ rx_id r' = rx_id r /\ forall p, find_sub r' p = find_sub r p
  | Some (h, tl) =>
      match find_sub r (h_port h) with
      | None => exists r', accept_frame r mem f = Ok (r', RxNone) /\ rx_id r' = rx_id r /\ forall p, find_sub r' p = find_sub r p
      | Some su =>
          match su_accept su mem f h tl with
          | Panic => accept_frame r mem f = Panic
          | Ok (su', o) => exists r', accept_frame r mem f = Ok (r', conv (Some o)) /\ rx_id r' = rx_id r /\
              forall p, find_sub r' p = if port_eqb (h_port h) p then Some su' else find_sub r p
          end
      end
  end.
Proof.
  intro Hf. unfold route, accept_frame. destruct (frame_check_total f Hf) as (o & ->). destruct o as [[h tl]|].
  2: { eexists. split; [reflexivity|]. split; reflexivity. }
  assert (E : match h with HMsg _ => false | HReq s | HResp s => negb (f_loop f || can_accept_service r (sh_dest s)) end = negb (admits (rx_id r) f h)).
  { destruct h; reflexivity. }
  cbv zeta. rewrite E. destruct (admits (rx_id r) f h); cbn [negb]; [|eexists; split; [reflexivity|]; split; reflexivity].
  unfold find_sub at 1. unfold accept_sane. pose proof (fun p => subs_accept_find (rx_subs r) mem f h tl p) as Hs.
  destruct (find (fun su => port_eqb (su_port su) (h_port h)) (rx_subs r)) as [su|].
  - destruct (su_accept su mem f h tl) as [[su' o]|].
    + destruct (Hs (h_port h)) as (subs' & Ea & _). rewrite Ea.
      assert (Hp : forall p, find (fun su => port_eqb (su_port su) p) subs' = if port_eqb (h_port h) p then Some su' else find_sub r p).
      { intro p. destruct (Hs p) as (subs'' & Eb & Hb). rewrite Ea in Eb. injection Eb as ->. exact Hb. }
      destruct o; (eexists; split; [reflexivity|]; split; [reflexivity|exact Hp]).
    + rewrite (Hs (h_port h)). reflexivity.
  - rewrite (Hs (h_port h)). eexists. split; [reflexivity|]. split; reflexivity.
Qed.

Lemma find_filter_other subs p q : p <> q ->
  find (fun su => port_eqb (su_port su) q) (filter (fun su => negb (port_eqb (su_port su) p)) subs) = find (fun su => port_eqb (su_port su) q) subs.
Proof.
  intro Hne. induction subs as [|su subs IH]; [reflexivity|]. cbn [filter find]. destruct (port_eqb_spec (su_port su) p) as [E|E]; cbn [negb find].
  - rewrite IH. destruct (port_eqb_spec (su_port su) q); [congruence|reflexivity].
  - rewrite IH. reflexivity.
Qed.
Lemma find_filter_same subs p : find (fun su => port_eqb (su_port su) p) (filter (fun su => negb (port_eqb (su_port su) p)) subs) = None.
Proof.
  induction subs as [|su subs IH]; [reflexivity|]. cbn [filter]. destruct (port_eqb (su_port su) p) eqn:E; cbn [negb find]; [assumption|]. rewrite E. assumption.
Qed.
Lemma find_app {A} (P : A -> bool) a b : find P (a ++ b) = match find P a with Some x => Some x | None => find P b end.
Proof. induction a as [|x a IH]; [reflexivity|]. cbn [app find]. destruct (P x); auto. Qed.

Lemma unsubscribe_find r p q : find_sub (rx_unsubscribe r p) q = if port_eqb p q then None else find_sub r q.
Proof.
  unfold find_sub, rx_unsubscribe. cbn [rx_subs]. destruct (port_eqb_spec p q) as [<-|H]; [apply find_filter_same|apply find_filter_other, H].
Qed.

Lemma filter_length_none {A} (P : A -> bool) l : find P l = None -> filter (fun x => negb (P x)) l = l.
Proof. induction l as [|x l IH]; [reflexivity|]. cbn [find filter]. destruct (P x); [discriminate|]. intro H. cbn [negb]. rewrite IH by assumption. reflexivity. Qed.
Lemma filter_length_some {A} (P : A -> bool) l x : find P l = Some x -> (length (filter (fun x => negb (P x)) l) < length l)%nat.
Proof.
  assert (H : forall l, (length (filter (fun x => negb (P x)) l) <= length l)%nat).
  { clear. induction l as [|y l IH]; [auto|]. cbn [filter]. destruct (negb (P y)); cbn [length]; lia. }
  induction l as [|y l IH]; [discriminate|]. cbn [find filter length]. destruct (P y); cbn [negb].
  - intros _. specialize (H l). lia.
  - intro E. cbn [length]. specialize (IH E). lia.
Qed.

(** subscribing, seen from one port *)
Lemma subscribe_find r p timeout max mem :
  exists r' o, rx_subscribe_port r p timeout max mem = (r', o) /\ rx_id r' = rx_id r /\
  o = (match p, rx_id r with
       | PReq _, None | PResp _, None => SubscribeAnonymous
       | _, _ => match find_sub r p with Some _ => SubscribeOk | None => if mem then SubscribeOk else SubscribeMemory end
       end) /\
  forall q, find_sub r' q = if port_eqb p q then
                              match o with SubscribeOk => Some (su_new p timeout max) | SubscribeMemory => None | SubscribeAnonymous => find_sub r q end
                            else find_sub r q.
Proof.
  unfold rx_subscribe_port.
  assert (Hmain : exists r' b, rx_subscribe r p timeout max mem = (r', b) /\ rx_id r' = rx_id r /\
    b = match find_sub r p with Some _ => true | None => mem end /\
    forall q, find_sub r' q = if port_eqb p q then (if b then Some (su_new p timeout max) else None) else find_sub r q).
  { unfold rx_subscribe. cbv zeta.
    assert (Hb : ((length (rx_subs (rx_unsubscribe r p)) <? length (rx_subs r))%nat || mem) = match find_sub r p with Some _ => true | None => mem end).
    { unfold find_sub, rx_unsubscribe. cbn [rx_subs]. destruct (find _ (rx_subs r)) eqn:E.
      - apply filter_length_some in E. rewrite (proj2 (Nat.ltb_lt _ _) E). reflexivity.
      - rewrite (filter_length_none _ _ E), Nat.ltb_irrefl. reflexivity. }
    rewrite Hb. destruct (match find_sub r p with Some _ => true | None => mem end).
    - eexists _, true. split; [reflexivity|]. split; [reflexivity|]. split; [reflexivity|]. intro q. unfold find_sub at 1. cbn [rx_subs]. rewrite find_app.
      change (find (fun su => port_eqb (su_port su) q) (rx_subs (rx_unsubscribe r p))) with (find_sub (rx_unsubscribe r p) q). rewrite unsubscribe_find.
      cbn [find su_port su_new]. destruct (port_eqb p q); [reflexivity|]. destruct (find_sub r q); reflexivity.
    - eexists _, false. split; [reflexivity|]. split; [reflexivity|]. split; [reflexivity|]. apply unsubscribe_find. }
  destruct Hmain as (r' & b & E & Hid & Hb & Hf).
  destruct p as [x|x|x]; [|destruct (rx_id r) as [n|] eqn:En..].
  all: try (rewrite E; exists r', (if b then SubscribeOk else SubscribeMemory); split; [reflexivity|]; split; [congruence|];
    split; [rewrite Hb; destruct (find_sub r _); reflexivity|]; intro q; rewrite Hf; destruct b; reflexivity).
  all: exists r, SubscribeAnonymous; split; [reflexivity|]; split; [congruence|]; split; [reflexivity|]; intro q; destruct (port_eqb _ q); reflexivity.
Qed.

(** ** one channel: the state kept for one source on one port *)
Definition chan (r : can_rx) (p : port) (s : N) : option (N * nat * sstate) :=
  match find_sub r p with Some su => Some (su_timeout su, su_max su, su_states su s) | None => None end.

(** what an operation does to a channel *)
Definition for_channel (id : option N) (p : port) (s : N) (f : frame) : option (header * tail) :=
  match route id f with
  | Some (h, tl) => if sent_by p s f then Some (h, tl) else None
  | None => None
  end.

Lemma route_spec id f h tl : frame_ok f -> route id f = Some (h, tl) ->
  frame_check f = Ok (Some (h, tl)) /\ admits id f h = true.
Proof.
  intros Hf. unfold route. destruct (frame_check f) as [[[h' tl']|]|]; try discriminate. destruct (admits id f h') eqn:E; [|discriminate].
  intro H. injection H as -> ->. auto.
Qed.

Lemma accept_frame_chan r mem f p s : frame_ok f ->
  match accept_frame r mem f with
  | Panic => True
  | Ok (r', o) =>
      rx_id r' = rx_id r /\
      match for_channel (rx_id r) p s f, chan r p s with
      | Some (h, tl), Some (timeout, max, st) =>
          exists st' o', checked_accept timeout max mem st f h tl = Ok (st', o') /\ o = conv (Some o') /\ chan r' p s = Some (timeout, max, st')
      | _, _ => chan r' p s = chan r p s /\ (sent_by p s f = true -> o = RxNone)
      end
  end.
Proof.
  intro Hf. pose proof (accept_frame_route r mem f Hf) as H. unfold for_channel. destruct (route (rx_id r) f) as [[h tl]|] eqn:Er.
  - destruct (route_spec _ _ _ _ Hf Er) as (Ec & _). destruct (frame_check_spec _ _ _ Hf Ec) as (Hm & _).
    pose proof (sent_by_iff p s f h Hm) as Hsent. unfold chan at 1 2.
    destruct (sent_by p s f) eqn:Es.
    + destruct Hsent as (Hsent & _). destruct (Hsent eq_refl) as (Hp & Hsrc). rewrite Hp in H. destruct (find_sub r p) as [su|] eqn:Efs.
      * unfold su_accept in H. rewrite Hsrc in H.
        destruct (checked_accept (su_timeout su) (su_max su) mem (su_states su s) f h tl) as [[st' o']|] eqn:Eca; [|rewrite H; exact I].
        destruct H as (r' & -> & Hid & Hfs). split; [assumption|]. exists st', o'. split; [reflexivity|]. split; [reflexivity|].
        unfold chan. rewrite Hfs, port_eqb_refl. cbn [su_set su_timeout su_max su_states]. rewrite N.eqb_refl. reflexivity.
      * destruct H as (r' & -> & Hid & Hfs). split; [assumption|]. unfold chan. rewrite Hfs, Efs. auto.
    + assert (Hgoal : forall r' o, accept_frame r mem f = Ok (r', o) -> rx_id r' = rx_id r /\ chan r' p s = chan r p s).
      { destruct (find_sub r (h_port h)) as [su|] eqn:Efs.
        - unfold su_accept in H. destruct (h_source h) as [n|] eqn:Ehs.
          + destruct (checked_accept _ _ mem (su_states su n) f h tl) as [[st' o']|]; [|intros; congruence].
            destruct H as (r' & E' & Hid & Hfs). intros r'' o E. rewrite E' in E. injection E as <- <-. split; [assumption|].
            unfold chan. rewrite Hfs. destruct (port_eqb_spec (h_port h) p) as [Ep|Ep]; [|reflexivity]. rewrite <- Ep, Efs. cbn [su_set su_timeout su_max su_states].
            destruct (N.eqb_spec s n) as [->|]; [|reflexivity]. exfalso. destruct Hsent as (_ & Hsent). discriminate (Hsent (conj Ep eq_refl)).
          + destruct (accept_anonymous mem f h) as [o'|]; [|intros; congruence].
            destruct H as (r' & E' & Hid & Hfs). intros r'' o E. rewrite E' in E. injection E as <- <-. split; [assumption|].
            unfold chan. rewrite Hfs. destruct (port_eqb_spec (h_port h) p) as [Ep|Ep]; [|reflexivity]. rewrite <- Ep, Efs. reflexivity.
        - destruct H as (r' & E' & Hid & Hfs). intros r'' o E. rewrite E' in E. injection E as <- <-. split; [assumption|]. unfold chan. rewrite Hfs. reflexivity. }
      destruct (accept_frame r mem f) as [[r' o]|]; [|exact I]. destruct (Hgoal r' o eq_refl). split; [assumption|].
      unfold chan in *. destruct (find_sub r p); (split; [assumption|discriminate]).
  - destruct H as (r' & -> & Hid & Hfs). split; [assumption|]. unfold chan. rewrite Hfs. auto.
Qed.

(** a frame of the channel makes the receiver panic exactly when the channel does *)
Lemma accept_frame_panic r mem f p s h tl timeout max st : frame_ok f -> for_channel (rx_id r) p s f = Some (h, tl) -> chan r p s = Some (timeout, max, st) ->
  (accept_frame r mem f = Panic <-> checked_accept timeout max mem st f h tl = Panic).
Proof.
  intro Hf. pose proof (accept_frame_route r mem f Hf) as H. unfold for_channel. destruct (route (rx_id r) f) as [[h' tl']|] eqn:Er; [|discriminate].
  destruct (sent_by p s f) eqn:Es; [|discriminate]. intro E. injection E as -> ->.
  destruct (route_spec _ _ _ _ Hf Er) as (Ec & _). destruct (frame_check_spec _ _ _ Hf Ec) as (Hm & _).
  destruct (sent_by_iff p s f h Hm) as (Hsent & _). destruct (Hsent Es) as (Hp & Hsrc). unfold chan. rewrite Hp in H.
  destruct (find_sub r p) as [su|]; [|discriminate]. intro E. injection E as <- <- <-. unfold su_accept in H. rewrite Hsrc in H.
  destruct (checked_accept _ _ mem (su_states su s) f h tl) as [[st' o']|]; [|tauto]. destruct H as (r' & -> & _). split; discriminate.
Qed.

(** what a non-frame operation does to a channel *)
Lemma step_chan_other r op r' o p s : can_step r op = Ok (r', o) -> (forall f mem, op <> CFrame f mem) ->
  chan r' p s =
  match op with
  | CSub p' timeout max _ =>
      if port_eqb p' p then match o with CSubbed SubscribeOk => Some (timeout, max, sstate_new) | CSubbed SubscribeMemory => None | _ => chan r p s end
      else chan r p s
  | CUnsub p' => if port_eqb p' p then None else chan r p s
  | _ => chan r p s
  end.
Proof.
  destruct op as [f mem|p' timeout max mem|p'|id]; cbn [can_step]; intros E Hn.
  - destruct (Hn f mem eq_refl).
  - destruct (subscribe_find r p' timeout max mem) as (r1 & o1 & E1 & _ & _ & Hf). rewrite E1 in E. injection E as <- <-.
    unfold chan. rewrite Hf. destruct (port_eqb p' p); [|reflexivity]. destruct o1; reflexivity.
  - injection E as <- <-. unfold chan. rewrite unsubscribe_find. destruct (port_eqb p' p); reflexivity.
  - injection E as <- <-. reflexivity.
Qed.

Lemma step_id r op r' o : can_op_ok op -> can_step r op = Ok (r', o) -> rx_id r' = match op with CSetId id => id | _ => rx_id r end.
Proof.
  destruct op as [f mem|p' timeout max mem|p'|id]; cbn [can_step can_op_ok]; intros Hok E.
  - pose proof (accept_frame_chan r mem f (PMsg 0) 0 Hok) as H. destruct (accept_frame r mem f) as [[r1 o1]|]; [|discriminate].
    injection E as <- <-. apply H.
  - destruct (subscribe_find r p' timeout max mem) as (r1 & o1 & E1 & Hid & _ & Hf). rewrite E1 in E. injection E as <- <-. assumption.
  - injection E as <- <-. reflexivity.
  - injection E as <- <-. reflexivity.
Qed.

Lemma hist_id id h r : can_hist id h r -> rx_id r = can_node id h.
Proof.
  induction 1 as [|h r op r' o Hh IH Hok E]; [reflexivity|]. rewrite (step_id _ _ _ _ Hok E). destruct op; cbn [can_node]; auto.
Qed.

(** ** building up a transfer *)
Definition is_nil {A} (l : list A) : bool := match l with [] => true | _ => false end.
(** the build-up after the frames with the given bodies *)
Definition bu_after (max : nat) (cs : list (list N)) : buildup :=
  Buildup (length (concat cs)) (is_nil cs) (Nat.even (length cs)) (firstn max (concat cs)) max (crc16 (concat cs)).

Lemma bu_new_after max : bu_new max = bu_after max [].
Proof. unfold bu_new, bu_after. cbn [concat length is_nil Nat.even]. rewrite firstn_nil. reflexivity. Qed.

Lemma firstn_copy {A} max (a b : list A) : firstn max a ++ firstn (Nat.min (max - length (firstn max a)) (length b)) b = firstn max (a ++ b).
Proof.
  rewrite firstn_app. f_equal. rewrite firstn_length. destruct (Nat.le_ge_cases (max - length a) (length b)) as [H|H].
  - f_equal. lia.
  - rewrite !(firstn_all2 b) by lia. reflexivity.
Qed.

Lemma body_of (body : list N) b : firstn (length (body ++ [b]) - 1) (body ++ [b]) = body.
Proof. rewrite app_length. cbn [length]. replace (length body + 1 - 1)%nat with (length body + 0)%nat by lia. rewrite firstn_app_2. cbn [firstn]. apply app_nil_r. Qed.

Lemma even_snoc {A} (cs : list A) c : Nat.even (length (cs ++ [c])) = negb (Nat.even (length cs)).
Proof. rewrite app_length. cbn [length]. rewrite Nat.add_1_r, Nat.even_succ. symmetry. apply Nat.negb_even. Qed.

Lemma bu_add_spec max cs body s e t tid : tid <= 31 ->
  bu_add (bu_after max cs) (body ++ [tail_byte s e t tid]) =
  if Bool.eqb s (is_nil cs) && Bool.eqb t (Nat.even (length cs)) then
    let all := concat (cs ++ [body]) in
    if e then
      if s then Ok (Buildup (length all) false (negb (Nat.even (length cs))) (firstn max all) max (crc16 all), BuDone (firstn (length all) (firstn max all)))
      else if (length all <? 2)%nat then Panic
      else Ok (Buildup (length all - 2) false (negb (Nat.even (length cs))) (firstn max all) max (crc16 all),
               if crc16 all =? 0 then BuDone (firstn (length all - 2) (firstn max all)) else BuCrc)
    else Ok (bu_after max (cs ++ [body]), BuMore)
  else Ok (bu_after max cs, BuMore).
Proof.
  intro Ht. unfold bu_add. rewrite rev_app_distr. cbn [rev app]. cbv zeta. rewrite parse_tail_byte by assumption. cbn [tl_start tl_end tl_toggle].
  change (bu_start (bu_after max cs)) with (is_nil cs). change (bu_toggle (bu_after max cs)) with (Nat.even (length cs)).
  change (bu_cap (bu_after max cs)) with max. change (bu_data (bu_after max cs)) with (firstn max (concat cs)).
  change (bu_crc (bu_after max cs)) with (crc16 (concat cs)). change (bu_size (bu_after max cs)) with (length (concat cs)).
  destruct (Bool.eqb s (is_nil cs)) eqn:Es; cbn [negb andb]; [|reflexivity].
  destruct (Bool.eqb t (Nat.even (length cs))) eqn:Et; cbn [negb]; [|reflexivity].
  rewrite body_of.
  rewrite firstn_copy. rewrite concat_app. cbn [concat]. rewrite app_nil_r.
  replace (crc16_digest_bytes (crc16 (concat cs)) body) with (crc16 (concat cs ++ body)) by (unfold crc16; apply crc16_bytes_app).
  replace (length (concat cs) + length body)%nat with (length (concat cs ++ body)) by apply app_length.
  unfold bu_after. destruct s, e; cbn [andb negb orb].
  - reflexivity.
  - rewrite even_snoc, concat_app. cbn [concat]. rewrite app_nil_r. destruct cs; reflexivity.
  - destruct (length (concat cs ++ body) <? 2)%nat; [reflexivity|]. destruct (crc16 (concat cs ++ body) =? 0); reflexivity.
  - rewrite even_snoc, concat_app. cbn [concat]. rewrite app_nil_r. destruct cs; reflexivity.
Qed.

(** ** what the state of a channel says about the history *)
Definition last_tid (d : option transfer) : N := match d with Some t => tid_incr (h_tid (t_header t)) | None => 0 end.

(** the frames gathered so far *)
Definition partial_frames (tid : N) (loop : bool) (fs : list frame) : Prop :=
  forall i f, nth_error fs i = Some f -> f_loop f = loop /\ has_tail f (i =? 0)%nat false (Nat.even i) tid.

Record chan_inv (p : port) (s : N) (h : list (can_op * can_out)) (max : nat) (st : sstate) : Prop := ChanInv {
  ci_last : ss_last st = option_map (fun t => h_ts (t_header t)) (last_delivery p s h);
  ci_expected : ss_expected st = last_tid (last_delivery p s h) \/ exists f, In f (pending p s h) /\ with_tid (ss_expected st) f;
  ci_session : forall se, ss_session st = Some se ->
    (exists f, In f (pending p s h) /\ with_tid (ss_expected st) f) /\
    (exists f, In f (pending p s h) /\ f_ts f = se_ts se) /\
    exists fs, subseq fs (pending p s h) /\ partial_frames (ss_expected st) (se_loop se) fs /\
      se_bu se = bu_after max (map frame_body fs)
}.

Lemma chan_inv_new p s h max : last_delivery p s h = None -> pending p s h = [] -> chan_inv p s h max sstate_new.
Proof. intros H1 H2. split; rewrite ?H1; [reflexivity|left; reflexivity|discriminate]. Qed.

Lemma frame_body_snoc f body b : f_data f = body ++ [b] -> frame_body f = body.
Proof. intro H. unfold frame_body. rewrite H. apply removelast_last. Qed.

Lemma subseq_snoc {A} (a : A) fs l : subseq fs l -> subseq (fs ++ [a]) (l ++ [a]).
Proof.
  induction 1 as [l|x fs l H IH|x fs l H IH]; cbn [app]; [|apply ss_skip, IH|apply ss_take, IH].
  induction l as [|x l IH]; cbn [app]; [apply ss_take, ss_nil|apply ss_skip, IH].
Qed.
Lemma subseq_app_r {A} (fs l m : list A) : subseq fs l -> subseq fs (l ++ m).
Proof. induction 1; cbn [app]; [apply ss_nil|apply ss_skip; assumption|apply ss_take; assumption]. Qed.

(** accepting a frame in a session: either nothing delivered and the invariant persists, or a whole transfer *)
Definition whole (tid : N) (loop : bool) (max : nat) (fs : list frame) (payload : list N) : Prop :=
  multiframe tid loop fs /\ crc16 (contents fs) = 0 /\ (2 <= length (contents fs))%nat /\
  payload = firstn max (firstn (length (contents fs) - 2) (contents fs)).

Lemma firstn_firstn_comm {A} a b (l : list A) : firstn a (firstn b l) = firstn b (firstn a l).
Proof. rewrite !firstn_firstn. f_equal. lia. Qed.

Lemma se_accept_spec se fs max tid f h start stop toggle : se_bu se = bu_after max (map frame_body fs) -> partial_frames tid (se_loop se) fs ->
  has_tail f start stop toggle tid -> start && stop = false ->
  match se_accept se f h with
  | Panic => (length (contents (fs ++ [f])) < 2)%nat /\ stop = true /\ start = false
  | Ok (se', SeMore) => se_ts se' = se_ts se /\ se_loop se' = se_loop se /\
      (se_bu se' = se_bu se \/ (partial_frames tid (se_loop se) (fs ++ [f]) /\ se_bu se' = bu_after max (map frame_body (fs ++ [f]))))
  | Ok (se', SeErr) => True
  | Ok (se', SeDone t) => se_ts se' = se_ts se /\ t_header t = h_set_ts h (se_ts se) /\ t_loopback t = se_loop se /\ f_loop f = se_loop se /\
      whole tid (se_loop se) max (fs ++ [f]) (t_payload t)
  end.
Proof.
  intros Hbu Hpf (Htid & body & Hd) Hse. unfold se_accept. destruct (Bool.eqb (f_loop f) (se_loop se)) eqn:El; cbn [negb].
  2: { auto. }
  apply eqb_prop in El. rewrite Hbu, Hd, bu_add_spec by assumption.
  assert (Hnil : is_nil (map frame_body fs) = is_nil fs) by (destruct fs; reflexivity). rewrite Hnil, map_length.
  assert (Hmap : concat (map frame_body fs ++ [body]) = contents (fs ++ [f])).
  { unfold contents. rewrite map_app. cbn [map]. rewrite (frame_body_snoc f _ _ Hd). reflexivity. }
  destruct (Bool.eqb start (is_nil fs)) eqn:Es; cbn [andb].
  2: { cbn [se_ts se_loop se_bu]. auto. }
  destruct (Bool.eqb toggle (Nat.even (length fs))) eqn:Et.
  2: { cbn [se_ts se_loop se_bu]. auto. }
  apply eqb_prop in Es, Et. subst toggle. cbv zeta. rewrite Hmap.
  destruct stop.
  - rewrite andb_true_r in Hse. assert (Hn : is_nil fs = false) by congruence. rewrite Hse. destruct (length (contents (fs ++ [f])) <? 2)%nat eqn:E2; [apply Nat.ltb_lt in E2; auto|].
    apply Nat.ltb_ge in E2. destruct (crc16 (contents (fs ++ [f])) =? 0) eqn:Ec; [|exact I]. apply N.eqb_eq in Ec. cbn [se_ts t_header t_loopback t_payload].
    do 4 (split; [solve [auto]|]). split; [|split; [assumption|split; [assumption|apply firstn_firstn_comm]]].
    assert (1 <= length fs)%nat by (destruct fs; [discriminate Hn|cbn [length]; lia]).
    split; [rewrite app_length; cbn [length]; lia|]. intros i g Hi. rewrite app_length. cbn [length].
    destruct (Nat.lt_ge_cases i (length fs)) as [Hlt|Hge].
    + rewrite nth_error_app1 in Hi by assumption. replace (S i =? length fs + 1)%nat with false by (symmetry; apply Nat.eqb_neq; lia). apply Hpf, Hi.
    + rewrite nth_error_app2 in Hi by assumption.
      assert (i = length fs). { destruct (i - length fs)%nat as [|k] eqn:Ek; [lia|]. cbn [nth_error] in Hi. destruct k; discriminate. }
      subst i. rewrite Nat.sub_diag in Hi. injection Hi as <-. split; [assumption|].
      replace (S (length fs) =? length fs + 1)%nat with true by (symmetry; apply Nat.eqb_eq; lia).
      replace (length fs =? 0)%nat with false by (symmetry; apply Nat.eqb_neq; lia). split; [assumption|]. exists body. rewrite Hd, Hse. reflexivity.
  - cbn [se_ts se_loop se_bu]. split; [reflexivity|]. split; [reflexivity|]. right. split.
    + intros i g Hi. destruct (Nat.lt_ge_cases i (length fs)) as [Hlt|Hge].
      * rewrite nth_error_app1 in Hi by assumption. apply Hpf, Hi.
      * rewrite nth_error_app2 in Hi by assumption.
        assert (i = length fs). { destruct (i - length fs)%nat as [|k] eqn:Ek; [lia|]. cbn [nth_error] in Hi. destruct k; discriminate. }
        subst i. rewrite Nat.sub_diag in Hi. injection Hi as <-. split; [assumption|]. split; [assumption|]. exists body. rewrite Hd, Es. do 3 f_equal. destruct fs; reflexivity.
    + rewrite map_app. cbn [map]. rewrite (frame_body_snoc f _ _ Hd). reflexivity.
Qed.

Lemma h_tid_set h t : h_tid (h_set_ts h t) = h_tid h. Proof. destruct h; reflexivity. Qed.
Lemma h_ts_set h t : h_ts (h_set_ts h t) = t. Proof. destruct h; reflexivity. Qed.
Lemma h_port_set h t : h_port (h_set_ts h t) = h_port h. Proof. destruct h; reflexivity. Qed.
Lemma h_source_set h t : h_source (h_set_ts h t) = h_source h. Proof. destruct h; reflexivity. Qed.
Lemma h_dest_set h t : h_dest (h_set_ts h t) = h_dest h. Proof. destruct h; reflexivity. Qed.
Lemma id_means_set id h t : id_means id h -> id_means id (h_set_ts h t). Proof. destruct h; exact (fun x => x). Qed.

(** the effect of one frame on a channel, in terms of what came before *)
Lemma checked_accept_spec p s hist timeout max mem st f h tl :
  chan_inv p s hist max st -> has_tail f (tl_start tl) (tl_end tl) (tl_toggle tl) (tl_tid tl) -> h_tid h = tl_tid tl -> h_ts h = f_ts f ->
  match checked_accept timeout max mem st f h tl with
  | Panic => exists fs, subseq fs (pending p s hist) /\ (length (contents (fs ++ [f])) < 2)%nat /\ partial_frames (tl_tid tl) (f_loop f) fs /\
      tl_start tl = false /\ tl_end tl = true /\ fs <> []
  | Ok (st', o) =>
      match conv (Some o) with
      | RxTransfer t =>
          (exists now, t_header t = h_set_ts h now) /\ t_loopback t = f_loop f /\
          ss_last st' = Some (h_ts (t_header t)) /\ ss_expected st' = tid_incr (h_tid (t_header t)) /\ ss_session st' = None /\
          ~ (tid_incr (tl_tid tl) = ss_expected st /\ tl_tid tl <> ss_expected st /\ tid_timed_out timeout st (f_ts f) = false) /\
          (if tl_start tl && tl_end tl then t_payload t = firstn max (frame_body f) /\ t_header t = h
           else (exists g, In g (pending p s hist ++ [f]) /\ f_ts g = h_ts (t_header t)) /\
                exists fs, subseq fs (pending p s hist) /\ whole (tl_tid tl) (f_loop f) max (fs ++ [f]) (t_payload t))
      | _ => forall hist', last_delivery p s hist' = last_delivery p s hist -> pending p s hist' = pending p s hist ++ [f] -> chan_inv p s hist' max st'
      end
  end.
Proof.
  intros Hinv Htail Htid Hts.
  (* the frame is appended to the pending frames without other change *)
  assert (Hkeep : forall hist', last_delivery p s hist' = last_delivery p s hist -> pending p s hist' = pending p s hist ++ [f] -> chan_inv p s hist' max st).
  { destruct Hinv as [Hl He Hs]. intros hist' E1 E2. split; rewrite ?E1, ?E2.
    - assumption.
    - destruct He as [He|(g & Hg & Hw)]; [auto|]. right. exists g. split; [apply in_or_app; auto|assumption].
    - intros se Ese. destruct (Hs se Ese) as ((g & Hg & Hw) & (g2 & Hg2 & Hw2) & fs & Hsub & Hpf & Hbu).
      split; [exists g; split; [apply in_or_app; auto|assumption]|]. split; [exists g2; split; [apply in_or_app; auto|assumption]|].
      exists fs. split; [apply subseq_app_r, Hsub|]. auto. }
  (* accepting from a state that expects this transfer ID *)
  assert (Hacc : forall st0, ss_last st0 = ss_last st -> ss_expected st0 = tl_tid tl -> (st0 = st \/ ss_session st0 = None) ->
    match accept_non_anonymous max mem st0 f h tl with
    | Panic => exists fs, subseq fs (pending p s hist) /\ (length (contents (fs ++ [f])) < 2)%nat /\ partial_frames (tl_tid tl) (f_loop f) fs /\
        tl_start tl = false /\ tl_end tl = true /\ fs <> []
    | Ok (st', o) =>
        match conv (Some o) with
        | RxTransfer t =>
            (exists now, t_header t = h_set_ts h now) /\ t_loopback t = f_loop f /\
            ss_last st' = Some (h_ts (t_header t)) /\ ss_expected st' = tid_incr (h_tid (t_header t)) /\ ss_session st' = None /\
            (if tl_start tl && tl_end tl then t_payload t = firstn max (frame_body f) /\ t_header t = h
             else (exists g, In g (pending p s hist ++ [f]) /\ f_ts g = h_ts (t_header t)) /\
                  exists fs, subseq fs (pending p s hist) /\ whole (tl_tid tl) (f_loop f) max (fs ++ [f]) (t_payload t))
        | _ => forall hist', last_delivery p s hist' = last_delivery p s hist -> pending p s hist' = pending p s hist ++ [f] -> chan_inv p s hist' max st'
        end
    end).
  { intros st0 Hl0 He0 Hs0.
    assert (Hwt : with_tid (tl_tid tl) f) by (do 3 eexists; exact Htail).
    assert (Hin : In f (pending p s hist ++ [f])) by (apply in_or_app; right; left; reflexivity).
    assert (Hnone : forall hist', last_delivery p s hist' = last_delivery p s hist -> pending p s hist' = pending p s hist ++ [f] ->
              forall se, (forall se', se = Some se' -> (exists g, In g (pending p s hist') /\ f_ts g = se_ts se') /\
                 exists fs, subseq fs (pending p s hist') /\ partial_frames (tl_tid tl) (se_loop se') fs /\ se_bu se' = bu_after max (map frame_body fs)) ->
              chan_inv p s hist' max (SState (ss_expected st0) (ss_last st0) se)).
    { intros hist' E1 E2 se Hse. split; cbn [ss_last ss_expected ss_session].
      - rewrite Hl0, E1. apply Hinv.
      - right. exists f. rewrite E2, He0. auto.
      - intros se' E. rewrite He0. split; [exists f; rewrite E2; auto|]. apply Hse, E. }
    unfold accept_non_anonymous. destruct (tl_start tl && tl_end tl) eqn:Ese.
    - destruct Htail as (Ht & body & Hd). assert (Hlen : length (f_data f) = (length body + 1)%nat) by (rewrite Hd, app_length; reflexivity).
      replace (length (f_data f) =? 0)%nat with false by (symmetry; apply Nat.eqb_neq; lia).
      destruct mem; cbn [negb conv].
      + cbn [t_header t_loopback t_payload]. split; [exists (h_ts h); destruct h as [[]|[]|[]]; reflexivity|]. split; [reflexivity|].
        cbn [flag_success ss_last ss_expected ss_session]. rewrite Hts, Htid, He0. do 3 (split; [reflexivity|]). split; [|reflexivity].
        rewrite (frame_body_snoc f _ _ Hd), Hd, app_length. cbn [length]. rewrite Nat.add_sub.
        rewrite firstn_app. replace (Nat.min max (length body) - length body)%nat with O by lia. rewrite firstn_O, app_nil_r.
        destruct (Nat.le_ge_cases max (length body)); [f_equal; lia|]. rewrite Nat.min_r by assumption. rewrite !firstn_all2; auto.
      + destruct Hs0 as [->|Hs0]; [exact Hkeep|]. intros hist' E1 E2. destruct st0 as [e0 l0 s0]. cbn [ss_session] in Hs0. subst s0.
        apply (Hnone hist' E1 E2 None). discriminate.
    - unfold accept_with_session.
      assert (Hrun : forall se fs, se_bu se = bu_after max (map frame_body fs) -> partial_frames (tl_tid tl) (se_loop se) fs -> subseq fs (pending p s hist) ->
          (exists g, In g (pending p s hist ++ [f]) /\ f_ts g = se_ts se) -> (fs = [] -> tl_start tl = true \/ bu_start (se_bu se) = true) ->
        match (match se_accept se f h with
               | Panic => Panic
               | Ok (se', SeDone t) => Ok (flag_success (SState (ss_expected st0) (ss_last st0) (Some se')) (se_ts se'), SubDone t)
               | Ok (se', SeMore) => Ok (SState (ss_expected st0) (ss_last st0) (Some se'), SubNone)
               | Ok (se', SeErr) => Ok (SState (ss_expected st0) (ss_last st0) None, SubSession)
               end) with
        | Panic => exists fs, subseq fs (pending p s hist) /\ (length (contents (fs ++ [f])) < 2)%nat /\ partial_frames (tl_tid tl) (f_loop f) fs /\
            tl_start tl = false /\ tl_end tl = true /\ fs <> []
        | Ok (st', o) =>
            match conv (Some o) with
            | RxTransfer t =>
                (exists now, t_header t = h_set_ts h now) /\ t_loopback t = f_loop f /\
                ss_last st' = Some (h_ts (t_header t)) /\ ss_expected st' = tid_incr (h_tid (t_header t)) /\ ss_session st' = None /\
                ((exists g, In g (pending p s hist ++ [f]) /\ f_ts g = h_ts (t_header t)) /\
                      exists fs, subseq fs (pending p s hist) /\ whole (tl_tid tl) (f_loop f) max (fs ++ [f]) (t_payload t))
            | _ => forall hist', last_delivery p s hist' = last_delivery p s hist -> pending p s hist' = pending p s hist ++ [f] -> chan_inv p s hist' max st'
            end
        end).
      { intros se fs Hbu Hpf Hsub (g & Hg & Hgt) Hst. pose proof (se_accept_spec se fs max (tl_tid tl) f h _ _ _ Hbu Hpf Htail Ese) as Hacc.
        assert (Hpanic : se_accept se f h = Panic -> f_loop f = se_loop se /\ fs <> []).
        { unfold se_accept. destruct (Bool.eqb (f_loop f) (se_loop se)) eqn:El; [|discriminate]. apply eqb_prop in El. cbn [negb]. intro E. split; [assumption|].
          intros ->. destruct Htail as (Ht & body & Hd). rewrite Hbu, Hd, bu_add_spec in E by assumption. cbn [map is_nil length Nat.even] in E.
          destruct (tl_start tl); cbn [Bool.eqb andb] in E; [|discriminate]. destruct (tl_end tl); [discriminate Ese|]. destruct (tl_toggle tl); discriminate. }
        destruct (se_accept se f h) as [[se' [| t |]]|].
        - destruct Hacc as (H1 & H2 & H3). intros hist' E1 E2. apply Hnone; [assumption..|]. intros se0 E. injection E as <-. rewrite E2. split.
          + exists g. split; [assumption|congruence].
          + destruct H3 as [H3|(H3 & H4)].
            * exists fs. split; [apply subseq_app_r, Hsub|]. split; [rewrite H2; assumption|congruence].
            * exists (fs ++ [f]). split; [apply subseq_snoc, Hsub|]. split; [rewrite H2; assumption|assumption].
        - destruct Hacc as (H1 & H2 & H3 & H4 & H5). cbn [conv]. split; [eauto|]. split; [congruence|].
          cbn [flag_success ss_last ss_expected ss_session]. rewrite H1, H2, h_ts_set, h_tid_set, Htid, He0. do 3 (split; [reflexivity|]). split; [eauto|].
          exists fs. split; [assumption|]. rewrite H4. assumption.
        - intros hist' E1 E2. apply Hnone; [assumption..|discriminate].
        - destruct Hacc as (H1 & H2 & H3). destruct (Hpanic eq_refl) as (H4 & H5). exists fs. rewrite H4. auto 10. }
      destruct (ss_session st0) as [se|] eqn:Ess.
      + destruct Hs0 as [->|Hs0]; [|congruence]. destruct (ci_session _ _ _ _ _ Hinv se Ess) as (_ & (g & Hg & Hgt) & fs & Hsub & Hpf & Hbu).
        rewrite He0 in Hpf. apply (Hrun se fs Hbu Hpf Hsub).
        * exists g. split; [apply in_or_app; auto|assumption].
        * intros ->. right. rewrite Hbu. reflexivity.
      + assert (E0 : st0 = SState (ss_expected st0) (ss_last st0) None) by (destruct st0 as [e0 l0 s0]; cbn [ss_session] in Ess; subst s0; reflexivity).
        destruct (tl_start tl) eqn:Es; cbn [negb].
        2: { intros hist' E1 E2. rewrite E0. apply Hnone; [assumption..|discriminate]. }
        destruct mem; cbn [negb].
        2: { intros hist' E1 E2. rewrite E0. apply Hnone; [assumption..|discriminate]. }
        apply (Hrun _ []).
        * apply bu_new_after.
        * intros i g Hi. destruct i; discriminate.
        * apply ss_nil.
        * exists f. auto.
        * auto. }
  unfold checked_accept. destruct (N.eqb_spec (tl_tid tl) (ss_expected st)) as [E|E].
  - specialize (Hacc st eq_refl (eq_sym E) (or_introl eq_refl)). destruct (accept_non_anonymous max mem st f h tl) as [[st' o]|]; [|assumption].
    destruct (conv (Some o)); [assumption| |assumption]. destruct Hacc as (? & ? & ? & ? & ? & ?). repeat (split; [assumption|]). split; [|assumption]. intros (_ & ? & _). congruence.
  - destruct ((tid_incr (tl_tid tl) =? ss_expected st) && negb (tid_timed_out timeout st (f_ts f))) eqn:Ed; [exact Hkeep|].
    specialize (Hacc (SState (tl_tid tl) (ss_last st) None) eq_refl eq_refl (or_intror eq_refl)).
    destruct (accept_non_anonymous max mem _ f h tl) as [[st' o]|]; [|assumption].
    destruct (conv (Some o)); [assumption| |assumption]. destruct Hacc as (? & ? & ? & ? & ? & ?). repeat (split; [assumption|]). split; [|assumption].
    intros (E1 & _ & E2). rewrite E1, E2, N.eqb_refl in Ed. discriminate.
Qed.

(** ** the invariant of a history *)
Lemma hist_chan id h r : can_hist id h r -> forall p s,
  match chan r p s with
  | None => can_active p h = None
  | Some (timeout, max, st) => can_active p h = Some (timeout, max) /\ chan_inv p s h max st
  end.
Proof.
  induction 1 as [|h r op r' o Hh IH Hok E]; intros p s; [reflexivity|]. specialize (IH p s).
  assert (Hskip : forall mx st, chan_inv p s h mx st -> last_delivery p s ((op, o) :: h) = last_delivery p s h -> pending p s ((op, o) :: h) = pending p s h -> chan_inv p s ((op, o) :: h) mx st).
  { intros mx st [H1 H2 H3] E1 E2. split; rewrite ?E1, ?E2; auto. }
  destruct op as [f mem|p' timeout max mem|p'|n].
  - cbn [can_step can_op_ok] in *. pose proof (accept_frame_chan r mem f p s Hok) as Hc. destruct (accept_frame r mem f) as [[r1 o1]|]; [|discriminate].
    injection E as -> <-. destruct Hc as (_ & Hc). cbn [can_active]. unfold for_channel in Hc. destruct (route (rx_id r) f) as [[hd tl]|] eqn:Er.
    + destruct (sent_by p s f) eqn:Es.
      * destruct (chan r p s) as [[[timeout max] st]|].
        -- destruct Hc as (st' & o' & Eca & -> & ->). destruct IH as (IH1 & IH2). split; [assumption|].
           destruct (route_spec _ _ _ _ Hok Er) as (Ec & _). destruct (frame_check_spec _ _ _ Hok Ec) as (Hm & Hts & Htid & _ & Htail & _).
           pose proof (checked_accept_spec p s h timeout max mem st f hd tl IH2 Htail Htid Hts) as Hs. rewrite Eca in Hs.
           destruct (conv (Some o')) as [|t|] eqn:Eo.
           ++ apply Hs; cbn [last_delivery pending]; rewrite ?Es; reflexivity.
           ++ destruct Hs as (_ & _ & H1 & H2 & H3 & _). split; cbn [last_delivery pending]; rewrite ?Es.
              ** assumption.
              ** left. assumption.
              ** rewrite H3. discriminate.
           ++ apply Hs; cbn [last_delivery pending]; rewrite ?Es; reflexivity.
        -- destruct Hc as (-> & Hc). assumption.
      * destruct Hc as (-> & Hc). destruct (chan r p s) as [[[timeout max] st]|]; [|assumption]. destruct IH. split; [assumption|].
        apply Hskip; [assumption|..]; cbn [last_delivery pending]; rewrite ?Es; [destruct o1|]; reflexivity.
    + destruct Hc as (-> & Hc). destruct (chan r p s) as [[[timeout max] st]|]; [|assumption]. destruct IH as (IH1 & IH2). split; [assumption|].
      destruct (sent_by p s f) eqn:Es.
      * rewrite (Hc eq_refl). destruct IH2 as [H1 H2 H3]. split; cbn [last_delivery pending]; rewrite ?Es.
        -- assumption.
        -- destruct H2 as [H2|(g & Hg & Hw)]; [auto|]. right. exists g. split; [apply in_or_app; auto|assumption].
        -- intros se Ese. destruct (H3 se Ese) as ((g & Hg & Hw) & (g2 & Hg2 & Hw2) & fs & Hsub & Hpf & Hbu).
           split; [exists g; split; [apply in_or_app; auto|assumption]|]. split; [exists g2; split; [apply in_or_app; auto|assumption]|].
           exists fs. split; [apply subseq_app_r, Hsub|]. auto.
      * apply Hskip; [assumption|..]; cbn [last_delivery pending]; rewrite ?Es; [destruct o1|]; reflexivity.
  - rewrite (step_chan_other _ _ _ _ p s E) by discriminate.
    assert (Eo : exists o', o = CSubbed o').
    { cbn [can_step] in E. destruct (rx_subscribe_port r p' timeout max mem). injection E as _ <-. eauto. }
    destruct Eo as (o' & ->). cbn [can_active]. destruct (port_eqb p' p) eqn:Ep.
    + destruct o'.
      * split; [reflexivity|]. apply chan_inv_new; cbn [last_delivery pending]; rewrite Ep; reflexivity.
      * reflexivity.
      * destruct (chan r p s) as [[[timeout1 max1] st]|]; [|assumption]. destruct IH. split; [assumption|]. apply Hskip; [assumption|..]; reflexivity.
    + destruct (chan r p s) as [[[timeout1 max1] st]|]; [|assumption]. destruct IH. split; [assumption|]. apply Hskip; [assumption|..]; cbn [last_delivery pending]; rewrite ?Ep; destruct o'; reflexivity.
  - rewrite (step_chan_other _ _ _ _ p s E) by discriminate. cbn [can_active]. destruct (port_eqb p' p) eqn:Ep; [reflexivity|].
    destruct (chan r p s) as [[[timeout1 max1] st]|]; [|assumption]. destruct IH. split; [assumption|]. apply Hskip; [assumption|..]; reflexivity.
  - rewrite (step_chan_other _ _ _ _ p s E) by discriminate. cbn [can_active].
    destruct (chan r p s) as [[[timeout1 max1] st]|]; [|assumption]. destruct IH. split; [assumption|]. apply Hskip; [assumption|..]; reflexivity.
Qed.

(** ** deliveries *)
Lemma conv_done o t : conv o = RxTransfer t -> o = Some (SubDone t).
Proof. destruct o as [[]|]; cbn [conv]; intro E; try discriminate. congruence. Qed.

Lemma accept_anonymous_spec mem f h o t s e g tid : accept_anonymous mem f h = Ok o -> conv (Some o) = RxTransfer t -> has_tail f s e g tid ->
  t = Transfer h (f_loop f) (frame_body f).
Proof.
  intros E Ec (_ & body & Hd). apply conv_done in Ec. injection Ec as ->. unfold accept_anonymous in E. destruct (length (f_data f) =? 0)%nat; [discriminate|].
  destruct (negb mem); [discriminate|]. injection E as <-. rewrite Hd, body_of, (frame_body_snoc f _ _ Hd). reflexivity.
Qed.

Lemma delivery id h r f mem r' t : can_hist id h r -> frame_ok f -> accept_frame r mem f = Ok (r', RxTransfer t) ->
  exists hd tl timeout max, frame_check f = Ok (Some (hd, tl)) /\ admits (can_node id h) f hd = true /\
    can_active (h_port hd) h = Some (timeout, max) /\ (exists now, t_header t = h_set_ts hd now) /\ t_loopback t = f_loop f /\
    match h_source hd with
    | None => t = Transfer hd (f_loop f) (frame_body f)
    | Some s =>
        if tl_start tl && tl_end tl then t_payload t = firstn max (frame_body f) /\ t_header t = hd
        else (exists g, In g (pending (h_port hd) s h ++ [f]) /\ f_ts g = h_ts (t_header t)) /\
             exists fs, subseq fs (pending (h_port hd) s h) /\ whole (tl_tid tl) (f_loop f) max (fs ++ [f]) (t_payload t)
    end.
Proof.
  intros Hh Hf E. pose proof (accept_frame_route r mem f Hf) as H. rewrite (hist_id _ _ _ Hh) in H.
  destruct (route (can_node id h) f) as [[hd tl]|] eqn:Er; [|destruct H as (? & H & _); congruence].
  destruct (route_spec _ _ _ _ Hf Er) as (Ec & Ha). destruct (frame_check_spec _ _ _ Hf Ec) as (Hm & Hts & Htid & _ & Htail & _).
  destruct (find_sub r (h_port hd)) as [su|] eqn:Efs; [|destruct H as (? & H & _); congruence].
  exists hd, tl, (su_timeout su), (su_max su). split; [assumption|]. split; [assumption|].
  assert (Hact : forall s, can_active (h_port hd) h = Some (su_timeout su, su_max su) /\ chan_inv (h_port hd) s h (su_max su) (su_states su s)).
  { intro s. pose proof (hist_chan id h r Hh (h_port hd) s) as Hc. unfold chan in Hc. rewrite Efs in Hc. exact Hc. }
  split; [apply (Hact 0)|].
  unfold su_accept in H. destruct (h_source hd) as [s|] eqn:Es.
  - pose proof (checked_accept_spec (h_port hd) s h (su_timeout su) (su_max su) mem (su_states su s) f hd tl (proj2 (Hact s)) Htail Htid Hts) as Hca.
    destruct (checked_accept _ _ mem (su_states su s) f hd tl) as [[st' o']|]; [|congruence].
    destruct H as (r1 & E1 & _). assert (E2 : conv (Some o') = RxTransfer t) by congruence. rewrite E2 in Hca.
    destruct Hca as (H1 & H2 & _ & _ & _ & _ & H3). auto.
  - destruct (accept_anonymous mem f hd) as [o'|] eqn:Ea; [|congruence]. destruct H as (r1 & E1 & _). assert (E2 : conv (Some o') = RxTransfer t) by congruence.
    pose proof (accept_anonymous_spec _ _ _ _ _ _ _ _ _ Ea E2 Htail) as ->. cbn [t_header t_loopback].
    split; [exists (h_ts hd); destruct hd as [[]|[]|[]]; reflexivity|]. auto.
Qed.

Lemma last_delivery_tid id h r p s t : can_hist id h r -> last_delivery p s h = Some t -> h_tid (t_header t) <= 31.
Proof.
  intro Hh. revert t. induction Hh as [|h r op r' o Hh IH Hok E]; intro t; [discriminate|].
  destruct op as [f mem|p' timeout max mem|p'|n]; cbn [last_delivery]; [| |auto|auto].
  - destruct o as [[|t'|]| |]; auto. destruct (sent_by p s f); [|auto]. intro E'. injection E' as <-. cbn [can_step] in E.
    destruct (accept_frame r mem f) as [[r1 o1]|] eqn:Ea; [|discriminate]. injection E as -> ->.
    destruct (delivery _ _ _ _ _ _ _ Hh Hok Ea) as (hd & tl & timeout & max & Ec & _ & _ & (now & ->) & _).
    destruct (frame_check_spec _ _ _ Hok Ec) as (_ & _ & Htid & _ & (Ht & _) & _). rewrite h_tid_set, Htid. assumption.
  - destruct o as [|[]|]; auto. destruct (port_eqb p' p); [discriminate|auto].
Qed.

(** ** independence of channels *)
Definition same_chan (p : port) (s : N) (r1 r2 : can_rx) : Prop := rx_id r1 = rx_id r2 /\ chan r1 p s = chan r2 p s.

Lemma accept_frame_own_ok r mem f p s : frame_ok f -> sent_by p s f = true ->
  match for_channel (rx_id r) p s f, chan r p s with Some _, Some _ => True | _, _ => accept_frame r mem f <> Panic end.
Proof.
  intros Hf Hs. pose proof (accept_frame_route r mem f Hf) as H. unfold for_channel, chan.
  destruct (route (rx_id r) f) as [[h tl]|] eqn:Er.
  - rewrite Hs. destruct (route_spec _ _ _ _ Hf Er) as (Ec & _). destruct (frame_check_spec _ _ _ Hf Ec) as (Hm & _).
    destruct (sent_by_iff p s f h Hm) as (Hsent & _). destruct (Hsent Hs) as (Hp & Hsrc). rewrite Hp in H.
    destruct (find_sub r p); [exact I|]. destruct H as (r' & -> & _). discriminate.
  - destruct H as (r' & -> & _). discriminate.
Qed.

Lemma step_same r1 r2 op r1' o p s : can_op_ok op -> same_chan p s r1 r2 -> can_step r1 op = Ok (r1', o) ->
  if concerns p s op then exists r2', can_step r2 op = Ok (r2', o) /\ same_chan p s r1' r2'
  else same_chan p s r1' r2.
Proof.
  intros Hok (Hid & Hc) E. pose proof (step_id _ _ _ _ Hok E) as Hid1.
  destruct op as [f mem|p' timeout max mem|p'|n]; cbn [concerns].
  - cbn [can_step can_op_ok] in *. pose proof (accept_frame_chan r1 mem f p s Hok) as H1. pose proof (accept_frame_chan r2 mem f p s Hok) as H2.
    destruct (accept_frame r1 mem f) as [[r1'' o1]|] eqn:E1; [|discriminate]. injection E as -> <-. destruct H1 as (_ & H1).
    destruct (sent_by p s f) eqn:Es.
    + pose proof (accept_frame_own_ok r2 mem f p s Hok Es) as Hnp. pose proof (fun h tl to mx st => accept_frame_panic r2 mem f p s h tl to mx st Hok) as Hp.
      rewrite Hid, Hc in H1. destruct (for_channel (rx_id r2) p s f) as [[h tl]|].
      * destruct (chan r2 p s) as [[[to mx] st]|].
        -- specialize (Hp h tl to mx st eq_refl eq_refl). destruct H1 as (st' & o' & Eca & -> & Hc1).
           destruct (accept_frame r2 mem f) as [[r2' o2]|]; [|destruct Hp as (Hp & _); specialize (Hp eq_refl); congruence].
           destruct H2 as (Hid2 & st2 & o2' & Eca2 & -> & Hc2). assert (E' : (st', o') = (st2, o2')) by congruence. injection E' as <- <-.
           exists r2'. split; [reflexivity|]. split; congruence.
        -- destruct (accept_frame r2 mem f) as [[r2' o2]|]; [|congruence]. destruct H1 as (Hc1 & Ho1). destruct H2 as (Hid2 & Hc2 & Ho2).
           rewrite (Ho1 eq_refl), (Ho2 eq_refl). exists r2'. split; [reflexivity|]. split; congruence.
      * destruct (accept_frame r2 mem f) as [[r2' o2]|]; [|congruence]. destruct H1 as (Hc1 & Ho1). destruct H2 as (Hid2 & Hc2 & Ho2).
        rewrite (Ho1 eq_refl), (Ho2 eq_refl). exists r2'. split; [reflexivity|]. split; congruence.
    + assert (Hfc : for_channel (rx_id r1) p s f = None).
      { unfold for_channel. rewrite Es. destruct (route (rx_id r1) f) as [[]|]; reflexivity. }
      rewrite Hfc in H1. destruct H1 as (H1 & _). split; congruence.
  - pose proof (step_chan_other r1 _ r1' o p s E ltac:(discriminate)) as H1. cbv beta iota in H1. destruct (port_eqb_spec p' p) as [->|Hne].
    + destruct (can_step r2 (CSub p timeout max mem)) as [[r2' o2]|] eqn:E2.
      2: { cbn [can_step] in E2. destruct (rx_subscribe_port r2 p timeout max mem). discriminate. }
      pose proof (step_id r2 (CSub p timeout max mem) r2' o2 I E2) as Hid2. pose proof (step_chan_other r2 _ r2' o2 p s E2 ltac:(discriminate)) as H2. cbv beta iota in H2.
      rewrite port_eqb_refl in H2. cbv beta iota in Hid1, Hid2.
      assert (o2 = o). { cbn [can_step] in E, E2. destruct (subscribe_find r1 p timeout max mem) as (ra & oa & Ea & _ & Hoa & _).
        destruct (subscribe_find r2 p timeout max mem) as (rb & ob & Eb & _ & Hob & _). rewrite Ea in E. rewrite Eb in E2.
        injection E as _ <-. injection E2 as _ <-. f_equal. rewrite Hoa, Hob. rewrite Hid. unfold chan in Hc. destruct (find_sub r1 p), (find_sub r2 p); try discriminate; reflexivity. }
      subst o2. exists r2'. split; [reflexivity|]. split; [congruence|]. rewrite H1, H2. destruct o as [|[]|]; congruence.
    + split; congruence.
  - pose proof (step_chan_other r1 _ r1' o p s E ltac:(discriminate)) as H1. cbv beta iota in H1. destruct (port_eqb_spec p' p) as [->|Hne].
    + cbn [can_step] in *. injection E as <- <-. eexists. split; [reflexivity|]. split; [assumption|]. unfold chan. rewrite !unsubscribe_find, port_eqb_refl. reflexivity.
    + split; congruence.
  - cbn [can_step] in *. injection E as <- <-. eexists. split; [reflexivity|]. split; [reflexivity|]. exact Hc.
Qed.

Lemma run_same p s ops : Forall can_op_ok ops -> forall r1 r2 r1' outs, same_chan p s r1 r2 -> can_run r1 ops = Ok (r1', outs) ->
  exists r2', can_run r2 (filter (concerns p s) ops) = Ok (r2', map snd (filter (fun x => concerns p s (fst x)) (combine ops outs))) /\ same_chan p s r1' r2'.
Proof.
  induction 1 as [|op ops Hok _ IH]; intros r1 r2 r1' outs Hs; cbn [can_run filter].
  - intro E. injection E as <- <-. exists r2. auto.
  - destruct (can_step r1 op) as [[ra o]|] eqn:Ea; [|discriminate]. destruct (can_run ra ops) as [[rb os]|] eqn:Eb; [|discriminate].
    intro E. injection E as -> <-. pose proof (step_same r1 r2 op ra o p s Hok Hs Ea) as Hst. cbn [combine filter fst]. destruct (concerns p s op).
    + destruct Hst as (r2' & E2 & Hs2). destruct (IH ra r2' r1' os Hs2 Eb) as (r2'' & E3 & Hs3). cbn [can_run]. rewrite E2, E3. exists r2''. split; [reflexivity|assumption].
    + destruct (IH ra r2 r1' os Hst Eb) as (r2'' & E3 & Hs3). exists r2''. auto.
Qed.

(** ** the frames of one transfer, in order *)
Lemma accept_frame_go r mem f p s h tl timeout max st st' o : frame_ok f -> route (rx_id r) f = Some (h, tl) -> sent_by p s f = true ->
  chan r p s = Some (timeout, max, st) -> checked_accept timeout max mem st f h tl = Ok (st', o) ->
  exists r', accept_frame r mem f = Ok (r', conv (Some o)) /\ rx_id r' = rx_id r /\ chan r' p s = Some (timeout, max, st').
Proof.
  intros Hf Hr Hs Hc Hca. assert (Hfc : for_channel (rx_id r) p s f = Some (h, tl)) by (unfold for_channel; rewrite Hr, Hs; reflexivity).
  pose proof (accept_frame_chan r mem f p s Hf) as H. rewrite Hfc, Hc in H.
  destruct (accept_frame r mem f) as [[r' o1]|] eqn:E.
  - destruct H as (Hid & st1 & o2 & Eca & -> & Hc'). assert (Ee : (st1, o2) = (st', o)) by congruence. injection Ee as -> ->. eauto.
  - apply (accept_frame_panic r mem f p s h tl timeout max st Hf Hfc Hc) in E. congruence.
Qed.

Section InOrder.
  Context (H : header) (s : N) (lb : bool) (cid : N) (n : nat).
  Let tid := h_tid H.
  Fixpoint tagged_from (k : nat) (cs : list (list N)) (gs : list frame) : Prop :=
    match cs, gs with
    | [], [] => True
    | c :: cs', g :: gs' =>
        (f_id g = cid /\ f_loop g = lb /\ frame_ok g /\ f_data g = c ++ [tail_byte (k =? 0)%nat (S k =? n)%nat (Nat.even k) tid]) /\
        tagged_from (S k) cs' gs'
    | _, _ => False
    end.
  Context (Htid : tid <= 31) (Hm : id_means cid H) (Hsrc : h_source H = Some s).

  Lemma route_tagged id g k c : (lb = true \/ forall d, h_dest H = Some d -> id = Some d) ->
    f_id g = cid -> f_loop g = lb -> frame_ok g -> f_data g = c ++ [tail_byte (k =? 0)%nat (S k =? n)%nat (Nat.even k) tid] ->
    route id g = Some (h_set_ts H (f_ts g), Tail (k =? 0)%nat (S k =? n)%nat (Nat.even k) tid) /\ sent_by (h_port H) s g = true.
  Proof.
    intros Hadm Hid Hl Hf Hd.
    assert (Hfc : frame_check g = Ok (Some (h_set_ts H (f_ts g), Tail (k =? 0)%nat (S k =? n)%nat (Nat.even k) tid))).
    { unfold tid. rewrite <- (h_tid_set H (f_ts g)). apply frame_check_intro.
      - apply Hf.
      - rewrite Hid. apply id_means_set, Hm.
      - apply h_ts_set.
      - rewrite h_tid_set. split; [assumption|]. exists c. assumption.
      - rewrite h_source_set, Hsrc. discriminate. }
    split.
    - unfold route. rewrite Hfc. replace (admits id g (h_set_ts H (f_ts g))) with true; [reflexivity|]. unfold admits. rewrite h_dest_set, Hl.
      destruct (h_dest H) as [d|] eqn:Ed; [|reflexivity]. destruct Hadm as [->|Hadm]; [reflexivity|]. rewrite (Hadm d eq_refl), N.eqb_refl, orb_true_r. reflexivity.
    - apply (sent_by_iff (h_port H) s g H); [rewrite Hid; assumption|]. auto.
  Qed.

  Lemma set_set a b : h_set_ts (h_set_ts H a) b = h_set_ts H b.
  Proof. destruct H; reflexivity. Qed.

  Lemma mid_run timeout max last ts0 id : (lb = true \/ forall d, h_dest H = Some d -> id = Some d) ->
    forall cs2 cs1 gs r, cs1 <> [] -> cs2 <> [] -> n = (length cs1 + length cs2)%nat -> tagged_from (length cs1) cs2 gs -> rx_id r = id ->
    chan r (h_port H) s = Some (timeout, max, SState tid last (Some (Session ts0 lb (bu_after max cs1)))) ->
    crc16 (concat (cs1 ++ cs2)) = 0 -> (2 <= length (concat (cs1 ++ cs2)))%nat ->
    exists r', can_run r (map (fun g => CFrame g true) gs) =
      Ok (r', repeat (CGot RxNone) (length gs - 1) ++
              [CGot (RxTransfer (Transfer (h_set_ts H ts0) lb (firstn max (firstn (length (concat (cs1 ++ cs2)) - 2) (concat (cs1 ++ cs2))))))]).
  Proof.
    intro Hadm. induction cs2 as [|c cs2 IH]; intros cs1 gs r Hne1 Hne2 Hn Htag Hid Hc Hcrc Hlen; [congruence|].
    destruct gs as [|g gs]; [destruct Htag|]. destruct Htag as ((Ht1 & Ht2 & Ht3 & Ht4) & Htag).
    destruct (route_tagged id g (length cs1) c Hadm Ht1 Ht2 Ht3 Ht4) as (Hr & Hsb). rewrite <- Hid in Hr.
    assert (Hk : (length cs1 =? 0)%nat = false) by (destruct cs1; [congruence|reflexivity]).
    assert (Hnil : is_nil cs1 = false) by (destruct cs1; [congruence|reflexivity]).
    assert (Hca : checked_accept timeout max true (SState tid last (Some (Session ts0 lb (bu_after max cs1)))) g (h_set_ts H (f_ts g))
                    (Tail (length cs1 =? 0)%nat (S (length cs1) =? n)%nat (Nat.even (length cs1)) tid) =
      Ok (if (S (length cs1) =? n)%nat
          then (SState (tid_incr tid) (Some ts0) None, SubDone (Transfer (h_set_ts H ts0) lb (firstn max (firstn (length (concat (cs1 ++ c :: cs2)) - 2) (concat (cs1 ++ c :: cs2))))))
          else (SState tid last (Some (Session ts0 lb (bu_after max (cs1 ++ [c])))), SubNone))).
    { unfold checked_accept, accept_non_anonymous, accept_with_session. cbn [tl_tid ss_expected ss_session ss_last tl_start tl_end]. rewrite N.eqb_refl.
      unfold se_accept. cbn [se_loop se_bu]. rewrite Ht2, eqb_reflx, Ht4, bu_add_spec by assumption. cbn [negb]. rewrite Hk, Hnil, !eqb_reflx. cbn [Bool.eqb andb].
      cbv zeta. destruct (S (length cs1) =? n)%nat eqn:En.
      - apply Nat.eqb_eq in En. assert (cs2 = []) by (destruct cs2; [reflexivity|cbn [length] in Hn; lia]). subst cs2.
        replace (length (concat (cs1 ++ [c])) <? 2)%nat with false by (symmetry; apply Nat.ltb_ge; assumption). rewrite Hcrc. cbn [N.eqb].
        cbn [se_ts flag_success ss_expected]. rewrite set_set, (firstn_firstn_comm max). reflexivity.
      - reflexivity. }
    destruct (accept_frame_go r true g (h_port H) s _ _ timeout max _ _ _ Ht3 Hr Hsb Hc (eq_trans Hca (f_equal Ok (surjective_pairing _)))) as (r1 & Ea & Hid1 & Hc1).
    cbn [map can_run can_step]. rewrite Ea. destruct (S (length cs1) =? n)%nat eqn:En.
    - apply Nat.eqb_eq in En. assert (cs2 = []) by (destruct cs2; [reflexivity|cbn [length] in Hn; lia]). subst cs2.
      destruct gs; [|destruct Htag]. cbn [map can_run length Nat.sub repeat app fst snd conv]. eauto.
    - assert (cs2 <> []) by (intros ->; cbn [length] in Hn; apply Nat.eqb_neq in En; lia). cbn [fst snd conv] in *.
      assert (Ecat : cs1 ++ c :: cs2 = (cs1 ++ [c]) ++ cs2) by (rewrite <- app_assoc; reflexivity). rewrite Ecat in *.
      destruct (IH (cs1 ++ [c]) gs r1) as (r2 & E2); [destruct cs1; discriminate|assumption|rewrite app_length; cbn [length] in *; lia| | | |assumption|assumption|].
      + rewrite app_length. cbn [length]. rewrite Nat.add_1_r. assumption.
      + congruence.
      + assumption.
      + rewrite E2. exists r2. destruct gs as [|g' gs]; [destruct cs2; [congruence|destruct Htag]|]. cbn [length]. rewrite Nat.sub_succ, Nat.sub_0_r.
        rewrite Nat.sub_succ, Nat.sub_0_r. cbn [repeat app]. reflexivity.
  Qed.

  Lemma whole_run timeout max id r st cs gs : (lb = true \/ forall d, h_dest H = Some d -> id = Some d) -> rx_id r = id ->
    n = length cs -> cs <> [] -> tagged_from 0 cs gs -> chan r (h_port H) s = Some (timeout, max, st) ->
    (ss_session st = None \/ ss_expected st <> tid) ->
    (forall g, nth_error gs 0 = Some g -> ~ (tid_incr tid = ss_expected st /\ tid_timed_out timeout st (f_ts g) = false)) ->
    ((1 < length cs)%nat -> crc16 (concat cs) = 0 /\ (2 <= length (concat cs))%nat) ->
    exists r' g0, nth_error gs 0 = Some g0 /\ can_run r (map (fun g => CFrame g true) gs) =
      Ok (r', repeat (CGot RxNone) (length gs - 1) ++
              [CGot (RxTransfer (Transfer (h_set_ts H (f_ts g0)) lb
                 (firstn max (firstn (length (concat cs) - (if (1 <? length cs)%nat then 2 else 0)) (concat cs)))))]).
  Proof.
    intros Hadm Hid Hn Hne Htag Hc Hst Hdup Hcrc. destruct cs as [|c cs]; [congruence|]. destruct gs as [|g gs]; [destruct Htag|].
    destruct Htag as ((Ht1 & Ht2 & Ht3 & Ht4) & Htag). destruct (route_tagged id g O c Hadm Ht1 Ht2 Ht3 Ht4) as (Hr & Hsb). rewrite <- Hid in Hr.
    specialize (Hdup g eq_refl).
    assert (Hca : checked_accept timeout max true st g (h_set_ts H (f_ts g)) (Tail (0 =? 0)%nat (1 =? n)%nat (Nat.even 0) tid) =
      Ok (if (1 =? n)%nat then (SState (tid_incr tid) (Some (f_ts g)) None, SubDone (Transfer (h_set_ts H (f_ts g)) lb (firstn max c)))
          else (SState tid (ss_last st) (Some (Session (f_ts g) lb (bu_after max [c]))), SubNone))).
    { assert (Hacc : forall st0, ss_expected st0 = tid -> ss_last st0 = ss_last st -> (ss_session st0 = None \/ (1 =? n)%nat = true) ->
        accept_non_anonymous max true st0 g (h_set_ts H (f_ts g)) (Tail (0 =? 0)%nat (1 =? n)%nat (Nat.even 0) tid) =
        Ok (if (1 =? n)%nat then (SState (tid_incr tid) (Some (f_ts g)) None, SubDone (Transfer (h_set_ts H (f_ts g)) lb (firstn max c)))
            else (SState tid (ss_last st) (Some (Session (f_ts g) lb (bu_after max [c]))), SubNone))).
      { intros st0 E1 E2 E3. unfold accept_non_anonymous. change (0 =? 0)%nat with true. cbn [tl_start tl_end andb]. destruct (1 =? n)%nat eqn:En; cbn [andb].
        - assert (Hlen : length (f_data g) = (length c + 1)%nat) by (rewrite Ht4, app_length; reflexivity).
          replace (length (f_data g) =? 0)%nat with false by (symmetry; apply Nat.eqb_neq; lia). cbn [negb]. unfold flag_success. rewrite E1, Ht2.
          replace (firstn (Nat.min max (length (f_data g) - 1)) (f_data g)) with (firstn max c); [reflexivity|].
          rewrite Ht4, app_length. cbn [length]. rewrite Nat.add_sub, firstn_app. replace (Nat.min max (length c) - length c)%nat with O by lia. rewrite firstn_O, app_nil_r.
          destruct (Nat.le_ge_cases max (length c)); [f_equal; lia|]. rewrite Nat.min_r by assumption. rewrite !firstn_all2; auto.
        - destruct E3 as [E3|E3]; [|discriminate]. unfold accept_with_session. rewrite E3. cbn [tl_start negb]. unfold se_accept. cbn [se_loop se_bu se_ts].
          rewrite eqb_reflx, Ht4, bu_new_after, bu_add_spec by assumption. cbn [negb is_nil Nat.eqb Bool.eqb andb length Nat.even]. rewrite E1, E2, Ht2, h_ts_set. reflexivity. }
      unfold checked_accept. cbn [tl_tid]. destruct (N.eqb_spec tid (ss_expected st)) as [E|E].
      - apply Hacc; [auto|reflexivity|]. destruct Hst as [Hst|Hst]; [auto|congruence].
      - destruct ((tid_incr tid =? ss_expected st) && negb (tid_timed_out timeout st (f_ts g))) eqn:Ed.
        + apply andb_prop in Ed as (Ed1 & Ed2). apply N.eqb_eq in Ed1. apply negb_true_iff in Ed2. tauto.
        + apply Hacc; auto. }
    destruct (accept_frame_go r true g (h_port H) s _ _ timeout max _ _ _ Ht3 Hr Hsb Hc (eq_trans Hca (f_equal Ok (surjective_pairing _)))) as (r1 & Ea & Hid1 & Hc1).
    cbn [map can_run can_step]. rewrite Ea. destruct (1 =? n)%nat eqn:En.
    - apply Nat.eqb_eq in En. assert (cs = []) by (destruct cs; [reflexivity|cbn [length] in Hn; lia]). subst cs.
      destruct gs; [|destruct Htag]. cbn [map can_run length Nat.sub repeat app fst snd conv]. exists r1, g. split; [reflexivity|].
      cbn [concat]. rewrite app_nil_r. change (1 <? 1)%nat with false. rewrite Nat.sub_0_r, (firstn_all c). reflexivity.
    - assert (Hcs : cs <> []) by (intros ->; cbn [length] in Hn; apply Nat.eqb_neq in En; lia). cbn [fst snd conv] in *.
      assert (H1 : (1 < length (c :: cs))%nat) by (destruct cs; [congruence|cbn [length]; lia]). destruct (Hcrc H1) as (Hcrc1 & Hcrc2).
      destruct (mid_run timeout max (ss_last st) (f_ts g) id Hadm cs [c] gs r1) as (r2 & E2); [discriminate|assumption|cbn [length] in *; lia|assumption|congruence|assumption|assumption|assumption|].
      rewrite E2. exists r2, g. split; [reflexivity|]. apply Nat.ltb_lt in H1. rewrite H1.
      destruct gs as [|g' gs]; [destruct cs; [congruence|destruct Htag]|]. cbn [length]. rewrite !Nat.sub_succ, !Nat.sub_0_r. cbn [repeat app]. reflexivity.
  Qed.
End InOrder.
