(** Proofs about remote procedure calls over UDP. *)
From Verif Require Import Base BitLemmas CoreModel NodeModel NodeSpec NodeProofs NodeProps BusSpec BusProofs NetSpec NetProofs CanNodeModel CanNodeSpec CanNodeProofs
  HeaderModel HeaderSpec HeaderProofs SerialNodeModel SerialNodeSpec SerialNodeProofs SerialLinkProofs
  CrcModel TabModel UdpModel UdpSpec UdpTxProofs UdpRxProofs UdpProps NodeModel UdpNodeModel UdpNodeSpec UdpNodeProofs UdpCallSpec.

Ltac Zify.zify_post_hook ::= Z.div_mod_to_equations.
Local Strategy 1000 [core_step udp_push udp_receive udp_accept udp_datagrams].

Lemma node_ip_inj a b : a < 65535 -> b < 65535 -> ip_of_address (ANode a) = ip_of_address (ANode b) -> a = b.
Proof. intros Ha Hb E. pose proof (address_round_trip (ANode a) Ha) as Xa. pose proof (address_round_trip (ANode b) Hb) as Xb. rewrite E in Xa. congruence. Qed.
Lemma sent_to_app node a b : sent_to node (a ++ b) = sent_to node a ++ sent_to node b.
Proof. unfold sent_to. rewrite filter_app, map_app. reflexivity. Qed.
Lemma sent_to_same node ds : sent_to node (map (pair (ip_of_address (ANode node))) ds) = ds.
Proof. unfold sent_to. rewrite filter_every; [apply map_pair_snd|]. intros x Hx. apply in_map_iff in Hx. destruct Hx as (d & <- & _). apply N.eqb_refl. Qed.
Lemma sent_to_other node ip ds : ip <> ip_of_address (ANode node) -> sent_to node (map (pair ip) ds) = [].
Proof. intro H. unfold sent_to. rewrite filter_none; [reflexivity|]. intros x Hx. apply in_map_iff in Hx. destruct Hx as (d & <- & _). cbn [fst]. apply N.eqb_neq. exact H. Qed.
Lemma sent_to_in node ip ds d : In d (sent_to node (map (pair ip) ds)) -> In d ds.
Proof. unfold sent_to. intro H. apply in_map_iff in H. destruct H as (x & <- & H). apply filter_In in H. destruct H as (H & _). apply in_map_iff in H. destruct H as (d' & <- & H). exact H. Qed.

Lemma ip_caller mtu rmtu rmtu' k P R id p node h z : kind_ok Transport64 k -> id < 65535 -> node < 65535 -> (28 < mtu)%nat -> (mtu <= rmtu')%nat -> (forall s, p <> PMsg s) -> ip_path mtu rmtu (ip_node_new k P R (Some id)) h z ->
  core_hist (core_new Transport64 k P R (Some id)) (ip_calls h) (ip_core z) /\ all_fine (ip_calls h) /\
  (keeps_id (ip_calls h) -> sent_in_time p h -> long_to node (ip_out z) ->
   exists dss, Forall2 (carried mtu) (filter (mine p (Some node)) (taken (ip_calls h))) dss /\ filter (from_node rmtu' p id) (sent_to node (ip_out z)) = concat dss).
Proof.
  intros Hk Hid Hnode Hm Hm' Hserv. assert (H0 : id_fine (Some id)) by (intros j E; injection E as <-; exact Hid). induction 1 as [|h [n r i o] ev z' res H (I1 & I2 & I3) Hf E].
  - split; [constructor|]. split; [constructor|]. intros _ _ _. exists []. split; [constructor|reflexivity].
  - cbn [ip_core ip_out] in *. assert (Hti : sent_in_time p ((ev, res) :: h) -> sent_in_time p h) by (intros Ht o1 e1 g1 o2 c2 r2 t2 Hi; apply (Ht o1 e1 g1 o2 c2 r2 t2); right; exact Hi).
    destruct ev as [op env group| |answers|d].
    + destruct (ip_call_inv _ _ _ _ _ _ _ _ _ _ _ E) as (a & b & calls & ro & -> & E1 & Hro & Hi & Hp). cbn [ip_calls flat_map snd app]. fold (ip_calls h). destruct Hf as (Hf & Hlen). pose proof (serial_answers_fine a b op Hf) as Hfo.
      assert (Hh : core_hist (core_new Transport64 k P R (Some id)) ((with_answers a b op, calls, ro) :: ip_calls h) (ip_core z')) by (econstructor; eassumption).
      split; [exact Hh|]. split; [constructor; [exact Hfo|exact I2]|]. intros Hkeep Htime Hlong. cbn [taken]. rewrite filter_app.
      pose proof (step_effect64 _ _ _ _ _ _ _ _ _ _ Hk I1 E1 Hro) as He.
      inversion Hp as [a1 b1 X1|t ip sent ok' b1 Ep X1|c rop r' rr a1 Hop Es X1]; subst.
      * assert (Et : taken1 (with_answers a b op, [], ro) = []) by (destruct ro; reflexivity). rewrite Et. cbn [filter]. rewrite app_nil_r. apply I3; [exact (keeps_id_tail _ _ Hkeep)|exact (Hti Htime)|assumption].
      * match goal with Hx : o ++ map (pair ip) sent = ip_out z' |- _ => rename Hx into Eout end. rewrite <- Eout in *. destruct (I3 (keeps_id_tail _ _ Hkeep) (Hti Htime)) as (dss & D1 & D2); [intros d Hd; apply Hlong; apply in_or_app; left; exact Hd|].
        destruct (effect64_fine _ _ _ _ _ t H0 I2 Hfo He (or_introl eq_refl)) as (F1 & F2).
        assert (Hpl : length (t_payload t) = length (payload_of op)).
        { pose proof (core_calls _ _ _ _ _ E1) as _. inversion He as [o' c' r' Hn Hq1 X1|lb sub payload e timeout prio Es X1 X2 X3|lb service payload server e timeout prio source Es Ei X1 X2 X3|kk timeout payload e source Ei X1 X2 X3]; subst.
          - destruct (Hn t (or_introl eq_refl)).
          - destruct op; try discriminate X1. injection X1 as _ _ -> _. reflexivity.
          - destruct op; try discriminate X1. injection X1 as _ _ -> _ _. reflexivity.
          - destruct op; try discriminate X1. injection X1 as _ _ -> _. reflexivity. }
        destruct (C30_segmentation mtu t F1 Hm ltac:(rewrite Hpl; exact Hlen)) as (ds & Eds & Hseg).
        unfold udp_push in Ep. rewrite Eds in Ep. destruct (send_frames env (h_ts (t_header t)) 0 ds) as [sent' ok2] eqn:Esf. injection Ep as <- <- <-.
        rewrite sent_to_app, filter_app, D2.
        destruct (port_eqb_spec p (h_port (t_header t))) as [Ept|Npt].
        -- assert (Hall : forall k0, t_lt (fst (env k0)) (h_ts (t_header t)) = true /\ snd (env k0) = true) by (exact (Htime _ _ _ _ _ _ t (or_introl eq_refl) (or_introl eq_refl) (eq_sym Ept))).
           rewrite (frames_all _ _ _ _ Hall) in Esf. injection Esf as <- <-.
           assert (Et : exists d', taken1 (with_answers PushOk b op, [CPush t], ro) = [t] /\ h_source (t_header t) = Some id /\ dest_of_header (t_header t) = ANode d' /\ d' < 65535 /\ mine p (Some node) t = (node =? d')).
           { pose proof (answers_answered PushOk b op) as Han. pose proof (keeps_id_after id _ (keeps_id_tail _ _ Hkeep)) as Hida.
             assert (Km : forall tt d', p = h_port (t_header tt) -> h_dest (t_header tt) = Some d' -> mine p (Some node) tt = (node =? d')).
             { intros tt d' Q1 Q2. unfold mine. rewrite Q2, <- Q1. destruct (port_eqb_spec p p); [|congruence]. reflexivity. }
             inversion He as [o' c' r' Hn Hq1 X1|lb sub payload e timeout prio Es X1 X2 X3|lb service payload server e timeout prio source Es Ei X1 X2 X3|kk timeout payload e source Ei X1 X2 X3]; subst.
             - destruct (Hn t (or_introl eq_refl)).
             - exfalso. exact (Hserv _ eq_refl).
             - rewrite <- X1 in Han. cbn [answered] in Han. rewrite Han in *. exists server. split; [reflexivity|]. rewrite Hida in Ei. split; [cbn [t_header h_source sh_source]; exact (eq_sym Ei)|]. split; [reflexivity|]. split; [apply F1|]. apply Km; reflexivity.
             - rewrite <- X1 in Han. cbn [answered] in Han. rewrite Han in *. exists (rt_client kk). split; [reflexivity|]. rewrite Hida in Ei. split; [cbn [t_header h_source sh_source]; exact (eq_sym Ei)|]. split; [reflexivity|]. split; [apply F1|]. apply Km; reflexivity. }
           destruct Et as (d' & Et & Esrc & Eip & Hd' & Emine). rewrite Et. cbn [filter]. rewrite Emine. rewrite Eip in *. destruct (N.eqb_spec node d') as [<-|Nd].
           ++ rewrite sent_to_same. assert (H28 : forall d, In d ds -> (28 <= length d)%nat) by (intros d Hd; apply Hlong, in_or_app; right; apply in_map; exact Hd).
              exists (dss ++ [ds]). split; [apply Forall2_app; [exact D1|constructor; [split; [exact Hseg|split; [exact H28|exact F2] ]|constructor] ]|]. rewrite concat_app. cbn [concat]. rewrite app_nil_r. f_equal.
              apply filter_every. intros d Hd. destruct (from_mine mtu rmtu' p id t ds d Hm' Hseg (eq_sym Ept) Esrc Hd (H28 d Hd)) as (f & body & Ef & Ef2 & _). unfold from_node. rewrite Ef. exact Ef2.
           ++ rewrite sent_to_other by (intro X; apply Nd; symmetry; exact (node_ip_inj _ _ Hd' Hnode X)). cbn [filter]. rewrite !app_nil_r. exists dss. split; [exact D1|reflexivity].
        -- assert (Emine : mine p (Some node) t = false) by (unfold mine; destruct (port_eqb_spec p (h_port (t_header t))); [congruence|reflexivity]).
           assert (Et : filter (mine p (Some node)) (taken1 (with_answers (if ok2 then PushOk else PushError (EOther 0)) b op, [CPush t], ro)) = []) by (cbn [taken1 pushes flat_map app]; destruct ro; cbn [filter]; rewrite ?Emine; reflexivity).
           rewrite Et, app_nil_r. exists dss. split; [exact D1|]. rewrite filter_none, app_nil_r; [reflexivity|]. intros d Hd. apply sent_to_in in Hd. apply (from_other mtu rmtu' _ _ t ds d Hm' Hseg (fun X => Npt (eq_sym X))).
           apply (frames_some env (h_ts (t_header t)) ds 0). rewrite Esf. exact Hd.
      * assert (Et : taken1 (with_answers a (ip_reply rr) op, [c], ro) = []) by (assert (Hps : pushes [c] = []) by (destruct c; try reflexivity; discriminate Hop); cbn [taken1]; rewrite Hps; destruct ro; reflexivity).
        rewrite Et. cbn [filter]. rewrite app_nil_r. apply I3; [exact (keeps_id_tail _ _ Hkeep)|exact (Hti Htime)|assumption].
    + injection E as <- <-. cbn [ip_core ip_out ip_calls flat_map snd app]. fold (ip_calls h). split; [exact I1|]. split; [exact I2|]. intros K1 K2 K3. exact (I3 K1 (Hti K2) K3).
    + cbn [ip_node_step] in E. destruct (udp_receive rmtu r _) as [ [ [r' a] rest]|]; [|discriminate E]. injection E as <- <-. cbn [ip_core ip_out ip_calls flat_map snd app]. fold (ip_calls h). split; [exact I1|]. split; [exact I2|]. intros K1 K2 K3. exact (I3 K1 (Hti K2) K3).
    + injection E as <- <-. cbn [ip_core ip_out ip_calls flat_map snd app]. fold (ip_calls h). split; [exact I1|]. split; [exact I2|]. intros K1 K2 K3. exact (I3 K1 (Hti K2) K3).
Qed.

Lemma carried_items mtu p s dest l ms dss : Forall2 (sent_as p s dest) l ms -> Forall2 (carried mtu) l dss ->
  map fst (combine l dss) = l /\ map snd (combine l dss) = dss /\ Forall (item_ok mtu p s) (combine l dss) /\ map (fun e => h_tid (t_header (fst e))) (combine l dss) = map fst ms.
Proof.
  intros Hs H1. revert ms Hs. induction H1 as [|t d l dss Hc _ IH]; intros ms Hs; inversion Hs as [|? m ? ms' (S1 & S2 & _ & S4 & _) S6]; subst; [repeat split; constructor|].
  destruct (IH _ S6) as (I1 & I2 & I3 & I4). cbn [combine map fst snd]. rewrite I1, I2, I4, S4. split; [reflexivity|]. split; [reflexivity|]. split; [|reflexivity]. constructor; [|exact I3]. split; [exact Hc|]. split; [reflexivity|exact S2].
Qed.
(** What a node sends to another one on a port of a service is received there, in order *)
Lemma ip_carried mtu rmtu k P R id h z p node ms mtu' rmtu' k' P' R' id' h' z' max arrived ds : ip_running mtu rmtu k P R id h z -> node < 65535 -> (mtu <= rmtu')%nat -> (forall s, p <> PMsg s) -> sent_in_time p h -> long_to node (ip_out z) ->
  Forall2 (sent_as p id (Some node)) (filter (mine p (Some node)) (taken (ip_calls h))) ms -> increasing (map fst ms) -> ip_listened mtu' rmtu' k' P' R' id' h' z' p max arrived ds ->
  filter (from_node rmtu' p id) arrived = filter (from_node rmtu' p id) (sent_to node (ip_out z)) ->
  Forall2 (received_as max) (filter (mine p (Some node)) (taken (ip_calls h))) (filter (comes_from p id) ds).
Proof.
  intros (Hk & Hid & Hm & Hp & Hkeep) Hnode Hm' Hserv Ht Hlong Hs Hi Hl Harr. destruct (ip_caller mtu rmtu rmtu' k P R id p node h z Hk Hid Hnode Hm Hm' Hserv Hp) as (_ & _ & Ho). destruct (Ho Hkeep Ht Hlong) as (dss & H1 & H2). rewrite H2 in Harr.
  destruct (carried_items _ _ _ _ _ _ _ Hs H1) as (K1 & K2 & K3 & K4). rewrite <- K1 at 1. apply (ip_listened_stream mtu mtu' rmtu' k' P' R' id' h' z' p id max arrived ds _ Hl Hm' K3); [rewrite K4; exact Hi|rewrite K2; exact Harr].
Qed.
Lemma received_pairs p s dest max l ms ds : Forall2 (sent_as p s dest) l ms -> Forall2 (received_as max) l ds ->
  Forall (fun t => t_loopback t = false) ds /\ map (fun t => (h_tid (t_header t), t_payload t)) ds = map (fun m => (fst m, firstn max (snd m))) ms.
Proof.
  intros Hs Hd. revert ms Hs. induction Hd as [|t d l l' ((now & R1) & R2 & R3) _ IH]; intros ms Hs; inversion Hs as [|? m ? ms' (_ & _ & _ & S4 & S5) S6]; subst; [split; constructor|]. destruct (IH _ S6) as (I1 & I2). split; [constructor; assumption|].
  cbn [map]. rewrite I2, R1, R3, S5, <- S4. f_equal. f_equal. destruct (t_header t); reflexivity.
Qed.
