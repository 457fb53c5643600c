(** Proofs about whole UDP nodes. *)
From Verif Require Import Base BitLemmas CoreModel NodeModel NodeSpec NodeProofs NodeProps BusSpec BusProofs NetSpec NetProofs CanNodeModel CanNodeSpec CanNodeProofs
  HeaderModel HeaderSpec HeaderProofs SerialNodeModel SerialNodeSpec SerialNodeProofs SerialLinkProofs
  CrcModel TabModel UdpModel UdpSpec UdpTxProofs UdpRxProofs UdpProps NodeModel UdpNodeModel UdpNodeSpec.

Ltac Zify.zify_post_hook ::= Z.div_mod_to_equations.
Local Strategy 1000 [core_step udp_push udp_receive udp_accept udp_datagrams].

(** * Lists *)

Lemma combine_split {A B} (a : list A) : forall (b : list A) (c d : list B), length a = length c -> combine (a ++ b) (c ++ d) = combine a c ++ combine b d.
Proof. induction a as [|x a IH]; intros b [|y c] d L; try discriminate L; [reflexivity|]. cbn [app combine]. f_equal. apply IH. injection L as L. exact L. Qed.
Inductive subseq {A} : list A -> list A -> Prop :=
| subseq_nil : subseq [] []
| subseq_skip a l m : subseq l m -> subseq l (a :: m)
| subseq_take a l m : subseq l m -> subseq (a :: l) (a :: m).
Lemma subseq_refl {A} (l : list A) : subseq l l.
Proof. induction l as [|a l IH]; [exact subseq_nil|exact (subseq_take a l l IH)]. Qed.
Lemma subseq_app {A} (a b c d : list A) : subseq a b -> subseq c d -> subseq (a ++ c) (b ++ d).
Proof. induction 1 as [|x l m _ IH|x l m _ IH]; intro H2; [exact H2|exact (subseq_skip x _ _ (IH H2))|exact (subseq_take x _ _ (IH H2))]. Qed.
Lemma subseq_prefix {A} (l : list A) : forall n, subseq (firstn n l) l.
Proof. induction l as [|a l IH]; intros [|n]; cbn [firstn]; [exact subseq_nil|exact subseq_nil|exact (subseq_skip a _ _ (IH O))|exact (subseq_take a _ _ (IH n))]. Qed.
Lemma subseq_in {A} (l m : list A) : subseq l m -> forall x, In x l -> In x m.
Proof. induction 1 as [|a l m _ IH|a l m _ IH]; intros x Hx; [exact Hx|right; auto|]. destruct Hx as [->|Hx]; [left; reflexivity|right; auto]. Qed.
Lemma subseq_ordered {A} (R : A -> A -> Prop) l m : subseq l m -> ForallOrdPairs R m -> ForallOrdPairs R l.
Proof.
  induction 1 as [|a l m _ IH|a l m Hs IH]; intro H; [exact H| |]; inversion H as [|? ? H1 H2]; subst; [auto|]. constructor; [|auto]. rewrite Forall_forall in *. intros x Hx. apply H1. exact (subseq_in _ _ Hs x Hx).
Qed.

(** * A step of a node *)

Definition ip_op (group : bool) (c : call) : option udp_op :=
  match c with
  | CPush _ => None
  | CSubMessage s max timeout => Some (OSub (PMsg s) max timeout group)
  | CSubRequest s max timeout => Some (OSub (PReq s) max timeout group)
  | CSubResponse s max timeout => Some (OSub (PResp s) max timeout group)
  | CUnsubMessage s => Some (OUnsub (PMsg s) group)
  | CUnsubRequest s => Some (OUnsub (PReq s) group)
  | CUnsubResponse s => Some (OUnsub (PResp s) group)
  | NodeModel.CSetId id => Some (OSetId (Some id))
  end.
Definition ip_reply (o : udp_out) : sub_result := match o with GSubbed a _ => ip_answer a | _ => SubOk end.
Inductive iperformed (mtu rmtu : nat) (env : nat -> N * bool) (group : bool) (r : urx) (out : list (N * list N)) : list call -> urx -> list (N * list N) -> push_result -> sub_result -> Prop :=
| ipf_none a b : iperformed mtu rmtu env group r out [] r out a b
| ipf_push t ip sent (ok : bool) b : udp_push mtu env t = Ok (ip, sent, ok) -> iperformed mtu rmtu env group r out [CPush t] r (out ++ map (pair ip) sent) (if ok then PushOk else PushError (EOther 0)) b
| ipf_op c op r' ro a : ip_op group c = Some op -> udp_step rmtu r op = Ok (r', ro) -> iperformed mtu rmtu env group r out [c] r' out a (ip_reply ro).

Lemma ip_perform_inv mtu rmtu env group calls n r i o z' a b : ip_perform mtu env group calls (IpNode n r i o) = Ok (z', a, b) ->
  ip_core z' = n /\ ip_in z' = i /\ iperformed mtu rmtu env group r o calls (ip_receiver z') (ip_out z') a b.
Proof.
  unfold ip_perform. intro E.
  assert (S : forall c p timeout max, ip_op group c = Some (OSub p max timeout group) ->
    (let '(r', a, _) := udp_subscribe r p max timeout group in Ok (IpNode n r' i o, PushOk, ip_answer a)) = Ok (z', a, b) ->
    ip_core z' = n /\ ip_in z' = i /\ iperformed mtu rmtu env group r o [c] (ip_receiver z') (ip_out z') a b).
  { clear E. intros c p timeout max Hc E. destruct (udp_subscribe r p max timeout group) as [ [r' ro] cs] eqn:Es. injection E as <- <- <-. split; [reflexivity|]. split; [reflexivity|]. cbn [ip_receiver ip_out].
    refine (ipf_op _ _ _ _ _ _ c _ r' (GSubbed ro cs) _ Hc _). cbn [udp_step]. rewrite Es. reflexivity. }
  assert (U : forall c p, ip_op group c = Some (OUnsub p group) -> (let (r', _) := udp_unsubscribe r p group in Ok (IpNode n r' i o, PushOk, SubOk)) = Ok (z', a, b) ->
    ip_core z' = n /\ ip_in z' = i /\ iperformed mtu rmtu env group r o [c] (ip_receiver z') (ip_out z') a b).
  { clear E. intros c p Hc E. destruct (udp_unsubscribe r p group) as [r' cs] eqn:Es. injection E as <- <- <-. split; [reflexivity|]. split; [reflexivity|]. cbn [ip_receiver ip_out].
    refine (ipf_op _ _ _ _ _ _ c _ r' (GUnsubbed cs) _ Hc _). cbn [udp_step]. rewrite Es. reflexivity. }
  destruct calls as [|c [|c2 cs] ]; [|destruct c as [t|s m t|s m t|s m t|s|s|s|id]|destruct c; discriminate E].
  - injection E as <- <- <-. split; [reflexivity|]. split; [reflexivity|]. constructor.
  - destruct (udp_push mtu env t) as [ [ [ip sent] ok]|] eqn:Ep; [|discriminate E]. injection E as <- <- <-. split; [reflexivity|]. split; [reflexivity|]. exact (ipf_push _ _ _ _ _ _ _ _ _ _ _ Ep).
  - exact (S (CSubMessage s m t) (PMsg s) t m eq_refl E).
  - exact (S (CSubRequest s m t) (PReq s) t m eq_refl E).
  - exact (S (CSubResponse s m t) (PResp s) t m eq_refl E).
  - exact (U (CUnsubMessage s) (PMsg s) eq_refl E).
  - exact (U (CUnsubRequest s) (PReq s) eq_refl E).
  - exact (U (CUnsubResponse s) (PResp s) eq_refl E).
  - injection E as <- <- <-. split; [reflexivity|]. split; [reflexivity|]. exact (ipf_op _ _ _ _ _ _ (NodeModel.CSetId id) _ _ GDone _ eq_refl eq_refl).
Qed.
Lemma ip_call_inv mtu rmtu o env group n r i out z' res : ip_node_step mtu rmtu (IpCall o env group) (IpNode n r i out) = Ok (z', res) ->
  exists a b calls ro, res = IrCall (with_answers a b o) calls ro /\ core_step n (with_answers a b o) = (ip_core z', calls, ro) /\ ro <> OPanic /\ ip_in z' = i /\
    iperformed mtu rmtu env group r out calls (ip_receiver z') (ip_out z') a b.
Proof.
  cbn [ip_node_step]. intro E. destruct (core_step n o) as [ [n0 c0] r0] eqn:E0. destruct (ip_perform mtu env group c0 _) as [ [ [z1 a] b]|] eqn:Ep; [|discriminate E].
  destruct (ip_perform_inv _ rmtu _ _ _ _ _ _ _ _ _ _ Ep) as (H1 & H2 & H3). destruct (core_step n (with_answers a b o)) as [ [n' c'] ro] eqn:E1.
  pose proof (same_calls _ _ _ _ _ _ _ _ _ _ E0 E1) as ->. assert (Ho : ro <> OPanic) by (intros ->; discriminate E).
  assert (E' : Ok (IpNode n' (ip_receiver z1) (ip_in z1) (ip_out z1), IrCall (with_answers a b o) c0 ro) = Ok (z', res)) by (destruct ro; try exact E; congruence).
  injection E' as <- <-. exists a, b, c0, ro. split; [reflexivity|]. split; [exact E1|]. split; [exact Ho|]. split; [exact H2|exact H3].
Qed.

(** * What is sent *)

Lemma frames_all env deadline ds : forall k, (forall k, t_lt (fst (env k)) deadline = true /\ snd (env k) = true) -> send_frames env deadline k ds = (ds, true).
Proof.
  induction ds as [|d ds IH]; intros k H; cbn [send_frames]; [reflexivity|]. destruct (H k) as (H1 & H2). destruct (env k) as [now ok]. cbn [fst snd] in H1, H2. rewrite H1, H2, (IH _ H). reflexivity.
Qed.
Lemma frames_some env deadline ds : forall k d, In d (fst (send_frames env deadline k ds)) -> In d ds.
Proof.
  induction ds as [|d ds IH]; intros k x Hx; cbn [send_frames] in Hx; [exact Hx|]. destruct (env k) as [now ok]. destruct (t_lt now deadline); [|right; exact (IH _ _ Hx)]. destruct ok; [|destruct Hx].
  specialize (IH (S k) x). destruct (send_frames env deadline (S k) ds) as [sent res]. cbn [fst] in *. destruct Hx as [->|Hx]; [left; reflexivity|right; auto].
Qed.
Lemma segmented_in mtu t ds d : udp_segmented mtu t ds -> In d ds -> exists i last body, datagram_of (t_header t) i last body d /\ (24 + length body <= mtu)%nat /\ length d = (24 + length body)%nat.
Proof.
  intros (Bs & _ & _ & Hl & Hall) Hi. apply In_nth_error in Hi. destruct Hi as (i & Hi). assert (Hlt : (i < length Bs)%nat) by (rewrite <- Hl; apply nth_error_Some; congruence).
  destruct (nth_error Bs i) as [body|] eqn:Eb; [|apply nth_error_None in Eb; lia]. destruct (Hall i body Eb) as (_ & H2 & _ & d' & Ed & Hd). assert (d' = d) by congruence. subst d'. exists i, (S i =? length Bs)%nat, body. split; [exact Hd|]. split; [exact H2|].
  destruct Hd as (Ed' & Hl24 & _). rewrite Ed', app_length, Hl24. reflexivity.
Qed.
Lemma from_other mtu rmtu p s t ds d : (mtu <= rmtu)%nat -> udp_segmented mtu t ds -> h_port (t_header t) <> p -> In d ds -> from_node rmtu p s d = false.
Proof.
  intros Hm Hs Hp Hi. destruct (segmented_in _ _ _ _ Hs Hi) as (i & last & body & Hd & Hb & Hl). unfold from_node. destruct (Nat.le_gt_cases 4 (length body)) as [H4|H4].
  - destruct (datagram_parsed rmtu _ _ _ _ _ Hd H4 ltac:(lia)) as (f & -> & F1 & _). destruct (is_fromb p s f) eqn:Ef; [|reflexivity]. apply is_fromb_spec in Ef. destruct Ef as (Ef & _). congruence.
  - unfold parsed. rewrite (firstn_all2 d) by lia. destruct (Nat.ltb_spec (length d) 28); [reflexivity|lia].
Qed.
Lemma from_mine mtu rmtu p s t ds d : (mtu <= rmtu)%nat -> udp_segmented mtu t ds -> h_port (t_header t) = p -> h_source (t_header t) = Some s -> In d ds -> (28 <= length d)%nat ->
  exists f body, parsed rmtu d = Some (f, body) /\ is_fromb p s f = true /\ fh_tid f = h_tid (t_header t).
Proof.
  intros Hm Hs Hp Hsrc Hi H28. destruct (segmented_in _ _ _ _ Hs Hi) as (i & last & body & Hd & Hb & Hl).
  destruct (datagram_parsed rmtu _ _ _ _ _ Hd ltac:(lia) ltac:(lia)) as (f & E & F1 & F2 & F3 & _). exists f, body. split; [exact E|]. split; [|exact F3]. apply is_fromb_spec. split; congruence.
Qed.
Lemma filter_none {A} (f : A -> bool) l : (forall x, In x l -> f x = false) -> filter f l = [].
Proof. induction l as [|a l IH]; intro H; [reflexivity|]. cbn [filter]. rewrite (H a (or_introl eq_refl)). apply IH. intros x Hx. apply H. right. exact Hx. Qed.
Lemma filter_every {A} (f : A -> bool) l : (forall x, In x l -> f x = true) -> filter f l = l.
Proof. induction l as [|a l IH]; intro H; [reflexivity|]. cbn [filter]. rewrite (H a (or_introl eq_refl)). f_equal. apply IH. intros x Hx. apply H. right. exact Hx. Qed.
Lemma map_pair_snd {A B} (a : A) (l : list B) : map snd (map (pair a) l) = l.
Proof. rewrite map_map. cbn [snd]. apply map_id. Qed.

(** Datagrams to the group of a subject are long enough for the receiver *)
Definition carried (mtu : nat) (t : transfer) (ds : list (list N)) : Prop := udp_segmented mtu t ds /\ (forall d, In d ds -> (28 <= length d)%nat) /\ bytes_ok (t_payload t).

Lemma ip_sender mtu rmtu rmtu' k P R id subject h z : kind_ok Transport64 k -> id < 65535 -> (28 < mtu)%nat -> (mtu <= rmtu')%nat -> ip_path mtu rmtu (ip_node_new k P R (Some id)) h z ->
  core_hist (core_new Transport64 k P R (Some id)) (ip_calls h) (ip_core z) /\ all_fine (ip_calls h) /\
  (keeps_id (ip_calls h) -> sent_in_time (PMsg subject) h -> long_in subject (ip_out z) ->
   exists dss, Forall2 (carried mtu) (filter (mine (PMsg subject) None) (taken (ip_calls h))) dss /\ filter (from_node rmtu' (PMsg subject) id) (map snd (ip_out z)) = concat dss).
Proof.
  intros Hk Hid Hm Hm'. assert (H0 : id_fine (Some id)) by (intros j E; injection E as <-; exact Hid). induction 1 as [|h [n r i o] ev z' res H (I1 & I2 & I3) Hf E].
  - split; [constructor|]. split; [constructor|]. intros _ _ _. exists []. split; [constructor|reflexivity].
  - cbn [ip_core ip_out] in *. assert (Hti : sent_in_time (PMsg subject) ((ev, res) :: h) -> sent_in_time (PMsg subject) h) by (intros Ht o1 e1 g1 o2 c2 r2 t2 Hi; apply (Ht o1 e1 g1 o2 c2 r2 t2); right; exact Hi).
    destruct ev as [op env group| |answers|d].
    + destruct (ip_call_inv _ _ _ _ _ _ _ _ _ _ _ E) as (a & b & calls & ro & -> & E1 & Hro & Hi & Hp). cbn [ip_calls flat_map snd app]. fold (ip_calls h). destruct Hf as (Hf & Hlen). pose proof (serial_answers_fine a b op Hf) as Hfo.
      assert (Hh : core_hist (core_new Transport64 k P R (Some id)) ((with_answers a b op, calls, ro) :: ip_calls h) (ip_core z')) by (econstructor; eassumption).
      split; [exact Hh|]. split; [constructor; [exact Hfo|exact I2]|]. intros Hkeep Htime Hlong. cbn [taken]. rewrite filter_app.
      pose proof (step_effect64 _ _ _ _ _ _ _ _ _ _ Hk I1 E1 Hro) as He.
      inversion Hp as [a1 b1 X1|t ip sent ok' b1 Ep X1|c rop r' rr a1 Hop Es X1]; subst.
      * assert (Et : taken1 (with_answers a b op, [], ro) = []) by (destruct ro; reflexivity). rewrite Et. cbn [filter]. rewrite app_nil_r. apply I3; [exact (keeps_id_tail _ _ Hkeep)|exact (Hti Htime)|assumption].
      * match goal with Hx : o ++ map (pair ip) sent = ip_out z' |- _ => rename Hx into Eout end. rewrite <- Eout in *. destruct (I3 (keeps_id_tail _ _ Hkeep) (Hti Htime)) as (dss & D1 & D2); [intros d Hd; apply Hlong; apply in_or_app; left; exact Hd|].
        destruct (effect64_fine _ _ _ _ _ t H0 I2 Hfo He (or_introl eq_refl)) as (F1 & F2).
        assert (Hpl : length (t_payload t) = length (payload_of op)).
        { pose proof (core_calls _ _ _ _ _ E1) as _. inversion He as [o' c' r' Hn Hq1 X1|lb sub payload e timeout prio Es X1 X2 X3|lb service payload server e timeout prio source Es Ei X1 X2 X3|kk timeout payload e source Ei X1 X2 X3]; subst.
          - destruct (Hn t (or_introl eq_refl)).
          - destruct op; try discriminate X1. injection X1 as _ _ -> _. reflexivity.
          - destruct op; try discriminate X1. injection X1 as _ _ -> _ _. reflexivity.
          - destruct op; try discriminate X1. injection X1 as _ _ -> _. reflexivity. }
        destruct (C30_segmentation mtu t F1 Hm ltac:(rewrite Hpl; exact Hlen)) as (ds & Eds & Hseg).
        unfold udp_push in Ep. rewrite Eds in Ep. destruct (send_frames env (h_ts (t_header t)) 0 ds) as [sent' ok2] eqn:Esf. injection Ep as <- <- <-.
        rewrite map_app, filter_app, D2, map_pair_snd.
        destruct (port_eqb_spec (PMsg subject) (h_port (t_header t))) as [Ept|Npt].
        -- assert (Hall : forall k0, t_lt (fst (env k0)) (h_ts (t_header t)) = true /\ snd (env k0) = true) by (exact (Htime _ _ _ _ _ _ t (or_introl eq_refl) (or_introl eq_refl) (eq_sym Ept))).
           rewrite (frames_all _ _ _ _ Hall) in Esf. injection Esf as <- <-.
           assert (Et : taken1 (with_answers PushOk b op, [CPush t], ro) = [t] /\ h_source (t_header t) = Some id /\ ip_of_address (dest_of_header (t_header t)) = ip_of_address (AMulticast subject) /\ mine (PMsg subject) None t = true).
           { pose proof (answers_answered PushOk b op) as Han. pose proof (keeps_id_after id _ (keeps_id_tail _ _ Hkeep)) as Hida.
             inversion He as [o' c' r' Hn Hq1 X1|lb sub payload e timeout prio Es X1 X2 X3|lb service payload server e timeout prio source Es Ei X1 X2 X3|kk timeout payload e source Ei X1 X2 X3]; subst.
             - destruct (Hn t (or_introl eq_refl)).
             - rewrite <- X1 in Han. cbn [answered] in Han. rewrite Han in *. cbn [t_header h_port mh_subject] in Ept. injection Ept as <-. split; [reflexivity|]. split; [cbn [t_header h_source mh_source]; exact Hida|]. split; [reflexivity|].
               unfold mine. cbn [t_header h_port mh_subject h_dest]. destruct (port_eqb_spec (PMsg subject) (PMsg subject)); [reflexivity|congruence].
             - discriminate Ept.
             - discriminate Ept. }
           destruct Et as (Et & Esrc & Eip & Emine). rewrite Et. cbn [filter]. rewrite Emine. rewrite Eip in *.
           assert (H28 : forall d, In d ds -> (28 <= length d)%nat) by (intros d Hd; apply Hlong, in_or_app; right; apply in_map; exact Hd).
           exists (dss ++ [ds]). split; [apply Forall2_app; [exact D1|constructor; [split; [exact Hseg|split; [exact H28|exact F2] ]|constructor] ]|]. rewrite concat_app. cbn [concat]. rewrite app_nil_r. f_equal.
           apply filter_every. intros d Hd. destruct (from_mine mtu rmtu' (PMsg subject) id t ds d Hm' Hseg (eq_sym Ept) Esrc Hd (H28 d Hd)) as (f & body & Ef & Ef2 & _). unfold from_node. rewrite Ef. exact Ef2.
        -- assert (Emine : mine (PMsg subject) None t = false) by (unfold mine; destruct (port_eqb_spec (PMsg subject) (h_port (t_header t))); [congruence|reflexivity]).
           assert (Et : filter (mine (PMsg subject) None) (taken1 (with_answers (if ok2 then PushOk else PushError (EOther 0)) b op, [CPush t], ro)) = []) by (cbn [taken1 pushes flat_map app]; destruct ro; cbn [filter]; rewrite ?Emine; reflexivity).
           rewrite Et, app_nil_r. exists dss. split; [exact D1|]. rewrite filter_none, app_nil_r; [reflexivity|]. intros d Hd. apply (from_other mtu rmtu' _ _ t ds d Hm' Hseg (fun X => Npt (eq_sym X))).
           apply (frames_some env (h_ts (t_header t)) ds 0). rewrite Esf. exact Hd.
      * assert (Et : taken1 (with_answers a (ip_reply rr) op, [c], ro) = []) by (assert (Hps : pushes [c] = []) by (destruct c; try reflexivity; discriminate Hop); cbn [taken1]; rewrite Hps; destruct ro; reflexivity).
        rewrite Et. cbn [filter]. rewrite app_nil_r. apply I3; [exact (keeps_id_tail _ _ Hkeep)|exact (Hti Htime)|assumption].
    + injection E as <- <-. cbn [ip_core ip_out ip_calls flat_map snd app]. fold (ip_calls h). split; [exact I1|]. split; [exact I2|]. intros K1 K2 K3. exact (I3 K1 (Hti K2) K3).
    + cbn [ip_node_step] in E. destruct (udp_receive rmtu r _) as [ [ [r' a] rest]|]; [|discriminate E]. injection E as <- <-. cbn [ip_core ip_out ip_calls flat_map snd app]. fold (ip_calls h). split; [exact I1|]. split; [exact I2|]. intros K1 K2 K3. exact (I3 K1 (Hti K2) K3).
    + injection E as <- <-. cbn [ip_core ip_out ip_calls flat_map snd app]. fold (ip_calls h). split; [exact I1|]. split; [exact I2|]. intros K1 K2 K3. exact (I3 K1 (Hti K2) K3).
Qed.

(** * Runs of a receiver *)

Lemma urun_app mtu ops1 : forall ops2 r, udp_run mtu r (ops1 ++ ops2) =
  match udp_run mtu r ops1 with Panic => Panic | Ok (r1, o1) => match udp_run mtu r1 ops2 with Panic => Panic | Ok (r2, o2) => Ok (r2, o1 ++ o2) end end.
Proof.
  induction ops1 as [|op ops1 IH]; intros ops2 r; cbn [app udp_run]; [destruct (udp_run mtu r ops2) as [ [r2 o2]|]; reflexivity|]. destruct (udp_step mtu r op) as [ [r1 o]|]; [|reflexivity]. rewrite IH.
  destruct (udp_run mtu r1 ops1) as [ [r2 o2]|]; [|reflexivity]. destruct (udp_run mtu r2 ops2) as [ [r3 o3]|]; reflexivity.
Qed.
Lemma urun_length mtu ops : forall r r' outs, udp_run mtu r ops = Ok (r', outs) -> length outs = length ops.
Proof.
  induction ops as [|op ops IH]; intros r r' outs E; cbn [udp_run] in E; [injection E as _ <-; reflexivity|]. destruct (udp_step mtu r op) as [ [r1 o]|]; [|discriminate E]. destruct (udp_run mtu r1 ops) as [ [r2 os]|] eqn:E2; [|discriminate E]. injection E as _ <-. cbn [length]. f_equal. exact (IH _ _ _ E2).
Qed.
Lemma urun_hist mtu id ops : forall h r r' outs, udp_hist mtu id h r -> udp_run mtu r ops = Ok (r', outs) -> Forall udp_op_ok ops -> udp_hist mtu id (rev (combine ops outs) ++ h) r'.
Proof.
  induction ops as [|op ops IH]; intros h r r' outs Hh E Hf; cbn [udp_run] in E; [injection E as <- <-; exact Hh|]. inversion Hf as [|? ? F1 F2]; subst. destruct (udp_step mtu r op) as [ [r1 o]|] eqn:E1; [|discriminate E]. destruct (udp_run mtu r1 ops) as [ [r2 os]|] eqn:E2; [|discriminate E]. injection E as <- <-.
  cbn [combine rev]. rewrite <- app_assoc. cbn [app]. apply (IH _ r1); [|exact E2|exact F2]. econstructor; eassumption.
Qed.
Definition ugot (o : udp_out) : list transfer := match o with GGot (UDeliver t) => [t] | _ => [] end.
Definition odata (op : udp_op) : list (list N) := match op with ODatagram d _ _ _ => [d] | _ => [] end.
Definition otime (op : udp_op) : list N := match op with ODatagram _ now _ _ => [now] | _ => [] end.
Definition uleaves (p : port) (op : udp_op) : Prop := match op with ODatagram _ _ pa sa => pa = true /\ sa = true | OSub q _ _ _ | OUnsub q _ => q <> p | OSetId _ => True end.
Definition fromop (mtu : nat) (p : port) (s : N) (op : udp_op) : bool := match op with ODatagram d _ _ _ => from_node mtu p s d | _ => false end.

Lemma project mtu id p s ops : forall h r r' outs r0, udp_hist mtu id h r -> udp_run mtu r ops = Ok (r', outs) -> Forall udp_op_ok ops -> Forall (uleaves p) ops -> chan r0 p s = chan r p s ->
  exists r0' outs0, udp_run mtu r0 (filter (fromop mtu p s) ops) = Ok (r0', outs0) /\ flat_map ugot outs0 = filter (comes_from p s) (flat_map ugot outs).
Proof.
  induction ops as [|op ops IH]; intros h r r' outs r0 Hh E Hf Hl Hc; cbn [udp_run] in E; [injection E as _ <-; exists r0, []; split; reflexivity|].
  inversion Hf as [|? ? F1 F2]; subst. inversion Hl as [|? ? L1 L2]; subst. destruct (udp_step mtu r op) as [ [r1 o]|] eqn:E1; [|discriminate E]. destruct (udp_run mtu r1 ops) as [ [r2 os]|] eqn:E2; [|discriminate E]. injection E as _ <-.
  pose proof (uh_step _ _ _ _ _ _ _ Hh F1 E1) as Hh1. destruct (UdpRxProofs.hist_inv _ _ _ _ Hh) as (Hsort & _ & _). cbn [flat_map]. rewrite filter_app.
  assert (Skip : fromop mtu p s op = false -> chan r1 p s = chan r p s -> filter (comes_from p s) (ugot o) = [] ->
    exists r0' outs0, udp_run mtu r0 (filter (fromop mtu p s) (op :: ops)) = Ok (r0', outs0) /\ flat_map ugot outs0 = filter (comes_from p s) (ugot o) ++ filter (comes_from p s) (flat_map ugot os)).
  { intros S1 S2 S3. cbn [filter]. rewrite S1, S3. cbn [app]. exact (IH _ _ _ _ r0 Hh1 E2 F2 L2 ltac:(congruence)). }
  destruct op as [d now pa sa|q m ti jok|q lok|nid].
  - assert (Hdel : filter (comes_from p s) (ugot o) = if from_node mtu p s d then ugot o else []).
    { cbn [udp_step] in E1. destruct (udp_accept mtu r d now pa sa) as [ [r1' uo]|]; [|discriminate E1]. injection E1 as _ <-. destruct uo as [|t|]; cbn [ugot filter]; try (destruct (from_node mtu p s d); reflexivity).
      destruct (C35_only_wanted_partial _ _ _ _ _ _ _ _ _ Hh1) as (_ & _ & f & body & ts & Ep & Et). unfold from_node. rewrite Ep.
      assert (Ec : comes_from p s t = is_fromb p s f).
      { destruct (is_fromb p s f) eqn:Ef.
        - apply is_fromb_spec in Ef. apply comes_from_iff. rewrite Et, as_core_port, as_core_source. exact Ef.
        - destruct (comes_from p s t) eqn:Ec; [|reflexivity]. apply comes_from_iff in Ec. rewrite Et, as_core_port, as_core_source in Ec. apply is_fromb_spec in Ec. congruence. }
      rewrite Ec. destruct (is_fromb p s f); reflexivity. }
    cbn [udp_step] in E1. pose proof (accept_chan mtu r d now pa sa) as A. pose proof (accept_chan mtu r0 d now pa sa) as B. destruct (from_node mtu p s d) eqn:Efrom.
    + unfold from_node in Efrom. destruct (parsed mtu d) as [ [f body]|] eqn:Ep; [|discriminate Efrom]. cbv zeta in A, B. destruct (proj1 (is_fromb_spec p s f) Efrom) as (P1 & P2). rewrite P1, P2 in A, B.
      rewrite (sub_at_chan r p s) in A. rewrite (sub_at_chan r0 p s), Hc in B.
      assert (K : exists r0', udp_step mtu r0 (ODatagram d now pa sa) = Ok (r0', o) /\ chan r0' p s = chan r1 p s).
      { cbn [udp_step]. destruct (chan r p s) as [ [ [mx tm] se]|] eqn:Ec; cbn [option_map fst] in A, B.
        - destruct A as (se1 & A1 & A2). destruct B as (se2 & B1 & B2). assert (se1 = se) by congruence. assert (se2 = se) by congruence. subst se1 se2. destruct (chan_frame mx tm se f body now pa sa) as [ [se' uo]|]; [|rewrite A2 in E1; discriminate E1].
          destruct A2 as (ra & A2 & _ & A3). destruct B2 as (rb & B2 & _ & B3). rewrite A2 in E1. injection E1 as <- <-. exists rb. rewrite B2. split; [reflexivity|]. rewrite A3, B3, Efrom. reflexivity.
        - rewrite A in E1. injection E1 as <- <-. exists r0. rewrite B. split; [reflexivity|]. congruence. }
      destruct K as (r0' & K1 & K2). destruct (IH _ _ _ _ r0' Hh1 E2 F2 L2 K2) as (r0'' & outs0 & J1 & J2). cbn [filter fromop]. unfold from_node at 1. rewrite Ep, Efrom. exists r0'', (o :: outs0). cbn [udp_run]. rewrite K1, J1. split; [reflexivity|].
      cbn [flat_map]. rewrite J2, Hdel. reflexivity.
    + apply Skip; [exact Efrom| |exact Hdel]. unfold from_node in Efrom. destruct (parsed mtu d) as [ [f body]|] eqn:Ep; [|rewrite A in E1; injection E1 as <- _; reflexivity]. cbv zeta in A.
      destruct (sub_at r (dspec_port (fh_spec f))) as [ [mx tm]|]; [|rewrite A in E1; injection E1 as <- _; reflexivity]. destruct (dspec_source (fh_spec f)) as [src|].
      * destruct A as (se & _ & A). destruct (chan_frame mx tm se f body now pa sa) as [ [se' uo]|]; [|rewrite A in E1; discriminate E1]. destruct A as (ra & A1 & _ & A2). rewrite A1 in E1. injection E1 as <- _. rewrite A2, Efrom. reflexivity.
      * destruct A as (ra & A1 & _ & A2). rewrite A1 in E1. injection E1 as <- _. apply A2.
  - cbn [udp_step] in E1. pose proof (subscribe_spec r q m ti jok Hsort) as S. destruct (udp_subscribe r q m ti jok) as [ [ra ro] cs]. injection E1 as <- <-. destruct S as (_ & _ & S). apply Skip; [reflexivity| |reflexivity].
    destruct ro; [|rewrite S; reflexivity|rewrite S; reflexivity]. destruct S as (S & _). rewrite S. destruct (port_eqb_spec q p); [exfalso; exact (L1 e)|reflexivity].
  - cbn [udp_step] in E1. pose proof (unsubscribe_spec r q lok Hsort) as S. destruct (udp_unsubscribe r q lok) as [ra cs]. injection E1 as <- <-. cbn [fst] in S. destruct S as (_ & _ & S). apply Skip; [reflexivity| |reflexivity].
    rewrite S. destruct (port_eqb_spec q p); [exfalso; exact (L1 e)|reflexivity].
  - cbn [udp_step] in E1. injection E1 as <- <-. apply Skip; reflexivity.
Qed.

(** * Transfers one after the other *)

Lemma clock_before l : forall m now a, clock_runs (l ++ m) -> In a l -> In now m -> t_since now a <> None.
Proof.
  unfold clock_runs. induction l as [|b l IH]; intros m now a H Ha Hn; [destruct Ha|]. inversion H as [|b' l' C1 C2]; subst. destruct Ha as [<-|Ha]; [|exact (IH _ _ _ C2 Ha Hn)]. rewrite Forall_forall in C1. apply C1, in_or_app. right. exact Hn.
Qed.

Section InTurn.
  Context (mtu rmtu : nat) (id : option N) (p : port) (s : N) (max : nat) (timeout : N).
  Hypothesis Hm : (mtu <= rmtu)%nat.

  Definition item_ok (e : transfer * list (list N)) : Prop := carried mtu (fst e) (snd e) /\ h_port (t_header (fst e)) = p /\ h_source (t_header (fst e)) = Some s.
  Lemma heard_more tid L : forall h outs, (forall x, In x L -> exists f body, parsed rmtu (fst x) = Some (f, body) /\ is_fromb p s f = true /\ fh_tid f = tid) -> length outs = length L ->
    exists hs, heard rmtu p s (rev (combine (map arrive L) outs) ++ h) = heard rmtu p s h ++ hs /\ map fst hs = map snd L /\ Forall (fun e => fh_tid (fst (snd e)) = tid) hs /\ udp_active p (rev (combine (map arrive L) outs) ++ h) = udp_active p h.
  Proof.
    induction L as [|x L IH]; intros h outs HL Hlen.
    - destruct outs; [|discriminate Hlen]. exists []. cbn [map combine rev app]. rewrite app_nil_r. split; [reflexivity|]. split; [reflexivity|]. split; [constructor|reflexivity].
    - destruct outs as [|o outs]; [discriminate Hlen|]. cbn [map combine rev]. rewrite <- app_assoc. cbn [app]. destruct (IH ((arrive x, o) :: h) outs) as (hs & H1 & H2 & H3 & H4); [intros y Hy; apply HL; right; exact Hy|injection Hlen as Hlen; exact Hlen|].
      destruct (HL x (or_introl eq_refl)) as (f & body & Ep & Ef & Et). exists ((snd x, (f, body)) :: hs). rewrite H1, H4. split; [|split; [|split] ].
      + unfold arrive at 1. cbn [heard]. rewrite Ep, Ef, <- app_assoc. reflexivity.
      + cbn [map fst]. rewrite H2. reflexivity.
      + constructor; [exact Et|exact H3].
      + reflexivity.
  Qed.
  Lemma idle_after L outs t : forall h, (forall x, In x L -> from_node rmtu p s (fst x) = true) -> length (outs ++ [GGot (UDeliver t)]) = length L -> idle rmtu p s (rev (combine (map arrive L) (outs ++ [GGot (UDeliver t)])) ++ h) = true.
  Proof.
    intros h HL Hlen. destruct L as [|x L _] using rev_ind; [rewrite app_length in Hlen; cbn [length] in Hlen; lia|]. rewrite !app_length in Hlen. cbn [length] in Hlen.
    rewrite map_app. cbn [map]. rewrite combine_split by (rewrite map_length; lia). rewrite rev_app_distr. cbn [combine rev app]. unfold arrive at 1. cbn [idle].
    specialize (HL x ltac:(apply in_or_app; right; left; reflexivity)). unfold from_node in HL. destruct (parsed rmtu (fst x)) as [ [f body]|]; [|discriminate HL]. rewrite HL. reflexivity.
  Qed.

  Lemma in_turn items : forall times h r, Forall item_ok items -> rising (map (fun e => h_tid (t_header (fst e))) items) -> udp_hist rmtu id h r -> udp_active p h = Some (max, timeout) -> idle rmtu p s h = true ->
    (forall e x, In e (heard rmtu p s h) -> In x items -> fh_tid (fst (snd e)) < h_tid (t_header (fst x))) -> clock_runs (map fst (heard rmtu p s h) ++ times) -> Forall (fun x => x < 2 ^ 32) times ->
    length times = length (concat (map snd items)) -> Forall bytes_ok (concat (map snd items)) ->
    exists r' outs, udp_run rmtu r (map arrive (combine (concat (map snd items)) times)) = Ok (r', outs) /\ Forall2 (received_as max) (map fst items) (flat_map ugot outs).
  Proof.
    induction items as [| [t ds] items IH]; intros times h r Hi Hri Hh Ha Hid Hnew Hck Htm Hlen Hby.
    - exists r, []. split; [reflexivity|constructor].
    - inversion Hi as [|? ? ((Hseg & H28 & Hpl) & Hp & Hs) Hi']; subst. cbn [fst snd] in *. cbn [map concat fst snd] in *. destruct (rising_all _ _ Hri) as (Hri' & Hlt).
      assert (Hne : ds <> []) by (destruct Hseg as (Bs & _ & B1 & B2 & _); intros ->; destruct Bs; [congruence|discriminate B2]).
      set (t1 := firstn (length ds) times). set (t2 := skipn (length ds) times). assert (Et : times = t1 ++ t2) by (symmetry; apply firstn_skipn). rewrite app_length in Hlen.
      assert (L1 : length t1 = length ds) by (unfold t1; rewrite firstn_length; lia). assert (L2 : length t2 = length (concat (map snd items))) by (unfold t2; rewrite skipn_length; lia).
      clearbody t1 t2. subst times. rewrite combine_split by congruence. rewrite map_app, urun_app. apply Forall_app in Htm. destruct Htm as (Htm1 & Htm2). apply Forall_app in Hby. destruct Hby as (Hby1 & Hby2).
      destruct t1 as [|now0 t1']; [destruct ds; [congruence|discriminate L1]|]. set (t1 := now0 :: t1') in *.
      assert (Hnewer : Forall (newer timeout now0 (h_tid (t_header t))) (heard rmtu p s h)).
      { apply Forall_forall. intros e He. unfold newer. assert (K : t_since now0 (fst e) <> None).
        { apply (clock_before _ (t1 ++ t2) now0 (fst e) Hck); [apply in_map; exact He|left; reflexivity]. }
        destruct (t_since now0 (fst e)) as [age|]; [|congruence]. exists age. split; [reflexivity|]. left. exact (Hnew e (t, ds) He (or_introl eq_refl)). }
      pose proof (C31_end_to_end_partial mtu rmtu id h r t s ds max timeout t1 now0) as C31. rewrite Hp in C31. destruct (C31 Hh Hm Hpl Hs Hseg H28 Ha Hid ltac:(congruence) eq_refl Hnewer) as (r1 & E1). rewrite E1.
      assert (Hfrom : forall x, In x (combine ds t1) -> exists f body, parsed rmtu (fst x) = Some (f, body) /\ is_fromb p s f = true /\ fh_tid f = h_tid (t_header t)).
      { intros [d now] Hx. apply in_combine_l in Hx. exact (from_mine mtu rmtu p s t ds d Hm Hseg Hp Hs Hx (H28 d Hx)). }
      pose proof (urun_length _ _ _ _ _ E1) as Hol. rewrite map_length in Hol.
      set (outs1 := repeat (GGot UNone) (length ds - 1) ++ [GGot (UDeliver (Transfer (h_set_ts (t_header t) now0) false (firstn max (t_payload t))))]) in *.
      destruct (heard_more (h_tid (t_header t)) (combine ds t1) h outs1 Hfrom Hol) as (hs & G1 & G2 & G3 & G4).
      assert (Hsnd : map snd (combine ds t1) = t1) by (clear -L1; revert ds L1; generalize t1; intro l; induction l as [|a l IHl]; intros [|d ds] L; try discriminate L; [reflexivity|]; cbn [combine map snd]; f_equal; apply IHl; injection L as L; exact L).
      assert (Hok1 : Forall udp_op_ok (map arrive (combine ds t1))).
      { apply Forall_forall. intros op Hop. apply in_map_iff in Hop. destruct Hop as ([d now] & <- & Hx). cbn [arrive udp_op_ok fst snd]. rewrite Forall_forall in Hby1, Htm1. split; [exact (Hby1 d (in_combine_l _ _ _ _ Hx))|exact (Htm1 now (in_combine_r _ _ _ _ Hx))]. }
      pose proof (urun_hist _ _ _ _ _ _ _ Hh E1 Hok1) as Hh1.
      destruct (IH t2 _ r1 Hi' Hri' Hh1) as (r2 & outs2 & J1 & J2); try assumption.
      + rewrite G4. exact Ha.
      + unfold outs1. apply idle_after; [|exact Hol]. intros x Hx. unfold from_node. destruct (Hfrom x Hx) as (f' & body' & -> & Ef' & _). exact Ef'.
      + intros e x He Hx. rewrite G1 in He. apply in_app_or in He. destruct He as [He|He]; [exact (Hnew e x He (or_intror Hx))|]. rewrite Forall_forall in G3. rewrite (G3 e He). apply Hlt. apply (in_map (fun e0 => h_tid (t_header (fst e0)))). exact Hx.
      + rewrite G1, map_app, G2, Hsnd, <- app_assoc. exact Hck.
      + rewrite J1. exists r2, (outs1 ++ outs2). split; [reflexivity|]. unfold outs1. rewrite !flat_map_app. cbn [flat_map ugot]. replace (flat_map ugot (repeat (GGot UNone) (length ds - 1))) with (@nil transfer) by (clear; induction (length ds - 1)%nat as [|j IHj]; [reflexivity|exact IHj]).
        cbn [app]. constructor; [|exact J2]. split; [exists now0; reflexivity|]. split; reflexivity.
  Qed.
End InTurn.

(** * The receiver of a node *)

Lemma packets_prefix answers : forall ds used rest, ip_packets answers ds = used ++ rest ->
  flat_map odata (flat_map as_op used) ++ skipn (length used) ds = ds /\ flat_map otime (flat_map as_op used) = firstn (length used) (map (fun a => fst (fst a)) answers) /\
  (Forall (fun a => fst (fst a) < 2 ^ 32) answers -> Forall bytes_ok ds -> Forall udp_op_ok (flat_map as_op used)) /\
  (Forall (fun a => snd (fst a) = true /\ snd a = true) answers -> forall p, Forall (uleaves p) (flat_map as_op used)).
Proof.
  induction answers as [|a answers IH]; intros ds used rest E.
  - destruct used; [|discriminate E]. split; [reflexivity|]. split; [reflexivity|]. split; constructor.
  - destruct used as [|u used]; [split; [reflexivity|]; split; [reflexivity|]; split; constructor|]. destruct ds as [|d ds]; [discriminate E|]. unfold ip_packets in E. cbn [combine map fst snd app] in E. apply cons_eq in E. destruct E as (<- & E).
    destruct (IH _ _ _ E) as (H1 & H2 & H3 & H4). cbn [flat_map as_op app odata otime length skipn map firstn]. rewrite H1, H2. split; [reflexivity|]. split; [reflexivity|]. split.
    + intros F1 F2. inversion F1; subst. inversion F2; subst. constructor; [split; assumption|auto].
    + intros F1 p. inversion F1; subst. constructor; [assumption|auto].
Qed.
Lemma receives_got n r : flat_map ugot (repeat (GGot UNone) n ++ match r with RTransfer t => [GGot (UDeliver t)] | RMemory => [GGot UMemory] | _ => [] end) = match r with RTransfer t => [t] | _ => [] end.
Proof. rewrite flat_map_app. replace (flat_map ugot (repeat (GGot UNone) n)) with (@nil transfer) by (induction n as [|n IH]; [reflexivity|exact IH]). destruct r; reflexivity. Qed.

Lemma ip_receives mtu rmtu z0 h z : ip_path mtu rmtu z0 h z -> Forall bytes_ok (ip_in z0) -> exists ops outs, udp_run rmtu (ip_receiver z0) ops = Ok (ip_receiver z, outs) /\
  flat_map odata ops ++ ip_in z = ip_in z0 ++ ip_arrived h /\ flat_map ugot outs = ip_got h /\ Forall udp_op_ok ops /\ subseq (flat_map otime ops) (ip_clock h) /\ Forall bytes_ok (ip_in z) /\
  (forall p, keeps_port p (ip_calls h) -> (forall answers res, In (IpReceive answers, res) h -> Forall (fun a => snd (fst a) = true /\ snd a = true) answers) -> Forall (uleaves p) ops).
Proof.
  intros Hpath H0. induction Hpath as [|h [n r i o] ev z' res H (ops & outs & I1 & I2 & I3 & I4 & I5 & I6 & I7) Hf E].
  - exists [], []. split; [reflexivity|]. split; [rewrite app_nil_r; reflexivity|]. split; [reflexivity|]. split; [constructor|]. split; [constructor|]. split; [exact H0|]. constructor.
  - cbn [ip_receiver ip_in] in *.
    destruct ev as [op env group| |answers|d].
    + destruct (ip_call_inv _ _ _ _ _ _ _ _ _ _ _ E) as (a & b & calls & ro & -> & E1 & Hro & Hi & Hp). cbn [ip_calls flat_map snd app ip_got ip_arrived ip_clock]. fold (ip_calls h). rewrite Hi.
      assert (K1 : forall p, keeps_port p ((with_answers a b op, calls, ro) :: ip_calls h) -> keeps_port p (ip_calls h)) by (intros p Hk o1 c1 r1 c2 Hin; apply (Hk o1 c1 r1 c2); right; exact Hin).
      assert (Same : ip_receiver z' = r -> exists ops outs, udp_run rmtu (ip_receiver z0) ops = Ok (ip_receiver z', outs) /\ flat_map odata ops ++ i = ip_in z0 ++ ip_arrived h /\ flat_map ugot outs = ip_got h /\ Forall udp_op_ok ops /\ subseq (flat_map otime ops) (ip_clock h) /\ Forall bytes_ok i /\
        (forall p, keeps_port p ((with_answers a b op, calls, ro) :: ip_calls h) -> (forall answers res, In (IpReceive answers, res) ((IpCall op env group, IrCall (with_answers a b op) calls ro) :: h) -> Forall (fun a => snd (fst a) = true /\ snd a = true) answers) -> Forall (uleaves p) ops)).
      { intros ->. exists ops, outs. split; [exact I1|]. split; [exact I2|]. split; [exact I3|]. split; [exact I4|]. split; [exact I5|]. split; [exact I6|]. intros p H1 H2. apply I7; [exact (K1 p H1)|]. intros an rs Hin. exact (H2 an rs (or_intror Hin)). }
      assert (Kp : ip_receiver z' = r \/ exists c rop rr, calls = [c] /\ ip_op group c = Some rop /\ udp_step rmtu r rop = Ok (ip_receiver z', rr)).
      { clear -Hp. inversion Hp as [a1 b1 X1|t ip sent ok' b1 Ep X1|c rop r' rr a1 Hop Es X1]; subst; [left; reflexivity|left; reflexivity|right; eexists _, _, _; split; [reflexivity|]; split; eassumption]. }
      destruct Kp as [Kp|(c & rop & rr & -> & Hop & Es)].
      * exact (Same Kp).
      * clear Same. exists (ops ++ [rop]), (outs ++ [rr]). split; [rewrite urun_app, I1; cbn [udp_run]; rewrite Es; reflexivity|].
        assert (Hb : odata rop = [] /\ ugot rr = [] /\ otime rop = [] /\ udp_op_ok rop).
        { destruct c; try discriminate Hop; injection Hop as <-; cbn [udp_step odata otime udp_op_ok] in *.
          1-3: destruct (udp_subscribe _ _ _ _ _) as [ [? ?] ?]; injection Es as _ <-; repeat split.
          1-3: destruct (udp_unsubscribe _ _ _); injection Es as _ <-; repeat split.
          injection Es as _ <-. repeat split. }
        destruct Hb as (Hb & Hg & Ht & Hok). rewrite !flat_map_app. cbn [flat_map]. rewrite Hb, Hg, Ht, !app_nil_r. split; [exact I2|]. split; [exact I3|]. split; [apply Forall_app; split; [exact I4|constructor; [exact Hok|constructor] ]|]. split; [exact I5|]. split; [exact I6|].
        intros p H1 H2. apply Forall_app. split; [apply I7; [exact (K1 p H1)|intros an rs Hin; exact (H2 an rs (or_intror Hin))]|].
        constructor; [|constructor]. specialize (H1 _ _ _ c (or_introl eq_refl) (or_introl eq_refl)). destruct c; try discriminate Hop; injection Hop as <-; cbn [uleaves call_port] in *; try congruence. exact I.
    + injection E as <- <-. exists ops, outs. cbn [ip_receiver ip_in ip_calls flat_map snd app ip_got ip_arrived ip_clock]. split; [exact I1|]. split; [exact I2|]. split; [exact I3|]. split; [exact I4|]. split; [exact I5|]. split; [exact I6|].
      intros p H1 H2. apply I7; [exact H1|]. intros an rs Hin. exact (H2 an rs (or_intror Hin)).
    + cbn [ip_node_step] in E. destruct (udp_receive rmtu r _) as [ [ [r' a] rest]|] eqn:Er; [|discriminate E]. injection E as <- <-. destruct (C58_receive _ _ _ _ _ _ Er) as (skipped & final & Eu & Hrun & _). rewrite app_assoc in Eu.
      destruct (packets_prefix _ _ _ _ Eu) as (P1 & P2 & P3 & P4). set (used := skipped ++ final) in *. cbn [ip_fine] in Hf.
      exists (ops ++ flat_map as_op used), (outs ++ repeat (GGot UNone) (length skipped) ++ match a with RTransfer t => [GGot (UDeliver t)] | RMemory => [GGot UMemory] | _ => [] end).
      cbn [ip_receiver ip_in ip_calls flat_map snd app ip_arrived ip_clock]. split; [rewrite urun_app, I1, Hrun; reflexivity|].
      assert (Hl : (length (ip_packets answers i) - length rest)%nat = length used) by (rewrite Eu, app_length; lia). rewrite Hl.
      split; [rewrite flat_map_app, <- app_assoc, P1; exact I2|]. split; [cbn [ip_got]; rewrite flat_map_app, receives_got, I3; destruct a; rewrite ?app_nil_r; reflexivity|].
      split; [apply Forall_app; split; [exact I4|exact (P3 Hf I6)]|]. split; [rewrite flat_map_app, P2; apply subseq_app; [exact I5|apply subseq_prefix]|].
      split; [clear -I6; apply Forall_forall; rewrite Forall_forall in I6; intros x Hx; apply I6; rewrite <- (firstn_skipn (length used) i); apply in_or_app; right; exact Hx|].
      intros p H1 H2. apply Forall_app. split; [apply I7; [exact H1|intros an rs Hin; exact (H2 an rs (or_intror Hin))]|]. apply P4. exact (H2 _ _ (or_introl eq_refl)).
    + injection E as <- <-. exists ops, outs. cbn [ip_receiver ip_in ip_calls flat_map snd app ip_got ip_arrived ip_clock]. split; [exact I1|]. split; [rewrite !app_assoc, I2; reflexivity|]. split; [exact I3|]. split; [exact I4|]. split; [exact I5|].
      split; [apply Forall_app; split; [exact I6|constructor; [exact Hf|constructor] ]|]. intros p H1 H2. apply I7; [exact H1|]. intros an rs Hin. exact (H2 an rs (or_intror Hin)).
Qed.

(** * Listening *)

Lemma leaves_filter mtu p s ops : Forall (uleaves p) ops -> exists tms, filter (fromop mtu p s) ops = map arrive (combine (filter (from_node mtu p s) (flat_map odata ops)) tms) /\
  length tms = length (filter (from_node mtu p s) (flat_map odata ops)) /\ subseq tms (flat_map otime ops).
Proof.
  induction 1 as [|op ops Hop _ (tms & I1 & I2 & I3)]; [exists []; split; [reflexivity|]; split; [reflexivity|constructor]|].
  destruct op as [d now pa sa|q m ti jok|q lok|nid]; cbn [filter fromop flat_map odata otime app]; try (exists tms; split; [exact I1|]; split; [exact I2|exact I3]).
  destruct (from_node mtu p s d); [|exists tms; split; [exact I1|]; split; [exact I2|constructor; exact I3] ]. destruct Hop as (-> & ->). exists (now :: tms). cbn [combine map]. rewrite I1. split; [reflexivity|]. split; [cbn [length]; congruence|]. apply subseq_take. exact I3.
Qed.
Lemma ops_times ops : Forall udp_op_ok ops -> Forall (fun x => x < 2 ^ 32) (flat_map otime ops) /\ Forall bytes_ok (flat_map odata ops).
Proof. induction 1 as [|op ops Hop _ (I1 & I2)]; [split; constructor|]. cbn [flat_map]. split; apply Forall_app; split; try assumption; destruct op; cbn [otime odata]; repeat constructor; apply Hop. Qed.
Lemma Forall_sub {A} (P : A -> Prop) l m : (forall x, In x l -> In x m) -> Forall P m -> Forall P l.
Proof. intros H Hm. rewrite Forall_forall in *. auto. Qed.

Theorem ip_listened_stream mtu mtu' rmtu k P R id0 h z p s max arrived ts items : ip_listened mtu' rmtu k P R id0 h z p max arrived ts -> (mtu <= rmtu)%nat ->
  Forall (item_ok mtu p s) items -> rising (map (fun e => h_tid (t_header (fst e))) items) -> filter (from_node rmtu p s) arrived = concat (map snd items) ->
  Forall2 (received_as max) (map fst items) (filter (comes_from p s) ts).
Proof.
  intros (h1 & z1 & ev & o & calls & r & z2 & h2 & -> & H1 & Hin & Hf & E & Hsub & H2 & Hport & Hin' & Hck & Hmem & Harr & ->) Hm Hit Hri Harrived.
  destruct (ip_receives _ _ _ _ _ H1 ltac:(constructor)) as (ops0 & outs0 & A1 & _ & _ & A4 & _). cbn [ip_node_new ip_receiver] in A1. pose proof (urun_hist _ _ _ _ _ _ _ (uh_new rmtu id0) A1 A4) as Hh1.
  destruct z1 as [n rx0 i out0]. cbn [ip_receiver ip_in] in *. subst i.
  assert (Kv : exists o' env group, ev = IpCall o' env group).
  { destruct ev as [o' env group| |answers|d]; [eexists _, _, _; reflexivity| | |]; exfalso; cbn [ip_node_step] in E; try discriminate E. destruct (udp_receive _ _ _) as [ [ [r' a] rest]|]; discriminate E. }
  destruct Kv as (o' & env & group & ->). destruct (ip_call_inv _ _ _ _ _ _ _ _ _ _ _ E) as (a & b & calls' & ro & Er & E1 & Hro & Hi2 & Hp). injection Er as -> <- <-. pose proof (core_calls _ _ _ _ _ E1) as Hc.
  assert (Ks : exists t, calls = [sub_call p t max] /\ b = SubOk).
  { clear -Hsub Hc. destruct o'; cbn [with_answers subscribes calls_of] in *; try contradiction.
    - destruct r; try contradiction. destruct Hsub as (-> & ->). destruct Hc as [(_ & Hc)|(-> & Hc)]; [exfalso; exact (Hc _ eq_refl)|]. eexists. split; [reflexivity|]. destruct b; try discriminate Hc; reflexivity.
    - destruct r; try contradiction. destruct Hsub as (-> & ->). destruct Hc as (-> & Hc). eexists. split; [reflexivity|]. destruct b; try discriminate Hc; reflexivity.
    - destruct r; try contradiction. destruct Hsub as (-> & ->). destruct Hc as (-> & Hc). eexists. split; [reflexivity|]. destruct b; try discriminate Hc; reflexivity. }
  destruct Ks as (t & -> & ->).
  assert (Ko : exists cs, udp_step rmtu rx0 (OSub p max t group) = Ok (ip_receiver z2, GSubbed UdpModel.SubOk cs)).
  { clear -Hp. inversion Hp as [|t1 ip sent ok1 b1 Ep X1|c rop r1 rr a1 Hop Es X1 X2 X3 X4 X5]; subst; [destruct p; discriminate|]. assert (rop = OSub p max t group) as -> by (destruct p; injection Hop as <-; reflexivity).
    pose proof Es as Es'. cbn [udp_step] in Es'. destruct (udp_subscribe rx0 p max t group) as [ [r' ro] cs]. injection Es' as _ <-. exists cs. rewrite Es. destruct ro; try reflexivity; discriminate X5. }
  destruct Ko as (cs & Es). pose proof (uh_step rmtu id0 _ _ (OSub p max t group) _ _ Hh1 I Es) as Hh2. set (hh := (OSub p max t group, GSubbed UdpModel.SubOk cs) :: rev (combine ops0 outs0) ++ []) in *.
  assert (Epp : port_eqb p p = true) by (destruct (port_eqb_spec p p); [reflexivity|congruence]).
  destruct (ip_receives _ _ _ _ _ H2 ltac:(rewrite Hi2; constructor)) as (ops & outs & B1 & B2 & B3 & B4 & B5 & _ & B7). rewrite Hin', app_nil_r, Hi2 in B2. cbn [app] in B2. rewrite Harr in B2. rewrite <- B3. specialize (B7 p Hport Hmem).
  destruct (project _ _ p s _ _ _ _ _ (ip_receiver z2) Hh2 B1 B4 B7 eq_refl) as (r0 & outs1 & J1 & J2). rewrite <- J2.
  destruct (leaves_filter rmtu p s ops B7) as (tms & L1 & L2 & L3). rewrite B2, Harrived in L1, L2. destruct (ops_times ops B4) as (T1 & T2). rewrite B2 in T2.
  destruct (in_turn mtu rmtu id0 p s max t Hm items tms hh (ip_receiver z2) Hit Hri Hh2) as (r1 & outs2 & G1 & G2).
  - unfold hh. cbn [udp_active]. rewrite Epp. reflexivity.
  - unfold hh. cbn [idle]. rewrite Epp. reflexivity.
  - unfold hh. cbn [heard]. rewrite Epp. intros e x [].
  - unfold hh. cbn [heard]. rewrite Epp. cbn [map app]. exact (subseq_ordered _ _ _ L3 (subseq_ordered _ _ _ B5 Hck)).
  - exact (Forall_sub _ _ _ (subseq_in _ _ L3) T1).
  - exact L2.
  - rewrite <- Harrived. refine (Forall_sub _ _ _ _ T2). intros x Hx. apply filter_In in Hx. apply Hx.
  - rewrite L1, G1 in J1. injection J1 as _ <-. exact G2.
Qed.

(** * Panics *)

Lemma heard_times mtu p s h e : In e (heard mtu p s h) -> In (fst e) (flat_map (fun x => otime (fst x)) h).
Proof.
  induction h as [| [op o] h IH]; intro H; [destruct H|]. cbn [flat_map fst]. apply in_or_app. destruct op as [d now pa sa|q m ti jok|q lok|nid]; cbn [heard otime] in *.
  - destruct (parsed mtu d) as [ [f body]|]; [|right; exact (IH H)]. destruct (is_fromb p s f); [|right; exact (IH H)]. apply in_app_or in H. destruct H as [H|[<-|[] ] ]; [right; exact (IH H)|left; left; reflexivity].
  - right. destruct o as [|su ?| |]; try exact (IH H). destruct su; try exact (IH H). destruct (port_eqb q p); [destruct H|exact (IH H)].
  - right. exact (IH H).
  - right. exact (IH H).
Qed.
Lemma packets_total mtu id past answers : forall ds h r, udp_hist mtu id h r -> (forall x, In x (flat_map (fun x => otime (fst x)) h) -> In x past) -> clock_runs (past ++ map (fun a => fst (fst a)) answers) ->
  Forall (fun a => fst (fst a) < 2 ^ 32) answers -> Forall bytes_ok ds -> exists r' a rest, udp_receive mtu r (ip_packets answers ds) = Ok (r', a, rest).
Proof.
  revert past. induction answers as [| [ [now pa] sa] answers IH]; intros past ds h r Hh Hp Hck Hn Hb; [eexists _, _, _; reflexivity|]. destruct ds as [|d ds]; [eexists _, _, _; reflexivity|].
  inversion Hn as [|? ? N1 N2]; subst. inversion Hb as [|? ? B1 B2]; subst. cbn [fst] in N1. unfold ip_packets. cbn [combine map fst snd]. fold (ip_packets answers ds). cbn [udp_receive].
  assert (Hok : udp_op_ok (ODatagram d now pa sa)) by (split; assumption).
  pose proof (C37_no_panic_partial mtu id h r (ODatagram d now pa sa) Hh Hok) as C. cbn [udp_step] in C. destruct (udp_accept mtu r d now pa sa) as [ [r1 o]|] eqn:Ea.
  - assert (Hh1 : udp_hist mtu id ((ODatagram d now pa sa, GGot o) :: h) r1) by (econstructor; [exact Hh|exact Hok|cbn [udp_step]; rewrite Ea; reflexivity]).
    destruct o as [|t|]; try (eexists _, _, _; reflexivity). apply (IH (past ++ [now]) ds _ r1 Hh1); [|rewrite <- app_assoc; exact Hck|exact N2|exact B2].
    intros x Hx. cbn [flat_map fst otime app] in Hx. apply in_or_app. destruct Hx as [<-|Hx]; [right; left; reflexivity|left; exact (Hp x Hx)].
  - exfalso. apply C; [|reflexivity]. intros d' now' pa' sa' Eq p s e He. injection Eq as <- <- <- <-. apply (clock_before past _ now (fst e) Hck); [exact (Hp _ (heard_times _ _ _ _ _ He))|left; reflexivity].
Qed.
Lemma combine_times ops : forall outs : list udp_out, length outs = length ops -> forall x, In x (flat_map (fun x => otime (fst x)) (rev (combine ops outs) ++ [])) -> In x (flat_map otime ops).
Proof.
  intros outs Hl x Hx. rewrite app_nil_r in Hx. apply in_flat_map in Hx. destruct Hx as ([op o] & Hi & Hx). apply in_rev in Hi. apply in_combine_l in Hi. apply in_flat_map. exists op. split; [exact Hi|exact Hx].
Qed.
Lemma ip_path_fine mtu rmtu k P R id0 h z : ip_path mtu rmtu (ip_node_new k P R id0) h z -> core_hist (core_new Transport64 k P R id0) (ip_calls h) (ip_core z) /\ all_fine (ip_calls h).
Proof.
  induction 1 as [|h [n r i o] ev z' res H (I1 & I2) Hf E]; [split; constructor|]. cbn [ip_core] in I1. destruct ev as [op env group| |answers|d].
  - destruct (ip_call_inv _ _ _ _ _ _ _ _ _ _ _ E) as (a & b & calls & ro & -> & E1 & Hro & Hi & Hp). cbn [ip_calls flat_map snd app]. fold (ip_calls h). split; [econstructor; eassumption|]. constructor; [apply serial_answers_fine; apply Hf|exact I2].
  - injection E as <- <-. split; assumption.
  - cbn [ip_node_step] in E. destruct (udp_receive rmtu r _) as [ [ [r' a] rest]|]; [|discriminate E]. injection E as <- <-. split; assumption.
  - injection E as <- <-. split; assumption.
Qed.
Lemma ip_step_total mtu rmtu k P R id0 h z ev : kind_ok Transport64 k -> id_fine id0 -> (28 < mtu)%nat -> ip_path mtu rmtu (ip_node_new k P R id0) h z -> ip_fine mtu ev -> (forall o env group, ev = IpCall o env group -> call_allowed id0 (ip_calls h) o) ->
  clock_runs (ip_clock h ++ readings ev) -> exists z' res, ip_node_step mtu rmtu ev z = Ok (z', res).
Proof.
  intros Hk H0 Hm H Hf Hal Hck. destruct (ip_path_fine _ _ _ _ _ _ _ _ H) as (H1 & H2). destruct (ip_receives _ _ _ _ _ H ltac:(constructor)) as (ops & outs & B1 & _ & _ & B4 & B5 & B6 & _). cbn [ip_node_new ip_receiver] in B1.
  pose proof (urun_hist _ _ _ _ _ _ _ (uh_new rmtu id0) B1 B4) as Hh. pose proof (urun_length _ _ _ _ _ B1) as Hl. destruct z as [n r i o]. cbn [ip_core ip_receiver ip_in] in *. destruct ev as [op env group| |answers|d]; cbn [ip_node_step].
  - destruct (core_step n op) as [ [n1 calls] r1] eqn:E1. specialize (Hal _ _ _ eq_refl). destruct Hf as (Hf & Hlen).
    assert (Kr : r1 <> OPanic) by (refine (allowed_ok64 _ _ _ _ _ _ _ _ _ _ Hk H1 _ Hal E1); intros s Hs; exact (req_id64 _ _ _ _ Hk _ _ _ H1 Hs)).
    assert (Kc : calls = [] \/ (exists t, calls = [CPush t]) \/ exists c rop, calls = [c] /\ ip_op group c = Some rop).
    { pose proof (core_calls _ _ _ _ _ E1) as Hc. destruct op; cbn [calls_of sub_call unsub_call] in Hc; try (destruct Hc as [->|(? & ->)]; [left; reflexivity|right; left; eexists; reflexivity]);
        try (destruct Hc as [(-> & _)|(-> & _)]; [left; reflexivity|right; right; eexists _, _; split; reflexivity]); try (destruct Hc as (-> & _); right; right; eexists _, _; split; reflexivity); subst calls; right; right; eexists _, _; split; reflexivity. }
    assert (Kp : exists z1 a b, ip_perform mtu env group calls (IpNode n r i o) = Ok (z1, a, b)).
    { unfold ip_perform. destruct Kc as [->|[(t & ->)|(c & rop & -> & Hc)] ].
      - eexists _, _, _. reflexivity.
      - pose proof (step_effect64 _ _ _ _ _ _ _ _ _ _ Hk H1 E1 Kr) as He. destruct (effect64_fine _ _ _ _ _ t H0 H2 Hf He (or_introl eq_refl)) as (F1 & F2).
        assert (Hpl : length (t_payload t) = length (payload_of op)).
        { inversion He as [o' c' r' Hn Hq1 X1|lb sub payload e timeout prio Es X1 X2 X3|lb service payload server e timeout prio source Es Ei X1 X2 X3|kk timeout payload e source Ei X1 X2 X3]; subst; [destruct (Hn t (or_introl eq_refl))|reflexivity|reflexivity|reflexivity]. }
        destruct (C30_segmentation mtu t F1 Hm ltac:(rewrite Hpl; exact Hlen)) as (ds & Eds & _). unfold udp_push. rewrite Eds. destruct (send_frames env (h_ts (t_header t)) 0 ds) as [sent ok]. eexists _, _, _. reflexivity.
      - destruct c; try discriminate Hc; try (destruct (udp_subscribe _ _ _ _ _) as [ [? ?] ?]); try (destruct (udp_unsubscribe _ _ _)); eexists _, _, _; reflexivity. }
    destruct Kp as (z1 & a & b & ->). destruct (core_step n (with_answers a b op)) as [ [n2 calls2] r2] eqn:E2.
    assert (Hr2 : r2 <> OPanic) by (refine (allowed_ok64 _ _ _ _ _ _ _ _ _ _ Hk H1 _ _ E2); [intros s Hs; exact (req_id64 _ _ _ _ Hk _ _ _ H1 Hs)|destruct op; exact Hal]).
    destruct r2; try (eexists _, _; reflexivity). congruence.
  - eexists _, _. reflexivity.
  - destruct (packets_total rmtu id0 (flat_map otime ops) answers i _ r Hh (combine_times _ _ Hl)) as (r' & a & rest & ->); [|exact Hf|exact B6|eexists _, _; reflexivity].
    refine (subseq_ordered _ _ _ _ Hck). apply subseq_app; [exact B5|apply subseq_refl].
  - eexists _, _. reflexivity.
Qed.
