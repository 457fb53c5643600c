(** Proofs about serial nodes. *)
From Verif Require Import Base BitLemmas CoreModel CrcModel CrcProofs TabModel TabProofs CobsModel CobsSpec CobsProofs HeaderModel HeaderSpec HeaderProofs SerialModel SerialSpec SerialProofs NodeModel NodeSpec NodeProofs NodeProps
  BusSpec NetSpec NetProofs.

Ltac Zify.zify_post_hook ::= Z.div_mod_to_equations.

(** * Streams of frames *)

Lemma split_eq {A} (a : list A) : forall b c d, length a = length c -> a ++ b = c ++ d -> a = c /\ b = d.
Proof. induction a as [|x a IH]; intros b [|y c] d L E; try discriminate L; [split; [reflexivity|exact E]|]. injection E as -> E. injection L as L. destruct (IH _ _ _ L E) as (-> & ->). split; reflexivity. Qed.

Lemma cons_eq {A} (a : A) l b m : a :: l = b :: m -> a = b /\ l = m.
Proof. intro H. injection H as -> ->. split; reflexivity. Qed.

Section Stream.
  Context (p : port) (max : nat) (node : option N).
  (** Transfers on the port, to the node or to all nodes *)
  Definition mine (t : transfer) : bool := port_eqb p (h_port (t_header t)) && match h_dest (t_header t) with Some d => opt_N_eqb node (Some d) | None => true end.
  Definition on_port (t : transfer) : bool := port_eqb p (h_port (t_header t)).
  Definition got (o : rxout) : list transfer := match o with ODeliver t => [t] | _ => [] end.
  Definition sendable (t : transfer) : Prop := core_header_ok (t_header t) /\ bytes_ok (t_payload t) /\ ~ swallows_zero (frame_data t).

  (** The rest [w] of the frame of [t] (without its last delimiter) is still to come *)
  Definition inside (t : transfer) (w : list N) (r : rx) : Prop :=
    exists u out u' rest, unescape_from u w = Some (u', rest) /\ out ++ rest = frame_data t /\
      ((u = unesc_new /\ out = [] /\ rx_state r = SBetween) \/ ((length out < 24)%nat /\ rx_state r = SHeader u out) \/
       ((24 <= length out)%nat /\ ((rx_state r = SIdle /\ mine t = false) \/
          exists ts crc cap pl, rx_state r = SPayload u (h_set_ts (t_header t) ts) crc cap pl /\ (length pl <= cap)%nat /\ tracker_correct (fst (tracker_run crc rest)) = true /\
            pl ++ firstn (cap - length pl) (snd (tracker_run crc rest)) = firstn cap (t_payload t) /\ (h_port (t_header t) = p -> cap = max)))).
  Definition kept (rem : list transfer) (r : rx) : Prop :=
    rx_node r = node /\ exists sub, subs_find p (rx_subs r) = Some sub /\ ss_max sub = max /\ NoDup (skeys (ss_sessions sub)) /\ forall t, In t rem -> mine t = true -> fresh sub (t_header t).

  Lemma mine_port t : mine t = true -> h_port (t_header t) = p.
  Proof. unfold mine. rewrite andb_true_iff. intros (H & _). destruct (port_eqb_spec p (h_port (t_header t))); congruence. Qed.
  Lemma kept_state rem r s : kept rem r -> kept rem (set_state r s).
  Proof. intros (H1 & sub & H2). split; [exact H1|]. exists sub. exact H2. Qed.
  Lemma inside_state t w r r' : rx_state r' = rx_state r -> inside t w r -> inside t w r'.
  Proof. unfold inside. intros ->. exact (fun H => H). Qed.

  Lemma interested_kept rem r t now : kept rem r -> In t rem ->
    match is_interested r (h_set_ts (t_header t) now) with Some sub => h_port (t_header t) = p -> ss_max sub = max | None => mine t = false end.
  Proof.
    intros (_ & sub & Hf & Hm & _ & Hfr) Hi. destruct (is_interested r (h_set_ts (t_header t) now)) as [sub'|] eqn:E.
    - intro Hp. apply is_interested_sub in E. rewrite h_port_set, Hp, Hf in E. congruence.
    - destruct (mine t) eqn:Em; [|reflexivity]. rewrite (interested_of r (h_set_ts (t_header t) now) sub) in E; [discriminate E|rewrite h_port_set, (mine_port t Em); exact Hf|].
      intros s se Hs Hse. rewrite h_source_set in Hs. rewrite h_tid_set. exact (Hfr t Hi Em s se Hs Hse).
  Qed.

  Lemma inside_byte rem t b w r now sa : sendable t -> In t rem -> kept rem r -> inside t (b :: w) r -> exists r', handle_byte r b now true sa = Ok (r', ONone) /\ inside t w r' /\ kept rem r'.
  Proof.
    intros (Hok & Hpl & _) Hin Hk (u & out & u' & rest & Hu & Hd & Hst).
    cbn [unescape_from] in Hu. destruct (unesc_accept u b) as [|u1 o] eqn:Ea; [discriminate Hu|]. destruct (unescape_from u1 w) as [ [u2 rest2]|] eqn:Ew; [|discriminate Hu].
    assert (Hb : b <> 0) by (intros ->; discriminate Ea).
    assert (K : forall r0, rx_state r0 = SHeader u out -> (length out < 24)%nat -> kept rem r0 -> exists r', handle_byte r0 b now true sa = Ok (r', ONone) /\ inside t w r' /\ kept rem r').
    { intros r0 Hs Hl Hk0. unfold handle_byte. rewrite Hs, Ea. destruct o as [y|]; injection Hu as <- <-.
      - unfold hdr_push. change SIZE with 24%nat. destruct (Nat.ltb_spec (length out) 24); [|lia]. rewrite app_length. cbn [length]. destruct (Nat.eqb_spec (length out + 1) 24) as [E24|].
        + change (frame_data t) with (header_encode (of_core_header (t_header t)) ++ t_payload t ++ le_bytes 4 (crc32 (t_payload t))) in Hd.
          assert (Hd' : (out ++ [y]) ++ rest2 = header_encode (of_core_header (t_header t)) ++ t_payload t ++ le_bytes 4 (crc32 (t_payload t))) by (rewrite <- app_assoc; exact Hd).
          destruct (header_encode_bytes (of_core_header (t_header t))) as (_ & Hhl). apply split_eq in Hd'; [|rewrite app_length, Hhl; cbn [length]; lia]. destruct Hd' as (E1 & E2). rewrite E1.
          destruct (core_of_core (t_header t) Hok) as (Hfok & _). rewrite header_round_trip by exact Hfok. rewrite as_core_set_ts. pose proof (interested_kept rem r0 t now Hk0 Hin) as Hi.
          destruct (is_interested r0 (h_set_ts (t_header t) now)) as [sub|].
          * eexists. split; [reflexivity|]. split; [|apply kept_state, Hk0]. exists u1, (out ++ [y]), u2, rest2. split; [exact Ew|]. split; [rewrite <- app_assoc; exact Hd|]. right. right. split; [rewrite app_length; cbn [length]; lia|]. right.
            assert (Hr : bytes_ok rest2) by (rewrite E2; apply bytes_ok_app; split; [exact Hpl|apply le_bytes_ok]). pose proof (tracker_spec rest2 Hr) as Htr.
            exists now, tracker_new, (ss_max sub), []. split; [reflexivity|]. split; [cbn [length]; lia|]. destruct (tracker_run tracker_new rest2) as [crc rel]. cbn [fst snd]. destruct Htr as (Hrel & Hcor). split; [apply Hcor; exists (t_payload t); exact E2|]. split; [|exact Hi].
            rewrite Hrel. unfold but_last4. rewrite E2, app_length, le_bytes_length. replace (length (t_payload t) + 4 - 4)%nat with (length (t_payload t)) by lia. rewrite firstn_exact. cbn [app length]. rewrite Nat.sub_0_r. reflexivity.
          * eexists. split; [reflexivity|]. split; [|apply kept_state, Hk0]. exists u1, (out ++ [y]), u2, rest2. split; [exact Ew|]. split; [rewrite <- app_assoc; exact Hd|]. right. right. split; [rewrite app_length; cbn [length]; lia|]. left. split; [reflexivity|exact Hi].
        + eexists. split; [reflexivity|]. split; [|apply kept_state, Hk0]. exists u1, (out ++ [y]), u2, rest2. split; [exact Ew|]. split; [rewrite <- app_assoc; exact Hd|]. right. left. split; [rewrite app_length; cbn [length]; lia|reflexivity].
      - eexists. split; [reflexivity|]. split; [|apply kept_state, Hk0]. exists u1, out, u2, rest2. split; [exact Ew|]. split; [exact Hd|]. right. left. split; [exact Hl|reflexivity]. }
    destruct Hst as [(-> & -> & Hs)|[(Hl & Hs)|(Hl & [(Hs & Hm)|(ts & crc & cap & pl & Hs & Hc & Htr & Hp & Hcap)])] ].
    - rewrite between_as_header by assumption. apply K; [reflexivity|cbn [length]; lia|apply kept_state, Hk].
    - exact (K r Hs Hl Hk).
    - unfold handle_byte. rewrite Hs. destruct (N.eqb_spec b 0); [contradiction|]. eexists. split; [reflexivity|]. split; [|apply kept_state, Hk].
      exists u1, (out ++ match o with Some y => [y] | None => [] end), u2, rest2. split; [exact Ew|]. split; [rewrite <- app_assoc; destruct o as [y|]; injection Hu as <- <-; exact Hd|]. right. right. split; [rewrite app_length; lia|]. left. split; [reflexivity|exact Hm].
    - unfold handle_byte. rewrite Hs, Ea. destruct o as [y|]; injection Hu as <- <-.
      + cbn [tracker_run] in Htr, Hp. destruct (tracker_digest crc y) as [crc1 o1]. destruct (tracker_run crc1 rest2) as [crc2 rel] eqn:Et. cbn [fst snd] in Htr, Hp.
        eexists. split; [reflexivity|]. split; [|apply kept_state, Hk]. exists u1, (out ++ [y]), u2, rest2. split; [exact Ew|]. split; [rewrite <- app_assoc; exact Hd|]. right. right. split; [rewrite app_length; lia|]. right.
        eexists ts, crc1, cap, _. split; [reflexivity|]. rewrite Et. cbn [fst snd]. destruct o1 as [x|].
        * destruct (Nat.ltb_spec (length pl) cap).
          -- rewrite app_length. cbn [length]. split; [lia|]. split; [exact Htr|]. split; [|exact Hcap]. rewrite <- Hp, <- app_assoc. replace (cap - length pl)%nat with (S (cap - (length pl + 1)))%nat by lia. reflexivity.
          -- split; [exact Hc|]. split; [exact Htr|]. split; [|exact Hcap]. rewrite <- Hp. replace (cap - length pl)%nat with 0%nat by lia. reflexivity.
        * split; [exact Hc|]. split; [exact Htr|]. split; [exact Hp|exact Hcap].
      + eexists. split; [reflexivity|]. split; [|apply kept_state, Hk]. exists u1, out, u2, rest2. split; [exact Ew|]. split; [exact Hd|]. right. right. split; [exact Hl|]. right. exists ts, crc, cap, pl. split; [reflexivity|]. auto.
  Qed.

  (** The last delimiter *)
  Lemma inside_end rem t r now sa : sendable t -> kept rem r -> inside t [] r -> (forall t', In t' rem -> mine t' = true -> mine t = true -> h_tid (t_header t) < h_tid (t_header t')) ->
    exists r' o, handle_byte r 0 now true sa = Ok (r', o) /\ rx_state r' = SBetween /\ kept rem r' /\ Forall2 (received_as max) (filter mine [t]) (filter on_port (got o)).
  Proof.
    intros (Hok & Hpl & _) Hk (u & out & u' & rest & Hu & Hd & Hst) Hlt. cbn [unescape_from] in Hu. injection Hu as <- <-. rewrite app_nil_r in Hd.
    assert (Hlen : (28 <= length out)%nat) by (rewrite Hd, frame_data_length; lia).
    destruct Hst as [(_ & -> & _)|[(Hl & _)|(_ & [(Hs & Hm)|(ts & crc & cap & pl & Hs & Hc & Htr & Hp & Hcap)])] ]; [cbn [length] in Hlen; lia|lia| |].
    - unfold handle_byte. rewrite Hs. eexists _, _. split; [reflexivity|]. split; [reflexivity|]. split; [apply kept_state, Hk|]. cbn [filter got]. rewrite Hm. constructor.
    - unfold handle_byte. rewrite Hs. unfold unesc_accept. cbn [N.eqb]. cbn [tracker_run fst snd] in Htr, Hp. rewrite firstn_nil, app_nil_r in Hp. subst pl.
      assert (Hk' : kept rem (set_state r SBetween)) by (apply kept_state, Hk). set (r0 := set_state r SBetween) in *. set (h := h_set_ts (t_header t) ts). unfold complete_transfer. rewrite Htr. cbn [negb].
      assert (Hfs : forall sub, find_subscription r0 h = Some sub -> on_port t = mine t).
      { intros sub Hf. unfold on_port, mine. destruct Hk' as (Hn & _). unfold find_subscription in Hf. unfold h in Hf. destruct (t_header t) as [m|s|s]; cbn [h_set_ts h_dest sh_dest h_port] in *; [rewrite andb_true_r; reflexivity|..]; rewrite Hn in Hf; destruct (opt_N_eqb node (Some (sh_dest s))); try discriminate Hf; rewrite andb_true_r; reflexivity. }
      assert (Hfn : find_subscription r0 h = None -> mine t = false).
      { intro Hf. destruct (mine t) eqn:Em; [|reflexivity]. pose proof (mine_port t Em) as Ep. destruct Hk' as (Hn & sub & Hsub & _). unfold mine in Em. rewrite andb_true_iff in Em. destruct Em as (_ & Em).
        rewrite (find_of r0 h sub) in Hf; [discriminate Hf|unfold h; rewrite h_port_set, Ep; exact Hsub|]. intros d Hd'. unfold h in Hd'. rewrite h_dest_set in Hd'. rewrite Hd' in Em. rewrite Hn. unfold opt_N_eqb in Em. destruct node as [x|]; [|discriminate Em]. apply N.eqb_eq in Em. congruence. }
      destruct (find_subscription r0 h) as [sub|] eqn:Ef; [|eexists _, _; split; [reflexivity|]; split; [reflexivity|]; split; [exact Hk'|]; cbn [filter got]; rewrite (Hfn eq_refl); constructor].
      eexists _, _. split; [reflexivity|]. split; [destruct (h_source h); [destruct sa|]; reflexivity|]. split.
      + destruct (h_source h) as [s|] eqn:Es; [|exact Hk']. destruct sa; [|exact Hk']. destruct Hk' as (Hn & sub0 & Hsub & Hmax & Hnd & Hfr). split; [exact Hn|]. cbn [rx_subs]. rewrite subs_update_spec.
        destruct (port_eqb_spec (h_port h) p) as [Ep|]; [|exists sub0; auto]. rewrite Hsub. cbn [option_map]. eexists. split; [reflexivity|]. cbn [ss_max ss_sessions]. split; [exact Hmax|].
        destruct (sess_insert_spec s (Session (t_add (h_ts h) (ss_timeout sub)) (h_tid h)) (ss_sessions sub0) Hnd) as (S1 & S2). split; [exact S1|].
        intros t' Ht' Hm' s' se Hs' Hse. cbn [ss_sessions] in Hse. rewrite S2 in Hse. destruct (s =? s'); [|exact (Hfr t' Ht' Hm' s' se Hs' Hse)]. injection Hse as <-. cbn [se_tid]. unfold h. rewrite h_tid_set.
        apply (Hlt t' Ht' Hm'). rewrite <- (Hfs sub eq_refl). unfold on_port. unfold h in Ep. rewrite h_port_set in Ep. rewrite Ep. destruct (port_eqb_spec p p); congruence.
      + cbn [filter got]. unfold on_port at 1. cbn [t_header]. unfold h. rewrite h_port_set. fold (on_port t). rewrite (Hfs sub eq_refl). destruct (mine t) eqn:Em; [|constructor]. constructor; [|constructor].
        split; [exists ts; reflexivity|]. split; [reflexivity|]. cbn [t_payload]. rewrite (Hcap (mine_port t Em)). reflexivity.
  Qed.

  Lemma kept_incl rem rem' r : incl rem' rem -> kept rem r -> kept rem' r.
  Proof. intros Hi (H1 & sub & H2 & H3 & H4 & H5). split; [exact H1|]. exists sub. split; [exact H2|]. split; [exact H3|]. split; [exact H4|]. intros t Ht. apply H5, Hi, Ht. Qed.
  Lemma inside_start t r : sendable t -> rx_state r = SBetween -> inside t (enc [] (frame_data t)) r.
  Proof.
    intros (_ & Hpl & Hsw) Hs. pose proof (unescape_enc_nil (frame_data t) (frame_data_bytes t Hpl)) as E. rewrite (proj2 (lossy_iff _) Hsw) in E. unfold unescape in E. destruct (unescape_from unesc_new (enc [] (frame_data t))) as [ [u out]|] eqn:Eu; [|discriminate E].
    assert (E' : out = frame_data t) by (cbn [option_map snd] in E; congruence). exists unesc_new, [], u, out. split; [exact Eu|]. split; [exact E'|]. left. auto.
  Qed.

  (** The bytes still to come are those of the frames of [rem], the first of which may have begun *)
  Definition stream (rem : list transfer) (bytes : list N) (r : rx) : Prop :=
    ((rx_state r = SIdle \/ rx_state r = SBetween) /\ bytes = flat_map wire_frame rem) \/
    exists t rem' w, rem = t :: rem' /\ inside t w r /\ bytes = w ++ 0 :: flat_map wire_frame rem'.
  Definition op_byte (op : rxop) : list N := match op with XByte b _ _ _ => [b] | _ => [] end.
  Definition op_leaves (op : rxop) : Prop := match op with XByte _ _ a _ => a = true | XSub q _ _ _ | XUnsub q => q <> p | XSetId _ => False | XClean _ => True end.
  Fixpoint rising (l : list N) : Prop := match l with a :: (b :: _) as r => a < b /\ rising r | _ => True end.
  Lemma rising_all l : forall a, rising (a :: l) -> rising l /\ forall x, In x l -> a < x.
  Proof.
    induction l as [|b l IH]; intros a H; [split; [exact I|intros x []]|]. destruct H as (H1 & H2). split; [exact H2|]. intros x [<-|Hx]; [exact H1|]. destruct (IH b H2) as (_ & K). specialize (K x Hx). lia.
  Qed.
  Lemma stream_state rem bytes r r' : rx_state r' = rx_state r -> stream rem bytes r -> stream rem bytes r'.
  Proof. intros E [H|(t & rem' & w & H1 & H2 & H3)]; [left; rewrite E; exact H|right; exists t, rem', w; split; [exact H1|]; split; [exact (inside_state t w r r' E H2)|exact H3] ]. Qed.

  Definition mine_ids (rem : list transfer) : list N := map (fun t => h_tid (t_header t)) (filter mine rem).
  Lemma stream_step rem bytes bytes' r op r' o : Forall sendable rem -> rising (mine_ids rem) -> subs_nodup (rx_subs r) -> stream rem bytes r -> kept rem r -> op_leaves op -> bytes = op_byte op ++ bytes' -> rx_step r op = Ok (r', o) ->
    exists fin rem', rem = fin ++ rem' /\ stream rem' bytes' r' /\ kept rem' r' /\ Forall2 (received_as max) (filter mine fin) (filter on_port (got o)).
  Proof.
    intros Hs Hr Hnd Hst Hk Hop Hb E. destruct op as [now|b now a sa|q m to al|q|id]; cbn [op_byte op_leaves app rx_step] in *.
    - injection E as <- <-. exists [], rem. subst bytes'. split; [reflexivity|]. split; [exact (stream_state _ _ r _ eq_refl Hst)|]. split; [|constructor]. destruct Hk as (H1 & sub & H2 & H3 & H4 & H5). split; [exact H1|]. exists (sub_clean now sub).
      split; [cbn [rx_clean rx_subs]; rewrite subs_map_spec, H2; reflexivity|]. split; [exact H3|]. destruct (clean_loop_spec now _ (ss_sessions sub) H4 (le_n _)) as (C1 & C2). split; [exact C1|].
      intros t Ht Hm s se Es Hl. cbn [sub_clean ss_sessions] in Hl. rewrite C2 in Hl. destruct (lookup s (ss_sessions sub)) as [se'|] eqn:El; [|discriminate Hl]. cbn [unexpired] in Hl. destruct (t_lt (se_exp se') now); [discriminate Hl|]. injection Hl as <-. exact (H5 t Ht Hm s se' Es El).
    - subst a. destruct Hst as [(Hst & ->)|(t & rem' & w & -> & Hin & ->)].
      + destruct rem as [|t rem]; [discriminate Hb|]. cbn [flat_map] in Hb. unfold wire_frame at 1 in Hb. cbn [app] in Hb. apply cons_eq in Hb. destruct Hb as (<- & <-).
        assert (Hz : handle_byte r 0 now true sa = Ok (set_state r SBetween, ONone)) by (unfold handle_byte; destruct Hst as [-> | ->]; reflexivity). rewrite Hz in E. injection E as <- <-.
        exists [], (t :: rem). split; [reflexivity|]. split; [|split; [apply kept_state, Hk|constructor] ]. right. exists t, rem, (enc [] (frame_data t)). split; [reflexivity|]. split; [apply inside_start; [exact (Forall_inv Hs)|reflexivity]|]. rewrite <- app_assoc. reflexivity.
      + destruct w as [|b' w]; cbn [app] in Hb; apply cons_eq in Hb; destruct Hb as (<- & <-).
        * destruct (inside_end rem' t r now sa (Forall_inv Hs) (kept_incl _ _ _ (incl_tl t (incl_refl rem')) Hk) Hin) as (r1 & o1 & E1 & S1 & K1 & F1).
          { intros t' Ht' Hm' Hm. unfold mine_ids in Hr. cbn [filter] in Hr. rewrite Hm in Hr. cbn [map] in Hr. destruct (rising_all _ _ Hr) as (_ & K). apply K. apply (in_map (fun t => h_tid (t_header t))), filter_In. split; assumption. }
          rewrite E1 in E. injection E as <- <-. exists [t], rem'. split; [reflexivity|]. split; [left; split; [right; exact S1|reflexivity]|]. split; [exact K1|exact F1].
        * destruct (inside_byte (t :: rem') t b' w r now sa (Forall_inv Hs) (or_introl eq_refl) Hk Hin) as (r1 & E1 & I1 & K1). rewrite E1 in E. injection E as <- <-. exists [], (t :: rem'). split; [reflexivity|]. split; [|split; [exact K1|constructor] ].
          right. exists t, rem', w. auto.
    - injection E as E. destruct (rx_subscribe_spec r q m to al r' o Hnd E) as (S1 & S2 & _ & S3). exists [], rem. subst bytes'. split; [reflexivity|]. split; [exact (stream_state _ _ r _ S1 Hst)|].
      assert (Ho : got o = []) by (destruct S3 as [(-> & _)|(-> & _)]; [reflexivity|destruct al; reflexivity]). rewrite Ho. split; [|constructor]. destruct Hk as (H1 & sub & H2 & H3). split; [congruence|]. exists sub. split; [|exact H3].
      destruct S3 as [(_ & ->)|(_ & S3)]; [exact H2|]. rewrite S3. destruct (port_eqb_spec q p); [contradiction|exact H2].
    - injection E as <- <-. exists [], rem. subst bytes'. split; [reflexivity|]. split; [exact (stream_state _ _ r _ eq_refl Hst)|]. split; [|constructor]. destruct Hk as (H1 & sub & H2 & H3). split; [exact H1|]. exists sub. split; [|exact H3].
      cbn [rx_unsubscribe rx_subs]. rewrite (proj2 (subs_unsubscribe_spec q _ Hnd)). destruct (port_eqb_spec q p); [contradiction|exact H2].
    - destruct Hop.
  Qed.

  Lemma stream_run ops : forall rem r id h r' outs, Forall sendable rem -> rising (mine_ids rem) -> rx_hist id h r -> stream rem (flat_map op_byte ops) r -> kept rem r -> Forall op_leaves ops -> rx_run r ops = Ok (r', outs) ->
    Forall2 (received_as max) (filter mine rem) (filter on_port (flat_map got outs)).
  Proof.
    induction ops as [|op ops IH]; intros rem r id h r' outs Hs Hr Hh Hst Hk Hop E; cbn [rx_run flat_map] in *.
    - injection E as <- <-. cbn [flat_map filter]. destruct Hst as [(_ & Eb)|(t & rem' & w & _ & _ & Eb)]; [|destruct w; discriminate Eb]. destruct rem as [|t rem]; [constructor|]. cbn [flat_map] in Eb. unfold wire_frame at 1 in Eb. cbn [app] in Eb. exfalso. exact (nil_cons Eb).
    - inversion Hop as [|? ? Ho Hop']; subst. destruct (rx_step r op) as [ [r1 o]|] eqn:E1; [|discriminate E]. destruct (rx_run r1 ops) as [ [r2 os]|] eqn:E2; [|discriminate E]. injection E as <- <-.
      destruct (stream_step rem _ (flat_map op_byte ops) r op r1 o Hs Hr (proj1 (rx_hist_inv _ _ _ Hh)) Hst Hk Ho eq_refl E1) as (fin & rem' & -> & S1 & S2 & S3).
      apply Forall_app in Hs. destruct Hs as (_ & Hs'). cbn [flat_map]. rewrite !filter_app. apply Forall2_app; [exact S3|].
      refine (IH rem' r1 id ((op, o) :: h) r2 os Hs' _ (RH_step _ _ _ _ _ _ Hh E1) S1 S2 Hop' E2).
      unfold mine_ids in *. rewrite filter_app, map_app in Hr. clear -Hr. revert Hr. induction (map (fun t => h_tid (t_header t)) (filter mine fin)) as [|a l IHl]; intro Hr; [exact Hr|]. apply IHl. exact (proj1 (rising_all _ _ Hr)).
  Qed.
End Stream.
