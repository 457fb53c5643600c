(** Proofs about basic nodes. *)
From Verif Require Import Base CoreModel NodeModel NodeSpec EncModel EncSpec EncWriteProofs EncReadProofs EncProps BlsModel GenModel GenSpec GenLenProofs GenSizeProofs GenWriteProofs GenReadProofs GenProps GenBoundProofs DataTypes BasicModel BasicSpec.
Ltac Zify.zify_post_hook ::= Z.div_mod_to_equations.

(** ** Payloads *)

Lemma payload_carries m v : compiles m -> good m = true -> readable m = true -> bound m < 8 * (2 ^ 32 - 1) -> kept m v = true ->
  exists bytes, payload_of m v = Ok bytes /\ carries m bytes v /\ 8 * N.of_nat (length bytes) <= bound m.
Proof.
  intros C G R B K. pose proof (kept_fits m v K) as F. pose proof (bound_right m v F) as Bv. assert (S : short (enc m v)) by (unfold short; lia).
  pose proof (C67_size_partial m v C G F) as Es. unfold payload_of. set (buffer := repeat 0 ((size_bits m v + 7) / 8)%nat).
  assert (L : length buffer = ((size_bits m v + 7) / 8)%nat) by apply repeat_length.
  destruct (C66_encoding_partial m v buffer C G F S ltac:(lia)) as (b & E & Lb & Hb & Hs). exists b. split; [exact E|]. split; [|lia]. split; [exact Hb|].
  intros more M. exact (C68_round_trip_partial m v buffer b more C G R K L S E M).
Qed.
Ltac compiled_type := split; [vm_compute; reflexivity|eexists; vm_compute; reflexivity].
Lemma heartbeat_payload v : kept heartbeat_t v = true -> exists bytes, payload_of heartbeat_t v = Ok bytes /\ carries heartbeat_t bytes v /\ 8 * N.of_nat (length bytes) <= 172.
Proof. change 172 with (bound heartbeat_t). apply payload_carries; [compiled_type|vm_compute; reflexivity..]. Qed.
Lemma get_info_payload v : kept get_info_t v = true -> exists bytes, payload_of get_info_t v = Ok bytes /\ carries get_info_t bytes v /\ 8 * N.of_nat (length bytes) <= 2894.
Proof. change 2894 with (bound get_info_t). apply payload_carries; [compiled_type|vm_compute; reflexivity..]. Qed.
Lemma port_list_payload v : kept port_list_t v = true -> exists bytes, payload_of port_list_t v = Ok bytes /\ carries port_list_t bytes v /\ 8 * N.of_nat (length bytes) <= 31589.
Proof. change 31589 with (bound port_list_t). apply payload_carries; [compiled_type|vm_compute; reflexivity..]. Qed.

Lemma heartbeat_kept h : hb_uptime h < 2 ^ 32 -> hb_health h < 4 -> hb_mode h < 8 -> hb_status h < 256 -> kept heartbeat_t (heartbeat_value h) = true.
Proof.
  intros H1 H2 H3 H4. unfold kept, heartbeat_t, heartbeat_value, health_t, mode_t, uint. cbn [fits_gen members_fit type_fits scalar_fits prim_fits prim_kept prim_bits]. rewrite !andb_true_r.
  change (2 ^ N.of_nat 32) with (2 ^ 32). change (2 ^ N.of_nat 2) with 4. change (2 ^ N.of_nat 3) with 8. change (2 ^ N.of_nat 8) with 256.
  rewrite !(proj2 (N.ltb_lt _ _)) by assumption. reflexivity.
Qed.

(** ** Bit arrays as sets *)

Definition has_bit (a : bitarray) (i : N) : Prop := ba_get a (N.to_nat i) = Ok true.
Definition mask_ok (len : N) (a : bitarray) : Prop := ba_ok a /\ ba_len a = N.to_nat len.
Lemma mask_value len a : mask_ok len a -> exists bits, bits_value a = Ok (VBits bits) /\ N.of_nat (length bits) = len /\ forall i, i < len -> (nth (N.to_nat i) bits false = true <-> has_bit a i).
Proof.
  intros (O & L). unfold bits_value. rewrite ba_iter_spec by assumption. cbn [bind]. eexists. split; [reflexivity|]. rewrite map_length, seq_length. split; [lia|]. intros i Hi.
  rewrite nth_map_seq. unfold has_bit. rewrite ba_get_spec by (assumption || lia). destruct (Nat.ltb_spec (N.to_nat i) (ba_len a)); [|lia]. rewrite Nat.add_0_l. cbn [andb]. split; congruence.
Qed.
Lemma mask_new n len : (N.to_nat len <= 8 * n)%nat -> exists a, ba_new n (N.to_nat len) = Ok a /\ mask_ok len a /\ forall i, ~ has_bit a i.
Proof.
  intro H. destruct (C60_new_fill n (N.to_nat len)) as (H1 & H2 & _). destruct (ba_new n (N.to_nat len)) as [a|]; [|destruct H1 as (H1 & _); specialize (H1 eq_refl); lia].
  destruct (H2 a eq_refl) as (O & L & G). exists a. split; [reflexivity|]. split; [split; assumption|]. intros i X. unfold has_bit in X. destruct (Nat.ltb_spec (N.to_nat i) (N.to_nat len)); [rewrite G in X by assumption; discriminate|].
  destruct (C60_get_set a (N.to_nat i) true O) as (_ & Y & _). rewrite (proj2 Y) in X by lia. discriminate.
Qed.
Lemma mask_set len a i b : mask_ok len a -> i < len -> exists a', ba_set a (N.to_nat i) b = Ok a' /\ mask_ok len a' /\ forall j, has_bit a' j <-> if j =? i then b = true else has_bit a j.
Proof.
  intros (O & L) Hi. destruct (C60_get_set a (N.to_nat i) b O) as (H1 & _ & H3). destruct (ba_set a (N.to_nat i) b) as [a'|]; [|destruct H1 as (H1 & _); specialize (H1 eq_refl); lia].
  destruct (H3 a' eq_refl) as (O' & L' & G & Gj). exists a'. split; [reflexivity|]. split; [split; [assumption|lia]|]. intro j. unfold has_bit. destruct (N.eqb_spec j i) as [->|N]; [rewrite G; split; congruence|]. rewrite Gj by lia. reflexivity.
Qed.
Lemma mask_fill len a : mask_ok len a -> mask_ok len (ba_fill a true) /\ forall i, i < len -> has_bit (ba_fill a true) i.
Proof.
  intros (Oa & L). destruct (C60_new_fill 0 (N.to_nat len)) as (_ & _ & H). destruct (H a true Oa) as (O' & L' & G).
  split; [split; [assumption|lia]|]. intros i Hi. apply G. lia.
Qed.
Lemma mask_set_all len ids : forall a, mask_ok len a -> Forall (fun i => i < len) ids -> exists a', set_all a ids = Ok a' /\ mask_ok len a' /\ forall j, has_bit a' j <-> In j ids \/ has_bit a j.
Proof.
  induction ids as [|i ids IH]; intros a M F; cbn [set_all].
  - exists a. split; [reflexivity|]. split; [assumption|]. intro j. cbn [In]. tauto.
  - inversion F as [|? ? F1 F2]; subst. destruct (mask_set len a i true M F1) as (a1 & E1 & M1 & H1). rewrite E1. cbn [bind]. destruct (IH a1 M1 F2) as (a2 & E2 & M2 & H2). exists a2. split; [assumption|]. split; [assumption|].
    intro j. rewrite H2, H1. cbn [In]. destruct (N.eqb_spec j i) as [->|N]; [tauto|]. split; [tauto|]. intros [ [->|]|]; tauto.
Qed.

(** ** Subject lists *)

Definition list_ok (l : subject_list) : Prop :=
  match l with Mask a => mask_ok 8192 a | Sparse ids => NoDup ids /\ (length ids <= 255)%nat /\ Forall (fun i => i < 8192) ids | Total => True end.
Definition in_list (l : subject_list) (s : N) : Prop := match l with Mask a => has_bit a s | Sparse ids => In s ids | Total => True end.

Lemma existsb_in s ids : existsb (N.eqb s) ids = true <-> In s ids.
Proof. rewrite existsb_exists. split; [intros (x & H & E); apply N.eqb_eq in E; subst; assumption|intro H; exists s; split; [assumption|apply N.eqb_refl] ]. Qed.
Lemma existsb_not_in s ids : existsb (N.eqb s) ids = false <-> ~ In s ids.
Proof. rewrite <- existsb_in. destruct (existsb _ _); split; congruence. Qed.

Lemma insert_right l s : list_ok l -> s < 8192 -> exists l', insert_into_list l s = Ok l' /\ list_ok l' /\ forall x, in_list l' x <-> x = s \/ in_list l x.
Proof.
  intros O Hs. destruct l as [a|ids|]; cbn [insert_into_list list_ok in_list] in *.
  - destruct (mask_set _ a s true O Hs) as (a' & E & M & H). rewrite E. cbn [bind]. eexists. split; [reflexivity|]. split; [assumption|]. intro x. cbn [in_list]. rewrite H. destruct (N.eqb_spec x s) as [->|N]; tauto.
  - destruct O as (ND & L & F). destruct (existsb (N.eqb s) ids) eqn:E.
    + apply existsb_in in E. eexists. split; [reflexivity|]. split; [repeat split; assumption|]. intro x. cbn [in_list]. split; [tauto|]. intros [->|]; assumption.
    + apply existsb_not_in in E. destruct (Nat.ltb_spec (length ids) 255).
      * eexists. split; [reflexivity|]. cbn [list_ok in_list]. split.
        -- split; [|rewrite app_length; cbn [length]; split; [lia|apply Forall_app; split; [assumption|repeat constructor; assumption] ] ].
           apply (NoDup_Add (Add_app s ids [])). rewrite app_nil_r. split; assumption.
        -- intro x. rewrite in_app_iff. cbn [In]. split; [intros [|[<-|[] ] ]; tauto|intros [->|]; tauto].
      * destruct (mask_new (N.to_nat 1024) 8192) as (a & E0 & M0 & H0); [lia|]. rewrite E0. cbn [bind]. destruct (mask_set_all _ ids a M0 F) as (a1 & E1 & M1 & H1). rewrite E1. cbn [bind].
        destruct (mask_set _ a1 s true M1 Hs) as (a2 & E2 & M2 & H2). rewrite E2. cbn [bind]. eexists. split; [reflexivity|]. split; [exact M2|]. intro x. cbn [in_list]. rewrite H2. specialize (H0 x). destruct (N.eqb_spec x s) as [->|N]; [tauto|]. rewrite H1. tauto.
  - eexists. split; [reflexivity|]. split; [exact I|]. intro x. cbn [in_list]. tauto.
Qed.
Lemma nodup_front (x : N) l : NoDup (l ++ [x]) -> NoDup l.
Proof. intro H. apply NoDup_remove_1 in H. rewrite app_nil_r in H. exact H. Qed.
Lemma replace_first_right id x l : NoDup (l ++ [x]) -> In id l -> NoDup (replace_first id x l) /\ length (replace_first id x l) = length l /\ forall y, In y (replace_first id x l) <-> y <> id /\ (In y l \/ y = x).
Proof.
  induction l as [|z l IH]; intros ND Hi; [destruct Hi|]. cbn [app] in ND. inversion ND as [|? ? N1 N2]; subst. rewrite in_app_iff in N1. cbn [In] in N1. cbn [replace_first]. destruct (N.eqb_spec z id) as [->|E].
  - split; [|split; [reflexivity|] ].
    + constructor; [|apply nodup_front in N2; assumption]. intro X. apply NoDup_remove_2 in N2. rewrite app_nil_r in N2. contradiction.
    + intro y. cbn [In]. split.
      * intros [<-|H]; [split; [intros <-; tauto|tauto]|]. split; [intros ->; tauto|tauto].
      * intros (A & [ [<-|B]| ->]); tauto.
  - destruct Hi as [->|Hi]; [contradiction|]. destruct (IH N2 Hi) as (A & B & C). split; [|split; [cbn [length]; lia|] ].
    + constructor; [|assumption]. rewrite C. intros (_ & [H| ->]); tauto.
    + intro y. cbn [In]. rewrite C. split; [intros [<-|(P & [Q|Q])]; tauto|intros (P & [ [Q|Q]|Q]); tauto].
Qed.
Lemma swap_remove_right id l : NoDup l -> In id l -> NoDup (swap_remove id l) /\ (length (swap_remove id l) <= length l)%nat /\ forall y, In y (swap_remove id l) <-> y <> id /\ In y l.
Proof.
  intros ND Hi. unfold swap_remove. destruct (rev l) as [|x r] eqn:E; [apply (f_equal (@rev N)) in E; rewrite rev_involutive in E; subst; destruct Hi|].
  assert (El : l = rev r ++ [x]) by (rewrite <- (rev_involutive l), E; reflexivity). rewrite El in *. rewrite in_app_iff in Hi. cbn [In] in Hi. destruct (existsb (N.eqb id) r) eqn:Ex.
  - apply existsb_in, in_rev in Ex. destruct (replace_first_right id x (rev r) ND Ex) as (A & B & C). split; [assumption|]. split; [rewrite app_length; lia|]. intro y. rewrite C, in_app_iff. cbn [In]. split; [intros (P & [Q|Q])|intros (P & [Q|[Q|[] ] ])]; auto.
  - apply existsb_not_in in Ex. rewrite in_rev in Ex. destruct Hi as [Hi|[->|[] ] ]; [contradiction|]. split; [apply nodup_front in ND; assumption|]. split; [rewrite app_length; lia|]. intro y. rewrite in_app_iff. cbn [In]. split; [intro H; split; [intros ->; contradiction|tauto]|]. intros (P & [Q|[Q|[] ] ]); [assumption|congruence].
Qed.
Lemma remove_right l s : list_ok l -> s < 8192 -> exists l', remove_from_list l s = Ok l' /\ list_ok l' /\ forall x, x < 8192 -> (in_list l' x <-> x <> s /\ in_list l x).
Proof.
  intros O Hs. destruct l as [a|ids|]; cbn [remove_from_list list_ok in_list] in *.
  - destruct (mask_set _ a s false O Hs) as (a' & E & M & H). rewrite E. cbn [bind]. eexists. split; [reflexivity|]. split; [assumption|]. intros x _. cbn [in_list]. rewrite H. destruct (N.eqb_spec x s) as [->|N]; [split; [discriminate|tauto]|tauto].
  - destruct O as (ND & L & F). eexists. split; [reflexivity|]. cbn [list_ok in_list]. destruct (existsb (N.eqb s) ids) eqn:E.
    + apply existsb_in in E. destruct (swap_remove_right s ids ND E) as (A & B & C). split; [|intros x _; apply C]. split; [assumption|]. split; [lia|]. apply Forall_forall. intros x Hx. apply C in Hx as (_ & Hx). rewrite Forall_forall in F. auto.
    + apply existsb_not_in in E. split; [repeat split; assumption|]. intros x _. split; [|tauto]. intro Hx. split; [intros ->; contradiction|assumption].
  - destruct (mask_new (N.to_nat 1024) 8192) as (a & E0 & M0 & _); [lia|]. rewrite E0. cbn [bind]. destruct (mask_fill _ a M0) as (M1 & H1). destruct (mask_set _ _ s false M1 Hs) as (a2 & E2 & M2 & H2). rewrite E2. cbn [bind]. eexists. split; [reflexivity|]. split; [exact M2|].
    intros x Hx. cbn [in_list]. rewrite H2. specialize (H1 x Hx). destruct (N.eqb_spec x s) as [->|N]; [split; [discriminate|tauto]|tauto].
Qed.

(** what a message can express *)
Definition list_fits (l : subject_list) : Prop :=
  match l with Mask a => mask_ok 8192 a | Sparse ids => (length ids <= 255)%nat /\ Forall (fun i => i < 8192) ids | Total => True end.
Lemma list_ok_fits l : list_ok l -> list_fits l.
Proof. destruct l; cbn [list_ok list_fits]; tauto. Qed.
Lemma subject_list_right l : list_fits l -> exists v, subject_list_value l = Ok v /\ kept subject_id_list_t v = true /\ forall s, s <= 8191 -> (in_subject_list s v <-> in_list l s).
Proof.
  intros O. destruct l as [a|ids|]; cbn [subject_list_value list_fits in_list] in *.
  - destruct (mask_value _ a O) as (bits & E & L & H). rewrite E. cbn [bind]. eexists. split; [reflexivity|]. split.
    + unfold kept, subject_id_list_t. cbn [fits_gen pick type_fits]. apply N.eqb_eq, L.
    + intros s Hs. cbn [in_subject_list]. apply H. lia.
  - destruct O as (L & F). eexists. split; [reflexivity|]. split.
    + unfold kept, subject_id_list_t. cbn [fits_gen pick type_fits]. rewrite map_length. apply andb_true_iff. split; [apply N.leb_le; lia|]. apply forallb_forall. intros y Hy. apply in_map_iff in Hy as (x & <- & Hx).
      unfold subject_id_t, uint. cbn [scalar_fits fits_gen members_fit type_fits prim_fits prim_kept prim_bits]. rewrite !andb_true_r. apply N.ltb_lt. rewrite Forall_forall in F. exact (F x Hx).
    + intros s Hs. cbn [in_subject_list]. rewrite in_map_iff. split; [intros (x & E & Hx); congruence|intro Hx; exists s; split; [reflexivity|assumption] ].
  - eexists. split; [reflexivity|]. split; [reflexivity|]. intros s Hs. cbn [in_subject_list]. tauto.
Qed.
Lemma service_list_right a : mask_ok 512 a -> exists v, bits_value a = Ok v /\ kept service_id_list_t (VStruct [v]) = true /\ forall s, s <= 511 -> (in_service_list s (VStruct [v]) <-> has_bit a s).
Proof.
  intro O. destruct (mask_value _ a O) as (bits & E & L & H). eexists. split; [exact E|]. split.
  - unfold kept, service_id_list_t. cbn [fits_gen members_fit type_fits]. rewrite andb_true_r. apply N.eqb_eq, L.
  - intros s Hs. cbn [in_service_list]. apply H. lia.
Qed.

Definition ports_ok (l : port_list) : Prop := list_ok (pl_publishers l) /\ list_ok (pl_subscribers l) /\ mask_ok 512 (pl_clients l) /\ mask_ok 512 (pl_servers l).
Definition ports_fit (l : port_list) : Prop := list_fits (pl_publishers l) /\ list_fits (pl_subscribers l) /\ mask_ok 512 (pl_clients l) /\ mask_ok 512 (pl_servers l).
Lemma ports_ok_fit l : ports_ok l -> ports_fit l.
Proof. intros (O1 & O2 & O3 & O4). split; [apply list_ok_fits, O1|]. split; [apply list_ok_fits, O2|]. split; assumption. Qed.
Lemma port_list_right l : ports_fit l -> exists v, port_list_value l = Ok v /\ kept port_list_t v = true /\
  says_ports v (in_list (pl_publishers l)) (in_list (pl_subscribers l)) (has_bit (pl_clients l)) (has_bit (pl_servers l)).
Proof.
  intros (O1 & O2 & O3 & O4). unfold port_list_value. destruct (subject_list_right _ O1) as (p & -> & K1 & H1). cbn [bind]. destruct (subject_list_right _ O2) as (s & -> & K2 & H2). cbn [bind].
  destruct (service_list_right _ O3) as (c & -> & K3 & H3). cbn [bind]. destruct (service_list_right _ O4) as (r & -> & K4 & H4). cbn [bind]. eexists. split; [reflexivity|]. split.
  - unfold kept, port_list_t in *. change (fits_gen ?a ?b (Message ?d (KStruct ?fs)) (VStruct ?vs)) with (members_fit a b (fits_gen a b) fs vs). cbn [members_fit type_fits scalar_fits]. rewrite K1, K2, K3, K4. reflexivity.
  - do 4 eexists. split; [reflexivity|]. split; [exact H1|]. split; [exact H2|]. split; [exact H3|exact H4].
Qed.

(** ** Ports in use *)

Definition ports_now (l : port_list) (h : list entry) : Prop :=
  (forall s, s <= 8191 -> (in_list (pl_publishers l) s <-> pub_started s h <> None)) /\
  (forall s, s <= 8191 -> (in_list (pl_subscribers l) s <-> sub_started s h = true)) /\
  (forall s, s <= 511 -> (has_bit (pl_clients l) s <-> req_started s h <> None)) /\
  (forall s, s <= 511 -> (has_bit (pl_servers l) s <-> srv_started s h = true)).
Ltac four := split; [assumption|split; [assumption|split; assumption] ].
Lemma update_ports_right l o calls r : ports_ok l -> op_ok o ->
  exists l', update_ports l o r = Ok l' /\ ports_ok l' /\ forall h, ports_now l h -> ports_now l' ((o, calls, r) :: h).
Proof.
  intros (O1 & O2 & O3 & O4) Ho.
  assert (Same : update_ports l o r = Ok l -> (forall h s, pub_started s ((o, calls, r) :: h) = pub_started s h) -> (forall h s, sub_started s ((o, calls, r) :: h) = sub_started s h) ->
     (forall h s, req_started s ((o, calls, r) :: h) = req_started s h) -> (forall h s, srv_started s ((o, calls, r) :: h) = srv_started s h) ->
     exists l', update_ports l o r = Ok l' /\ ports_ok l' /\ forall h, ports_now l h -> ports_now l' ((o, calls, r) :: h)).
  { intros E P1 P2 P3 P4. exists l. split; [assumption|]. split; [four|]. intros h (H1 & H2 & H3 & H4). unfold ports_now. split; [intros s Hs; rewrite P1; auto|]. split; [intros s Hs; rewrite P2; auto|]. split; [intros s Hs; rewrite P3; auto|intros s Hs; rewrite P4; auto]. }
  assert (Sub : forall s t m a, o = SubscribeMessage s t m a -> r = ODone -> exists l', update_ports l o r = Ok l' /\ ports_ok l' /\ forall h, ports_now l h -> ports_now l' ((o, calls, r) :: h)).
  { intros s t m a -> ->. cbn [op_ok] in Ho. destruct (insert_right _ s O2 ltac:(lia)) as (x & E & Ox & Hx). cbn [update_ports]. rewrite E. cbn [bind]. eexists. split; [reflexivity|]. split; [four|].
    intros h (H1 & H2 & H3 & H4). split; [exact H1|]. split; [|split; [exact H3|exact H4] ]. intros y Hy. cbn [sub_started set_subscribers_list pl_subscribers]. rewrite Hx, (H2 y Hy). destruct (N.eqb_spec s y) as [->|N]; [tauto|]. split; [intros [ -> |]; congruence|tauto]. }
  assert (Pub : forall s t m, o = StartPublishing s t m -> r = ODone -> exists l', update_ports l o r = Ok l' /\ ports_ok l' /\ forall h, ports_now l h -> ports_now l' ((o, calls, r) :: h)).
  { intros s t m -> ->. cbn [op_ok] in Ho. destruct (insert_right _ s O1 ltac:(lia)) as (x & E & Ox & Hx). cbn [update_ports]. rewrite E. cbn [bind]. eexists. split; [reflexivity|]. split; [four|].
    intros h (H1 & H2 & H3 & H4). split; [|split; [exact H2|split; [exact H3|exact H4] ] ]. intros y Hy. cbn [pub_started set_publishers_list pl_publishers]. rewrite Hx, (H1 y Hy). destruct (N.eqb_spec s y) as [->|N]; [split; [discriminate|tauto]|]. split; [intros [ -> |]; congruence|tauto]. }
  assert (Req : forall s t m p a k, o = StartSendingRequests s t m p a -> r = OToken k -> exists l', update_ports l o r = Ok l' /\ ports_ok l' /\ forall h, ports_now l h -> ports_now l' ((o, calls, r) :: h)).
  { intros s t m p a k -> ->. cbn [op_ok] in Ho. destruct (mask_set _ _ s true O3 ltac:(lia)) as (x & E & Ox & Hx). cbn [update_ports]. rewrite E. cbn [bind]. eexists. split; [reflexivity|]. split; [four|].
    intros h (H1 & H2 & H3 & H4). split; [exact H1|]. split; [exact H2|]. split; [|exact H4]. intros y Hy. cbn [req_started set_clients pl_clients]. rewrite Hx. rewrite (N.eqb_sym y s). destruct (N.eqb_spec s y) as [->|N]; [split; [discriminate|tauto]|apply H3, Hy]. }
  assert (Srv : forall s t m a, o = SubscribeRequest s t m a -> r = ODone -> exists l', update_ports l o r = Ok l' /\ ports_ok l' /\ forall h, ports_now l h -> ports_now l' ((o, calls, r) :: h)).
  { intros s t m a -> ->. cbn [op_ok] in Ho. destruct (mask_set _ _ s true O4 ltac:(lia)) as (x & E & Ox & Hx). cbn [update_ports]. rewrite E. cbn [bind]. eexists. split; [reflexivity|]. split; [four|].
    intros h (H1 & H2 & H3 & H4). split; [exact H1|]. split; [exact H2|]. split; [exact H3|]. intros y Hy. cbn [srv_started set_servers pl_servers]. rewrite Hx. rewrite (N.eqb_sym y s). destruct (N.eqb_spec s y) as [->|N]; [tauto|apply H4, Hy]. }
  destruct o; try (apply Same; reflexivity); cbn [op_ok] in Ho.
  - destruct r; try (apply Same; reflexivity). eapply Pub; reflexivity.
  - destruct (remove_right _ subject O1 ltac:(lia)) as (x & E & Ox & Hx). cbn [update_ports]. rewrite E. cbn [bind]. eexists. split; [reflexivity|]. split; [four|].
    intros h (H1 & H2 & H3 & H4). split; [|split; [exact H2|split; [exact H3|exact H4] ] ]. intros y Hy. cbn [pub_started set_publishers_list pl_publishers]. rewrite Hx, (H1 y Hy) by lia. destruct (N.eqb_spec subject y) as [->|N]; [tauto|]. split; [tauto|]. intro X. split; [congruence|assumption].
  - destruct r; try (apply Same; reflexivity). eapply Req; reflexivity.
  - destruct (mask_set _ _ service false O3 ltac:(lia)) as (x & E & Ox & Hx). cbn [update_ports]. rewrite E. cbn [bind]. eexists. split; [reflexivity|]. split; [four|].
    intros h (H1 & H2 & H3 & H4). split; [exact H1|]. split; [exact H2|]. split; [|exact H4]. intros y Hy. cbn [req_started set_clients pl_clients]. rewrite Hx. rewrite (N.eqb_sym y service). destruct (N.eqb_spec service y) as [->|N]; [split; [discriminate|tauto]|apply H3, Hy].
  - destruct r; try (apply Same; reflexivity). eapply Sub; reflexivity.
  - destruct (remove_right _ subject O2 ltac:(lia)) as (x & E & Ox & Hx). cbn [update_ports]. rewrite E. cbn [bind]. eexists. split; [reflexivity|]. split; [four|].
    intros h (H1 & H2 & H3 & H4). split; [exact H1|]. split; [|split; [exact H3|exact H4] ]. intros y Hy. cbn [sub_started set_subscribers_list pl_subscribers]. rewrite Hx, (H2 y Hy) by lia. destruct (N.eqb_spec subject y) as [->|N]; [split; [tauto|discriminate]|]. split; [tauto|]. intro X. split; [congruence|assumption].
  - destruct r; try (apply Same; reflexivity). eapply Srv; reflexivity.
  - destruct (mask_set _ _ service false O4 ltac:(lia)) as (x & E & Ox & Hx). cbn [update_ports]. rewrite E. cbn [bind]. eexists. split; [reflexivity|]. split; [four|].
    intros h (H1 & H2 & H3 & H4). split; [exact H1|]. split; [exact H2|]. split; [exact H3|]. intros y Hy. cbn [srv_started set_servers pl_servers]. rewrite Hx. rewrite (N.eqb_sym y service). destruct (N.eqb_spec service y) as [->|N]; [split; discriminate|apply H4, Hy].
Qed.
Lemma ports_now_other l h o calls r : port_op o = false -> ports_now l h -> ports_now l ((o, calls, r) :: h).
Proof. intros P H. destruct o; try discriminate; exact H. Qed.

(** ** The node inside *)

Lemma inner_step_hist n0 h n o n' e : core_hist n0 h n -> inner_step n o = Ok (n', e) -> core_hist n0 (e :: h) n' /\ fst (fst e) = o /\ core_step n o = (n', snd (fst e), snd e).
Proof.
  intros H E. unfold inner_step in E. destruct (core_step n o) as [ [n1 calls] r] eqn:Es. destruct r; try discriminate; injection E as <- <-; (split; [eapply ch_step; [exact H|exact Es|discriminate]|split; reflexivity]).
Qed.
Lemma inner_publish n s payload e : exists n' calls r, inner_step n (Publish false s payload e) = Ok (n', (Publish false s payload e, calls, r)).
Proof.
  unfold inner_step. cbn [core_step]. unfold publish. destruct (im_get s (c_publishers n)) as [p|]; [|do 3 eexists; reflexivity].
  destruct (publisher_publish _ p e _ s payload false) as [ [p' calls] r]. destruct r; do 3 eexists; reflexivity.
Qed.

(** ** Histories *)

Record basic_inv (b : basic) (l : basic_log) (info : value) : Prop := BasicInv {
  v_ports : ports_ok (b_ports b);
  v_uptime : hb_uptime (b_heartbeat b) = N.min (ticks l) (2 ^ 32 - 1);
  v_mode : hb_mode (b_heartbeat b) = mode_set l /\ mode_set l < 8;
  v_health : hb_health (b_heartbeat b) = health_set l /\ health_set l < 4;
  v_status : hb_status (b_heartbeat b) = status_set l /\ status_set l < 256;
  v_seconds : b_seconds b = if heartbeats l =? 0 then 0 else (heartbeats l - 1) mod 10 + 1;
  v_info : b_info b = info }.

Lemma tick_spec b l info e1 e2 : basic_inv b l info ->
  exists payload n1 calls r, carries heartbeat_t payload (heartbeat_value (heartbeat_tick (b_heartbeat b))) /\ (length payload <= 64)%nat /\
    inner_step (b_node b) (Publish false heartbeat_subject payload e1) = Ok (n1, (Publish false heartbeat_subject payload e1, calls, r)) /\
    let x := (Publish false heartbeat_subject payload e1, calls, r) in
    let b1 := set_node (set_heartbeat b (heartbeat_tick (b_heartbeat b))) n1 in
    (r <> ODone /\ basic_step b (BTick e1 e2) = Ok (b1, [x])) \/
    (r = ODone /\ b_seconds b <> 10 /\ basic_step b (BTick e1 e2) = Ok (set_seconds b1 (b_seconds b + 1), [x])) \/
    (r = ODone /\ b_seconds b = 10 /\ exists v payload2 n2 calls2 r2, port_list_value (b_ports b) = Ok v /\ carries port_list_t payload2 v /\
       inner_step n1 (Publish false port_list_subject payload2 e2) = Ok (n2, (Publish false port_list_subject payload2 e2, calls2, r2)) /\
       basic_step b (BTick e1 e2) = Ok (set_node (set_seconds b1 1) n2, [(Publish false port_list_subject payload2 e2, calls2, r2); x])).
Proof.
  intros [V1 V2 (V3 & V3') (V4 & V4') (V5 & V5') V6 V7]. destruct (heartbeat_payload (heartbeat_value (heartbeat_tick (b_heartbeat b)))) as (payload & E & C & L).
  { apply heartbeat_kept; cbn [heartbeat_tick hb_uptime hb_health hb_mode hb_status]; [lia|lia|lia|lia]. }
  destruct (inner_publish (b_node b) heartbeat_subject payload e1) as (n1 & calls & r & E1). exists payload, n1, calls, r. split; [exact C|]. split; [lia|]. split; [exact E1|]. cbv zeta.
  cbn [basic_step]. unfold basic_tick, publish_value. rewrite E. cbn [bind]. rewrite E1. cbn [bind fst snd].
  destruct r; try (left; split; [discriminate|reflexivity]). right. destruct (N.eqb_spec (b_seconds b) 10) as [S|S]; [right|left; split; [reflexivity|]; split; [assumption|reflexivity] ].
  split; [reflexivity|]. split; [assumption|]. destruct (port_list_right _ (ports_ok_fit _ V1)) as (v & Ev & K & _). destruct (port_list_payload v K) as (p2 & E2 & C2 & _). rewrite Ev. cbn [bind]. rewrite E2. cbn [bind set_node b_node].
  destruct (inner_publish n1 port_list_subject p2 e2) as (n2 & calls2 & r2 & E3). exists v, p2, n2, calls2, r2. split; [reflexivity|]. split; [assumption|]. split; [assumption|]. rewrite E3. reflexivity.
Qed.
Lemma basic_new_spec n info answer b es : basic_new n info answer = Ok (Some b, es) -> exists n1 n2 c1 c2 c3 clients servers,
  inner_step n (SubscribeRequest get_info_service 0 1000000 answer) = Ok (n1, (SubscribeRequest get_info_service 0 1000000 answer, c1, ODone)) /\
  inner_step n1 (StartPublishing port_list_subject 1000000 7) = Ok (n2, (StartPublishing port_list_subject 1000000 7, c2, ODone)) /\
  inner_step n2 (StartPublishing heartbeat_subject 500000 4) = Ok (b_node b, (StartPublishing heartbeat_subject 500000 4, c3, ODone)) /\
  es = [(StartPublishing heartbeat_subject 500000 4, c3, ODone); (StartPublishing port_list_subject 1000000 7, c2, ODone); (SubscribeRequest get_info_service 0 1000000 answer, c1, ODone)] /\
  b = Basic (b_node b) heartbeat_new (PortList (Sparse [heartbeat_subject; port_list_subject]) (Sparse []) clients servers) info 0 /\
  mask_ok 512 clients /\ (forall i, ~ has_bit clients i) /\ mask_ok 512 servers /\ (forall i, has_bit servers i <-> i = get_info_service).
Proof.
  intro E. unfold basic_new in E.
  destruct (inner_step n _) as [ [n1 e1]|] eqn:E1; [|discriminate]. cbn [bind fst snd] in E. assert (F1 : fst (fst e1) = SubscribeRequest get_info_service 0 1000000 answer) by (eapply inner_step_hist; [apply ch_nil|exact E1]). destruct e1 as [ [o1 c1] r1]. cbn [fst snd] in *. subst o1. destruct r1; try discriminate.
  destruct (inner_step n1 _) as [ [n2 e2]|] eqn:E2; [|discriminate]. cbn [bind fst snd] in E. assert (F2 : fst (fst e2) = StartPublishing port_list_subject 1000000 7) by (eapply inner_step_hist; [apply ch_nil|exact E2]). destruct e2 as [ [o2 c2] r2]. cbn [fst snd] in *. subst o2. destruct r2; try discriminate.
  destruct (inner_step n2 _) as [ [n3 e3]|] eqn:E3; [|discriminate]. cbn [bind fst snd] in E. assert (F3 : fst (fst e3) = StartPublishing heartbeat_subject 500000 4) by (eapply inner_step_hist; [apply ch_nil|exact E3]). destruct e3 as [ [o3 c3] r3]. cbn [fst snd] in *. subst o3. destruct r3; try discriminate.
  destruct (mask_new 64 512) as (cl & Ec & Mc & Hc); [lia|]. rewrite Ec in E. cbn [bind] in E. destruct (mask_set _ cl get_info_service true Mc ltac:(reflexivity)) as (sv & Es & Ms & Hs). rewrite Es in E. cbn [bind fst snd] in E.
  assert (b = Basic n3 heartbeat_new (PortList (Sparse [heartbeat_subject; port_list_subject]) (Sparse []) cl sv) info 0) by congruence. subst b. cbn [b_node].
  exists n1, n2, c1, c2, c3, cl, sv. split; [reflexivity|]. split; [assumption|]. split; [assumption|]. split; [symmetry; exact (f_equal (fun x => match x with Ok y => snd y | Panic => [] end) E)|]. split; [reflexivity|]. split; [assumption|]. split; [assumption|]. split; [assumption|]. intro i. rewrite Hs. specialize (Hc i). destruct (N.eqb_spec i get_info_service); tauto.
Qed.
Lemma basic_hist_core n0 h0 info es0 l b : basic_hist n0 h0 info es0 l b -> core_hist n0 (inner es0 l) (b_node b).
Proof.
  intro H. induction H as [n answer b es H E|es0 l b o b' es H IH E].
  - apply basic_new_spec in E as (n1 & n2 & c1 & c2 & c3 & cl & sv & E1 & E2 & E3 & -> & _). unfold inner. cbn [flat_map app]. apply (inner_step_hist _ _ _ _ _ _ H) in E1 as (H1 & _). apply (inner_step_hist _ _ _ _ _ _ H1) in E2 as (H2 & _). apply (inner_step_hist _ _ _ _ _ _ H2) in E3 as (H3 & _). exact H3.
  - unfold inner in *. cbn [flat_map snd]. rewrite <- app_assoc. set (h := flat_map snd l ++ es0) in *. destruct o; cbn [basic_step] in E.
    + destruct (inner_step _ _) as [ [n' e]|] eqn:Ei; [|discriminate]. cbn [bind fst snd] in E. destruct (update_ports _ _ _); [|discriminate]. cbn [bind] in E. injection E as <- <-. cbn [set_ports set_node b_node app]. eapply inner_step_hist; eassumption.
    + destruct (inner_step _ _) as [ [n' e]|] eqn:Ei; [|discriminate]. cbn [bind fst snd] in E. injection E as <- <-. cbn [set_node b_node app]. eapply inner_step_hist; eassumption.
    + unfold basic_tick, publish_value in E. destruct (payload_of heartbeat_t _); [|discriminate]. cbn [bind] in E. destruct (inner_step _ _) as [ [n' e]|] eqn:Ei; [|discriminate]. cbn [bind fst snd] in E. pose proof (inner_step_hist _ _ _ _ _ _ IH Ei) as (Hh & _).
      destruct (snd e); try (injection E as <- <-; exact Hh). destruct (b_seconds b =? 10); [|injection E as <- <-; exact Hh]. destruct (port_list_value _); [|discriminate]. cbn [bind] in E. destruct (payload_of port_list_t _); [|discriminate]. cbn [bind] in E. cbn [set_node b_node] in E.
      destruct (inner_step n' _) as [ [n'' e']|] eqn:Ej; [|discriminate]. cbn [bind fst snd] in E. injection E as <- <-. cbn [set_node b_node app]. eapply inner_step_hist; eassumption.
    + injection E as <- <-. exact IH.
    + injection E as <- <-. exact IH.
    + injection E as <- <-. exact IH.
Qed.
Lemma basic_hist_inv n0 h0 info es0 l b : basic_hist n0 h0 info es0 l b -> Forall basic_op_ok (map fst l) -> basic_inv b l info.
Proof.
  intro H. induction H as [n answer b es H E|es0 l b o b' es H IH E]; intro F.
  - apply basic_new_spec in E as (n1 & n2 & c1 & c2 & c3 & cl & sv & _ & _ & _ & _ & -> & Mc & Hc & Ms & Hs). constructor; try reflexivity; try (split; reflexivity). cbn [b_ports]. unfold ports_ok. cbn [pl_publishers pl_subscribers pl_clients pl_servers list_ok].
    split; [|split; [|split; assumption] ].
    + split; [repeat constructor; cbn [In]; [intros [X|[] ]; discriminate|tauto]|]. split; [cbn [length]; lia|]. repeat constructor.
    + split; [constructor|]. split; [cbn [length]; lia|constructor].
  - cbn [map fst] in F. inversion F as [|? ? F1 F2]; subst. specialize (IH F2). destruct o; cbn [basic_op_ok] in F1.
    + destruct IH. cbn [basic_step] in E. destruct (inner_step _ _) as [ [n' e]|] eqn:Ei; [|discriminate]. cbn [bind fst snd] in E. destruct (update_ports_right _ o (snd (fst e)) (snd e) v_ports0 F1) as (l' & El & Ol & _). rewrite El in E. cbn [bind] in E. injection E as <- <-. constructor; assumption.
    + destruct IH. cbn [basic_step] in E. destruct (inner_step _ _) as [ [n' e]|] eqn:Ei; [|discriminate]. cbn [bind fst snd] in E. injection E as <- <-. constructor; assumption.
    + destruct (tick_spec b l info e1 e2 IH) as (payload & n1 & calls & r & _ & _ & _ & T). cbv zeta in T. destruct IH. destruct T as [(R & T)|[(R & S & T)|(R & S & v & p2 & n2 & c2 & r2 & _ & _ & _ & T)] ]; rewrite T in E; injection E as <- <-; constructor; try assumption;
        cbn [ticks mode_set health_set status_set heartbeats set_node set_seconds set_heartbeat b_heartbeat b_seconds heartbeat_tick hb_uptime hb_health hb_mode hb_status existsb accepted published] in *; try (rewrite v_uptime0; lia).
      * destruct r; try contradiction; cbn [orb]; rewrite N.add_0_l; exact v_seconds0.
      * subst r. rewrite N.eqb_refl. cbn [orb]. destruct (N.eqb_spec (1 + heartbeats l) 0); [lia|]. destruct (N.eqb_spec (heartbeats l) 0) as [Z|Z]; [rewrite Z in *; rewrite v_seconds0; reflexivity|]. replace (1 + heartbeats l - 1) with (heartbeats l) by lia. lia.
      * subst r. change (port_list_subject =? heartbeat_subject) with false. rewrite N.eqb_refl. replace (match r2 with ODone => false | _ => false end) with false by (destruct r2; reflexivity). cbn [orb]. destruct (N.eqb_spec (1 + heartbeats l) 0); [lia|]. destruct (N.eqb_spec (heartbeats l) 0) as [Z|Z]; [lia|]. replace (1 + heartbeats l - 1) with (heartbeats l) by lia. lia.
    + destruct IH as [V1 V2 V3 V4 V5 V6 V7]. injection E as <- <-. constructor; cbn [set_heartbeat b_ports b_heartbeat b_seconds b_info hb_uptime hb_health hb_mode hb_status]; try assumption. split; [reflexivity|assumption].
    + destruct IH as [V1 V2 V3 V4 V5 V6 V7]. injection E as <- <-. constructor; cbn [set_heartbeat b_ports b_heartbeat b_seconds b_info hb_uptime hb_health hb_mode hb_status]; try assumption. split; [reflexivity|assumption].
    + destruct IH as [V1 V2 V3 V4 V5 V6 V7]. injection E as <- <-. constructor; cbn [set_heartbeat b_ports b_heartbeat b_seconds b_info hb_uptime hb_health hb_mode hb_status]; try assumption. split; [reflexivity|assumption].
Qed.
Lemma basic_hist_ports n0 info es0 l b : basic_hist n0 [] info es0 l b -> Forall basic_op_ok (map fst l) -> forallb direct (map fst l) = true -> ports_now (b_ports b) (inner es0 l).
Proof.
  intro H. remember [] as h0 eqn:Eh in H. induction H as [n answer b es H E|es0 l b o b' es H IH E]; subst h0; intros F D.
  - apply basic_new_spec in E as (n1 & n2 & c1 & c2 & c3 & cl & sv & _ & _ & _ & -> & -> & Mc & Hc & Ms & Hs). unfold inner, ports_now. cbn [flat_map app b_ports pl_publishers pl_subscribers pl_clients pl_servers in_list pub_started sub_started req_started srv_started In].
    repeat split; intros; try discriminate; try contradiction.
    + intros X. destruct H1 as [<-|[<-|[] ] ]; [discriminate|]. change (heartbeat_subject =? port_list_subject) with false in X. rewrite N.eqb_refl in X. discriminate.
    + destruct (N.eqb_spec heartbeat_subject s); [tauto|]. destruct (N.eqb_spec port_list_subject s); [tauto|]. contradiction.
    + exfalso. eapply Hc. exact H1.
    + apply Hs in H1. subst s. reflexivity.
    + apply Hs. destruct (N.eqb_spec get_info_service s); [congruence|discriminate].
  - cbn [map fst forallb] in F, D. inversion F as [|? ? F1 F2]; subst. apply andb_true_iff in D as (D1 & D2). specialize (IH F2 D2). pose proof (basic_hist_inv _ _ _ _ _ _ H F2) as V. unfold inner in *. cbn [flat_map snd]. rewrite <- app_assoc. set (h := flat_map snd l ++ es0) in *.
    destruct o; cbn [basic_op_ok direct] in F1, D1.
    + cbn [basic_step] in E. destruct (inner_step _ _) as [ [n' e]|] eqn:Ei; [|discriminate]. cbn [bind fst snd] in E. assert (Fo : fst (fst e) = o) by (eapply inner_step_hist; [apply ch_nil|exact Ei]). destruct (update_ports_right _ o (snd (fst e)) (snd e) (v_ports _ _ _ V) F1) as (l' & El & Ol & K). rewrite El in E. cbn [bind] in E. injection E as <- <-.
      cbn [set_ports b_ports app]. destruct e as [ [o' c] r]. cbn [fst snd] in *. subst o'. apply K, IH.
    + cbn [basic_step] in E. destruct (inner_step _ _) as [ [n' e]|] eqn:Ei; [|discriminate]. cbn [bind fst snd] in E. assert (Fo : fst (fst e) = o) by (eapply inner_step_hist; [apply ch_nil|exact Ei]). injection E as <- <-. cbn [set_node b_ports app]. destruct e as [ [o' c] r]. cbn [fst snd] in *. subst o'. apply ports_now_other; [|exact IH]. apply negb_true_iff, D1.
    + destruct (tick_spec b l info e1 e2 V) as (payload & n1 & calls & r & _ & _ & _ & T). cbv zeta in T. destruct T as [(R & T)|[(R & S & T)|(R & S & v & p2 & n2 & c2 & r2 & _ & _ & _ & T)] ]; rewrite T in E; injection E as <- <-; exact IH.
    + injection E as <- <-. exact IH.
    + injection E as <- <-. exact IH.
    + injection E as <- <-. exact IH.
Qed.
