(** Proofs about plug-and-play node ID allocation. *)
From Verif Require Import Base BitLemmas CoreModel NodeModel NodeSpec NodeProofs EncModel EncSpec EncWriteProofs EncReadProofs EncProps GenModel GenSpec GenReadProofs GenDecProofs GenProps GenBoundProofs DataTypes BasicModel BasicSpec BasicProofs RegDecProofs PnpModel PnpSpec.
Ltac Zify.zify_post_hook ::= Z.div_mod_to_equations.

(** ** Allocation messages *)

Definition message_of (w : who) (o : option N) : value :=
  match w with
  | Hash h => VStruct [VUnsigned h; VArray (match o with Some id => [VStruct [VUnsigned id] ] | None => [] end)]
  | Unique u => VStruct [VStruct [VUnsigned (match o with Some id => id | None => 0 end)]; bytes_value u]
  end.
Lemma field_number b p n : bytes_ok b -> field b (8 * p) (8 * n) = number_at b p n.
Proof.
  intro B. revert p. induction n as [|n IH]; intro p; [reflexivity|]. replace (8 * S n)%nat with (8 + 8 * n)%nat by lia. rewrite field_app, field_byte by (assumption || lia). replace (8 * p + 8)%nat with (8 * S p)%nat by lia. rewrite IH.
  unfold number_at. cbn [seq map from_le]. replace (8 * p / 8)%nat with p by lia. change (N.of_nat 8) with 8. rewrite lor_shiftl_add by (apply nth_ok, B). change (2 ^ 8) with 256. lia.
Qed.
Lemma number_small b p n : bytes_ok b -> number_at b p n < 2 ^ N.of_nat (8 * n).
Proof. intro B. rewrite <- field_number by assumption. apply field_bound. Qed.
Lemma node_id_deserialize b p : bytes_ok b -> deserialize node_id_t (rc_at b (8 * p)) = Ok (DOk (VStruct [VUnsigned (number_at b p 2)]), rc_at b (8 * (p + 2))).
Proof.
  intro B. assert (Z : supports_zero_copy node_id_t = true) by (vm_compute; reflexivity). unfold node_id_t in *. cbn [deserialize]. rewrite Z. unfold dbind, lift, dret. change (memory_size _) with 2%nat. rewrite zero_copy_at by (assumption || lia). cbn [bind fst snd].
  cbn [seq map]. rewrite !field_byte by (assumption || lia). replace ((8 * p + 8 * 0) / 8)%nat with p by lia. replace ((8 * p + 8 * 1) / 8)%nat with (S p) by lia. replace (8 * p + 8 * 2)%nat with (8 * (p + 2))%nat by lia. reflexivity.
Qed.
Lemma decode_allocation v b : bytes_ok b ->
  deserialize_from_bytes (allocation_t v) b = Ok (match reading v b with Some (w, o) => DOk (message_of w o) | None => DErr ArrayLength end).
Proof.
  intro B. destruct v; unfold deserialize_from_bytes, allocation_t.
  - assert (Z : supports_zero_copy allocation1_t = false) by (vm_compute; reflexivity). unfold allocation1_t in *. cbn [deserialize]. rewrite Z. change (rc_new b) with (rc_at b 0). cbn [read_members read_type fold_left read_scalar]. unfold uint. cbn [read_type read_scalar read_prim prim_bits]. change (N.to_nat (array_length_bits 1)) with 8%nat. unfold dbind, lift, dret.
    rewrite (read_u_at b 0 48) by (assumption || lia). cbn [bind fst snd]. rewrite (read_u_at b (0 + 48) 8) by (assumption || lia). cbn [bind fst snd]. rewrite field_byte by (assumption || lia). change ((0 + 48) / 8)%nat with 6%nat. change (field b 0 48) with (field b (8 * 0) (8 * 6)). rewrite field_number by assumption.
    assert (H6 : nth 6 b 0 < 256) by (apply nth_ok, B). rewrite as_i32_byte by assumption. unfold reading. destruct (nth 6 b 0) as [|x] eqn:E6; [reflexivity|]. destruct (N.eq_dec (N.pos x) 1) as [E|E].
    + assert (x = 1%positive) as -> by (injection E; auto). change (Z.of_N 1 <=? Z.of_N 1)%Z with true. cbv iota. change (Z.to_nat (Z.of_N 1)) with 1%nat. cbn [read_times]. unfold dbind, dret. change (delimited node_id_t) with false. rewrite read_undelimited_at. change (0 + 48 + 8)%nat with (8 * 7)%nat. replace (length (pad8 (8 * 7))) with O by reflexivity. rewrite Nat.add_0_r.
      rewrite node_id_deserialize by assumption. cbn [bind fst snd]. reflexivity.
    + rewrite (proj2 (Z.leb_gt (Z.of_N (N.pos x)) (Z.of_N 1))) by (change (Z.of_N (N.pos x)) with (Z.pos x); change (Z.of_N 1) with 1%Z; destruct x; [reflexivity..|congruence]). unfold derr. destruct x; [reflexivity..|congruence].
  - assert (Z : supports_zero_copy allocation2_t = true) by (vm_compute; reflexivity). unfold allocation2_t in *. cbn [deserialize]. rewrite Z. change (rc_new b) with (rc_at b 0). unfold dbind, lift, dret. change (memory_size _) with 18%nat. rewrite zero_copy_at by (assumption || reflexivity). cbn [bind fst snd].
    replace (map (fun i => field b (0 + 8 * i) 8) (seq 0 18)) with (map (fun i => nth i b 0) (seq 0 18)).
    2:{ apply map_ext. intro i. rewrite field_byte by (assumption || lia). f_equal. lia. }
    cbn [seq map]. unfold node_id_t, uint. cbn [from_memory members_from_memory type_from_memory scalar_from_memory prim_bits]. change (16 / 8)%nat with 2%nat. change (8 / 8)%nat with 1%nat. cbn [firstn skipn]. change (N.to_nat 16) with 16%nat. cbn [elements_from_memory scalar_from_memory prim_bits]. change (8 / 8)%nat with 1%nat. cbn [firstn skipn fst].
    unfold reading, message_of, bytes_value, bytes_at, number_at. cbn [seq map from_le]. rewrite !N.mul_0_r, !N.add_0_r. reflexivity.
Qed.
Lemma reading_ok v b w o : bytes_ok b -> reading v b = Some (w, o) -> who_ok w /\ who_version w = v /\ (forall id, o = Some id -> id < 2 ^ 16) /\ (v = V2 -> o <> None).
Proof.
  intros B E. destruct v; cbn [reading] in E.
  - assert (K : who_ok (Hash (number_at b 0 6))) by (exact (number_small b 0 6 B)). assert (J : number_at b 7 2 < 2 ^ 16) by (exact (number_small b 7 2 B)).
    destruct (nth 6 b 0) as [|[| |] ]; try discriminate; injection E as <- <-; (split; [exact K|]); (split; [reflexivity|]); (split; [|discriminate]); intros id X; inversion X; subst; exact J.
  - injection E as <- <-. split; [|split; [reflexivity|split; [|discriminate] ] ].
    + split; [unfold bytes_at; rewrite map_length, seq_length; reflexivity|]. apply Forall_forall. intros x Hx. apply in_map_iff in Hx as (i & <- & _). apply nth_ok, B.
    + intros id X. inversion X; subst. exact (number_small b 0 2 B).
Qed.
Lemma forallb_bytes u : bytes_ok u -> forallb (scalar_fits (fun p v => prim_fits p v && prim_kept p v) kept (SPrimitive (PUInt 8))) (map VUnsigned u) = true.
Proof. intro B. apply forallb_forall. intros x Hx. apply in_map_iff in Hx as (y & <- & Hy). cbn [scalar_fits prim_fits prim_kept prim_bits]. rewrite andb_true_r. apply N.ltb_lt. exact (proj1 (Forall_forall _ _) B y Hy). Qed.
Lemma message_kept w o : who_ok w -> (forall id, o = Some id -> id < 2 ^ 16) -> kept (allocation_t (who_version w)) (message_of w o) = true.
Proof.
  intros W O. destruct w as [h|u]; cbn [who_version allocation_t message_of who_ok] in *.
  - unfold kept, allocation1_t, uint, node_id_t. cbn [fits_gen members_fit type_fits scalar_fits prim_fits prim_kept prim_bits]. rewrite (proj2 (N.ltb_lt h _)) by exact W. destruct o as [id|]; [|reflexivity].
    cbn [length forallb fits_gen members_fit]. unfold uint. cbn [fits_gen members_fit type_fits scalar_fits prim_fits prim_kept prim_bits]. rewrite (proj2 (N.ltb_lt id _)) by (apply O; reflexivity). reflexivity.
  - destruct W as (L & B). pose proof (forallb_bytes u B) as F. unfold kept in *. unfold allocation2_t, node_id_t, uint, bytes_value. cbn [fits_gen members_fit type_fits scalar_fits prim_fits prim_kept prim_bits] in *. rewrite map_length, L, F.
    rewrite (proj2 (N.ltb_lt _ _)); [reflexivity|]. destruct o as [id|]; [apply O; reflexivity|reflexivity].
Qed.
Lemma message_inj w o w' o' : who_version w = who_version w' -> (who_version w = V2 -> o <> None /\ o' <> None) -> message_of w o = message_of w' o' -> w = w' /\ o = o'.
Proof.
  destruct w as [h|u], w' as [h'|u']; cbn [who_version message_of]; intros V H E; try discriminate V.
  - injection E as -> E. split; [reflexivity|]. destruct o, o'; try discriminate E; [injection E as ->|]; reflexivity.
  - destruct (H eq_refl) as (H1 & H2). destruct o, o'; try congruence. unfold bytes_value in E. injection E as -> E. split; [|reflexivity]. f_equal. revert u' E. clear. induction u as [|x u IH]; intros [|y u'] E; try discriminate E; [reflexivity|]. injection E as -> E. f_equal. apply IH, E.
Qed.
Definition message_length (w : who) (o : option N) : nat := match w, o with Hash _, None => 7%nat | Hash _, Some _ => 9%nat | Unique _, _ => 18%nat end.
Lemma message_size w o : who_ok w -> ((size_bits (allocation_t (who_version w)) (message_of w o) + 7) / 8)%nat = message_length w o.
Proof. intro W. destruct w as [h|u], o as [id|]; reflexivity. Qed.
Lemma payload_length m v bytes : compiles m -> good m = true -> bound m < 8 * (2 ^ 32 - 1) -> fits m v = true -> payload_of m v = Ok bytes -> length bytes = ((size_bits m v + 7) / 8)%nat.
Proof.
  intros C G B F E. pose proof (bound_right m v F) as Bv. assert (S : short (enc m v)) by (unfold short; lia). pose proof (C67_size_partial m v C G F) as Es. unfold payload_of in E. set (buffer := repeat 0 ((size_bits m v + 7) / 8)%nat) in *.
  assert (L : length buffer = ((size_bits m v + 7) / 8)%nat) by apply repeat_length. destruct (C66_encoding_partial m v buffer C G F S ltac:(lia)) as (b & E' & Lb & _). congruence.
Qed.
Lemma allocation_types v : compiles (allocation_t v) /\ good (allocation_t v) = true /\ readable (allocation_t v) = true /\ bound (allocation_t v) < 8 * (2 ^ 32 - 1).
Proof. destruct v; (split; [compiled_type|]); vm_compute; auto. Qed.
Lemma allocation_payload w o : who_ok w -> (forall id, o = Some id -> id < 2 ^ 16) -> (who_version w = V2 -> o <> None) ->
  exists bytes, payload_of (allocation_t (who_version w)) (message_of w o) = Ok bytes /\ bytes_ok bytes /\ length bytes = message_length w o /\ reading (who_version w) bytes = Some (w, o).
Proof.
  intros W O H. destruct (allocation_types (who_version w)) as (C & G & R & Bd). pose proof (message_kept w o W O) as K. destruct (payload_carries _ _ C G R Bd K) as (bytes & E & (B & D) & _).
  exists bytes. split; [exact E|]. split; [exact B|]. split.
  - rewrite (payload_length _ _ _ C G Bd (kept_fits _ _ K) E). apply message_size, W.
  - specialize (D [] (Forall_nil _)). rewrite app_nil_r, decode_allocation in D by assumption. injection D as D. destruct (reading (who_version w) bytes) as [ [w' o']|] eqn:Rd; [|discriminate]. injection D as D. apply reading_ok in Rd as (_ & R1 & _ & R2); [|assumption].
    destruct (message_inj w' o' w o R1 (fun V => conj (R2 (eq_trans (eq_sym R1) V)) (H (eq_trans (eq_sym R1) V))) D) as (-> & ->). reflexivity.
Qed.

Lemma crc48 u : crc_64we_48_bits u = crc64we u mod 2 ^ 48.
Proof. unfold crc_64we_48_bits. change (2 ^ 48 - 1) with (N.ones 48). apply N.land_ones. Qed.
Lemma same_bytes_eq a : forall b, same_bytes a b = true <-> a = b.
Proof.
  induction a as [|x a IH]; intros [|y b]; cbn [same_bytes]; try (split; [discriminate|congruence]); [tauto|]. rewrite andb_true_iff, N.eqb_eq, IH. split; [intros (-> & ->); reflexivity|intro E; injection E as -> ->; auto].
Qed.
Lemma matches_right w o u : matches_unique_id (who_version w) (message_of w o) u = true <-> is_who u w.
Proof.
  destruct w as [h|x]; cbn [who_version message_of matches_unique_id is_who].
  - rewrite N.eqb_eq, crc48. reflexivity.
  - unfold bytes_value. rewrite map_map. cbn [unsigned_of]. rewrite map_id, same_bytes_eq. reflexivity.
Qed.
Lemma with_node_id_right w o id : with_node_id (who_version w) (message_of w o) id = message_of w (Some id).
Proof. destruct w; reflexivity. Qed.
Lemma node_id_right t w id : node_id t (who_version w) (message_of w (Some id)) = if id <=? max_node_id t then Some id else None.
Proof. destruct w; reflexivity. Qed.
Lemma node_id_none t h : node_id t V1 (message_of (Hash h) None) = None.
Proof. reflexivity. Qed.

(** ** Tables *)

Lemma position_some {A} f (l : list A) i : position f l = Some i -> exists a, nth_error l i = Some a /\ f a = true /\ forall j b, (j < i)%nat -> nth_error l j = Some b -> f b = false.
Proof.
  revert i. induction l as [|a l IH]; intros i; cbn [position]; [discriminate|]. destruct (f a) eqn:F; intro E.
  - injection E as <-. exists a. split; [reflexivity|]. split; [exact F|]. intros j b H. lia.
  - destruct (position f l) as [k|]; [|discriminate]. injection E as <-. destruct (IH k eq_refl) as (x & H1 & H2 & H3). exists x. split; [exact H1|]. split; [exact H2|]. intros [|j] b Hj Hb; [injection Hb as <-; exact F|]. apply (H3 j); [lia|exact Hb].
Qed.
Lemma position_none {A} f (l : list A) : position f l = None -> forall a, In a l -> f a = false.
Proof.
  induction l as [|a l IH]; cbn [position In]; [tauto|]. destruct (f a) eqn:F; [discriminate|]. destruct (position f l); [discriminate|]. intros _ b [<-|H]; [exact F|]. apply IH; [reflexivity|exact H].
Qed.
Lemma store_length {A} (x : A) l : forall i, length (store_at i x l) = length l.
Proof. induction l as [|y l IH]; intros [|i]; cbn [store_at length]; auto. Qed.
Lemma store_nth {A} (x : A) l : forall i j, nth_error (store_at i x l) j = if (i =? j)%nat && (j <? length l)%nat then Some x else nth_error l j.
Proof.
  induction l as [|y l IH]; intros [|i] [|j]; cbn [store_at nth_error Nat.eqb andb length]; try reflexivity; [rewrite andb_false_r; reflexivity|]. rewrite IH. reflexivity.
Qed.
Lemma rev_nth_error {A} (l : list A) i : (i < length l)%nat -> nth_error (rev l) i = nth_error l (length l - 1 - i).
Proof.
  intro H. destruct (nth_error l (length l - 1 - i)) as [a|] eqn:E.
  - pose proof (nth_error_nth _ _ a E) as X. rewrite (nth_error_nth' (rev l) a) by (rewrite rev_length; exact H). rewrite rev_nth by exact H. f_equal. transitivity (nth (length l - 1 - i) l a); [f_equal; lia|exact X].
  - apply nth_error_None in E. lia.
Qed.
Lemma taken_right w o a : is_assigned_and a (matches_unique_id (who_version w) (message_of w o)) = true <-> taken_by w a.
Proof. destruct a; cbn [is_assigned_and taken_by]; [split; [discriminate|tauto]|tauto|apply matches_right]. Qed.
Lemma free_right a : negb (is_assigned a) = true <-> a = Unassigned.
Proof. destruct a; cbn; split; try reflexivity; discriminate. Qed.
Lemma false_not (P : Prop) (b : bool) : (b = true <-> P) -> b = false -> ~ P.
Proof. intros H E Q. apply H in Q. congruence. Qed.

Lemma handle_right t w o l : N.of_nat (length l) <= max_node_id t + 1 ->
  exists x l', handle_allocation t (who_version w) l (message_of w o) = Ok (l', option_map (fun id => message_of w (Some id)) x) /\ picks w l x l' /\ (forall id, x = Some id -> id <= max_node_id t).
Proof.
  intro L. unfold handle_allocation. destruct (position _ l) as [i|] eqn:E.
  - apply position_some in E as (a & H1 & H2 & H3). assert (Hi : (i < length l)%nat) by (apply nth_error_Some; congruence). unfold to_node_id. rewrite (proj2 (N.leb_le _ _)) by lia. exists (Some (N.of_nat i)), l. cbn [option_map]. rewrite with_node_id_right. split; [reflexivity|]. split.
    + apply (picks_old w l i a); [exact H1|apply (taken_right w o), H2|]. intros j b Hj Hb. apply (false_not _ _ (taken_right w o b)), (H3 j); assumption.
    + intros id X. injection X as <-. lia.
  - pose proof (position_none _ _ E) as N. assert (N' : forall a, In a l -> ~ taken_by w a) by (intros a Ha; apply (false_not _ _ (taken_right w o a)), N, Ha). clear E N.
    destruct (position _ (rev l)) as [i|] eqn:E.
    + apply position_some in E as (a & H1 & H2 & H3). assert (Hi : (i < length l)%nat) by (rewrite <- rev_length; apply nth_error_Some; congruence). unfold to_node_id. rewrite (proj2 (N.leb_le _ _)) by lia. exists (Some (N.of_nat i)), (store_at i Reserved l). cbn [option_map]. rewrite with_node_id_right. split; [reflexivity|]. split.
      * set (k := (length l - 1 - i)%nat). replace i with (length l - 1 - k)%nat by (unfold k; lia). apply free_right in H2. subst a. rewrite rev_nth_error in H1 by exact Hi. apply picks_new.
        -- exact N'.
        -- exact H1.
        -- intros j b Hj Hb. assert (Hl : (j < length l)%nat) by (apply nth_error_Some; congruence). apply (false_not _ _ (free_right b)). apply (H3 (length l - 1 - j)%nat); [unfold k in Hj; lia|]. rewrite rev_nth_error by lia. rewrite <- Hb. f_equal. lia.
        -- apply store_length.
        -- rewrite store_nth. rewrite Nat.eqb_refl. replace (length l - 1 - k <? length l)%nat with true by (symmetry; apply Nat.ltb_lt; lia). reflexivity.
        -- intros j Hj. rewrite store_nth. replace (length l - 1 - k =? j)%nat with false by (symmetry; apply Nat.eqb_neq; lia). reflexivity.
      * intros id X. injection X as <-. lia.
    + exists None, l. split; [reflexivity|]. split; [|discriminate]. apply picks_none; [exact N'|]. intros a Ha. apply (false_not _ _ (free_right a)), (position_none _ _ E), in_rev. rewrite rev_involutive. exact Ha.
Qed.

(** ** Messages at the server *)

Lemma publish_step n s p e : exists n' calls r, inner_step n (Publish false s p e) = Ok (n', (Publish false s p e, calls, r)) /\ c_transport n' = c_transport n.
Proof.
  unfold inner_step. cbn [core_step]. unfold publish. destruct (im_get s (c_publishers n)) as [pb|].
  - destruct (publisher_publish _ pb e (c_id n) s p false) as [ [p' c] r]. destruct r; do 3 eexists; (split; [reflexivity|reflexivity]).
  - do 3 eexists. split; reflexivity.
Qed.
Lemma server_allocation_right v l n b e : bytes_ok b -> N.of_nat (length l) <= max_node_id (c_transport n) + 1 ->
  match reading v b with
  | None => server_allocation v l n b e = Ok (false, l, n, [])
  | Some (w, _) => exists x l' n' es, server_allocation v l n b e = Ok (true, l', n', es) /\ picks w l x l' /\ c_transport n' = c_transport n /\
      match x with Some id => answers v w id es /\ id <= max_node_id (c_transport n) | None => es = [] end
  end.
Proof.
  intros B L. unfold server_allocation. rewrite decode_allocation by assumption. cbn [bind]. destruct (reading v b) as [ [w o]|] eqn:R; [|reflexivity].
  apply reading_ok in R as (W & Ev & _ & _); [|assumption]. subst v. destruct (handle_right (c_transport n) w o l L) as (x & l' & E & P & Hx). rewrite E. cbn [bind fst snd]. destruct x as [id|]; cbn [option_map].
  - assert (I : forall i, Some id = Some i -> i < 2 ^ 16).
    { intros i Hi. injection Hi as <-. specialize (Hx id eq_refl). assert (max_node_id (c_transport n) < 2 ^ 16) by (destruct (c_transport n); reflexivity). lia. }
    destruct (allocation_payload w (Some id) W I ltac:(discriminate)) as (p & Ep & Bp & _ & Rp). unfold publish_value. rewrite Ep. cbn [bind]. destruct (publish_step n (allocation_subject (who_version w)) p e) as (n' & c & r & Es & T). rewrite Es. cbn [bind fst snd].
    exists (Some id), l', n', [(Publish false (allocation_subject (who_version w)) p e, c, r)]. split; [reflexivity|]. split; [exact P|]. split; [exact T|]. split; [|apply Hx; reflexivity]. exists p, e, c, r. auto.
  - exists None, l', n, []. auto.
Qed.
Lemma heartbeat_total b : bytes_ok b -> exists r, deserialize_from_bytes heartbeat_t b = Ok r.
Proof. intro B. destruct (C69_total_partial heartbeat_t b) as (r & E & _); [vm_compute; reflexivity|vm_compute; reflexivity|exact B|]. exists r. exact E. Qed.
(** any message *)
Lemma server_message_right l n header b e : bytes_ok b -> N.of_nat (length l) <= max_node_id (c_transport n) + 1 ->
  (exists v w o x l' n' es, mh_subject header = allocation_subject v /\ reading v b = Some (w, o) /\ server_message l n header b e = Ok (true, l', n', es) /\ picks w l x l' /\ c_transport n' = c_transport n /\
     match x with Some id => answers v w id es /\ id <= max_node_id (c_transport n) | None => es = [] end) \/
  ((forall v w o, mh_subject header = allocation_subject v -> reading v b <> Some (w, o)) /\
   (server_message l n header b e = Ok (false, l, n, []) \/
    exists id, mh_subject header = heartbeat_subject /\ mh_source header = Some id /\ server_message l n header b e = bind (handle_heartbeat l id) (fun l' => Ok (false, l', n, [])))).
Proof.
  intros B L. unfold server_message. destruct (N.eqb_spec (mh_subject header) (allocation_subject V1)) as [E1|E1]; [|destruct (N.eqb_spec (mh_subject header) (allocation_subject V2)) as [E2|E2] ].
  - pose proof (server_allocation_right V1 l n b e B L) as H. destruct (reading V1 b) as [ [w o]|] eqn:R.
    + left. destruct H as (x & l' & n' & es & H). exists V1, w, o, x, l', n', es. split; [exact E1|]. split; [exact R|]. exact H.
    + right. split; [|left; exact H]. intros v w o E. rewrite E in E1. destruct v; [congruence|discriminate].
  - pose proof (server_allocation_right V2 l n b e B L) as H. destruct (reading V2 b) as [ [w o]|] eqn:R.
    + left. destruct H as (x & l' & n' & es & H). exists V2, w, o, x, l', n', es. split; [exact E2|]. split; [exact R|]. exact H.
    + right. split; [|left; exact H]. intros v w o E. rewrite E in E2. destruct v; [discriminate|congruence].
  - right. split; [intros v w o E; destruct v; congruence|]. destruct (N.eqb_spec (mh_subject header) heartbeat_subject) as [E3|E3]; [|left; reflexivity]. destruct (mh_source header) as [id|] eqn:S; [|left; reflexivity].
    destruct (heartbeat_total b B) as (r & ->). cbn [bind]. destruct r; [right; exists id; auto|left; reflexivity].
Qed.

Lemma heartbeat_same l id l' : handle_heartbeat l id = Ok l' -> length l' = length l /\ forall i, nth_error l' i = if (i =? N.to_nat id)%nat then match nth_error l i with Some Unassigned => Some Reserved | x => x end else nth_error l i.
Proof.
  unfold handle_heartbeat. destruct (nth_error l (N.to_nat id)) as [a|] eqn:E; [|discriminate]. assert (Hl : (N.to_nat id < length l)%nat) by (apply nth_error_Some; congruence). intro H. injection H as <-. destruct (is_assigned a) eqn:A.
  - split; [reflexivity|]. intro i. destruct (Nat.eqb_spec i (N.to_nat id)) as [->|_]; [|reflexivity]. rewrite E. destruct a; [discriminate|reflexivity..].
  - split; [apply store_length|]. intro i. rewrite store_nth, (Nat.eqb_sym (N.to_nat id)). destruct (Nat.eqb_spec i (N.to_nat id)) as [->|_]; [|reflexivity]. rewrite (proj2 (Nat.ltb_lt _ _) Hl). rewrite E. destruct a; [reflexivity|discriminate..].
Qed.
Lemma assign_same l id u l' : server_assign l id u = Ok l' -> length l' = length l /\ forall i, nth_error l' i = if (i =? N.to_nat id)%nat then match nth_error l i with Some Unassigned => Some (Assigned u) | x => x end else nth_error l i.
Proof.
  unfold server_assign. destruct (nth_error l (N.to_nat id)) as [a|] eqn:E; [|discriminate]. assert (Hl : (N.to_nat id < length l)%nat) by (apply nth_error_Some; congruence). intro H. injection H as <-. destruct (is_assigned a) eqn:A.
  - split; [reflexivity|]. intro i. destruct (Nat.eqb_spec i (N.to_nat id)) as [->|_]; [|reflexivity]. rewrite E. destruct a; [discriminate|reflexivity..].
  - split; [apply store_length|]. intro i. rewrite store_nth, (Nat.eqb_sym (N.to_nat id)). destruct (Nat.eqb_spec i (N.to_nat id)) as [->|_]; [|reflexivity]. rewrite (proj2 (Nat.ltb_lt _ _) Hl). rewrite E. destruct a; [reflexivity|discriminate..].
Qed.
Lemma picks_length w l x l' : picks w l x l' -> length l' = length l.
Proof. intros [i a| |]; auto. Qed.

Lemma server_hist_inv t n0 h l n : server_hist t n0 h l n -> Forall server_op_ok (map fst h) -> N.of_nat (length l) = max_node_id t /\ c_transport n = t.
Proof.
  induction 1 as [H|h l n o l' n' es H IH E]; cbn [map fst]; intro F.
  - split; [|exact H]. unfold table_new. rewrite repeat_length. lia.
  - apply Forall_cons_iff in F as (Fo & F). destruct (IH F) as (L & T). destruct o as [id u|header b e]; cbn [server_step server_op_ok] in *.
    + destruct (server_assign l id u) as [l1|] eqn:A; [|discriminate]. cbn [bind] in E. injection E as <- <- <-. apply assign_same in A as (A & _). split; [lia|exact T].
    + destruct (server_message_right l n header b e Fo ltac:(rewrite T; lia)) as [(v & w & o & x & l1 & n1 & es1 & _ & _ & Em & P & T1 & _)|(_ & [Em|(id & _ & _ & Em)])]; rewrite Em in E; cbn [bind] in E.
      * injection E as <- <- <-. apply picks_length in P. split; [lia|congruence].
      * injection E as <- <- <-. auto.
      * destruct (handle_heartbeat l id) as [l1|] eqn:A; [|discriminate]. cbn [bind] in E. injection E as <- <- <-. apply heartbeat_same in A as (A & _). split; [lia|exact T].
Qed.

(** ** Clients *)

Lemma offer_right t v u b : bytes_ok b -> exists o, offer t v u b = Ok o /\ forall id, o = Some id <-> offers t v u b id.
Proof.
  intro B. unfold offer. rewrite decode_allocation by assumption. cbn [bind]. unfold offers. change greatest_node_id with max_node_id. destruct (reading v b) as [ [w o]|] eqn:R.
  - pose proof (reading_ok _ _ _ _ B R) as (_ & <- & _ & N). eexists. split; [reflexivity|]. intro id. destruct (matches_unique_id _ _ u) eqn:M.
    + apply matches_right in M. destruct o as [i|].
      * rewrite node_id_right. destruct (N.leb_spec i (max_node_id t)) as [H|H]; split.
        -- intro E. injection E as <-. exists w. auto.
        -- intros (w' & E & _). congruence.
        -- discriminate.
        -- intros (w' & E & _ & H'). injection E as _ <-. lia.
      * destruct w as [h|x]; [|destruct (N eq_refl eq_refl)]. rewrite node_id_none. split; [discriminate|]. intros (w' & E & _). discriminate.
    + split; [discriminate|]. intros (w' & E & H & _). injection E as <- _. apply (matches_right w o) in H. congruence.
  - exists None. split; [reflexivity|]. intro id. split; [discriminate|]. intros (w & E & _). discriminate.
Qed.
Lemma client_right v u n header b : bytes_ok b -> NoDup (keys (c_publishers n)) ->
  let s := allocation_subject v in
  (exists id n', offers (c_transport n) v u b id /\ adopted v id n n' /\
     client_message v u n header b = Ok (true, n', [(StopPublishing s, [], ODone); (UnsubscribeMessage s, [CUnsubMessage s], ODone); (SetNodeId id, [CSetId id], ODone)])) \/
  ((forall id, ~ offers (c_transport n) v u b id) /\ client_message v u n header b = Ok (false, n, [])).
Proof.
  intros B D s. unfold client_message. destruct (offer_right (c_transport n) v u b B) as (o & E & H). rewrite E. cbn [bind]. destruct o as [id|].
  - left. exists id, (set_publishers (set_id n (Some id)) (im_remove s (c_publishers n))). split; [apply H; reflexivity|]. split; [|reflexivity]. unfold adopted. cbn [c_id c_publishers c_requesters c_transport c_kind c_P c_R set_publishers set_id]. repeat split; try reflexivity. intro s'. rewrite im_get_remove by exact D. rewrite N.eqb_sym. reflexivity.
  - right. split; [|reflexivity]. intros id X. apply H in X. discriminate.
Qed.
Lemma self_right v u : unique_id_ok u -> who_ok (self v u) /\ who_version (self v u) = v /\ is_who u (self v u) /\ with_unique_id v u = message_of (self v u) (asked v).
Proof. intro H. destruct v; cbn; rewrite ?crc48; repeat split; try apply H. apply N.mod_lt. discriminate. Qed.
Lemma self_unique v u w : is_who u w -> who_version w = v -> w = self v u.
Proof. intros H <-. destruct w; cbn in *; congruence. Qed.
Lemma request_payload v u : unique_id_ok u -> exists p, payload_of (allocation_t v) (with_unique_id v u) = Ok p /\ bytes_ok p /\ length p = message_length (self v u) (asked v) /\ reading v p = Some (self v u, asked v).
Proof.
  intro U. destruct (self_right v u U) as (W & V & _ & E). rewrite E. destruct (allocation_payload (self v u) (asked v) W) as (p & H); [| |rewrite V in H; exists p; exact H].
  - destruct v; cbn; intros id X; [discriminate|injection X as <-; reflexivity].
  - rewrite V. intros ->. discriminate.
Qed.
(** padding does not change what is read *)
Lemma nth_app_zero (p more : list N) i : (i < length p)%nat -> nth i (p ++ more) 0 = nth i p 0.
Proof. intro H. apply app_nth1, H. Qed.
Lemma bytes_at_padded p more i k : (i + k <= length p)%nat -> bytes_at (p ++ more) i k = bytes_at p i k.
Proof. intro H. unfold bytes_at. apply map_ext_in. intros j Hj. apply in_seq in Hj. apply nth_app_zero. lia. Qed.
Lemma number_at_padded p more i k : (i + k <= length p)%nat -> number_at (p ++ more) i k = number_at p i k.
Proof. intro H. unfold number_at. f_equal. exact (bytes_at_padded p more i k H). Qed.
Lemma reading_padded v p more w o : reading v p = Some (w, o) -> length p = message_length w o -> reading v (p ++ more) = Some (w, o).
Proof.
  intros R L. destruct v; cbn [reading] in *.
  - assert (L6 : (6 < length p)%nat) by (rewrite L; destruct w, o; cbn; lia). rewrite nth_app_zero by exact L6. destruct (nth 6 p 0) as [|[| |] ]; try discriminate; rewrite number_at_padded by lia; injection R as <- <-; cbn [message_length] in L; [reflexivity|]. rewrite number_at_padded by lia. reflexivity.
  - injection R as <- <-. cbn [message_length] in L. rewrite bytes_at_padded, number_at_padded by lia. reflexivity.
Qed.
