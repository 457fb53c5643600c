(** Proofs about the fixed-capacity list of subject IDs. *)
From Verif Require Import Base BitLemmas EncModel EncSpec EncWriteProofs EncReadProofs EncProps BlsModel BlsSpec GenModel GenSpec GenLenProofs GenSizeProofs GenWriteProofs GenReadProofs GenProps DataTypes SidModel SidSpec.
Ltac Zify.zify_post_hook ::= Z.div_mod_to_equations.

Lemma small_id n : n <= 8191 -> bits_of 16 n = bits_of 13 n ++ [false; false; false].
Proof.
  intro H. change 16%nat with (13 + 3)%nat. rewrite bits_of_app. f_equal. change (N.of_nat 13) with 13.
  replace (N.shiftr n 13) with 0; [reflexivity|]. rewrite N.shiftr_div_pow2. change (2 ^ 13) with 8192. symmetry. apply N.div_small. lia.
Qed.
Lemma enc_id n : n <= 8191 -> enc subject_id_t (VStruct [VUnsigned n]) = bits_of 16 n.
Proof. intro H. rewrite (small_id n H). reflexivity. Qed.
Lemma enc_ids ids : Forall (fun id => id <= 8191) ids -> flat_map (enc_scalar enc (SComposite subject_id_t)) (map (fun id => VStruct [VUnsigned id]) ids) = flat_map (bits_of 16) ids.
Proof.
  induction 1 as [|id ids H _ IH]; [reflexivity|]. cbn [map flat_map]. rewrite IH. f_equal. cbn [enc_scalar delimited subject_id_t]. rewrite <- (enc_id id H). reflexivity.
Qed.
Lemma ids_length ids : length (flat_map (bits_of 16) ids) = (16 * length ids)%nat.
Proof. induction ids as [|id ids IH]; [reflexivity|]. cbn [flat_map length]. rewrite app_length, bits_of_length, IH. lia. Qed.
Definition sid_bits (ids : list N) : list bool := bits_of 8 1 ++ bits_of 8 (N.of_nat (length ids)) ++ flat_map (bits_of 16) ids.
Lemma sid_bits_length ids : length (sid_bits ids) = (16 + 16 * length ids)%nat.
Proof. unfold sid_bits. rewrite !app_length, !bits_of_length, ids_length. lia. Qed.
Lemma pad8_0 p : (p mod 8 = 0)%nat -> pad8 p = [].
Proof. intro H. unfold pad8. rewrite H. reflexivity. Qed.
Lemma enc_sparse ids : Forall (fun id => id <= 8191) ids -> enc subject_id_list_t (sparse_list ids) = sid_bits ids.
Proof.
  intro H. transitivity (pad_to_byte (sid_bits ids)).
  - change (pad_to_byte (bits_of 8 1 ++ ([] ++ bits_of 8 (N.of_nat (length (map (fun id => VStruct [VUnsigned id]) ids))) ++ flat_map (enc_scalar enc (SComposite subject_id_t)) (map (fun id => VStruct [VUnsigned id]) ids))) = pad_to_byte (sid_bits ids)).
    rewrite map_length, (enc_ids ids H). reflexivity.
  - unfold pad_to_byte. rewrite pad8_0; [apply app_nil_r|]. rewrite sid_bits_length. lia.
Qed.
Lemma packs_ids ids : forall p, packs p (map (WAligned 2) ids) = flat_map (bits_of 16) ids.
Proof. induction ids as [|id ids IH]; intro p; [reflexivity|]. cbn [map packs flat_map pack]. rewrite IH. reflexivity. Qed.
Lemma packs_sid ids : (length ids <= 255)%nat -> packs 0 (sid_serialize ids) = sid_bits ids.
Proof.
  intro H. unfold sid_serialize, sid_bits. cbn [packs pack]. rewrite packs_ids, N.mod_small by lia. reflexivity.
Qed.
Lemma packs_sid_length ids : length (packs 0 (sid_serialize ids)) = (16 + 16 * length ids)%nat.
Proof. unfold sid_serialize. cbn [packs pack]. rewrite packs_ids, !app_length, !bits_of_length, ids_length. lia. Qed.
Lemma ids_writable ids : forall p, (p mod 8 = 0)%nat -> wops_ok p (map (WAligned 2) ids).
Proof.
  induction ids as [|id ids IH]; intros p H; [exact I|]. cbn [map wops_ok wop_ok pack]. split; [assumption|]. apply IH. rewrite bits_of_length. change (8 * 2)%nat with 16%nat. lia.
Qed.
Lemma sid_writable ids : wops_ok 0 (sid_serialize ids).
Proof. unfold sid_serialize. cbn [wops_ok wop_ok pack]. rewrite !bits_of_length. split; [reflexivity|]. split; [reflexivity|]. apply ids_writable. reflexivity. Qed.

(** ** Reading *)
Lemma truncated bs p : subject_from_truncating (field bs p 16) = field bs p 13.
Proof.
  unfold subject_from_truncating. apply N.bits_inj. intro k. rewrite <- (N2Nat.id k). set (j := N.to_nat k). change 8191 with (N.ones 13). rewrite N.land_spec, !field_testbit.
  destruct (Nat.ltb_spec j 13) as [L|L].
  - rewrite N.ones_spec_low by lia. rewrite andb_true_r. rewrite (proj2 (Nat.ltb_lt j 16)) by lia. reflexivity.
  - rewrite N.ones_spec_high by lia. rewrite andb_false_r. reflexivity.
Qed.
Definition ids_at (bs : list N) (p n : nat) : list N := map (fun i => field bs (p + 16 * i) 13) (seq 0 n).
Lemma ids_at_S bs p n : ids_at bs p (S n) = field bs p 13 :: ids_at bs (p + 16) n.
Proof.
  unfold ids_at. cbn [seq map]. f_equal; [f_equal; lia|]. rewrite <- seq_shift, map_map. apply map_ext. intro i. f_equal. lia.
Qed.
Lemma loop_right bs capacity : bytes_ok bs -> forall n p ids, (p mod 8 = 0)%nat -> (length ids + n <= capacity)%nat ->
  sid_loop capacity n ids (rc_at bs p) = Ok (DOk (ids ++ ids_at bs p n), rc_at bs (p + 16 * n)).
Proof.
  intros Hb. induction n as [|n IH]; intros p ids Hp L.
  - cbn [sid_loop]. unfold dret, ids_at. cbn [seq map]. rewrite app_nil_r. rewrite Nat.mul_0_r, Nat.add_0_r. reflexivity.
  - cbn [sid_loop]. unfold dbind at 1, lift at 1. destruct (read_aligned_at bs Hb p Hp) as (R16 & _). rewrite R16. cbn [bind fst snd].
    rewrite (proj2 (Nat.ltb_lt _ _)) by lia. rewrite IH by (rewrite ?app_length; cbn [length]; lia). rewrite truncated, ids_at_S, <- app_assoc. cbn [app]. replace (p + 16 * S n)%nat with (p + 16 + 16 * n)%nat by lia. reflexivity.
Qed.
Lemma sid_read bs capacity : bytes_ok bs -> sid_from_bytes capacity bs =
  Ok (if negb (field bs 0 8 =? 1) then DErr UnionTag else if (capacity <? N.to_nat (field bs 8 8))%nat then DErr ArrayLength else DOk (ids_at bs 16 (N.to_nat (field bs 8 8)))).
Proof.
  intro Hb. unfold sid_from_bytes, sid_deserialize. change (rc_new bs) with (rc_at bs 0). unfold dbind at 1, lift at 1. rewrite read_aligned_u8_at by (assumption || reflexivity). cbn [bind fst snd].
  change SPARSE_LIST_DISCRIMINANT with 1. destruct (field bs 0 8 =? 1); cbn [negb]; [|reflexivity]. unfold dbind at 1, lift at 1. rewrite read_aligned_u8_at by (assumption || reflexivity). cbn [bind fst snd].
  destruct (Nat.ltb_spec capacity (N.to_nat (field bs (0 + 8) 8))) as [L|L].
  - rewrite (proj2 (Nat.ltb_lt _ _)) by exact L. reflexivity.
  - rewrite (loop_right bs capacity Hb _ _ []) by (cbn [length]; (lia || reflexivity)). cbn [bind fst app]. rewrite (proj2 (Nat.ltb_ge _ _)) by exact L. reflexivity.
Qed.
(** the generated code *)
Lemma one_id bs p : bytes_ok bs -> (p mod 8 = 0)%nat ->
  read_scalar deserialize (SComposite subject_id_t) (rc_at bs p) = Ok (DOk (VStruct [VUnsigned (field bs p 13)]), rc_at bs (p + 16)).
Proof.
  intros Hb Hp. cbn [read_scalar]. unfold read_composite. cbn [delimited subject_id_t]. rewrite align_at, pad8_0 by assumption. cbn [length]. rewrite Nat.add_0_r.
  change (deserialize subject_id_t) with (dbind (dbind (dbind (lift (fun c => read_u c 13)) (fun n => dret (VUnsigned n))) (fun v => dbind (dret []) (fun vs => dret (v :: vs)))) (fun vs => dret (VStruct vs))).
  unfold dbind, lift, dret. rewrite read_u_at by (assumption || lia). cbn [bind fst snd]. rewrite align_at. replace (p + 13 + length (pad8 (p + 13)))%nat with (p + 16)%nat; [reflexivity|]. unfold pad8. rewrite repeat_length. lia.
Qed.
Lemma many_ids bs : bytes_ok bs -> forall n p, (p mod 8 = 0)%nat ->
  read_times (read_scalar deserialize (SComposite subject_id_t)) n (rc_at bs p) = Ok (DOk (map (fun id => VStruct [VUnsigned id]) (ids_at bs p n)), rc_at bs (p + 16 * n)).
Proof.
  intros Hb. induction n as [|n IH]; intros p Hp.
  - cbn [read_times]. unfold dret, ids_at. cbn [seq map]. rewrite Nat.mul_0_r, Nat.add_0_r. reflexivity.
  - cbn [read_times]. unfold dbind at 1. rewrite one_id by assumption. cbn [bind fst snd]. unfold dbind at 1. rewrite IH by lia. cbn [bind fst snd]. unfold dret. rewrite ids_at_S. cbn [map]. replace (p + 16 * S n)%nat with (p + 16 + 16 * n)%nat by lia. reflexivity.
Qed.
Lemma generated_sparse bs : bytes_ok bs -> field bs 0 8 = 1 -> deserialize_from_bytes subject_id_list_t bs = Ok (DOk (sparse_list (ids_at bs 16 (N.to_nat (field bs 8 8))))).
Proof.
  intros Hb Ht. unfold deserialize_from_bytes. change (rc_new bs) with (rc_at bs 0).
  change (deserialize subject_id_list_t) with (dbind (lift (call_read_aligned 8)) (fun n =>
      if (as_i32 n <? 0)%Z then derr UnionTag
      else pick (fun t => dbind (read_type deserialize t) (fun v => dret (VUnion (Z.to_nat (as_i32 n)) v))) (derr UnionTag) (Z.to_nat (as_i32 n)) [TFixed (SPrimitive PBool) 8192; TVariable (SComposite subject_id_t) 255; TScalar (SComposite empty_t)])).
  unfold dbind at 1, lift at 1. rewrite call_read_aligned_at by (auto || reflexivity). cbn [bind fst snd]. rewrite Ht. change (as_i32 1) with 1%Z. change (1 <? 0)%Z with false. change (Z.to_nat 1) with 1%nat. cbv beta iota. cbn [pick].
  unfold dbind at 1. cbn [read_type]. change (N.to_nat (array_length_bits 255)) with 8%nat. unfold dbind at 1, lift at 1. rewrite read_u_at by (assumption || lia). cbn [bind fst snd]. change (0 + 8)%nat with 8%nat.
  pose proof (field_bound bs 8 8) as B. change (2 ^ N.of_nat 8) with 256 in B. rewrite as_i32_small by (change (2 ^ 31) with 2147483648; lia). rewrite (proj2 (Z.leb_le _ _)) by (change (Z.of_N 255) with 255%Z; lia).
  unfold dbind at 1. rewrite many_ids by (assumption || reflexivity). cbn [bind fst snd dret]. replace (Z.to_nat (Z.of_N (field bs 8 8))) with (N.to_nat (field bs 8 8)) by lia. reflexivity.
Qed.
Lemma generated_other bs v : bytes_ok bs -> field bs 0 8 <> 1 -> deserialize_from_bytes subject_id_list_t bs <> Ok (DOk (VUnion 1 v)).
Proof.
  intros Hb Ht E. unfold deserialize_from_bytes in E. change (rc_new bs) with (rc_at bs 0) in E.
  change (deserialize subject_id_list_t) with (dbind (lift (call_read_aligned 8)) (fun n =>
      if (as_i32 n <? 0)%Z then derr UnionTag
      else pick (fun t => dbind (read_type deserialize t) (fun v => dret (VUnion (Z.to_nat (as_i32 n)) v))) (derr UnionTag) (Z.to_nat (as_i32 n)) [TFixed (SPrimitive PBool) 8192; TVariable (SComposite subject_id_t) 255; TScalar (SComposite empty_t)])) in E.
  unfold dbind at 1, lift at 1 in E. rewrite call_read_aligned_at in E by (auto || reflexivity). cbn [bind fst snd] in E.
  pose proof (field_bound bs 0 8) as B. change (2 ^ N.of_nat 8) with 256 in B. rewrite as_i32_small in E by (change (2 ^ 31) with 2147483648; lia). rewrite (proj2 (Z.ltb_ge _ _)) in E by lia.
  assert (G : forall (d : deserializer value) c k, k <> 1%nat -> bind (dbind d (fun v => dret (VUnion k v)) c) (fun x => Ok (fst x)) <> Ok (DOk (VUnion 1 v))).
  { clear. intros d c k Hk. unfold dbind. destruct (d c) as [ [ [a|e] c'] |]; cbn [bind fst snd dret]; [|discriminate|discriminate]. unfold dret. cbn [bind fst]. intro E. injection E as E1 E2. congruence. }
  assert (Hn : Z.to_nat (Z.of_N (field bs 0 8)) <> 1%nat) by lia. revert E. remember (Z.to_nat (Z.of_N (field bs 0 8))) as k. clear Heqk. destruct k as [|[|[|k] ] ]; cbn [pick]; [apply G; discriminate|lia|apply G; discriminate|discriminate].
Qed.
Lemma ids_held bs ids : Forall (fun id => id <= 8191) ids -> forall p, holds bs p (flat_map (bits_of 16) ids) -> ids_at bs p (length ids) = ids.
Proof.
  induction 1 as [|id ids H _ IH]; intros p Hh; [reflexivity|]. cbn [flat_map length] in *. apply holds_app in Hh. destruct Hh as (H1 & H2). rewrite bits_of_length in H2. rewrite ids_at_S, (IH _ H2). f_equal.
  rewrite (small_id id H) in H1. apply holds_app in H1. destruct H1 as (H1 & _). rewrite (holds_field _ _ _ _ H1). change (2 ^ N.of_nat 13) with 8192. apply N.mod_small. lia.
Qed.
Lemma sid_held bs ids capacity : sid_ok capacity ids -> (length ids <= 255)%nat -> holds bs 0 (sid_bits ids) -> sid_from_bytes capacity bs = Ok (DOk ids).
Proof.
  intros (L & F) L' Hh. rewrite sid_read by apply Hh. unfold sid_bits in Hh. apply holds_app in Hh. destruct Hh as (H1 & Hh). apply holds_app in Hh. destruct Hh as (H2 & H3). rewrite bits_of_length in *.
  rewrite (holds_field _ _ _ _ H1). change (1 mod 2 ^ N.of_nat 8 =? 1) with true. cbn [negb]. change (0 + 8)%nat with 8%nat in *. rewrite (holds_field _ _ _ _ H2). change (2 ^ N.of_nat 8) with 256. rewrite N.mod_small by lia.
  rewrite Nat2N.id. rewrite (proj2 (Nat.ltb_ge _ _)) by assumption. rewrite ids_held by assumption. reflexivity.
Qed.
Lemma ids_at_ok bs p n : Forall (fun id => id <= 8191) (ids_at bs p n).
Proof.
  apply Forall_forall. intros x Hx. unfold ids_at in Hx. apply in_map_iff in Hx. destruct Hx as (i & <- & _). pose proof (field_bound bs (p + 16 * i) 13) as B. change (2 ^ N.of_nat 13) with 8192 in B. lia.
Qed.
Lemma ids_at_length bs p n : length (ids_at bs p n) = n.
Proof. unfold ids_at. rewrite map_length, seq_length. reflexivity. Qed.
Lemma sparse_inj a b : sparse_list a = sparse_list b -> a = b.
Proof.
  unfold sparse_list. intro H. injection H as H. revert b H. induction a as [|x a IH]; intros [|y b] H; cbn [map] in H; try discriminate; [reflexivity|]. injection H as H1 H2. f_equal; [assumption|]. apply IH. assumption.
Qed.
Lemma same_bytes a b : length a = length b -> bytes_ok a -> bytes_ok b -> (forall i, stream_bit a i = stream_bit b i) -> a = b.
Proof.
  intros L Ha Hb H. apply (nth_ext a b 0 0 L). intros n Hn. rewrite !(fun l p Hl => eq_sym (field_byte l (8 * p) Hl ltac:(lia))) || idtac.
  pose proof (field_byte a (8 * n) Ha ltac:(lia)) as E1. pose proof (field_byte b (8 * n) Hb ltac:(lia)) as E2. rewrite (Nat.mul_comm 8 n), Nat.div_mul in E1, E2 by lia. rewrite <- E1, <- E2. unfold field. f_equal. apply map_ext. intro; apply H.
Qed.
