(** Property theorems for canadensis_serial/src/cobs.rs. *)
From Verif Require Import Base BitLemmas CobsModel CobsSpec CobsProofs.

(** C03, the strongest true form: escaping and then unescaping gives the original string exactly when no zero follows
    a run of 254, 508, ... nonzero bytes.  (Missing from the full claim: the strings that [swallows_zero] describes,
    see [C03_cobs_round_trip_refuted].) *)
Theorem C03_cobs_round_trip_partial : forall src dest n out,
  bytes_ok src -> escape_from_iter src dest = Some (n, out) ->
  (unescape (firstn n out) = Some src <-> ~ swallows_zero src).
Proof. exact cobs_round_trip. Qed.
Print Assumptions C03_cobs_round_trip_partial.

(** Every string shorter than 255 bytes survives. *)
Theorem C03_cobs_short_round_trip_partial : forall src dest n out,
  bytes_ok src -> (length src <= 254)%nat -> escape_from_iter src dest = Some (n, out) ->
  unescape (firstn n out) = Some src.
Proof. exact cobs_short_round_trip. Qed.
Print Assumptions C03_cobs_short_round_trip_partial.

(** C03 as stated is false of the code: 254 ones, a zero and a one come back without the zero. *)
Theorem C03_cobs_round_trip_refuted :
  exists src n out,
    bytes_ok src /\ escape_from_iter src (repeat 0 300) = Some (n, out) /\
    unescape (firstn n out) = Some (repeat 1 255) /\ src <> repeat 1 255.
Proof.
  exists (repeat 1 254 ++ [0; 1]). do 2 eexists. split; [|split; [vm_compute; reflexivity|split; [vm_compute; reflexivity|]]].
  - apply bytes_ok_app. split; [apply Forall_repeat_intro; vm_compute; reflexivity|].
    repeat constructor; vm_compute; reflexivity.
  - intro H. apply (f_equal (@length N)) in H. vm_compute in H. discriminate.
Qed.
Print Assumptions C03_cobs_round_trip_refuted.

Example C03_witness :
  let src := repeat 7 255 ++ [0; 0; 9] in
  exists n out, escape_from_iter src (repeat 0 300) = Some (n, out) /\ unescape (firstn n out) = Some src.
Proof. do 2 eexists. split; vm_compute; reflexivity. Qed.

(** C04: the escaped form consists of nonzero bytes, is at most [escaped_size] long, and the part of the buffer after
    it is untouched. *)
Theorem C04_cobs_output : forall src dest n out,
  bytes_ok src -> escape_from_iter src dest = Some (n, out) ->
  (n <= escaped_size (length src))%nat /\
  Forall (fun b => 0 < b < 256) (firstn n out) /\
  length out = length dest /\ skipn n out = skipn n dest /\ (n <= length dest)%nat.
Proof. exact cobs_output. Qed.
Print Assumptions C04_cobs_output.

(** C04: escaping fails only when the destination is shorter than [escaped_size]. *)
Theorem C04_cobs_never_fails : forall src dest,
  (escaped_size (length src) <= length dest)%nat -> escape_from_iter src dest <> None.
Proof. exact cobs_never_fails. Qed.
Print Assumptions C04_cobs_never_fails.

(** C04: [escaped_size] is the exact maximum: it is reached by every string without zeros. *)
Theorem C04_escaped_size_tight : forall src dest,
  Forall (fun b => b <> 0) src ->
  option_map fst (escape_from_iter src dest) =
  if (escaped_size (length src) <=? length dest)%nat then Some (escaped_size (length src)) else None.
Proof. exact cobs_tight. Qed.
Print Assumptions C04_escaped_size_tight.

(** C04: unescaping never reports an error on a string without zeros and always on one with a zero. *)
Theorem C04_unescape_total : forall bs, unescape bs <> None <-> Forall (fun b => b <> 0) bs.
Proof. exact unescape_total. Qed.
Print Assumptions C04_unescape_total.

Example C04_witness :
  escape_from_iter [1; 0; 2] [9; 9; 9; 9; 9; 9] = Some (4%nat, [2; 1; 2; 2; 9; 9]) /\ escaped_size 3 = 4%nat /\
  escape_from_iter [1; 0; 2] [9; 9; 9] = None /\ bytes_ok [1; 0; 2].
Proof. repeat split; vm_compute; try reflexivity. repeat constructor; vm_compute; reflexivity. Qed.
