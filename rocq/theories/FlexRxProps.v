(** C133: receiving, the memory of message buffers, and the bit timing of the FlexCAN driver *)
From Verif Require Import Base FlexModel FlexSpec FlexProofs FlexRxModel FlexRxSpec FlexRxProofs.

(** Partial: receiving is a queue.  Whatever arrives between the calls, each call returns the first frame that waits, with its identifier, its data,
    and whether it is remote, and nothing only if no frame waits: if all data length codes are at most 8. *)
Theorem C133_receive_partial : forall es, Forall plain (arrived es) ->
  queue [] es (fst (receives [] es)) (map carried (snd (receives [] es))).
Proof. intros es H. exact (receives_general es H [] (Forall_nil _)). Qed.
Print Assumptions C133_receive_partial.

(** So the frames that the calls return, followed by those that still wait, are the frames that arrived *)
Theorem C133_once_partial : forall es, Forall plain (arrived es) ->
  exists ws, Forall2 made (returned (fst (receives [] es))) ws /\ arrived es = ws ++ map carried (snd (receives [] es)).
Proof. intros es H. exact (queue_once [] es _ _ (receives_general es H [] (Forall_nil _))). Qed.
Print Assumptions C133_once_partial.

(** Partial: the node gets every extended data frame with its identifier and data, in order, and no standard frame: if also no extended frame is remote *)
Theorem C133_node_partial : forall es,
  Forall (fun w => plain w /\ (w_extended w = true -> w_remote w = false)) (arrived es) ->
  node_queue [] es (fst (driver_receives [] es)) (map carried (snd (driver_receives [] es))).
Proof. intros es H. exact (driver_receives_general es H [] (Forall_nil _)). Qed.
Print Assumptions C133_node_partial.

(** Message buffers of one size do not overlap.  Each has room for a header of 8 bytes and the data, is aligned to 8 bytes, and lies in one block. *)
Theorem C133_buffers : forall b i j,
  (i <> j -> apart (message_buffer_space i (buffer_bytes b)) (message_buffer_space j (buffer_bytes b))) /\
  (snd (message_buffer_space i (buffer_bytes b)) = fst (message_buffer_space i (buffer_bytes b)) + (8 + data_bytes b))%nat /\
  (fst (message_buffer_space i (buffer_bytes b)) mod 8 = 0)%nat /\
  (exists n, inside (message_buffer_space i (buffer_bytes b)) (block_range n)).
Proof.
  intros b i j. split; [exact (space_apart b i j)|]. split; [exact (space_size b i)|]. split; [exact (space_aligned b i)|]. eexists. exact (space_block b i).
Qed.
Print Assumptions C133_buffers.

(** The number of message buffers is the sum of what fits into each block, and as many buffers of one size are in the memory.  In half a block, exactly the
    counted ones are in the memory. *)
Theorem C133_capacity : forall l b n i,
  ((length l <= 4)%nat -> total_messages (Blocks l) = fold_right Nat.add 0%nat (map (fun s => 512 / (8 + data_bytes s)) l)%nat) /\
  ((n <= 4)%nat -> (i < total_messages (Blocks (repeat b n)))%nat -> inside (message_buffer_space i (buffer_bytes b)) (whole (memory_bytes (Blocks (repeat b n))))) /\
  memory_bytes (Blocks l) = (512 * length l)%nat /\ memory_bytes (HalfBlock b) = 256%nat /\
  ((i < total_messages (HalfBlock b))%nat <-> inside (message_buffer_space i (buffer_bytes b)) (whole (memory_bytes (HalfBlock b)))).
Proof.
  intros l b n i. split; [exact (total_general l)|]. split; [exact (space_inside b n i)|]. split; [reflexivity|]. split; [reflexivity|]. exact (half_inside b i).
Qed.
Print Assumptions C133_capacity.

(** Message [i] of a block is where the offsets say that it is *)
Theorem C133_blocks : forall b n i, (i < 512 / (8 + data_bytes b))%nat ->
  block_message n i b = fst (message_buffer_space (n * (512 / (8 + data_bytes b)) + i) (buffer_bytes b)).
Proof.
  intros b n i. assert (E : (512 / (8 + data_bytes b))%nat = capacity_per_block b) by (destruct b; reflexivity). rewrite E. exact (block_message_right b n i).
Qed.
Print Assumptions C133_blocks.

(** The FIFO takes the place of the first six message buffers and of one for every four filters, or part of four.  So it does not overlap the buffer that is
    used to send, number 8, exactly if there are at most 8 filters. *)
Theorem C133_fifo : forall filters i,
  (apart (legacy_fifo_space filters) (message_buffer_space i (buffer_bytes Bytes8)) <-> (6 + (filters + 3) / 4 <= i)%nat) /\
  (apart (legacy_fifo_space filters) (message_buffer_space 8 (buffer_bytes Bytes8)) <-> (filters <= 8)%nat).
Proof.
  intros filters i. split; [exact (fifo_overlap filters i)|]. rewrite fifo_overlap. split; intro H.
  - destruct (Nat.le_gt_cases filters 8) as [L|L]; [exact L|exfalso].
    assert (X : (12 / 4 <= (filters + 3) / 4)%nat) by (apply Nat.div_le_mono; lia). change (12 / 4)%nat with 3%nat in X. lia.
  - assert (X : ((filters + 3) / 4 <= 11 / 4)%nat) by (apply Nat.div_le_mono; lia). change (11 / 4)%nat with 2%nat in X. lia.
Qed.
Print Assumptions C133_fifo.

(** The register of the bit timing holds the numbers that were asked for, and its other bits are left *)
Theorem C133_timing : forall ctrl1 t, 1 <= t_prescaler t <= 255 ->
  let after := set_timing ctrl1 t in
  prescaler after = t_prescaler t /\ jump after = jump_number (t_jump t) /\
  bit_cycles after = t_prescaler t * (1 + segment_number (t_propagation t) + segment_number (t_phase_1 t) + segment2_number (t_phase_2 t)) /\
  phase_1 after = segment_number (t_phase_1 t) /\ phase_2 after = segment2_number (t_phase_2 t) /\
  (forall i, 3 <= i < 16 -> N.testbit after i = N.testbit ctrl1 i).
Proof.
  intros ctrl1 t P. cbv zeta. destruct (set_timing_fields ctrl1 t P) as (E1 & E2 & E3 & E4 & E5).
  assert (A : prescaler (set_timing ctrl1 t) = t_prescaler t) by (unfold prescaler; rewrite E1; lia).
  assert (B : jump (set_timing ctrl1 t) = jump_number (t_jump t)) by (unfold jump; rewrite E2; destruct (t_jump t); reflexivity).
  assert (C : phase_1 (set_timing ctrl1 t) = segment_number (t_phase_1 t)) by (unfold phase_1; rewrite E3; destruct (t_phase_1 t); reflexivity).
  assert (D : phase_2 (set_timing ctrl1 t) = segment2_number (t_phase_2 t)) by (unfold phase_2; rewrite E4; destruct (t_phase_2 t); reflexivity).
  assert (E : propagation (set_timing ctrl1 t) = segment_number (t_propagation t)) by (unfold propagation; rewrite E5; destruct (t_propagation t); reflexivity).
  split; [exact A|]. split; [exact B|]. split; [unfold bit_cycles; now rewrite A, C, D, E|]. split; [exact C|]. split; [exact D|]. exact (fun i => set_timing_other ctrl1 t i).
Qed.
Print Assumptions C133_timing.

(** The hypotheses are met: an extended frame with three bytes, a standard remote frame, and an extended frame with eight bytes *)
Definition ext3 : message := Message 0x00630000 0x1234567 [0; 3; 2; 1; 0; 0; 0; 0].
Definition std_remote : message := Message 0x00140000 (0x55 * 2 ^ 18) [0; 0; 0; 0; 0; 0; 0; 0].
Definition ext8 : message := Message 0x00680000 0x1fffffff [4; 3; 2; 1; 8; 7; 6; 5].
Example C133_witness :
  let es := [Call; Arrives ext3; Arrives std_remote; Call; Call; Arrives ext8; Call; Call; Arrives ext3] in
  Forall (fun w => plain w /\ (w_extended w = true -> w_remote w = false)) (arrived es) /\
  fst (driver_receives [] es) = [Returns None; Returns (Some (0x1234567, [1; 2; 3])); Returns None; Returns (Some (0x1fffffff, [1; 2; 3; 4; 5; 6; 7; 8])); Returns None] /\
  snd (driver_receives [] es) = [ext3] /\ length (returned (fst (receives [] es))) = 3%nat /\
  map carried [ext3; std_remote] = [CanFrame true 0x1234567 false 3 [1; 2; 3]; CanFrame false 0x55 true 4 []] /\
  bit_cycles (set_timing 0xffffffff (Timing 5 Width2 Length7 Length4 Four)) = 80 /\
  message_buffer_space 31 16 = (0x270, 0x280)%nat /\ message_buffer_space 22 24 = (0x298, 0x2b0)%nat /\ legacy_fifo_space 8 = (0x80, 0x100)%nat.
Proof.
  cbv zeta. split.
  - repeat (apply Forall_cons; [split; [vm_compute; discriminate|vm_compute; trivial; discriminate]|]). apply Forall_nil.
  - repeat (split; [vm_compute; reflexivity|]). vm_compute. reflexivity.
Qed.
Print Assumptions C133_witness.

(** Refuted: a frame with a data length code over 8, which is allowed on the bus and means 8 bytes of data, makes both calls panic.  The frame stays first. *)
Theorem C133_long_refuted :
  (forall m rest, 8 < w_dlc (carried m) ->
     receive (m :: rest) = (Panics, m :: rest) /\ driver_receive (m :: rest) = (Panics, m :: rest)) /\
  (exists m, carried m = CanFrame true 0x1234567 false 9 [1; 2; 3; 4; 5; 6; 7; 8]).
Proof.
  split.
  - intros m rest H. pose proof (receive_long m rest H) as E. split; [exact E|]. unfold driver_receive. now rewrite E.
  - exists (Message 0x00690000 0x1234567 [4; 3; 2; 1; 8; 7; 6; 5]). vm_compute. reflexivity.
Qed.
Print Assumptions C133_long_refuted.

(** Refuted: the node gets a remote frame, which has no data, as a data frame with as many zeros as the data length code says *)
Theorem C133_remote_refuted :
  (forall m rest, plain (carried m) -> w_extended (carried m) = true -> w_remote (carried m) = true ->
     driver_receive (m :: rest) = (Returns (Some (w_ident (carried m), repeat 0 (N.to_nat (w_dlc (carried m))))), rest)) /\
  (exists m, carried m = CanFrame true 0x1234567 true 8 []).
Proof.
  split.
  - intros m rest P X R. rewrite (driver_plain m rest P), X, R. reflexivity.
  - exists (Message 0x00780000 0x1234567 [0; 0; 0; 0; 0; 0; 0; 0]). vm_compute. reflexivity.
Qed.
Print Assumptions C133_remote_refuted.
