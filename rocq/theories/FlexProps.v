(** C132: sending through the FlexCAN driver. *)
From Verif Require Import Base FlexModel FlexSpec FlexProofs.

(** A frame can be made of exactly the lengths that CAN FD has, and it has that data. *)
Theorem C132_frames : forall id data,
  (In (length data) [0; 1; 2; 3; 4; 5; 6; 7; 8; 12; 16; 20; 24; 32; 48; 64]%nat <-> frame_new id data <> None) /\
  (forall f, frame_new id data = Some f -> frame_data f = data /\ fr_id f = id /\ fr_remote f = false) /\
  (forall bits, id_is_extended (id_extended bits) = true /\ id_bits (id_extended bits) = bits mod 2 ^ 29 /\
     id_is_extended (id_standard bits) = false /\ id_bits (id_standard bits) = bits mod 2 ^ 11).
Proof.
  intros id data. split; [|split].
  - unfold frame_new. generalize (length data) as n. intro n. split.
    + intros H. cbn [In] in H. repeat (destruct H as [<-|H]; [cbn [dlc_from_length]; discriminate|]). destruct H.
    + intro H. destruct (dlc_from_length n) as [dlc|] eqn:E; [|congruence]. clear H. unfold dlc_from_length in E. cbn [In].
      do 65 (destruct n as [|n]; [try discriminate; tauto|]). discriminate.
  - intros f E. split; [exact (frame_new_data _ _ _ E)|]. unfold frame_new in E.
    destruct (dlc_from_length (length data)); [|discriminate]. inversion E. auto.
  - intro bits. destruct (id_extended_right bits) as [A B]. destruct (id_standard_right bits) as [C D]. auto.
Qed.
Print Assumptions C132_frames.

(** A header is written so that the same header is read, and reading and writing one changes no bit that has a meaning. *)
Theorem C132_headers :
  (forall h, hd_timestamp h < 2 ^ 16 -> hd_dlc h < 16 -> hd_code h < 16 -> hd_priority h < 8 ->
     hd_id h < (if hd_ide h then 2 ^ 29 else 2 ^ 11) -> from_bits (fst (as_bits h)) (snd (as_bits h)) = h) /\
  (forall cs id i, i < 32 ->
     (i <> 23 -> i <> 28 -> N.testbit (fst (as_bits (from_bits cs id))) i = N.testbit cs i) /\
     ((N.testbit cs 21 = false -> 18 <= i) -> N.testbit (snd (as_bits (from_bits cs id))) i = N.testbit id i)).
Proof.
  split.
  - intros h A B C D E. apply from_as. unfold valid. auto.
  - intros cs id i I. split; [apply as_from_cs; assumption|]. intro H. apply as_from_id; [assumption|].
    intro F. apply H. rewrite <- flag_testbit. exact F.
Qed.
Print Assumptions C132_headers.

(** Data that is written into a buffer is read again, whatever its capacity. *)
Theorem C132_data : forall data buffer, (length buffer mod 4 = 0)%nat -> (length data <= length buffer)%nat ->
  read_data (length data) (write_data data buffer) = data /\
  forall i, (i < length data)%nat -> nth (4 * (i / 4) + (3 - i mod 4)) (write_data data buffer) 0 = nth i data 0.
Proof.
  intros data buffer M L. split; [apply read_write; assumption|]. intros i I. rewrite <- shift_index_right.
  apply write_data_nth; [assumption|assumption|lia].
Qed.
Print Assumptions C132_data.

(** The driver orders frames as the bus does. *)
Theorem C132_priority : forall f g a b, made f a -> made g b ->
  (compare_transmit_priority (header_of f) (header_of g) = Gt <-> wins a b) /\
  (compare_transmit_priority (header_of f) (header_of g) = Lt <-> wins b a).
Proof.
  intros f g a b F G. destruct (made_right f a F) as (-> & Pa & _). destruct (made_right g b G) as (-> & Pb & _).
  split; [apply compare_gt; assumption|apply compare_right; assumption].
Qed.
Print Assumptions C132_priority.

(** Whatever the controller does, and whenever: no call panics; a frame is refused only if it does not win against the
    one that was accepted last; a frame that is given back is that one, and it lost. *)
Theorem C132_answers : forall fuel calls ws, Forall2 (fun call w => made (fst call) w) calls ws ->
  allowed None ws (fst (sends fuel fresh calls)).
Proof. intros fuel calls ws M. apply sends_general; [assumption|exact fresh_holds]. Qed.
Print Assumptions C132_answers.

(** If no frame wins against one before it, every call returns at once, and the frames that were accepted are transmitted,
    each once, unchanged and in order; at most the last one is not yet.  When it is, the next one is accepted.
    Partial: see the refutations for frames that win. *)
Theorem C132_order_partial : forall fuel calls ws, Forall2 (fun call w => made (fst call) w) calls ws -> in_turn ws ->
  let (rs, c) := sends fuel fresh calls in
  length rs = length ws /\
  Forall (fun r => r = Returns WouldBlock \/ r = Returns (Accepted None)) rs /\
  (exists rest, accepted ws rs = transmitted c ++ rest /\ (length rest <= 1)%nat) /\
  (forall f w s, made f w -> in_turn (ws ++ [w]) -> transmitted c = accepted ws rs ->
     fst (send fuel f (c, s)) = Returns (Accepted None)).
Proof.
  intros fuel calls ws M T. destruct (sends_in_turn fuel calls ws M T [] fresh fresh_settled) as (A & B & C); [intros l w []|].
  cbn [app] in C. destruct (sends fuel fresh calls) as [rs c]. cbn [fst snd] in *. split; [exact A|]. split; [exact B|]. split.
  - destruct C as (_ & _ & [(_ & _ & C)|(w & _ & _ & C & _)]).
    + exists []. rewrite app_nil_r. cbn. auto.
    + exists [w]. cbn. auto.
  - intros f w s Mf Tw E. destruct (send_in_turn fuel f w (accepted ws rs) c s Mf C) as (r & s' & S & D).
    + intros l Hl. assert (Hin : In l ws).
      { clear - Hl. revert rs Hl. induction ws as [|w ws IH]; intros rs H; [destruct H|]. cbn [accepted] in H.
        destruct rs as [|[ [|g]| |] rs]; cbn [In] in *; try tauto; try (right; eapply IH; eassumption).
        destruct H as [H|H]; [left; exact H|right; eapply IH; eassumption]. }
      clear - Tw Hin. unfold in_turn in Tw. induction ws as [|x ws IH]; [destruct Hin|]. cbn [app] in Tw.
      inversion Tw as [|? ? T1 T2]; subst. destruct Hin as [<-|Hin]; [|exact (IH T2 Hin)].
      rewrite Forall_forall in T1. apply T1, in_or_app. right. left. reflexivity.
    + rewrite S. destruct D as [(_ & _ & D)|(-> & _)]; [contradiction|reflexivity].
Qed.
Print Assumptions C132_order_partial.

(** Two frames: the second has the lower identifier and wins *)
Definition low : frame := Frame (id_extended 0x1234) 2 false ([1; 2] ++ repeat 0 62).
Definition high : frame := Frame (id_extended 0x1233) 1 false ([7] ++ repeat 0 63).
Example C132_witness :
  let wl := CanFrame true 0x1234 false 2 [1; 2] in
  let wh := CanFrame true 0x1233 false 1 [7] in
  made low wl /\ made high wh /\ wins wh wl /\ in_turn [wh; wl] /\
  let (rs, c) := sends 0 fresh [(high, []); (low, []); (low, [ [Start; Failure; Start; Success] ]); (low, [])] in
  rs = [Returns (Accepted None); Returns WouldBlock; Returns (Accepted None); Returns WouldBlock] /\
  transmitted (fold_left act [Start; Success] c) = [wh; wl].
Proof.
  assert (A : made low (CanFrame true 0x1234 false 2 [1; 2])) by (apply (MadeData true 0x1234 [1; 2]); [reflexivity|cbn; lia]).
  assert (B : made high (CanFrame true 0x1233 false 1 [7])) by (apply (MadeData true 0x1233 [7]); [reflexivity|cbn; lia]).
  assert (W : wins (CanFrame true 0x1233 false 1 [7]) (CanFrame true 0x1234 false 2 [1; 2])).
  { apply compare_value. vm_compute. reflexivity. }
  split; [exact A|]. split; [exact B|]. split; [exact W|]. split.
  - constructor; [|constructor; [constructor|constructor] ]. constructor; [|constructor].
    intro V. apply compare_value in W. apply compare_value in V. rewrite N.compare_antisym, W in V. discriminate.
  - vm_compute. auto.
Qed.

(** Violated: when a frame wins against the one in the buffer, and the controller aborts that one before the driver looks,
    the call never returns. *)
Theorem C132_hang_refuted : forall lo hi wlo whi, made lo wlo -> made hi whi -> wins whi wlo ->
  forall fuel rest, fst (sends fuel fresh [(lo, []); (hi, [ []; []; []; []; []; [Settle] ] ++ rest)]) = [Returns (Accepted None); Waits].
Proof.
  intros lo hi wlo whi L H W fuel rest. cbn [sends]. destruct (send_fresh fuel lo wlo L) as (b & S & E & _). unfold schedule in *. rewrite S. cbv iota beta.
  pose proof (hang fuel rest lo hi wlo whi b L H W E) as G.
  destruct (send fuel hi _) as [r [c s] ]. cbn [fst] in G. subst r. reflexivity.
Qed.
Print Assumptions C132_hang_refuted.

(** Violated: when it is being transmitted already, the call returns before the outcome is known: the frame is given back
    and transmitted, and the new one is never transmitted. *)
Theorem C132_duplicate_refuted : forall lo hi wlo whi, made lo wlo -> made hi whi -> wins whi wlo ->
  forall fuel, exists g c, sends (S fuel) fresh [(lo, []); (hi, [ [Start] ])] = ([Returns (Accepted None); Returns (Accepted (Some g))], c) /\
    made g wlo /\ forall more, transmitted (fold_left act (Success :: more) c) = [wlo].
Proof.
  intros lo hi wlo whi L H W fuel. cbn [sends]. destruct (send_fresh (S fuel) lo wlo L) as (b & S1 & E & B). unfold schedule in *. rewrite S1. cbv iota beta.
  destruct (duplicate fuel lo hi wlo whi b L H W E B) as (g & b' & S2 & G & _). unfold schedule in *. rewrite S2. exists g. eexists. split; [reflexivity|].
  split; [exact G|]. intro more. cbn [fold_left]. rewrite never_more; try reflexivity.
  - unfold transmitted. cbn [act c_flight c_sent app map]. destruct E as (_ & _ & E). rewrite E. reflexivity.
  - cbn [act c_flight c_buffer m_cs]. rewrite code_set by reflexivity. discriminate.
Qed.
Print Assumptions C132_duplicate_refuted.

(** Violated: a frame with more than eight bytes is accepted, and only eight are transmitted. *)
Theorem C132_long_refuted : forall fuel bits data f, frame_new (id_extended bits) data = Some f -> (8 < length data)%nat ->
  exists c w, send fuel f (fresh, []) = (Returns (Accepted None), (c, [])) /\
    transmitted (fold_left act [Start; Success] c) = [w] /\ w_bytes w = firstn 8 data.
Proof. exact long_right. Qed.
Print Assumptions C132_long_refuted.
