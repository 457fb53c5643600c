(** Property C129: the CRC of a firmware image. *)
From Coq Require Import String.
From Verif Require Import Base ExprModel ExprProofs PkgModel PnpModel PolySpec PolyProofs ImgModel ImgSpec ImgProofs.
Open Scope list_scope.
Open Scope N_scope.

Lemma summed_exists b c : c + 8 <= N.of_nat (length b) -> exists data, summed b c data.
Proof.
  intro L. destruct (put_ok b c (repeat 0 8)) as (z & Z); [rewrite repeat_length; lia|]. apply put_patched in Z as (Z & _). exists (z ++ repeat 0 ((8 - length z mod 8) mod 8)). apply summed_of; [exact Z|apply Nat.mod_upper_bound; discriminate|].
  pose proof (Nat.mod_upper_bound (length z) 8 ltac:(discriminate)) as U. rewrite (Nat.div_mod (length z) 8) at 1 by discriminate. set (r := (length z mod 8)%nat) in *. rewrite <- Nat.add_assoc, Nat.add_comm, (Nat.mul_comm 8), Nat.mod_add by discriminate. rewrite Nat.add_mod_idemp_r by discriminate. replace (r + (8 - r))%nat with 8%nat by lia. reflexivity.
Qed.

(** If the file has the two statics of the library, apart from each other, in sections that are in the file, then the tool succeeds.  In the new file only
    the two statics have changed, and the program in it reports the CRC-64/WE of the file without its CRC. *)
Theorem C129_reported_partial : forall parse o b crc_at crc_from valid_at valid_from, bytes_ok b -> N.of_nat (length b) < 2 ^ 64 -> parse b = Some o ->
  static o b (name_of "CANADENSIS_CRC") 8 crc_at crc_from -> static o b (name_of "CANADENSIS_CRC_VALID") 1 valid_at valid_from -> (valid_from < crc_from \/ crc_from + 8 <= valid_from) ->
  exists b' crc, update_image parse b = Done b' /\ length b' = length b /\
    (forall i, ~ (crc_from <= N.of_nat i < crc_from + 8) -> N.of_nat i <> valid_from -> nth_error b' i = nth_error b i) /\
    (exists data, summed b' crc_from data) /\ (forall data, summed b' crc_from data -> is_crc64we data crc) /\
    (forall mem, loaded o b' mem -> get_crc false mem crc_at valid_at = Some crc).
Proof.
  intros parse o b a fa va fv B L P Sc Sv A. pose proof (static_fits _ _ _ _ _ _ Sc) as Fc. pose proof (static_fits _ _ _ _ _ _ Sv) as Fv. pose proof (static_found _ _ _ _ _ _ Sc Fc L) as C. pose proof (static_found _ _ _ _ _ _ Sv Fv L) as V.
  assert (H : exists b', update_image parse b = Done b').
  { unfold update_image. rewrite P. change crc_symbol with (name_of "CANADENSIS_CRC"). change crc_valid_symbol with (name_of "CANADENSIS_CRC_VALID"). rewrite C, V. cbn [obind]. unfold clear_crc, write_crc_valid, write_crc.
    destruct (put_ok b fa (repeat 0 8)) as (b1 & H1); [rewrite repeat_length; exact Fc|]. rewrite H1. cbn [obind]. apply put_patched in H1 as ( (N1 & _) & _).
    destruct (put_ok b1 fv [1]) as (b2 & H2); [rewrite N1; exact Fv|]. rewrite H2. cbn [obind]. apply put_patched in H2 as ( (N2 & _) & _). apply put_ok. rewrite le_length, N2, N1. exact Fc. }
  destruct H as (b' & H). pose proof (updated_right parse o b b' fa fv B P C V A H) as [U1 U2 U3 (crc & U4 & U5 & U6)]. exists b', crc. split; [exact H|]. split; [exact U1|]. split; [exact U2|]. split; [apply summed_exists; rewrite U1; exact Fc|]. split; [exact U6|].
  intros mem M. unfold get_crc. pose proof (static_read _ _ _ _ _ _ _ _ Sv U1 M 0 eq_refl) as Rv. rewrite !N.add_0_r in Rv. rewrite U3 in Rv. injection Rv as <-. cbn [N.eqb Pos.eqb]. f_equal. unfold read_u64. rewrite <- (le_round 8 crc U5). f_equal. apply nth_ext_error. intro i. destruct (Nat.lt_ge_cases i 8) as [Li|Li].
  - rewrite (map_nth_error _ _ _ (d := i)); [|rewrite <- (firstn_skipn 8 (seq 0 8)), nth_error_app1; [|rewrite firstn_length, seq_length; lia]; do 8 (destruct i as [|i]; [reflexivity|]); lia]. rewrite <- (U4 i Li). rewrite <- (static_read _ _ _ _ _ _ _ _ Sc U1 M (N.of_nat i)) by lia. f_equal. lia.
  - rewrite (proj2 (nth_error_None _ _)); [|rewrite map_length, seq_length; exact Li]. symmetry. apply nth_error_None. rewrite le_length. exact Li.
Qed.
Print Assumptions C129_reported_partial.
(** The tool changes nothing in a file that it has written (if it is parsed as before). *)
Theorem C129_again : forall parse o b b' crc_from valid_from, bytes_ok b -> parse b = Some o -> parse b' = Some o -> find_symbol_file_offset o (name_of "CANADENSIS_CRC") = Done crc_from -> find_symbol_file_offset o (name_of "CANADENSIS_CRC_VALID") = Done valid_from ->
  (valid_from < crc_from \/ crc_from + 8 <= valid_from) -> update_image parse b = Done b' -> update_image parse b' = Done b'.
Proof.
  intros parse o b b' c v B P P' C V A H. pose proof (updated_right parse o b b' c v B P C V A H) as [U1 U2 U3 (crc & U4 & U5 & U6)].
  assert (B' : bytes_ok b').
  { apply Forall_forall. intros x I. apply In_nth_error in I as (i & I). destruct (N.eq_dec (N.of_nat i) v) as [E|N1]; [subst v; rewrite Nat2N.id in U3; rewrite U3 in I; injection I as <-; reflexivity|]. destruct (N.le_gt_cases c (N.of_nat i)) as [L1|L1]; [destruct (N.lt_ge_cases (N.of_nat i) (c + 8)) as [L2|L2]|].
    - replace i with (N.to_nat c + (i - N.to_nat c))%nat in I by lia. rewrite U4 in I by lia. apply nth_error_In in I. revert I. generalize 8%nat, crc. intro k. induction k as [|k IH]; intros n I; [destruct I|]. destruct I as [<-|I]; [apply N.mod_upper_bound; discriminate|apply (IH _ I)].
    - rewrite U2 in I by lia. apply nth_error_In in I. apply (proj1 (Forall_forall _ _) B x I).
    - rewrite U2 in I by lia. apply nth_error_In in I. apply (proj1 (Forall_forall _ _) B x I). }
  assert (F : exists b'', update_image parse b' = Done b'').
  { unfold update_image in *. rewrite P in H. rewrite P'. change crc_symbol with (name_of "CANADENSIS_CRC") in *. change crc_valid_symbol with (name_of "CANADENSIS_CRC_VALID") in *. rewrite C in *. cbn [obind] in *. rewrite V in *. cbn [obind] in *. apply obind_done in H as (b1 & H1 & H). apply obind_done in H as (b2 & H2 & H3). unfold clear_crc, write_crc_valid, write_crc in *. apply put_patched in H1 as ( (N1 & _) & L1). apply put_patched in H2 as ( (N2 & _) & L2). clear H3.
    destruct (put_ok b' c (repeat 0 8)) as (d1 & D1); [rewrite U1; exact L1|]. rewrite D1. cbn [obind]. apply put_patched in D1 as ( (M1 & _) & _). destruct (put_ok d1 v [1]) as (d2 & D2); [rewrite M1, U1, <- N1; exact L2|]. rewrite D2. cbn [obind]. apply put_patched in D2 as ( (M2 & _) & _). apply put_ok. rewrite le_length, M2, M1, U1. rewrite repeat_length in L1. exact L1. }
  destruct F as (b'' & F). rewrite F. f_equal. pose proof (updated_right parse o b' b'' c v B' P' C V A F) as [W1 W2 W3 (crc' & W4 & W5 & W6)].
  assert (Lc : c + 8 <= N.of_nat (length b')).
  { unfold update_image in H. rewrite P in H. change crc_symbol with (name_of "CANADENSIS_CRC") in H. change crc_valid_symbol with (name_of "CANADENSIS_CRC_VALID") in H. rewrite C in H. cbn [obind] in H. rewrite V in H. cbn [obind] in H. apply obind_done in H as (b1 & H1 & _). unfold clear_crc in H1. apply put_patched in H1 as (_ & L1). rewrite repeat_length in L1. rewrite U1. exact L1. }
  assert (E : crc' = crc).
  { destruct (summed_exists b' c Lc) as (data & S). pose proof (U6 data S) as R. assert (S' : summed b'' c data).
    { destruct S as [z n (Z1 & Z2) Ln M]. apply summed_of; [|exact Ln|exact M]. split; [congruence|]. intro i. rewrite Z2, repeat_length. destruct (Nat.leb_spec (N.to_nat c) i), (Nat.ltb_spec i (N.to_nat c + 8)); cbn [andb]; try reflexivity; (destruct (N.eq_dec (N.of_nat i) v) as [E|N1]; [subst v; rewrite Nat2N.id in *; congruence|symmetry; apply W2; lia]). }
    pose proof (remainder_unique 0x142F0E1EBA9EA3693 _ _ _ ltac:(discriminate) R (W6 data S')) as E. apply (f_equal (fun x => N.lxor x 0xffffffffffffffff)) in E. rewrite !N.lxor_assoc, !N.lxor_nilpotent, !N.lxor_0_r in E. symmetry. exact E. }
  subst crc'. apply nth_ext_error. intro i. destruct (N.eq_dec (N.of_nat i) v) as [E|N1]; [subst v; rewrite Nat2N.id in *; congruence|]. destruct (N.le_gt_cases c (N.of_nat i)) as [L1|L1]; [destruct (N.lt_ge_cases (N.of_nat i) (c + 8)) as [L2|L2]|].
  - replace i with (N.to_nat c + (i - N.to_nat c))%nat by lia. rewrite U4, W4 by lia. reflexivity.
  - apply W2; lia.
  - apply W2; lia.
Qed.
Print Assumptions C129_again.

(** Wherever the tool is stopped, the image is the old one or the new one, and no other file but the temporary one has changed, if the name of the image
    does not end with ".tmp". *)
Theorem C129_interrupted_partial : forall parse input fs st, (forall s, s <> [] -> input <> s ++ name_of ".tmp") -> In st (states parse input fs) ->
  (st input = fs input \/ exists b new, fs input = Some b /\ update_image parse b = Done new /\ st input = Some new) /\ (forall q, q <> input -> q <> temporary input -> st q = fs q).
Proof. intros parse input fs st T I. apply (states_safe parse); [|exact I]. intro E. apply temporary_same in E as (s & N & E). apply (T s N E). Qed.
Print Assumptions C129_interrupted_partial.
(** When it has finished, the image is the new one, and all other files are as before if there was no file with the temporary name. *)
Theorem C129_finished : forall parse input fs b new d, fs input = Some b -> update_image parse b = Done new ->
  let st := last (states parse input fs) d in st input = Some new /\ forall q, q <> input -> (q = temporary input -> fs q = None) -> st q = fs q.
Proof.
  intros parse input fs b new d F U. unfold states. rewrite F, U. rewrite app_comm_cons, last_last. unfold rename, set_file. split; [rewrite !text_refl; reflexivity|]. intros q N H. destruct (text_eqb q input) eqn:E1; [apply text_eqb_eq in E1; contradiction|]. destruct (text_eqb q (temporary input)) eqn:E2; [|reflexivity]. apply text_eqb_eq in E2. symmetry. apply H, E2.
Qed.
Print Assumptions C129_finished.

(** * Examples *)

(** A file of 25 bytes with one section of 20 bytes behind 5 bytes of headers; the section is loaded at 0x8000 *)
Definition sample_object : object := Object
  [Symbol None 0 None; Symbol (Some (name_of "main")) 0x8000 (Some 0%nat); Symbol (Some (name_of "CANADENSIS_CRC_VALID")) 0x8002 (Some 0%nat); Symbol (Some (name_of "CANADENSIS_CRC")) 0x8008 (Some 0%nat)]
  [Section_ 0x8000 20 (Some 5)].
Definition sample_parse (_ : list N) : option object := Some sample_object.
Definition sample_file : list N := [127; 69; 76; 70; 1; 9; 9; 0; 9; 9; 9; 9; 9; 0; 0; 0; 0; 0; 0; 0; 0; 9; 9; 9; 9].
Example C129_witness : static sample_object sample_file (name_of "CANADENSIS_CRC") 8 0x8008 13 /\ static sample_object sample_file (name_of "CANADENSIS_CRC_VALID") 1 0x8002 7 /\
  exists b, update_image sample_parse sample_file = Done b /\ get_crc false (fun a => nth (N.to_nat (a - 0x8000 + 5)) b 0) 0x8008 0x8002 <> None /\ b <> sample_file.
Proof.
  split; [|split].
  - apply (static_in _ _ _ _ (Symbol (Some (name_of "CANADENSIS_CRC")) 0x8008 (Some 0%nat)) 0 (Section_ 0x8000 20 (Some 5)) 5); try reflexivity; try (cbn; lia); [cbn; tauto|]. intros s' I E. cbn in I. repeat (destruct I as [<-|I]; [first [reflexivity|discriminate E]|]). destruct I.
  - apply (static_in _ _ _ _ (Symbol (Some (name_of "CANADENSIS_CRC_VALID")) 0x8002 (Some 0%nat)) 0 (Section_ 0x8000 20 (Some 5)) 5); try reflexivity; try (cbn; lia); [cbn; tauto|]. intros s' I E. cbn in I. repeat (destruct I as [<-|I]; [first [reflexivity|discriminate E]|]). destruct I.
  - eexists. split; [vm_compute; reflexivity|]. split; [vm_compute; discriminate|vm_compute; discriminate].
Qed.

(** On a processor whose byte order is the other, the program reports the CRC with its bytes reversed. *)
Theorem C129_big_endian_refuted : exists b crc mem, update_image sample_parse sample_file = Done b /\ loaded sample_object b mem /\ get_crc false mem 0x8008 0x8002 = Some crc /\ get_crc true mem 0x8008 0x8002 <> Some crc.
Proof.
  eexists. eexists. exists (fun a => match update_image sample_parse sample_file with Done b => nth (N.to_nat (a - 0x8000 + 5)) b 0 | _ => 0 end). split; [vm_compute; reflexivity|]. split; [|split; [vm_compute; reflexivity|vm_compute; discriminate] ].
  intros sec start i x [<-|[] ] Es L E. cbn [sec_file] in Es. injection Es as <-. cbn [sec_size sec_address] in *. match goal with |- context [update_image ?p ?f] => let r := eval vm_compute in (update_image p f) in change (update_image p f) with r end. replace (0x8000 + i - 0x8000 + 5) with (5 + i) by lia. apply nth_error_nth, E.
Qed.
Print Assumptions C129_big_endian_refuted.
(** An image whose name ends with ".tmp" is empty or incomplete in between; a file with the name of the temporary file is lost. *)
Definition directory (l : list (string * list N)) : files := fun q => match find (fun e => text_eqb q (name_of (fst e))) l with Some e => Some (snd e) | None => None end.
Theorem C129_interrupted_refuted : exists st, In st (states sample_parse (name_of "app.tmp") (directory [("app.tmp", sample_file)]%string)) /\ st (name_of "app.tmp") = Some [].
Proof. eexists. split; [right; left; reflexivity|vm_compute; reflexivity]. Qed.
Print Assumptions C129_interrupted_refuted.
Theorem C129_other_file_refuted : let fs := directory [("app.elf", sample_file); ("app.tmp", [1; 2; 3])]%string in
  let st := last (states sample_parse (name_of "app.elf") fs) fs in fs (name_of "app.tmp") = Some [1; 2; 3] /\ st (name_of "app.tmp") = None.
Proof. split; [vm_compute; reflexivity|vm_compute; reflexivity]. Qed.
Print Assumptions C129_other_file_refuted.
(** A symbol outside of its section or of the file makes the tool panic. *)
Theorem C129_panic_refuted : update_image (fun _ => Some (Object (o_symbols sample_object) [Section_ 0x9000 20 (Some 5)])) sample_file = Crash /\ update_image sample_parse (firstn 20 sample_file) = Crash.
Proof. split; [vm_compute; reflexivity|vm_compute; reflexivity]. Qed.
Print Assumptions C129_panic_refuted.
