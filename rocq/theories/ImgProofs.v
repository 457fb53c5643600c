(** Proofs about the CRC of firmware images. *)
From Coq Require Import String.
From Verif Require Import Base ExprModel ExprProofs PkgModel PnpModel PolySpec PolyProofs ImgModel ImgSpec.
Open Scope list_scope.
Open Scope N_scope.
Ltac Zify.zify_post_hook ::= Z.div_mod_to_equations.

Lemma obind_done {A B} (x : out A) (f : A -> out B) b : obind x f = Done b -> exists a, x = Done a /\ f a = Done b.
Proof. destruct x as [a| |]; [intro H; exists a; auto|discriminate|discriminate]. Qed.
Lemma put_patched b off bytes b' : put b off bytes = Done b' -> patched b off bytes b' /\ off + N.of_nat (length bytes) <= N.of_nat (length b).
Proof.
  unfold put. destruct (N.leb_spec (off + N.of_nat (length bytes)) (N.of_nat (length b))) as [L|L]; [|discriminate]. intro E. apply done_inj in E. subst b'. split; [|exact L]. set (n := N.to_nat off). assert (Ln : (n + length bytes <= length b)%nat) by (unfold n; lia). split.
  - rewrite !app_length, firstn_length, skipn_length. lia.
  - intro i. assert (Lf : length (firstn n b) = n) by (rewrite firstn_length; lia). fold n. destruct (Nat.leb_spec n i) as [A|A]; cbn [andb].
    + rewrite nth_error_app2 by lia. rewrite Lf. destruct (Nat.ltb_spec i (n + length bytes)) as [B|B].
      * rewrite nth_error_app1 by lia. reflexivity.
      * rewrite nth_error_app2 by lia. rewrite <- (firstn_skipn (n + length bytes) b) at 2. rewrite nth_error_app2 by (rewrite firstn_length; lia). rewrite firstn_length. f_equal. lia.
    + rewrite nth_error_app1 by lia. rewrite <- (firstn_skipn n b) at 2. rewrite nth_error_app1 by lia. reflexivity.
Qed.
Lemma put_ok b off bytes : off + N.of_nat (length bytes) <= N.of_nat (length b) -> exists b', put b off bytes = Done b'.
Proof. intro L. unfold put. destruct (N.leb_spec (off + N.of_nat (length bytes)) (N.of_nat (length b))); [eexists; reflexivity|lia]. Qed.
Lemma nth_ext_error {A} (l : list A) : forall l', (forall i, nth_error l i = nth_error l' i) -> l = l'.
Proof.
  induction l as [|x l IH]; intros l' H; destruct l' as [|y l']; [reflexivity|specialize (H O); discriminate H|specialize (H O); discriminate H|]. pose proof (H O) as H0. injection H0 as ->. f_equal. apply IH. intro i. apply (H (S i)).
Qed.
Lemma patched_unique b off bytes x y : patched b off bytes x -> patched b off bytes y -> x = y.
Proof. intros (_ & A) (_ & B). apply nth_ext_error. intro i. rewrite A, B. reflexivity. Qed.

(** * The file *)

Definition apart (c v : N) : Prop := v < c \/ c + 8 <= v.
Record updated (b b' : list N) (c v : N) : Prop := Updated {
  up_length : length b' = length b;
  up_same : forall i, ~ (c <= N.of_nat i < c + 8) -> N.of_nat i <> v -> nth_error b' i = nth_error b i;
  up_valid : nth_error b' (N.to_nat v) = Some 1;
  up_crc : exists crc, (forall i, (i < 8)%nat -> nth_error b' (N.to_nat c + i) = nth_error (le_bytes 8 crc) i) /\ crc < 2 ^ 64 /\ forall data, summed b' c data -> is_crc64we data crc
}.
Lemma le_length k : forall n, length (le_bytes k n) = k.
Proof. induction k as [|k IH]; intro n; [reflexivity|]. cbn [le_bytes length]. rewrite IH. reflexivity. Qed.
Lemma pad_summed z n : (n < 8)%nat -> ((length z + n) mod 8 = 0)%nat -> pad_to_8_bytes z = z ++ repeat 0 n.
Proof.
  intros L M. unfold pad_to_8_bytes. assert (D : (length z mod 8 = 0 /\ n = 0)%nat \/ (length z mod 8 <> 0 /\ n = 8 - length z mod 8)%nat).
  { pose proof (Nat.mod_upper_bound (length z) 8 ltac:(discriminate)) as U. rewrite (Nat.div_mod (length z) 8) in M by discriminate. rewrite <- Nat.add_assoc, Nat.mul_comm, Nat.add_comm, Nat.mod_add in M by discriminate. destruct (Nat.eq_dec (length z mod 8) 0) as [E|E].
    - left. split; [exact E|]. rewrite E in M. cbn [Nat.add] in M. rewrite Nat.mod_small in M by lia. exact M.
    - right. split; [exact E|]. destruct (Nat.lt_ge_cases (length z mod 8 + n) 8) as [S|S]; [rewrite Nat.mod_small in M by exact S; lia|]. replace (length z mod 8 + n)%nat with ((length z mod 8 + n - 8) + 1 * 8)%nat in M by lia. rewrite Nat.mod_add in M by discriminate. rewrite Nat.mod_small in M by lia. lia. }
  destruct D as [ (E & ->)|(E & ->)].
  - rewrite E. cbn [Nat.eqb repeat]. rewrite app_nil_r. reflexivity.
  - destruct (Nat.eqb_spec (length z mod 8) 0); [contradiction|reflexivity].
Qed.
Lemma patched_bytes b off bytes b' : bytes_ok b -> bytes_ok bytes -> patched b off bytes b' -> bytes_ok b'.
Proof.
  intros B C (_ & P). apply Forall_forall. intros x I. apply In_nth_error in I as (i & I). rewrite P in I. destruct (_ && _); apply nth_error_In in I; [apply (proj1 (Forall_forall _ _) C x I)|apply (proj1 (Forall_forall _ _) B x I)].
Qed.
Lemma crc64_small b : bytes_ok b -> crc64we b < 2 ^ 64.
Proof.
  intro B. destruct (crc64_remainder b B) as (L & _). change (2 ^ N.log2 0x142F0E1EBA9EA3693) with (2 ^ 64) in L. assert (H : forall x, N.lxor x 0xffffffffffffffff < 2 ^ 64 -> x < 2 ^ 64).
  { intros x Lx. replace x with (N.lxor (N.lxor x 0xffffffffffffffff) 0xffffffffffffffff) by (rewrite N.lxor_assoc, N.lxor_nilpotent, N.lxor_0_r; reflexivity). set (y := N.lxor x 0xffffffffffffffff) in *. clearbody y. change 0xffffffffffffffff with (N.ones 64). destruct (N.eq_dec y 0) as [->|Ny]; [rewrite N.lxor_0_l; reflexivity|].
    assert (Ly : N.log2 y < 64) by (apply N.log2_lt_pow2; lia). destruct (N.eq_dec (N.lxor y (N.ones 64)) 0) as [->|Nz]; [reflexivity|]. apply N.log2_lt_pow2; [lia|]. eapply N.le_lt_trans; [apply N.log2_lxor|]. apply N.max_lub_lt; [exact Ly|reflexivity]. }
  apply H, L.
Qed.
Lemma updated_right parse o b b' c v : bytes_ok b -> parse b = Some o -> find_symbol_file_offset o crc_symbol = Done c -> find_symbol_file_offset o crc_valid_symbol = Done v -> apart c v ->
  update_image parse b = Done b' -> updated b b' c v.
Proof.
  intros B P C V A H. unfold update_image in H. rewrite P, C in H. cbn [obind] in H. rewrite V in H. cbn [obind] in H. apply obind_done in H as (b1 & H1 & H). apply obind_done in H as (b2 & H2 & H3). unfold clear_crc, write_crc_valid, write_crc in *.
  apply put_patched in H1 as (P1 & L1). apply put_patched in H2 as (P2 & L2). apply put_patched in H3 as (P3 & L3).
  pose proof P1 as (N1 & Q1). pose proof P2 as (N2 & Q2). pose proof P3 as (N3 & Q3). rewrite repeat_length in *. change (length [1]) with 1%nat in *. rewrite le_length in *.
  assert (K1 : forall i, (N.of_nat i < c \/ c + 8 <= N.of_nat i) -> nth_error b1 i = nth_error b i). { intros i L. rewrite Q1. destruct (Nat.leb_spec (N.to_nat c) i), (Nat.ltb_spec i (N.to_nat c + 8)); cbn [andb]; try reflexivity. lia. }
  assert (K2 : forall i, N.of_nat i <> v -> nth_error b2 i = nth_error b1 i). { intros i L. rewrite Q2. destruct (Nat.leb_spec (N.to_nat v) i), (Nat.ltb_spec i (N.to_nat v + 1)); cbn [andb]; try reflexivity. lia. }
  assert (K3 : forall i, (N.of_nat i < c \/ c + 8 <= N.of_nat i) -> nth_error b' i = nth_error b2 i). { intros i L. rewrite Q3. destruct (Nat.leb_spec (N.to_nat c) i), (Nat.ltb_spec i (N.to_nat c + 8)); cbn [andb]; try reflexivity. lia. }
  assert (V2 : nth_error b2 (N.to_nat v) = Some 1). { rewrite Q2. destruct (Nat.leb_spec (N.to_nat v) (N.to_nat v)), (Nat.ltb_spec (N.to_nat v) (N.to_nat v + 1)); cbn [andb]; try lia. rewrite Nat.sub_diag. reflexivity. }
  assert (Z2 : patched b' c (repeat 0 8) b2).
  { split; [congruence|]. intro i. rewrite repeat_length. destruct (Nat.leb_spec (N.to_nat c) i) as [X|X], (Nat.ltb_spec i (N.to_nat c + 8)) as [Y|Y]; cbn [andb]; try (symmetry; apply K3; lia).
    rewrite K2 by (unfold apart in A; lia). rewrite Q1. destruct (Nat.leb_spec (N.to_nat c) i), (Nat.ltb_spec i (N.to_nat c + 8)); cbn [andb]; try lia. reflexivity. }
  assert (B2 : bytes_ok b2) by (apply (patched_bytes b1 v [1] b2); [apply (patched_bytes b c (repeat 0 8) b1 B); [repeat constructor|exact P1]|repeat constructor|exact P2]).
  constructor.
  - congruence.
  - intros i X Y. rewrite K3 by lia. rewrite K2 by exact Y. apply K1. lia.
  - rewrite K3; [exact V2|]. unfold apart in A. lia.
  - assert (Bp : bytes_ok (pad_to_8_bytes b2)). { unfold pad_to_8_bytes. destruct (_ =? _)%nat; [exact B2|]. apply Forall_app. split; [exact B2|]. apply Forall_forall. intros x I. apply repeat_spec in I. subst x. reflexivity. }
    exists (crc_64_we b2). split; [|split].
    + intros i L. rewrite Q3. destruct (Nat.leb_spec (N.to_nat c) (N.to_nat c + i)), (Nat.ltb_spec (N.to_nat c + i) (N.to_nat c + 8)); cbn [andb]; try lia. f_equal. lia.
    + apply crc64_small, Bp.
    + intros data [z n Pz Ln M]. rewrite (patched_unique _ _ _ _ _ Pz Z2) in *. rewrite <- (pad_summed b2 n Ln M). unfold is_crc64we, crc_64_we. apply crc64_remainder, Bp.
Qed.

(** * Symbols *)

Lemma static_found o b name size a f : static o b name size a f -> f + size <= N.of_nat (length b) -> N.of_nat (length b) < 2 ^ 64 -> find_symbol_file_offset o name = Done f.
Proof.
  intros [s i sec start I Nm U Si Se Fi L1 L2 L3] Lf Lb. unfold find_symbol_file_offset. destruct (find (has_symbol_name name) (o_symbols o)) as [s'|] eqn:E.
  - apply find_some in E as (I' & E). unfold has_symbol_name in E. destruct (sym_name s') as [n|] eqn:En; [|discriminate E]. apply text_eqb_eq in E. subst n. rewrite (U s' I' En). unfold symbol_offset. rewrite Si, Se, Fi. destruct (N.ltb_spec (sym_address s) (sec_address sec)); [lia|]. destruct (N.ltb_spec (start + (sym_address s - sec_address sec)) (2 ^ 64)); [reflexivity|lia].
  - apply (find_none _ _ E) in I. unfold has_symbol_name in I. rewrite Nm in I. rewrite (proj2 (text_eqb_eq name name) eq_refl) in I. discriminate I.
Qed.
Lemma static_fits o b name size a f : static o b name size a f -> f + size <= N.of_nat (length b).
Proof. intros [s i sec start I Nm U Si Se Fi L1 L2 L3]. lia. Qed.
Lemma static_read o b b' name size a f mem : static o b name size a f -> length b' = length b -> loaded o b' mem -> forall i, i < size -> nth_error b' (N.to_nat (f + i)) = Some (mem (a + i)).
Proof.
  intros [s j sec start I Nm U Si Se Fi L1 L2 L3] Lb M i Li. destruct (nth_error b' (N.to_nat (start + (sym_address s - sec_address sec) + i))) as [x|] eqn:E; [|apply nth_error_None in E; lia]. f_equal. symmetry.
  replace (sym_address s + i) with (sec_address sec + (sym_address s - sec_address sec + i)) by lia. apply (M sec start _ x); [apply (nth_error_In _ _ Se)|exact Fi|lia|]. rewrite <- E. f_equal. lia.
Qed.
Lemma le_round k : forall n, n < 256 ^ N.of_nat k -> from_le (le_bytes k n) = n.
Proof.
  induction k as [|k IH]; intros n L; [change (256 ^ N.of_nat 0) with 1 in L; cbn [le_bytes from_le]; lia|]. cbn [le_bytes from_le]. rewrite IH; [lia|]. rewrite Nat2N.inj_succ, N.pow_succ_r' in L. apply N.div_lt_upper_bound; [discriminate|exact L].
Qed.

(** * Directories *)

Lemma text_refl t : text_eqb t t = true.
Proof. apply text_eqb_eq. reflexivity. Qed.
Lemma last_point_tmp s : before_last_point (s ++ name_of ".tmp") = Some s.
Proof. induction s as [|c s IH]; [reflexivity|]. cbn [app before_last_point]. rewrite IH. reflexivity. Qed.
Lemma stem_nonempty n : n <> [] -> file_stem n <> [].
Proof. intros N. unfold file_stem. destruct (before_last_point n) as [ [|c b]|]; [exact N|discriminate|exact N]. Qed.
Lemma temporary_same n : temporary n = n <-> exists s, s <> [] /\ n = s ++ name_of ".tmp".
Proof.
  unfold temporary. split.
  - intro E. exists (file_stem n). split; [|symmetry; exact E]. apply stem_nonempty. intros ->. discriminate E.
  - intros (s & N & ->). unfold file_stem. rewrite last_point_tmp. destruct s; [contradiction|reflexivity].
Qed.
Lemma states_safe parse input fs st : temporary input <> input -> In st (states parse input fs) ->
  (st input = fs input \/ exists b new, fs input = Some b /\ update_image parse b = Done new /\ st input = Some new) /\ (forall q, q <> input -> q <> temporary input -> st q = fs q).
Proof.
  intros T I. unfold states in I. destruct (fs input) as [b|] eqn:Ef.
  - destruct (update_image parse b) as [new| |] eqn:Eu.
    + destruct I as [<-|I]; [split; [left; exact Ef|reflexivity]|]. apply in_app_or in I as [I|[<-|[] ] ].
      * apply in_map_iff in I as (n & <- & _). unfold set_file. split.
        -- left. destruct (text_eqb input (temporary input)) eqn:E; [apply text_eqb_eq in E; exfalso; apply T; symmetry; exact E|exact Ef].
        -- intros q _ N. destruct (text_eqb q (temporary input)) eqn:E; [apply text_eqb_eq in E; contradiction|reflexivity].
      * unfold rename, set_file. split.
        -- right. exists b, new. split; [reflexivity|]. split; [exact Eu|]. rewrite text_refl, text_refl. reflexivity.
        -- intros q N1 N2. destruct (text_eqb q input) eqn:E1; [apply text_eqb_eq in E1; contradiction|]. destruct (text_eqb q (temporary input)) eqn:E2; [apply text_eqb_eq in E2; contradiction|reflexivity].
    + destruct I as [<-|[] ]. split; [left; exact Ef|reflexivity].
    + destruct I as [<-|[] ]. split; [left; exact Ef|reflexivity].
  - destruct I as [<-|[] ]. split; [left; exact Ef|reflexivity].
Qed.
