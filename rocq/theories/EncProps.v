(** Properties C38-C41, C59 and C60: the bit-level encoding. *)
From Verif Require Import Base BitLemmas EncModel EncSpec EncWriteProofs EncReadProofs.
Ltac Zify.zify_post_hook ::= Z.div_mod_to_equations.

(** * C38 *)

(** Whatever is written is the little-endian bit packing of the operations, one after the other from bit 0; everything behind
    is zero.  Nothing is lost: at most 7 skipped bits can be behind the end of the slice. *)
Theorem C38_pack : forall slice ops c, wops_ok 0 ops -> wrun (wc_new slice) ops = Ok c ->
  length (wc_bytes c) = length slice /\ bytes_ok (wc_bytes c) /\
  bits_written c = length (packs 0 ops) /\
  (forall i, stream_bit (wc_bytes c) i = nth i (packs 0 ops) false) /\
  (length (packs 0 ops) < 8 * length slice + 8)%nat.
Proof.
  intros slice ops c Hok Hrun. pose proof (wrun_good (length slice) ops (fun op _ => wstep_good (length slice) op) (wc_new slice) [] (winv_new slice) Hok) as H.
  rewrite Hrun in H. unfold step_good in H. cbn [app length] in H. destruct H as ((H1 & H2 & H3 & H4 & H5 & H6) & H7). split; [assumption|]. split; [assumption|].
  split; [unfold bits_written; lia|]. split; [assumption|]. specialize (H7 ltac:(lia)). lia.
Qed.
Print Assumptions C38_pack.

(** Writing succeeds when there is enough space. *)
Theorem C38_space : forall slice ops, wops_ok 0 ops -> (length (packs 0 ops) <= 8 * length slice)%nat -> exists c, wrun (wc_new slice) ops = Ok c.
Proof.
  intros slice ops Hok Hlen. pose proof (wrun_good (length slice) ops (fun op _ => wstep_good (length slice) op) (wc_new slice) [] (winv_new slice) Hok) as H.
  unfold step_good in H. cbn [length] in H. destruct (wrun (wc_new slice) ops) as [c|]; [exists c; reflexivity|]. rewrite Nat.add_0_l in H. lia.
Qed.
Print Assumptions C38_space.

Lemma wrun_app ops1 : forall c ops2, wrun c (ops1 ++ ops2) = bind (wrun c ops1) (fun c1 => wrun c1 ops2).
Proof. induction ops1 as [|op ops1 IH]; intros c ops2; cbn [app wrun]; [reflexivity|]. destruct (wstep c op); cbn [bind]; [apply IH|reflexivity]. Qed.
Lemma packs_app ops1 : forall p ops2, packs p (ops1 ++ ops2) = packs p ops1 ++ packs (p + length (packs p ops1)) ops2.
Proof.
  induction ops1 as [|op ops1 IH]; intros p ops2; cbn [app packs length]; [rewrite Nat.add_0_r; reflexivity|]. cbv zeta. rewrite IH, <- app_assoc, app_length, Nat.add_assoc. reflexivity.
Qed.
Lemma wops_ok_app ops1 : forall p ops2, wops_ok p (ops1 ++ ops2) <-> wops_ok p ops1 /\ wops_ok (p + length (packs p ops1)) ops2.
Proof.
  induction ops1 as [|op ops1 IH]; intros p ops2; cbn [app wops_ok packs length]; [rewrite Nat.add_0_r; tauto|]. cbv zeta. rewrite IH, app_length, Nat.add_assoc. tauto.
Qed.
Lemma wops_ok_back_app ops1 : forall p ops2, wops_ok_back p (ops1 ++ ops2) <-> wops_ok_back p ops1 /\ wops_ok_back (p + length (packs p ops1)) ops2.
Proof.
  induction ops1 as [|op ops1 IH]; intros p ops2; cbn [app wops_ok_back packs length]; [rewrite Nat.add_0_r; tauto|]. cbv zeta. rewrite IH, app_length, Nat.add_assoc. tauto.
Qed.

(** Later writes never disturb earlier bits. *)
Theorem C38_prefix : forall slice ops1 ops2 c1 c2, wops_ok 0 (ops1 ++ ops2) ->
  wrun (wc_new slice) ops1 = Ok c1 -> wrun (wc_new slice) (ops1 ++ ops2) = Ok c2 ->
  (bits_written c1 <= bits_written c2)%nat /\
  forall i, (i < bits_written c1)%nat -> stream_bit (wc_bytes c2) i = stream_bit (wc_bytes c1) i.
Proof.
  intros slice ops1 ops2 c1 c2 Hok H1 H2. pose proof (proj1 (proj1 (wops_ok_app ops1 0 ops2) Hok)) as Hok1.
  destruct (C38_pack slice ops1 c1 Hok1 H1) as (_ & _ & B1 & S1 & _). destruct (C38_pack slice _ c2 Hok H2) as (_ & _ & B2 & S2 & _).
  rewrite B1, B2, packs_app, app_length. split; [lia|]. intros i Hi. rewrite S1, S2, packs_app. apply app_nth1. assumption.
Qed.
Print Assumptions C38_prefix.

(** Reading back everything with the matching calls gives the values (cut to their widths) and ends right behind them. *)
Theorem C38_round_trip : forall slice ops c, wops_ok 0 ops -> wops_ok_back 0 ops ->
  wrun (wc_new slice) ops = Ok c -> (length (packs 0 ops) <= 8 * length slice)%nat ->
  rbacks ops (rc_new (wc_bytes c)) = Ok (DOk (wvalss ops), rc_at (wc_bytes c) (length (packs 0 ops))).
Proof.
  intros slice ops c Hok Hob Hrun Hlen. destruct (C38_pack slice ops c Hok Hrun) as (HL & Hb & Hw & Hs & _).
  assert (Hsees : sees (rc_new (wc_bytes c)) (packs 0 ops ++ [])).
  { rewrite app_nil_r. unfold sees, rc_new. cbn [rc_bit rc_bytes]. split; [lia|]. split; [assumption|]. split; [lia|]. intros i _. apply Hs. }
  pose proof (rbacks_all ops (rc_new (wc_bytes c)) 0 [] Hsees eq_refl Hok Hob) as H. unfold back_good in H. exact H.
Qed.
Print Assumptions C38_round_trip.

(** The same for plain integers, in full: a list of widths and values. *)
Theorem C38_fields : forall slice fields, Forall (fun f => (1 <= fst f <= 64)%nat) fields ->
  ((fold_right (fun f s => (fst f + s)%nat) O fields <= 8 * length slice)%nat <-> wrun (wc_new slice) (map (fun f => WField (fst f) (snd f)) fields) <> Panic) /\
  forall c, wrun (wc_new slice) (map (fun f => WField (fst f) (snd f)) fields) = Ok c ->
    exists c', rrun (rc_new (wc_bytes c)) (map (fun f => RField (fst f)) fields) = Ok (map (fun f => snd f mod 2 ^ N.of_nat (fst f)) fields, c').
Proof.
  intros slice fields Hw.
  assert (Hok : forall p, wops_ok p (map (fun f => WField (fst f) (snd f)) fields)).
  { induction Hw as [|f fields Hf _ IH]; intro p; cbn [map wops_ok]; [exact I|]. split; [exact Hf|apply IH]. }
  assert (Hob : forall p, wops_ok_back p (map (fun f => WField (fst f) (snd f)) fields)).
  { clear. induction fields as [|f fields IH]; intro p; cbn [map wops_ok_back]; [exact I|]. split; [exact I|apply IH]. }
  assert (Hlen : forall p, length (packs p (map (fun f => WField (fst f) (snd f)) fields)) = fold_right (fun f s => (fst f + s)%nat) O fields).
  { clear. induction fields as [|f fields IH]; intro p; cbn [map packs fold_right]; [reflexivity|]. cbv zeta. rewrite app_length, IH. cbn [pack]. rewrite bits_of_length. reflexivity. }
  assert (Hvals : wvalss (map (fun f => WField (fst f) (snd f)) fields) = map (fun f => snd f mod 2 ^ N.of_nat (fst f)) fields).
  { clear. induction fields as [|f fields IH]; cbn [map wvalss wvals]; [reflexivity|]. rewrite IH. reflexivity. }
  assert (Hend : forall L c done, winv L c done -> (length done <= 8 * L)%nat -> forall c', wrun c (map (fun f => WField (fst f) (snd f)) fields) = Ok c' ->
             (length done + fold_right (fun f s => (fst f + s)%nat) O fields <= 8 * L)%nat).
  { clear - Hw. induction Hw as [|f fields Hf _ IH]; intros L c done Hi Hd c' Hr; cbn [map wrun wstep fold_right] in *; [lia|].
    pose proof (write_u_spec L c done (fst f) (snd f) Hi Hf) as H. destruct (write_u c (fst f) (snd f)) as [c1|]; [|discriminate]. destruct H as (H1 & H2). cbn [bind] in Hr.
    specialize (IH L c1 _ H1). rewrite app_length, bits_of_length in IH. specialize (IH H2 c' Hr). lia. }
  assert (Hreads : forall c c' v, rbacks (map (fun f => WField (fst f) (snd f)) fields) c = Ok (DOk v, c') -> rrun c (map (fun f => RField (fst f)) fields) = Ok (v, c')).
  { clear. induction fields as [|f fields IH]; intros c c' v H; cbn [map rbacks rrun rback rstep] in *; [congruence|]. unfold dseq, dval, ropval in *.
    destruct (read_u c (fst f)) as [[x c1]|]; cbn [bind fst snd] in *; [|discriminate]. destruct (rbacks _ c1) as [[[w|e] c2]|] eqn:E; cbn [bind fst snd] in *; try discriminate.
    rewrite (IH _ _ _ E). cbn [bind fst snd]. congruence. }
  split.
  - split.
    + intros Hl Hp. destruct (C38_space slice (map (fun f => WField (fst f) (snd f)) fields) (Hok _)) as (c & Hc); [rewrite Hlen; assumption|]. congruence.
    + intro Hr. destruct (wrun (wc_new slice) _) as [c|] eqn:E; [|congruence]. apply (Hend (length slice) (wc_new slice) [] (winv_new slice) ltac:(cbn [length]; lia) c E).
  - intros c Hr. eexists. apply Hreads. rewrite <- Hvals. apply (C38_round_trip slice); [apply Hok|apply Hob|assumption|]. rewrite Hlen. apply (Hend (length slice) (wc_new slice) [] (winv_new slice) ltac:(cbn [length]; lia) c Hr).
Qed.
Print Assumptions C38_fields.

(** A 3-bit field, a boolean, an unaligned 12-bit field, a nested delimited composite holding 5 bits, and an aligned u16. *)
Definition C38_ops : list wop :=
  [WField 3 13; WBool true; WField 12 2748; WComposite true 5 [WField 5 21]; WAligned 2 4660; WField 17 99999].
Example C38_witness : wops_ok 0 C38_ops /\ wops_ok_back 0 C38_ops /\ (length (packs 0 C38_ops) <= 8 * length (repeat 170 12))%nat /\
  wvalss C38_ops = [5; 1; 2748; 21; 4660; 99999] /\
  (exists c, wrun (wc_new (repeat 170 12)) C38_ops = Ok c /\ wc_bytes c = [205; 171; 1; 0; 0; 0; 21; 52; 18; 159; 134; 1]) /\
  wrun (wc_new (repeat 170 11)) C38_ops = Panic.
Proof.
  split; [repeat split; try lia; vm_compute; reflexivity|]. split; [cbn; tauto|]. split; [vm_compute; lia|]. split; [vm_compute; reflexivity|].
  split; [eexists; split; vm_compute; reflexivity|vm_compute; reflexivity].
Qed.

(** * C39 *)

(** Reading any sequence of fields gives what the slice followed by infinitely many zero bits has at that place. *)
Theorem C39_zero_extension : forall bs ops, bytes_ok bs -> rops_ok 0 ops ->
  rrun (rc_new bs) ops = Ok (rvaluess bs 0 ops, rc_at bs (rwidths 0 ops)).
Proof. intros bs ops Hb Ho. apply (rrun_at bs Hb ops 0 Ho). Qed.
Print Assumptions C39_zero_extension.

(** In particular trailing zero bytes make no difference to the values. *)
Theorem C39_padding : forall bs k ops, bytes_ok bs -> rops_ok 0 ops ->
  bind (rrun (rc_new (bs ++ repeat 0 k)) ops) (fun x => Ok (fst x)) = bind (rrun (rc_new bs) ops) (fun x => Ok (fst x)).
Proof.
  intros bs k ops Hb Ho. rewrite !C39_zero_extension; [|assumption|assumption| |assumption].
  2:{ apply bytes_ok_app. split; [assumption|]. apply Forall_repeat_intro. reflexivity. }
  cbn [bind fst]. f_equal.
  assert (Hs : forall i, stream_bit (bs ++ repeat 0 k) i = stream_bit bs i).
  { intro i. unfold stream_bit. rewrite nth_app_if. destruct (Nat.ltb_spec (i / 8) (length bs)); [reflexivity|]. rewrite nth_repeat, (nth_overflow bs) by lia. reflexivity. }
  assert (Hf : forall p n, field (bs ++ repeat 0 k) p n = field bs p n) by (intros p n; unfold field; f_equal; apply map_ext, Hs).
  clear Ho. generalize O. induction ops as [|op ops IH]; intro p; cbn [rvaluess]; [reflexivity|]. f_equal; [|apply IH].
  destruct op; cbn [rvalues]; rewrite ?Hf; try reflexivity; apply map_ext; intro; apply Hf.
Qed.
Print Assumptions C39_padding.

Definition C39_ops : list rop := [RField 5; RBool; RField 13; RAlign; RAligned 4; RBytes 2; RZeroCopy 3; RSkip 9; RField 64].
Example C39_witness : bytes_ok [255; 254; 253; 252] /\ rops_ok 0 C39_ops /\
  rvaluess [255; 254; 253; 252] 0 C39_ops = [31; 1; 6139; 252; 0; 0; 0; 0; 0; 0].
Proof. split; [repeat constructor|]. split; [|vm_compute; reflexivity]. cbn. repeat split; try lia; tauto. Qed.

(** * C40 *)

(** A delimited composite at any bit position: the length in the 32-bit header after alignment decides.  Either it exceeds the
    remaining data and an error is reported, or the inner reader gets exactly the bytes of that length and the cursor ends right
    behind them, whatever the inner reader did. *)
Theorem C40_delimited : forall A bs p (d : deserializer A), bytes_ok bs ->
  let start := (8 * ((p + 7) / 8) + 32)%nat in
  let len := field bs (8 * ((p + 7) / 8)) 32 in
  let remaining := (length bs - start / 8)%nat in
  (N.of_nat remaining < len -> read_composite (rc_at bs p) true d = Ok (DErr DelimitedLength, rc_at bs start)) /\
  (len <= N.of_nat remaining ->
     let body := firstn (N.to_nat len) (skipn (start / 8) bs) in
     (forall r c', d (rc_new body) = Ok (r, c') -> read_composite (rc_at bs p) true d = Ok (r, rc_at bs (start + 8 * N.to_nat len))) /\
     (d (rc_new body) = Panic -> read_composite (rc_at bs p) true d = Panic)).
Proof.
  intros A bs p d Hb. cbv zeta. pose proof (read_delimited_at bs p d Hb) as H. cbv zeta in H. replace (p + length (pad8 p))%nat with (8 * ((p + 7) / 8))%nat in H by (rewrite pad8_length; lia).
  rewrite H. clear H. destruct (N.ltb_spec (N.of_nat (length bs - (8 * ((p + 7) / 8) + 32) / 8)) (field bs (8 * ((p + 7) / 8)) 32)).
  - split; [reflexivity|]. intro. lia.
  - split; [intro; lia|]. intros _. split; [intros r c' ->; reflexivity|intros ->; reflexivity].
Qed.
Print Assumptions C40_delimited.

(** A composite that is not delimited is read in place, from the next byte boundary to the next byte boundary behind it. *)
Theorem C40_sealed : forall A bs p (d : deserializer A),
  read_composite (rc_at bs p) false d = bind (d (rc_at bs (8 * ((p + 7) / 8)))) (fun x => Ok (fst x, rc_align (snd x))).
Proof. intros A bs p d. rewrite read_undelimited_at. do 3 f_equal. rewrite pad8_length. lia. Qed.
Print Assumptions C40_sealed.

Lemma pad8_mod p q : (p mod 8 = q mod 8)%nat -> pad8 p = pad8 q.
Proof. unfold pad8. intros ->. reflexivity. Qed.
Lemma packs_mod_of ops : (forall op, In op ops -> forall p q, (p mod 8 = q mod 8)%nat -> pack p op = pack q op) ->
  forall p q, (p mod 8 = q mod 8)%nat -> packs p ops = packs q ops.
Proof.
  induction ops as [|op ops IH]; intros Hall p q H; cbn [packs]; [reflexivity|]. cbv zeta. rewrite (Hall op (or_introl eq_refl) p q H). f_equal.
  apply IH; [intros o Ho; apply Hall; right; assumption|]. lia.
Qed.
Lemma pack_mod : forall op p q, (p mod 8 = q mod 8)%nat -> pack p op = pack q op.
Proof.
  fix IH 1. intros op p q H. destruct op as [n v|b|n| |k v|bs|bs|a|delimited size body]; cbn [pack]; try reflexivity; [apply pad8_mod, H|].
  rewrite !packs_nested. cbv zeta. rewrite (pad8_mod p q H). set (k := length (pad8 q)).
  assert (E : packs (if delimited then (p + k + 32)%nat else (p + k)%nat) body = packs (if delimited then (q + k + 32)%nat else (q + k)%nat) body).
  { apply packs_mod_of; [|destruct delimited; lia]. clear - IH. induction body as [|o body IHb]; intros op Hin; [destruct Hin|]. destruct Hin as [<-|Hin]; [apply IH|apply IHb, Hin]. }
  rewrite E. set (inner := packs _ body). rewrite (pad8_mod (p + k + length inner) (q + k + length inner)) by lia. reflexivity.
Qed.
Lemma packs_mod ops p q : (p mod 8 = q mod 8)%nat -> packs p ops = packs q ops.
Proof. apply packs_mod_of. intros op _. apply pack_mod. Qed.
Lemma back_mod_of ops : (forall op, In op ops -> forall p q, (p mod 8 = q mod 8)%nat -> wop_ok_back p op -> wop_ok_back q op) ->
  forall p q, (p mod 8 = q mod 8)%nat -> wops_ok_back p ops -> wops_ok_back q ops.
Proof.
  induction ops as [|op ops IH]; intros Hall p q H; cbn [wops_ok_back]; [trivial|]. intros (H1 & H2). split; [apply (Hall op (or_introl eq_refl) p q H H1)|].
  revert H2. rewrite (pack_mod op p q H). apply IH; [intros o Ho; apply Hall; right; assumption|]. lia.
Qed.
Lemma back_mod : forall op p q, (p mod 8 = q mod 8)%nat -> wop_ok_back p op -> wop_ok_back q op.
Proof.
  fix IH 1. intros op p q H. destruct op as [n v|b|n| |k v|bs|bs|a|delimited size body]; cbn [wop_ok_back]; try trivial; [rewrite H; trivial|].
  rewrite !wops_ok_back_nested. rewrite (pad8_mod p q H). set (k := length (pad8 q)).
  apply back_mod_of; [|destruct delimited; lia]. clear - IH. induction body as [|o body IHb]; intros op Hin; [destruct Hin|]. destruct Hin as [<-|Hin]; [apply IH|apply IHb, Hin].
Qed.
Lemma backs_mod ops p q : (p mod 8 = q mod 8)%nat -> wops_ok_back p ops -> wops_ok_back q ops.
Proof. apply back_mod_of. intros op _. apply back_mod. Qed.

Lemma delimited_seen c p size body rest : sees c (pack p (WComposite true size body) ++ rest) -> rc_bit c = (p mod 8)%nat -> wop_ok p (WComposite true size body) ->
  exists content, (forall i, stream_bit content i = nth i (packs 0 body) false) /\ length content = ((length (packs 0 body) + 7) / 8)%nat /\
    forall A (d : deserializer A), read_composite c true d =
      bind (d (rc_new content)) (fun z => Ok (fst z, rc_at (rc_bytes c) (rc_bit c + length (pack p (WComposite true size body))))).
Proof.
  intros Hs Hp Ho. pose proof Hs as (Hbit & Hb & _). cbn [pack wop_ok] in *. rewrite packs_nested in *. rewrite wops_ok_nested in Ho. destruct Ho as (_ & Hsize).
  set (p1 := (p + length (pad8 p))%nat) in *. assert (Hp1 : (p1 mod 8 = 0)%nat) by (unfold p1; rewrite pad8_length; lia).
  rewrite (packs_mod body (p1 + 32) 0) in * by lia. set (inner := packs 0 body) in *. cbv zeta in *. set (content := inner ++ pad8 (p1 + length inner)) in *.
  assert (Hlc : length content = (length inner + (8 - (p1 + length inner) mod 8) mod 8)%nat) by (unfold content; rewrite app_length, pad8_length; reflexivity).
  assert (Hpad : length (pad8 (rc_bit c)) = length (pad8 p)) by (rewrite !pad8_length, Hp; f_equal; f_equal; lia).
  assert (Hq : ((rc_bit c + length (pad8 p)) mod 8 = 0)%nat) by (rewrite pad8_length; lia).
  rewrite <- !app_assoc in Hs. pose proof (sees_app _ _ _ Hs) as Hs1. pose proof (sees_field _ _ _ _ Hs1) as Hf. cbn [rc_at rc_bytes rc_bit] in Hf.
  assert (Hlen32 : field (rc_bytes c) (rc_bit c + length (pad8 p)) 32 = N.of_nat (length content / 8)).
  { transitivity (field (skipn ((rc_bit c + length (pad8 p)) / 8) (rc_bytes c)) ((rc_bit c + length (pad8 p)) mod 8) 32).
    - unfold field. f_equal. apply (nth_ext _ _ false false); [rewrite !map_length, !seq_length; reflexivity|]. intros j Hj. rewrite !nth_map_seq, stream_skipn. f_equal. f_equal. lia.
    - rewrite Hf. destruct (Hsize eq_refl) as (Hs1' & Hs2'). change (2 ^ N.of_nat 32) with 4294967296. change (2 ^ 32) with 4294967296 in Hs2'. apply N.mod_small. lia. }
  pose proof (sees_app _ _ _ Hs1) as Hs2. rewrite bits_of_length, at_at' in Hs2.
  set (q := (rc_bit c + length (pad8 p) + 32)%nat) in *. pose proof (sees_prefix _ _ _ Hs2) as Hs3. destruct Hs3 as (K1 & K2 & K3 & K4).
  unfold rc_at in K2, K3, K4. cbn [rc_bytes rc_bit] in K2, K3, K4. rewrite skipn_length in K3.
  exists (firstn (length content / 8) (skipn (q / 8) (rc_bytes c))). split; [|split].
  - intro i. destruct (Nat.ltb_spec i (length content)).
    + rewrite stream_firstn by lia. specialize (K4 i ltac:(assumption)). replace (q mod 8 + i)%nat with i in K4 by lia. rewrite K4. unfold content. rewrite nth_app_if.
      destruct (Nat.ltb_spec i (length inner)); [reflexivity|]. unfold pad8. rewrite nth_repeat_false. symmetry. apply nth_overflow. assumption.
    + rewrite stream_end; [symmetry; apply nth_overflow; lia|]. rewrite firstn_length, skipn_length. lia.
  - rewrite firstn_length, skipn_length. lia.
  - intros A d. rewrite (rc_self c Hbit) at 1. rewrite read_delimited_at by assumption. rewrite Hpad, Hlen32, Nat2N.id. fold q.
    destruct (N.ltb_spec (N.of_nat (length (rc_bytes c) - q / 8)) (N.of_nat (length content / 8))); [lia|].
    destruct (d _) as [[r c']|]; [|reflexivity]. cbn [bind fst snd]. do 3 f_equal. rewrite packs_nested, (packs_mod body (p1 + 32) 0) by lia. fold inner. fold content. rewrite !(app_length (pad8 p)), !(app_length (bits_of 32 _)), bits_of_length. unfold q. lia.
Qed.

(** A writer writes [pre], a delimited composite with the fields [body], and [post].  A reader that knows [pre] and [post] but
    uses any other reader [d] for the composite gets the values of [pre] and [post]; [d] sees the bits of [body] (zero-padded to
    whole bytes) and nothing else. *)
Theorem C40_versions : forall slice pre size body post c,
  wops_ok 0 (pre ++ WComposite true size body :: post) -> wops_ok_back 0 pre -> wops_ok_back 0 post ->
  wrun (wc_new slice) (pre ++ WComposite true size body :: post) = Ok c ->
  (length (packs 0 (pre ++ WComposite true size body :: post)) <= 8 * length slice)%nat ->
  exists c1 content c3 c4,
    rbacks pre (rc_new (wc_bytes c)) = Ok (DOk (wvalss pre), c1) /\
    (forall i, stream_bit content i = nth i (packs 0 body) false) /\ length content = ((length (packs 0 body) + 7) / 8)%nat /\
    (forall A (d : deserializer A) r c', d (rc_new content) = Ok (r, c') -> read_composite c1 true d = Ok (r, c3)) /\
    rbacks post c3 = Ok (DOk (wvalss post), c4).
Proof.
  intros slice pre size body post c Hok Hb1 Hb2 Hrun Hlen. destruct (C38_pack slice _ c Hok Hrun) as (HL & Hb & _ & Hs & _).
  apply wops_ok_app in Hok as (Hok1 & Hok2 & Hok3). rewrite packs_app in *. cbn [packs] in *. cbv zeta in *.
  set (P := length (packs 0 pre)) in *. change (0 + P)%nat with P in *. set (comp := pack P (WComposite true size body)) in *.
  assert (Hsees : sees (rc_new (wc_bytes c)) (packs 0 pre ++ comp ++ packs (P + length comp) post)).
  { unfold sees, rc_new. cbn [rc_bit rc_bytes]. split; [lia|]. split; [assumption|]. split; [lia|]. intros i _. apply Hs. }
  pose proof (rbacks_all pre (rc_new (wc_bytes c)) 0 _ Hsees eq_refl Hok1 Hb1) as H1. unfold back_good in H1. cbn [rc_new rc_bytes rc_bit] in H1.
  apply sees_app in Hsees. cbn [rc_new rc_bytes rc_bit] in Hsees. fold P in H1, Hsees. change (0 + P)%nat with P in *.
  destruct (delimited_seen (rc_at (wc_bytes c) P) P size body _ Hsees eq_refl Hok2) as (content & C1 & C2 & C3). fold comp in C3.
  assert (Hal : ((P + length comp) mod 8 = 0)%nat).
  { unfold comp. cbn [pack]. rewrite packs_nested. cbv zeta. rewrite !app_length, bits_of_length. rewrite (pad8_length (_ + length (packs _ body))). rewrite pad8_length. lia. }
  exists (rc_at (wc_bytes c) P), content, (rc_at (wc_bytes c) (P + length comp)).
  apply sees_app in Hsees. rewrite at_at' in Hsees. rewrite <- (app_nil_r (packs _ post)) in Hsees.
  pose proof (rbacks_all post _ (P + length comp)%nat [] Hsees eq_refl Hok3 (backs_mod post 0 (P + length comp) (eq_sym Hal) Hb2)) as H2. unfold back_good in H2.
  eexists. split; [exact H1|]. split; [exact C1|]. split; [exact C2|]. split; [|exact H2].
  intros A d r c' Hd. rewrite C3, Hd. cbn [bind fst snd]. rewrite at_at'. reflexivity.
Qed.
Print Assumptions C40_versions.

(** An old version with one field is read by a new version with two, followed by a field both know. *)
Example C40_witness :
  let ops := [WField 4 9] ++ WComposite true 12 [WField 12 3000] :: [WField 16 51966] in
  wops_ok 0 ops /\ (length (packs 0 ops) <= 8 * length (repeat 0 9))%nat /\
  exists c, wrun (wc_new (repeat 0 9)) ops = Ok c /\
    read_composite (rc_at (wc_bytes c) 4) true (rbacks [WField 12 0; WField 12 0]) = Ok (DOk [3000; 0], rc_at (wc_bytes c) 56) /\
    read_u (rc_at (wc_bytes c) 56) 16 = Ok (51966, rc_at (wc_bytes c) 72) /\
    read_composite (rc_at (firstn 5 (wc_bytes c)) 4) true (rbacks [WField 12 0]) = Ok (DErr DelimitedLength, rc_at (firstn 5 (wc_bytes c)) 40).
Proof.
  cbv zeta. split; [|split; [vm_compute; lia|]].
  - cbn [app wops_ok wop_ok]. split; [lia|]. split; [|split; [lia|exact I]]. split; [split; [lia|exact I]|]. intros _. split; [vm_compute; reflexivity|vm_compute; reflexivity].
  - eexists. split; [vm_compute; reflexivity|]. split; [vm_compute; reflexivity|]. split; vm_compute; reflexivity.
Qed.

(** * C41 *)

(** A bit array written at any bit position and read back there with the same capacity and length has the same bits. *)
Theorem C41_bits : forall slice pre a post c,
  wops_ok 0 (pre ++ WBits a :: post) -> wrun (wc_new slice) (pre ++ WBits a :: post) = Ok c ->
  exists a' c', ba_deserialize (length (ba_bytes a)) (ba_len a) (rc_at (wc_bytes c) (length (packs 0 pre))) = Ok (a', c') /\
    ba_len a' = ba_len a /\ forall i, ba_get a' i = ba_get a i.
Proof.
  intros slice pre a post c Hok Hrun. destruct (C38_pack slice _ c Hok Hrun) as (HL & Hb & _ & Hs & _). apply wops_ok_app in Hok as (_ & Ho & _). cbn [wop_ok] in Ho.
  destruct (ba_deserialize_at (wc_bytes c) (length (packs 0 pre)) (length (ba_bytes a)) (ba_len a) Hb (proj2 Ho)) as (a' & E & Ha' & Hl' & Hby' & Hj').
  exists a'. eexists. split; [exact E|]. split; [assumption|]. intro i. destruct (Nat.ltb_spec i (ba_len a)) as [Hi|Hi].
  - rewrite !ba_get_spec by (try assumption; lia). f_equal. rewrite Hj', Hs by assumption. rewrite packs_app. cbn [packs pack]. cbv zeta. rewrite app_nth2 by lia.
    replace (length (packs 0 pre) + i - length (packs 0 pre))%nat with i by lia. rewrite nth_app_if, map_length, seq_length, nth_map_seq. destruct (Nat.ltb_spec i (ba_len a)); [reflexivity|lia].
  - unfold ba_get, split_index. rewrite Hl'. destruct (Nat.ltb_spec i (ba_len a)); [lia|reflexivity].
Qed.
Print Assumptions C41_bits.

(** The cursor ends right behind the bits when the length is not a multiple of 8, or the array does not start at a byte
    boundary, or the array is full.  Missing: partially filled arrays of a length that is a multiple of 8, at byte
    boundaries. *)
Theorem C41_cursor_partial : forall bs p BYTES len, bytes_ok bs -> (len <= 8 * BYTES)%nat ->
  (len mod 8 <> 0 \/ p mod 8 <> 0 \/ len = 8 * BYTES)%nat ->
  exists a, ba_deserialize BYTES len (rc_at bs p) = Ok (a, rc_at bs (p + len)).
Proof.
  intros bs p BYTES len Hb Hl H. destruct (ba_deserialize_at bs p BYTES len Hb Hl) as (a & E & _). exists a. rewrite E. do 3 f_equal. f_equal.
  destruct (Nat.eqb_spec (len mod 8) 0), (Nat.eqb_spec (p mod 8) 0); cbn [andb]; try reflexivity. lia.
Qed.
Print Assumptions C41_cursor_partial.

(** In the missing case the cursor always ends too far. *)
Theorem C41_cursor_refuted : forall bs p BYTES len, bytes_ok bs -> (len < 8 * BYTES)%nat -> (len mod 8 = 0)%nat -> (p mod 8 = 0)%nat ->
  exists a, ba_deserialize BYTES len (rc_at bs p) = Ok (a, rc_at bs (p + 8 * BYTES)).
Proof.
  intros bs p BYTES len Hb Hl H1 H2. destruct (ba_deserialize_at bs p BYTES len Hb ltac:(lia)) as (a & E & _). exists a. rewrite E, H1, H2. reflexivity.
Qed.
Print Assumptions C41_cursor_refuted.

(** A bit array with a capacity of 16 bits that holds 8 bits, followed by the field 0xAB: the field is read as 0. *)
Theorem C41_refuted :
  exists a c c', ba_ok a /\ wrun (wc_new [0; 0; 0]) [WBits a; WField 8 171] = Ok c /\
    rbacks [WBits a; WField 8 171] (rc_new (wc_bytes c)) = Ok (DOk [1; 0; 1; 0; 1; 0; 1; 0; 0], c').
Proof.
  exists (BA [85; 0] 8). eexists. eexists. split; [split; [repeat constructor|cbn; lia]|]. split; vm_compute; reflexivity.
Qed.
Print Assumptions C41_refuted.

Example C41_witness :
  let a := BA [181; 2] 10 in
  wops_ok 0 [WField 3 5; WBits a; WField 8 171] /\
  exists c, wrun (wc_new [0; 0; 0]) [WField 3 5; WBits a; WField 8 171] = Ok c /\
    rbacks [WField 3 5; WBits a; WField 8 171] (rc_new (wc_bytes c)) = Ok (DOk [5; 1; 0; 1; 0; 1; 1; 0; 1; 0; 1; 171], rc_at (wc_bytes c) 21).
Proof.
  cbv zeta. split; [|eexists; split; vm_compute; reflexivity]. cbn [wops_ok wop_ok]. split; [lia|]. split; [|split; [lia|exact I]]. split; [repeat constructor|cbn; lia].
Qed.

(** * C59 *)

(** The documentation says that the aligned operations panic when the cursor is not at a byte boundary.  That holds for the
    integer writes and all reads; when the cursor is at a byte boundary they panic only for lack of space. *)
Theorem C59_aligned_partial : 
  (forall c k v, wc_aligned c = false -> write_aligned c k v = Panic) /\
  (forall bs p, (p mod 8 <> 0)%nat ->
     read_aligned_u8 (rc_at bs p) = Panic /\ read_aligned_u16 (rc_at bs p) = Panic /\ read_aligned_u32 (rc_at bs p) = Panic /\ read_aligned_u64 (rc_at bs p) = Panic /\
     (forall k, rc_fork (rc_at bs p) k = Panic) /\ (forall k, deserialize_zero_copy k (rc_at bs p) = Panic)) /\
  (forall bs p k, (p mod 8 = 0)%nat -> (rc_fork (rc_at bs p) k = Panic <-> (length bs - p / 8 < k)%nat)).
Proof.
  split; [|split].
  - intros c k v H. unfold write_aligned. rewrite H. reflexivity.
  - intros bs p H. assert (E8 : read_aligned_u8 (rc_at bs p) = Panic). { unfold read_aligned_u8. rewrite aligned_at. destruct (Nat.eqb_spec (p mod 8) 0); [contradiction|reflexivity]. }
    assert (E16 : read_aligned_u16 (rc_at bs p) = Panic) by (unfold read_aligned_u16, read_two; rewrite E8; reflexivity).
    assert (E32 : read_aligned_u32 (rc_at bs p) = Panic) by (unfold read_aligned_u32, read_two; rewrite E16; reflexivity).
    split; [assumption|]. split; [assumption|]. split; [assumption|]. split; [unfold read_aligned_u64, read_two; rewrite E32; reflexivity|].
    assert (Ebit : (rc_bit (rc_at bs p) =? 0)%nat = false) by (apply Nat.eqb_neq; assumption). split; intro k.
    + unfold rc_fork. rewrite Ebit. reflexivity.
    + unfold deserialize_zero_copy, rc_as_bytes. rewrite Ebit. reflexivity.
  - intros bs p k H. destruct (Nat.leb_spec k (length bs - p / 8)).
    + rewrite fork_at by assumption. split; [discriminate|lia].
    + split; [intro; assumption|]. intros _. unfold rc_fork, rc_at. cbn [rc_bit rc_bytes]. rewrite H. change (negb (0 =? 0)%nat) with false. cbn [negb Nat.eqb]. rewrite skipn_length.
      destruct (Nat.ltb_spec (length bs - p / 8) k); [reflexivity|lia].
Qed.
Print Assumptions C59_aligned_partial.

(** [write_aligned_bytes] does not: at an unaligned position it succeeds and overwrites bits written before. *)
Theorem C59_bytes_refuted :
  exists c1 c2, wrun (wc_new [0; 0; 0]) [WField 3 7] = Ok c1 /\ wc_aligned c1 = false /\ write_aligned_bytes c1 [0] = Ok c2 /\
    stream_bit (wc_bytes c1) 0 = true /\ stream_bit (wc_bytes c2) 0 = false.
Proof. eexists. eexists. split; [vm_compute; reflexivity|]. split; [reflexivity|]. split; [vm_compute; reflexivity|]. split; reflexivity. Qed.
Print Assumptions C59_bytes_refuted.

Example C59_witness : wc_aligned (WC [7; 0] 0 3) = false /\ (11 mod 8 <> 0)%nat /\ (16 mod 8 = 0)%nat /\ rc_fork (rc_at [1; 2; 3] 16) 1 = Ok (rc_new [3], rc_at [1; 2; 3] 24).
Proof. split; [reflexivity|]. split; [discriminate|]. split; reflexivity. Qed.

(** * C60 *)

(** Bit arrays behave as sequences of booleans. *)
Theorem C60_get_set : forall a i b, ba_ok a ->
  (ba_set a i b = Panic <-> (ba_len a <= i)%nat) /\ (ba_get a i = Panic <-> (ba_len a <= i)%nat) /\
  forall a', ba_set a i b = Ok a' -> ba_ok a' /\ ba_len a' = ba_len a /\ ba_get a' i = Ok b /\ forall j, j <> i -> ba_get a' j = ba_get a j.
Proof.
  intros a i b Ha. destruct (Nat.ltb_spec i (ba_len a)) as [Hi|Hi].
  - destruct (ba_set_spec a i b Ha Hi) as (a1 & E & Ha1 & Hl1 & Hb1 & Hs1). split; [rewrite E; split; [discriminate|lia]|]. split; [rewrite ba_get_spec by assumption; split; [discriminate|lia]|].
    intros a' H. assert (a' = a1) as -> by congruence. split; [assumption|]. split; [assumption|]. split.
    + rewrite ba_get_spec, Hs1, Nat.eqb_refl by (assumption || lia). reflexivity.
    + intros j Hj. destruct (Nat.ltb_spec j (ba_len a)).
      * rewrite !ba_get_spec by (assumption || lia). rewrite Hs1. destruct (Nat.eqb_spec j i); [contradiction|reflexivity].
      * unfold ba_get, split_index. rewrite Hl1. destruct (Nat.ltb_spec j (ba_len a)); [lia|reflexivity].
  - assert (E : split_index a i = Panic) by (unfold split_index; destruct (Nat.ltb_spec i (ba_len a)); [lia|reflexivity]).
    unfold ba_set, ba_get. rewrite E. cbn [bind]. split; [tauto|]. split; [tauto|]. discriminate.
Qed.
Print Assumptions C60_get_set.

Theorem C60_new_fill : forall BYTES len,
  (ba_new BYTES len = Panic <-> (8 * BYTES < len)%nat) /\
  (forall a, ba_new BYTES len = Ok a -> ba_ok a /\ ba_len a = len /\ forall i, (i < len)%nat -> ba_get a i = Ok false) /\
  (forall a b, ba_ok a -> ba_ok (ba_fill a b) /\ ba_len (ba_fill a b) = ba_len a /\ forall i, (i < ba_len a)%nat -> ba_get (ba_fill a b) i = Ok b).
Proof.
  intros BYTES len. assert (H0 : forall n k, nth k (repeat 0 n) 0 = 0) by (intros; apply nth_repeat). split; [|split].
  - unfold ba_new. destruct (Nat.leb_spec len (BYTES * 8)); split; (discriminate || lia || trivial).
  - intros a H. assert (Hl : (len <= 8 * BYTES)%nat). { unfold ba_new in H. destruct (Nat.leb_spec len (BYTES * 8)); [lia|discriminate]. }
    destruct (ba_new_ok BYTES len Hl) as (a1 & E & Ha1 & Hl1 & Hb1). assert (a1 = a) as -> by congruence. split; [assumption|]. split; [assumption|]. intros i Hi.
    rewrite ba_get_spec by (assumption || lia). f_equal. unfold ba_new in H. destruct (Nat.leb_spec len (BYTES * 8)); [|discriminate]. assert (a = BA (repeat 0 BYTES) len) as -> by congruence.
    unfold stream_bit. cbn [ba_bytes]. rewrite H0. apply N.bits_0.
  - intros a b (Hb & Hl). assert (Hok : ba_ok (ba_fill a b)).
    { unfold ba_ok, ba_fill. cbn [ba_bytes ba_len]. rewrite map_length. split; [|assumption]. apply Forall_forall. intros x Hx. apply in_map_iff in Hx as (y & <- & _). destruct b; reflexivity. }
    split; [assumption|]. split; [reflexivity|]. intros i Hi. rewrite ba_get_spec by assumption. f_equal. unfold stream_bit, ba_fill. cbn [ba_bytes].
    rewrite (nth_indep _ 0 (if b then 255 else 0)) by (rewrite map_length; lia). rewrite (map_nth (fun _ : N => if b then 255 else 0) (ba_bytes a) 0). destruct b; [|apply N.bits_0].
    change 255 with (N.ones 8). apply N.ones_spec_low. lia.
Qed.
Print Assumptions C60_new_fill.

Lemma bools_eqb_spec l : forall r, length l = length r -> bools_eqb l r = true <-> l = r.
Proof.
  induction l as [|a l IH]; intros [|b r] H; cbn [length] in H; try discriminate; cbn [bools_eqb]; [tauto|].
  destruct a, b; cbn [Bool.eqb negb]; rewrite ?IH by lia; split; intro E; congruence.
Qed.
(** Equality is equality of the sequences of bits, whatever the capacities and the unused bits. *)
Theorem C60_eq : forall a b, ba_ok a -> ba_ok b ->
  exists r, ba_eq a b = Ok r /\ (r = true <-> ba_len a = ba_len b /\ forall i, ba_get a i = ba_get b i).
Proof.
  intros a b Ha Hb. unfold ba_eq. destruct (Nat.eqb_spec (ba_len a) (ba_len b)) as [E|E].
  - rewrite !ba_iter_spec by assumption. cbn [bind]. eexists. split; [reflexivity|]. rewrite bools_eqb_spec by (rewrite !map_length, !seq_length; assumption). split.
    + intro H. split; [assumption|]. intro i. destruct (Nat.ltb_spec i (ba_len a)).
      * rewrite !ba_get_spec by (assumption || lia). f_equal. pose proof (f_equal (fun l => nth i l false) H) as Hn. cbv beta in Hn. rewrite !nth_map_seq in Hn.
        destruct (Nat.ltb_spec i (ba_len a)), (Nat.ltb_spec i (ba_len b)); try lia. exact Hn.
      * unfold ba_get, split_index. destruct (Nat.ltb_spec i (ba_len a)), (Nat.ltb_spec i (ba_len b)); try lia. reflexivity.
    + intros (_ & H). rewrite <- E. apply map_ext_in. intros i Hi. apply in_seq in Hi. specialize (H i). rewrite !ba_get_spec in H by (assumption || lia). congruence.
  - exists false. split; [reflexivity|]. split; [discriminate|]. intros (? & _). contradiction.
Qed.
Print Assumptions C60_eq.

(** The order: shorter first, then by the first bit that differs. *)
Definition bits_lt (a b : bitarray) : Prop :=
  (ba_len a < ba_len b)%nat \/
  ba_len a = ba_len b /\ exists i, ba_get a i = Ok false /\ ba_get b i = Ok true /\ forall j, (j < i)%nat -> ba_get a j = ba_get b j.

Lemma bools_compare_spec l : forall r, length l = length r ->
  match bools_compare l r with
  | Eq => l = r
  | Lt => exists i, (i < length l)%nat /\ nth i l false = false /\ nth i r false = true /\ forall j, (j < i)%nat -> nth j l false = nth j r false
  | Gt => exists i, (i < length l)%nat /\ nth i l false = true /\ nth i r false = false /\ forall j, (j < i)%nat -> nth j l false = nth j r false
  end.
Proof.
  induction l as [|a l IH]; intros [|b r] H; cbn [length] in H; try discriminate; [reflexivity|]. specialize (IH r ltac:(lia)).
  destruct a, b; cbn [bools_compare].
  - destruct (bools_compare l r); [congruence| |]; destruct IH as (i & I1 & I2 & I3 & I4); exists (S i); cbn [nth length]; (split; [lia|]); (split; [assumption|]); (split; [assumption|]); intros [|j] Hj; [reflexivity|apply I4; lia|reflexivity|apply I4; lia].
  - exists O. cbn [nth length]. split; [lia|]. split; [reflexivity|]. split; [reflexivity|]. intros j Hj. lia.
  - exists O. cbn [nth length]. split; [lia|]. split; [reflexivity|]. split; [reflexivity|]. intros j Hj. lia.
  - destruct (bools_compare l r); [congruence| |]; destruct IH as (i & I1 & I2 & I3 & I4); exists (S i); cbn [nth length]; (split; [lia|]); (split; [assumption|]); (split; [assumption|]); intros [|j] Hj; [reflexivity|apply I4; lia|reflexivity|apply I4; lia].
Qed.

Theorem C60_compare : forall a b, ba_ok a -> ba_ok b ->
  exists o, ba_compare a b = Ok o /\
    match o with Lt => bits_lt a b | Gt => bits_lt b a | Eq => ba_eq a b = Ok true end.
Proof.
  intros a b Ha Hb. unfold ba_compare. destruct (Nat.compare_spec (ba_len a) (ba_len b)) as [E|E|E].
  - rewrite !ba_iter_spec by assumption. cbn [bind]. eexists. split; [reflexivity|].
    pose proof (bools_compare_spec (map (stream_bit (ba_bytes a)) (seq 0 (ba_len a))) (map (stream_bit (ba_bytes b)) (seq 0 (ba_len b)))) as H.
    rewrite !map_length, !seq_length in H. specialize (H E).
    assert (Hga : forall i, (i < ba_len a)%nat -> ba_get a i = Ok (nth i (map (stream_bit (ba_bytes a)) (seq 0 (ba_len a))) false)).
    { intros i Hi. rewrite ba_get_spec, nth_map_seq by assumption. destruct (Nat.ltb_spec i (ba_len a)); [reflexivity|lia]. }
    assert (Hgb : forall i, (i < ba_len b)%nat -> ba_get b i = Ok (nth i (map (stream_bit (ba_bytes b)) (seq 0 (ba_len b))) false)).
    { intros i Hi. rewrite ba_get_spec, nth_map_seq by assumption. destruct (Nat.ltb_spec i (ba_len b)); [reflexivity|lia]. }
    destruct (bools_compare _ _).
    + unfold ba_eq. rewrite E, Nat.eqb_refl. rewrite !ba_iter_spec by assumption. cbn [bind]. f_equal. apply bools_eqb_spec; [rewrite !map_length, !seq_length; assumption|]. assumption.
    + right. split; [assumption|]. destruct H as (i & I1 & I2 & I3 & I4). exists i. rewrite Hga, Hgb by lia. split; [congruence|]. split; [congruence|]. intros j Hj. rewrite Hga, Hgb by lia. f_equal. apply I4, Hj.
    + right. split; [congruence|]. destruct H as (i & I1 & I2 & I3 & I4). exists i. rewrite Hga, Hgb by lia. split; [congruence|]. split; [congruence|]. intros j Hj. rewrite Hga, Hgb by lia. f_equal. symmetry. apply I4, Hj.
  - exists Lt. split; [reflexivity|]. left. assumption.
  - exists Gt. split; [reflexivity|]. left. assumption.
Qed.
Print Assumptions C60_compare.

(** It is a strict total order up to equality of the bits. *)
Theorem C60_order : forall a b c, ba_ok a -> ba_ok b -> ba_ok c ->
  ~ bits_lt a a /\ (bits_lt a b -> bits_lt b c -> bits_lt a c) /\ (bits_lt a b \/ ba_eq a b = Ok true \/ bits_lt b a).
Proof.
  intros a b c Ha Hb Hc. split; [|split].
  - intros [H|(_ & i & H1 & H2 & _)]; [lia|congruence].
  - intros [H1|(H1 & i & I1 & I2 & I3)] [H2|(H2 & j & J1 & J2 & J3)]; [left; lia|left; lia|left; lia|]. right. split; [congruence|].
    destruct (Nat.lt_trichotomy i j) as [Hlt|[->|Hgt]].
    + exists i. split; [assumption|]. split; [rewrite <- J3 by assumption; assumption|]. intros k Hk. rewrite I3 by assumption. apply J3. lia.
    + congruence.
    + exists j. split; [rewrite I3 by assumption; assumption|]. split; [assumption|]. intros k Hk. rewrite I3 by lia. apply J3, Hk.
  - destruct (C60_compare a b Ha Hb) as ([| |] & _ & H); tauto.
Qed.
Print Assumptions C60_order.

Example C60_witness :
  let a := BA [181; 255] 9 in let b := BA [181; 1; 0] 9 in let c := BA [183; 0] 9 in
  ba_ok a /\ ba_ok b /\ ba_ok c /\ ba_eq a b = Ok true /\ ba_compare a c = Ok Lt /\ ba_compare c b = Ok Gt /\
  ba_set a 1 true = Ok (BA [183; 255] 9) /\ ba_get a 9 = Panic.
Proof.
  cbv zeta. split; [split; [repeat constructor|cbn; lia]|]. split; [split; [repeat constructor|cbn; lia]|]. split; [split; [repeat constructor|cbn; lia]|].
  repeat split; vm_compute; reflexivity.
Qed.
