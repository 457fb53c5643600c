(** Proofs about the types that are generated as enums, zero-copy types and panics of the generator. *)
From Coq Require Import String QArith Qcanon.
From Verif Require Import Base BitLemmas EncModel EncSpec EncWriteProofs EncReadProofs EncProps BlsModel BlsSpec BlsProofs BlsProps GenModel GenSpec GenWriteProofs GenReadProofs GenSizeProofs GenProps ExprModel ExprSpec ExprProofs PkgModel PkgSpec CompModel CompSpec CompProofs CompProps CodeModel CodeSpec CodeProofs CodeItemProofs CodeNameProofs.
Open Scope list_scope.
Open Scope N_scope.
Ltac Zify.zify_post_hook ::= Z.div_mod_to_equations.

(** * The directive *)
Lemma starts_with_split p : forall s, starts_with p s = true <-> exists r, s = p ++ r.
Proof.
  induction p as [|x p IH]; intro s; cbn [starts_with app]; [split; [intros _; exists s; reflexivity|reflexivity]|]. destruct s as [|y s]; [split; [discriminate|intros (r & R); discriminate R]|].
  rewrite andb_true_iff, N.eqb_eq, IH. split; [intros (-> & r & ->); exists r; reflexivity|intros (r & R); injection R as -> ->; split; [reflexivity|exists r; reflexivity] ].
Qed.
Lemma at_line_spec s : forall b, has_at_line b s = true <-> exists u v, s = u ++ enum_directive ++ v /\ ((u = [] /\ b = true) \/ exists w, u = w ++ [10]).
Proof.
  induction s as [|c s IH]; intro b; cbn [has_at_line]; rewrite orb_true_iff, andb_true_iff, starts_with_split.
  - split; [intros [ (-> & r & R)|R]; [exists [], r; auto|discriminate R]|]. intros (u & v & E & _). apply (f_equal (@length N)) in E. rewrite !app_length in E. cbn [length enum_directive] in E. change (length enum_directive) with 18%nat in E. lia.
  - rewrite IH. split.
    + intros [ (-> & r & R)|(u & v & -> & D)]; [exists [], r; auto|]. exists (c :: u), v. split; [reflexivity|]. right. destruct D as [(-> & D)|(w & ->)]; [apply N.eqb_eq in D as ->; exists []; reflexivity|exists (c :: w); reflexivity].
    + intros (u & v & E & D). destruct u as [|c' u].
      * left. destruct D as [(_ & ->)|(w & D)]; [|destruct w; discriminate D]. split; [reflexivity|]. exists v. exact E.
      * right. injection E as -> ->. exists u, v. split; [reflexivity|]. destruct D as [(D & _)|(w & D)]; [discriminate D|]. destruct w as [|x w]; [injection D as -> ->; left; auto|]. injection D as _ ->. right. exists w. reflexivity.
Qed.
Lemma marked_right t : has_enum_directive t = true <-> marked_enum t.
Proof.
  unfold has_enum_directive, marked_enum. rewrite at_line_spec. fold enum_directive. split; intros (u & v & E & D); exists u, v; (split; [exact E|]); tauto.
Qed.

(** * Constants *)
Lemma implicit_small s n : implicit_int s = Some n -> n < 256.
Proof. unfold implicit_int. destruct s as [|c [|? ?] ]; try discriminate. destruct (N.ltb_spec c 128); try discriminate. intro H0. injection H0 as <-. lia. Qed.
Definition typed_constant (c : constant) : Prop :=
  (forall bits, constant_type c = PUInt bits -> exists z, constant_val c = CInt z /\ (0 <= z < 2 ^ Z.of_nat bits)%Z) /\ constant_type c <> PByte /\ constant_type c <> PUtf8.
Lemma checked_typed tf t v c : check_constant tf t v = Done c -> typed_constant (Constant t v c).
Proof.
  intro H. split; [|split; cbn [constant_type]; intros ->; destruct v; discriminate H]. cbn [constant_type constant_val]. intros bits ->. destruct v; cbn [check_constant] in H; try discriminate H.
  - destruct (qint q) as [z|]; [|discriminate H]. destruct (Z.leb_spec 0 z); [|discriminate H]. destruct (Z.ltb_spec z (2 ^ Z.of_nat bits)); [|discriminate H]. cbn [andb] in H. injection H as <-. exists z. split; [reflexivity|lia].
  - destruct (Nat.eqb_spec bits 8) as [B|B]; [|discriminate H]. destruct (implicit_int s) as [n|] eqn:E; [|discriminate H]. cbn [option_map of_option] in H. injection H as <-. apply implicit_small in E. exists (Z.of_N n). split; [reflexivity|]. rewrite B. change (2 ^ Z.of_nat 8)%Z with 256%Z. lia.
Qed.
Lemma described_typed tf rs path sts d m : describes tf rs path sts d m -> Forall (fun c => typed_constant (snd c)) (c_constants m).
Proof.
  intro D. pose proof (ds_constants _ _ _ _ _ _ D) as F. apply Forall_forall. intros c I. destruct (Forall2_in_r _ _ _ F c I) as (st & _ & C). destruct C as [t name e v c0 _ _ C]. cbn [snd]. apply (checked_typed tf t v c0 C).
Qed.
Lemma compiled_typed nfc powf ss tf files rs k c m : compile nfc powf ss tf files = Done rs -> In (k, c) rs -> In m (messages c) -> Forall (fun c => typed_constant (snd c)) (c_constants m).
Proof.
  intros H I M. destruct (C98_declared _ _ _ _ _ _ H k c I) as (k0 & f & sts & _ & _ & _ & _ & F). unfold messages in M. destruct F as [sts d m' _ _ F|before after d a b _ _ _ Fa Fb].
  - destruct M as [<-|[] ]. apply (described_typed _ _ _ _ _ _ F).
  - destruct M as [<-|[<-|[] ] ]; [apply (described_typed _ _ _ _ _ _ Fa)|apply (described_typed _ _ _ _ _ _ Fb)].
Qed.

Definition values_of (cs : list (text * constant)) : list constant_value := map (fun c => constant_val (snd c)) cs.
Lemma existsb_zeqb z l : existsb (Z.eqb z) l = true <-> In z l.
Proof. rewrite existsb_exists. split; [intros (x & I & E); apply Z.eqb_eq in E as ->; exact I|intro I; exists z; split; [exact I|apply Z.eqb_refl] ]. Qed.
Lemma check_constants_spec bits cs : Forall (fun c => typed_constant (snd c)) cs -> forall used,
  match check_constants bits used cs with
  | Done _ => Forall (fun c => constant_type (snd c) = PUInt bits) cs /\ NoDup (values_of cs) /\ (forall z, In (CInt z) (values_of cs) -> ~ In z used)
  | Fail => ~ (Forall (fun c => constant_type (snd c) = PUInt bits) cs /\ NoDup (values_of cs) /\ (forall z, In (CInt z) (values_of cs) -> ~ In z used))
  | Crash => False
  end.
Proof.
  induction cs as [|[name c] cs IH]; intros T used; cbn [check_constants]; [split; [constructor|split; [constructor|intros z []] ]|]. pose proof (Forall_inv T) as T1. apply Forall_inv_tail in T. cbn [snd] in T1. destruct T1 as (T1 & _).
  assert (W : constant_type c <> PUInt bits -> ~ (Forall (fun c => constant_type (snd c) = PUInt bits) ((name, c) :: cs) /\ NoDup (values_of ((name, c) :: cs)) /\ (forall z, In (CInt z) (values_of ((name, c) :: cs)) -> ~ In z used))).
  { intros N (F & _). apply Forall_inv in F. exact (N F). }
  destruct (constant_type c) as [ | | |b|b| | | ] eqn:E; try (apply W; discriminate). destruct (Nat.eqb_spec b bits) as [->|N]; [|apply W; congruence]. destruct (T1 bits eq_refl) as (z & V & _). rewrite V.
  destruct (existsb (Z.eqb z) used) eqn:X.
  - intros (_ & _ & U). apply existsb_zeqb in X. apply (U z); [|exact X]. left. exact V.
  - assert (X' : ~ In z used) by (rewrite <- existsb_zeqb, X; discriminate). specialize (IH T (z :: used)). destruct (check_constants bits (z :: used) cs) as [u| |]; [| |exact IH].
    + destruct IH as (F & D & U). split; [constructor; [exact E|exact F]|]. cbn [values_of map snd]. rewrite V. split; [constructor; [intro I; apply (U z I); left; reflexivity|exact D]|]. intros z' [Z|I]; [injection Z as <-; exact X'|]. intro J. apply (U z' I). right. exact J.
    + intros (F & D & U). apply IH. split; [apply Forall_inv_tail in F; exact F|]. cbn [values_of map snd] in D, U. rewrite V in D, U. inversion D as [|a b' D1 D2]; subst. split; [exact D2|]. intros z' I [<-|J]; [exact (D1 I)|apply (U z'); [right; exact I|exact J] ].
Qed.
Lemma constant_variants_spec e (cs : list (text * constant)) : Forall (fun c => exists z, constant_val (snd c) = CInt z /\ (0 <= z)%Z) cs ->
  match constant_variants e cs with
  | Done _ => Forall (fun c => forall z, constant_val (snd c) = CInt z -> (z < 2 ^ 32)%Z) cs
  | Fail => False
  | Crash => ~ Forall (fun c => forall z, constant_val (snd c) = CInt z -> (z < 2 ^ 32)%Z) cs
  end.
Proof.
  induction cs as [|[name c] cs IH]; intro T; cbn [constant_variants]; [constructor|]. pose proof (Forall_inv T) as (z & V & P). apply Forall_inv_tail in T. cbn [snd] in V. rewrite V. destruct (Z.leb_spec 0 z); [|lia]. destruct (Z.ltb_spec z (2 ^ 32)) as [L|L]; cbn [andb].
  - specialize (IH T). destruct (constant_variants e cs) as [l| |]; cbn [obind]; [|exact IH|]; [constructor; [intros z' E; cbn [snd] in E; congruence|exact IH]|]. intro F. apply IH. apply Forall_inv_tail in F. exact F.
  - intro F. apply Forall_inv in F. cbn [snd] in F. specialize (F z V). lia.
Qed.
Lemma below_right bound m : Forall (fun c => forall z, constant_val (snd c) = CInt z -> (z < bound)%Z) (c_constants m) <-> constants_below bound m.
Proof.
  unfold constants_below. rewrite Forall_forall. split; [intros F name c z I E; apply (F (name, c) I z E)|]. intros F [name c] I z E. apply (F name c z I E).
Qed.
Lemma typed_uint bits (cs : list (text * constant)) : Forall (fun c => typed_constant (snd c)) cs -> Forall (fun c => constant_type (snd c) = PUInt bits) cs -> Forall (fun c => exists z, constant_val (snd c) = CInt z /\ (0 <= z < 2 ^ Z.of_nat bits)%Z) cs.
Proof. rewrite !Forall_forall. intros T F c I. destruct (T c I) as (T1 & _). apply T1, F, I. Qed.

(** What is made of a type with the directive *)
Lemma enum_spec k m n r t e : marked_enum t -> Forall (fun c => typed_constant (snd c)) (c_constants m) ->
  match generate_rust_type k m n r t e with
  | Done g => exists bits vs, enum_ready m bits /\ constants_below (2 ^ 32) m /\ g_kind g = GEnum (N.of_nat bits) vs /\ Forall2 variant_for (c_constants m) vs /\ g_constants g = []
  | Fail => forall bits, ~ enum_ready m bits
  | Crash => exists bits, enum_ready m bits /\ ~ constants_below (2 ^ 32) m
  end.
Proof.
  intros M T. apply marked_right in M. unfold generate_rust_type. rewrite M. destruct (c_kind m) as [fs|b vs] eqn:K.
  2: { intros bits R. apply (er_struct m bits R). rewrite K. exact I. }
  assert (W : (forall bits name al, fs <> [FData (FScalar (RPrimitive (PUInt bits))) name al]) -> forall bits, ~ enum_ready m bits).
  { intros N bits R. destruct (er_field m bits R) as (name & F). rewrite K in F. cbn [members] in F. destruct fs as [|f [|f' fs] ]; try discriminate F. cbn [map] in F. destruct f as [?|t' name' al]; cbn [member_of_field] in F; [discriminate F|]. injection F as -> ->. apply (N bits name al). reflexivity. }
  unfold enum_from_struct. destruct fs as [|f [|f' fs] ]; [apply W; discriminate| |destruct f as [? ?|[ [? ?|[]|?]|? ?|? ?] ? ?]; apply W; discriminate]. destruct f as [? ?|ty name al]; [apply W; discriminate|]. destruct ty as [s|s ?|s ?]; [|apply W; discriminate|apply W; discriminate].
  destruct s as [? ?|p|?]; [apply W; discriminate| |apply W; discriminate]. destruct p as [ | | |bits|bits| | | ]; try (apply W; discriminate).
  pose proof (check_constants_spec bits (c_constants m) T []) as C. destruct (check_constants bits [] (c_constants m)) as [u| |]; cbn [obind]; [| |contradiction].
  - destruct C as (F & D & _). assert (R : enum_ready m bits). { constructor; [rewrite K; exact (fun x => x)|exists name; rewrite K; reflexivity|exact F|exact D]. }
    assert (P : Forall (fun c => exists z, constant_val (snd c) = CInt z /\ (0 <= z)%Z) (c_constants m)). { eapply Forall_impl; [|apply (typed_uint bits _ T F)]. intros c (z & V & B). exists z. split; [exact V|lia]. }
    pose proof (constant_variants_spec e (c_constants m) P) as V. destruct (constant_variants e (c_constants m)) as [vs| |] eqn:E; cbn [obind]; [|contradiction|].
    + exists bits, vs. split; [exact R|]. split; [apply below_right, V|]. split; [reflexivity|]. split; [apply (constant_variants_in e _ _ E)|reflexivity].
    + exists bits. split; [exact R|]. rewrite <- below_right. exact V.
  - intros bits' R. destruct (er_field m bits' R) as (name' & F). rewrite K in F. cbn [members map member_of_field] in F. injection F as -> ->. apply C. split; [exact (er_types m _ R)|]. split; [exact (er_values m _ R)|]. intros z _ [].
Qed.

(** * Encoding of enums *)
Lemma find_variant_nth vs : forall i v, NoDup (map v_discriminant vs) -> nth_error vs i = Some v -> find_variant (Z.of_N (v_discriminant v)) vs = Some i.
Proof.
  induction vs as [|v0 vs IH]; intros i v D E; [destruct i; discriminate E|]. inversion D as [|a b D1 D2]; subst. cbn [find_variant]. destruct i as [|i]; cbn [nth_error] in E.
  - injection E as ->. rewrite Z.eqb_refl. reflexivity.
  - destruct (Z.eqb_spec (Z.of_N (v_discriminant v0)) (Z.of_N (v_discriminant v))) as [X|X].
    + exfalso. apply D1. apply N2Z.inj in X. rewrite X. apply in_map. apply (nth_error_In _ _ E).
    + rewrite (IH i v D2 E). reflexivity.
Qed.
Lemma find_variant_some n vs : forall i, find_variant n vs = Some i -> exists v, nth_error vs i = Some v /\ Z.of_N (v_discriminant v) = n.
Proof.
  induction vs as [|v0 vs IH]; intros i E; cbn [find_variant] in E; [discriminate E|]. destruct (Z.eqb_spec (Z.of_N (v_discriminant v0)) n) as [X|X]; [injection E as <-; exists v0; split; [reflexivity|exact X]|].
  destruct (find_variant n vs) as [j|] eqn:F; cbn [option_map] in E; [|discriminate E]. injection E as <-. apply (IH j eq_refl).
Qed.
Lemma read_bits_at bs bits : bytes_ok bs -> (1 <= bits <= 64)%nat -> call_read_aligned bits (rc_at bs 0) = Ok (EncSpec.field bs 0 bits, rc_at bs (0 + bits)).
Proof.
  intros B H. assert (P : (0 mod 8 = 0)%nat) by reflexivity.
  destruct (Nat.eq_dec bits 8) as [E|E1]; [apply call_read_aligned_at; auto|]. destruct (Nat.eq_dec bits 16) as [E|E2]; [apply call_read_aligned_at; auto|]. destruct (Nat.eq_dec bits 32) as [E|E3]; [apply call_read_aligned_at; auto|]. destruct (Nat.eq_dec bits 64) as [E|E4]; [apply call_read_aligned_at; auto|].
  unfold call_read_aligned. rewrite (proj2 (Nat.eqb_neq _ _) E1), (proj2 (Nat.eqb_neq _ _) E2), (proj2 (Nat.eqb_neq _ _) E3), (proj2 (Nat.eqb_neq _ _) E4). apply read_u_at; [exact B|lia].
Qed.
Lemma read_enum_at bs bits vs : bytes_ok bs -> (1 <= bits <= 64)%nat -> read_enum (N.of_nat bits) vs (rc_new bs) = Ok (match find_variant (as_i32 (EncSpec.field bs 0 bits)) vs with Some i => DOk i | None => DErr UnionTag end, rc_at bs bits).
Proof.
  intros B H. unfold read_enum. change (rc_new bs) with (rc_at bs 0). unfold dbind, lift. rewrite Nat2N.id, (read_bits_at bs bits B H). cbn [bind fst snd]. rewrite Nat.add_0_l. destruct (find_variant _ vs); reflexivity.
Qed.
Lemma write_enum_at slice bits vs i v : (1 <= bits <= 64)%nat -> nth_error vs i = Some v -> (bits <= 8 * length slice)%nat ->
  exists c, wrun (wc_new slice) (write_enum (N.of_nat bits) vs i) = Ok c /\ length (wc_bytes c) = length slice /\ bytes_hold (wc_bytes c) (bits_of bits (v_discriminant v)).
Proof.
  intros H E L. unfold write_enum. rewrite E, Nat2N.id. destruct (call_write_spec 0 true bits (v_discriminant v) H ltac:(reflexivity)) as (P & K).
  assert (O : wops_ok 0 [call_write true bits (v_discriminant v)]) by (split; [exact K|exact I]).
  assert (Pk : packs 0 [call_write true bits (v_discriminant v)] = bits_of bits (v_discriminant v)) by (cbn [packs]; rewrite P, app_nil_r; reflexivity).
  destruct (C38_space slice _ O) as (c & R); [rewrite Pk, bits_of_length; exact L|]. exists c. split; [exact R|]. destruct (C38_pack slice _ c O R) as (A & B & _ & S & _). split; [exact A|]. split; [exact B|]. intro i'. rewrite S, Pk. reflexivity.
Qed.
Lemma bytes_hold_field bs bits n : bytes_hold bs (bits_of bits n) -> EncSpec.field bs 0 bits = n mod 2 ^ N.of_nat bits.
Proof.
  intros (B & S). apply bits_inj_nat. intro j. rewrite field_testbit. destruct (Nat.ltb_spec j bits) as [Hj|Hj].
  - rewrite S, nth_bits_of, N.mod_pow2_bits_low by lia. rewrite Nat.add_0_l. destruct (Nat.ltb_spec j bits); [reflexivity|lia].
  - rewrite N.mod_pow2_bits_high by lia. reflexivity.
Qed.
Lemma enc_pad_hold bs a : bytes_hold bs a -> bytes_hold bs (pad_to_byte a).
Proof.
  intros (B & S). split; [exact B|]. intro i. rewrite S. unfold pad_to_byte. destruct (Nat.lt_ge_cases i (length a)) as [L|L]; [rewrite app_nth1 by exact L; reflexivity|]. rewrite app_nth2 by exact L. rewrite (nth_overflow a) by exact L. unfold pad8. symmetry. apply nth_repeat.
Qed.

(** * Panics *)
Lemma measure_ok o : bls_ok o -> exists x, measure o = Ok x.
Proof. intro B. destruct (C42_bounds o B) as (lo & hi & E1 & E2 & _). exists (lo, hi). unfold measure. rewrite E1, E2. reflexivity. Qed.
Lemma measure_fixed o v : bls_ok o -> (forall w, den o w -> w = v) -> measure o = Ok (v, v).
Proof. intros B F. destruct (C42_bounds o B) as (lo & hi & E1 & E2 & D1 & D2 & _). unfold measure. rewrite E1, E2. apply F in D1, D2. subst. reflexivity. Qed.
Lemma is_fixed_den o : bls_ok o -> is_fixed_size o = true -> exists v, forall w, den o w -> w = v.
Proof. unfold is_fixed_size. intros B F. destruct (fixed_size o) as [n|] eqn:E; [|discriminate F]. exists n. intros w. apply (fixed_size_den o n B E). Qed.
Lemma scalar_fixed s : bls_ok (rscalar_size s) -> rscalar_zero_copy cmessage_zero_copy s = true -> exists v, forall w, den (rscalar_size s) w -> w = v.
Proof.
  intros B Z. destruct s as [k m|p|bits]; cbn [rscalar_zero_copy rscalar_size] in *.
  - apply is_fixed_den; [exact B|]. destruct m as [d x [fs|b vs] l cs]; cbn [cmessage_zero_copy c_length] in *; [|discriminate Z]. apply andb_true_iff in Z. apply Z.
  - eexists. intros w. cbn [den In bls_single]. intros [<-|[] ]. reflexivity.
  - discriminate Z.
Qed.
Lemma total_same v vs : Forall (fun w => w = v) vs -> total vs = N.of_nat (length vs) * v.
Proof. induction vs as [|w vs IH]; intro F; [reflexivity|]. pose proof (Forall_inv F) as W. apply Forall_inv_tail in F. cbn [total fold_right length] in *. fold (total vs). rewrite (IH F), W. lia. Qed.
Lemma type_fixed t : bls_ok (ftype_size t) -> ftype_zero_copy cmessage_zero_copy t = true -> exists v, measure (ftype_size t) = Ok (v, v).
Proof.
  intros B Z. destruct t as [s|s n|s n]; cbn [ftype_zero_copy ftype_size] in *; [| |discriminate Z].
  - destruct (scalar_fixed s B Z) as (v & F). exists v. apply (measure_fixed _ _ B F).
  - unfold bls_repeat in *. pose proof B as B'. cbn [bls_ok] in B. destruct B as (_ & B & _). destruct (scalar_fixed s B Z) as (v & F). exists (n * v). apply (measure_fixed _ _ B'). cbn [den]. intros w (vs & L & D & ->). rewrite (total_same v); [rewrite L; reflexivity|]. eapply Forall_impl; [|exact D]. exact F.
Qed.
Lemma offsets_ok fs : forall offset, Forall (fun f => match f with GPadding _ => False | GData _ _ t _ => bls_ok (ftype_size t) /\ ftype_zero_copy cmessage_zero_copy t = true end) fs -> check_offsets offset fs = Ok tt.
Proof.
  induction fs as [|f fs IH]; intros offset F; [reflexivity|]. pose proof (Forall_inv F) as P. apply Forall_inv_tail in F. destruct f as [bits|name rust t al]; [contradiction|]. destruct P as (B & Z). destruct (type_fixed t B Z) as (v & E). cbn [check_offsets]. rewrite E. cbn [bind fst snd]. rewrite N.eqb_refl. apply IH, F.
Qed.
Lemma all_ok_right {A} (f : A -> res unit) l : (forall a, In a l -> f a = Ok tt) -> all_ok f l = Ok tt.
Proof. induction l as [|a l IH]; intro H; [reflexivity|]. cbn [all_ok fold_right]. rewrite (H a (or_introl eq_refl)). cbn [bind]. apply IH. intros b I. apply H. right. exact I. Qed.
(** where the fields of a generated struct come from *)
Lemma struct_from k m n r t e g fs : generate_rust_type k m n r t e = Done g -> g_kind g = GStruct fs ->
  exists fs', c_kind m = CStruct fs' /\ has_enum_directive t = false /\ fs = map (make_field e) fs' /\ g_constants g = c_constants m.
Proof.
  unfold generate_rust_type. destruct (c_kind m) as [fs'|b vs]; destruct (has_enum_directive t).
  - intros H K. apply enum_from_struct_done in H as (b & ? & ? & vs & _ & _ & _ & H). rewrite K in H. discriminate H.
  - intros H K. injection H as <-. cbn [g_kind] in K. injection K as <-. exists fs'. repeat split.
  - discriminate.
  - destruct (make_variants e 0 vs); cbn [obind]; try discriminate. intros H K. injection H as <-. cbn [g_kind] in K. discriminate K.
Qed.
Lemma data_member e m fs name rust t al : c_kind m = CStruct fs -> In (GData name rust t al) (map (make_field e) fs) -> rust = to_rust t e /\ exists name', In (MemberData t name') (members (c_kind m)).
Proof.
  intros K I. apply in_map_iff in I as (f & F & I). destruct f as [bits a|t' name' a]; cbn [make_field] in F; [discriminate F|]. injection F as _ <- <- _. split; [reflexivity|]. exists name'. rewrite K. cbn [members]. change (MemberData t' name') with (member_of_field (FData t' name' a)). apply in_map, I.
Qed.
Lemma constants_written g m : Forall (fun c => typed_constant (snd c)) (c_constants m) -> g_constants g = c_constants m \/ g_constants g = [] -> all_ok write_constant (g_constants g) = Ok tt.
Proof.
  intros T [E|E]; rewrite E; [|reflexivity]. apply all_ok_right. intros c I. rewrite Forall_forall in T. destruct (T c I) as (_ & A & B). unfold write_constant. destruct (constant_type (snd c)); try reflexivity; contradiction.
Qed.
Lemma constants_kept k m n r t e g : generate_rust_type k m n r t e = Done g -> g_constants g = c_constants m \/ g_constants g = [].
Proof.
  unfold generate_rust_type. destruct (c_kind m) as [fs|b vs]; destruct (has_enum_directive t).
  - unfold enum_from_struct. destruct fs as [|f [|f' fs] ]; try discriminate; destruct f as [? ?|ty ? ?]; try discriminate; destruct ty as [s|s ?|s ?]; try discriminate; destruct s as [? ?|p|?]; try discriminate; destruct p; try discriminate.
    destruct (check_constants _ _ _); cbn [obind]; try discriminate. destruct (constant_variants _ _); cbn [obind]; try discriminate. intro H. injection H as <-. right. reflexivity.
  - intro H. injection H as <-. left. reflexivity.
  - discriminate.
  - destruct (make_variants e 0 vs); cbn [obind]; try discriminate. intro H. injection H as <-. left. reflexivity.
Qed.
Lemma type_written k m n r t e g : generate_rust_type k m n r t e = Done g -> small_enough m -> Forall (fun c => typed_constant (snd c)) (c_constants m) -> write_type g = Ok tt.
Proof.
  intros H S T. pose proof (rust_type_keeps _ _ _ _ _ _ _ H) as (_ & _ & _ & K4 & K5 & _). unfold write_type. rewrite K4, K5. destruct (measure_ok _ (se_length m S)) as (x & ->). cbn [bind].
  assert (X : exists y, extent_bytes (c_extent m) = Ok y). { pose proof (se_extent m S) as X. unfold extent_bytes. destruct (c_extent m) as [|bits]; [eexists; reflexivity|]. specialize (X bits eq_refl). destruct (N.ltb_spec (bits / 8) (2 ^ 32)); [eexists; reflexivity|lia]. }
  pose proof (constants_written g m T (constants_kept _ _ _ _ _ _ _ H)) as C. destruct X as (y & X). unfold gtype_zero_copy. destruct (g_kind g) as [fs|bits vs] eqn:G.
  - destruct (struct_from _ _ _ _ _ _ _ _ H G) as (fs' & K & _ & F & _).
    assert (M : forall name rust ty al, In (GData name rust ty al) fs -> bls_ok (ftype_size ty)). { intros name rust ty al I. rewrite F in I. destruct (data_member e m fs' name rust ty al K I) as (_ & name' & I'). apply (se_members m S ty name' I'). }
    rewrite all_ok_right. 2: { intros f I. destruct f as [bits|name rust ty al]; [reflexivity|]. destruct (measure_ok _ (M _ _ _ _ I)) as (z & ->). reflexivity. }
    cbn [bind]. rewrite X. cbn [bind]. rewrite C. cbn [bind]. match goal with |- (if ?b then _ else _) = _ => destruct b eqn:Z end; [|reflexivity]. apply andb_true_iff in Z as (_ & Z). rewrite forallb_forall in Z. apply offsets_ok. apply Forall_forall. intros f I. specialize (Z f I). destruct f as [bits|name rust ty al]; [discriminate Z|]. split; [apply (M _ _ _ _ I)|exact Z].
  - cbn [bind]. rewrite X. cbn [bind]. rewrite C. reflexivity.
Qed.
Fixpoint tree_ind' (P : tree -> Prop) (H : forall items children, Forall (fun c => P (snd c)) children -> P (Tree items children)) (t : tree) : P t :=
  match t with
  | Tree items children => H items children ((fix go (l : list (text * tree)) : Forall (fun c => P (snd c)) l := match l with [] => Forall_nil _ | c :: r => Forall_cons c (tree_ind' P H (snd c)) (go r) end) children)
  end.
Lemma in_child_at f n t l : NoDup (map fst l) -> In (n, t) l -> in_child f n l = f t.
Proof.
  induction l as [|[n' t'] l IH]; intros D I; [destruct I|]. inversion D as [|a b D1 D2]; subst. cbn [in_child]. destruct I as [I|I].
  - injection I as -> ->. rewrite text_eqb_refl. reflexivity.
  - rewrite text_eqb_neq; [apply (IH D2 I)|]. intros ->. apply D1. change n with (fst (n, t)). apply in_map, I.
Qed.
Lemma tree_written : forall t, well_named t -> (forall p i, In i (items_at p t) -> write_item i = Ok tt) -> write_tree t = Ok tt.
Proof.
  apply (tree_ind' (fun t => well_named t -> (forall p i, In i (items_at p t) -> write_item i = Ok tt) -> write_tree t = Ok tt)). intros items children IH W H. inversion W as [i c D N]; subst. cbn [write_tree]. rewrite all_ok_right by (intros i I; apply (H [] i I)). cbn [bind].
  apply all_ok_right. intros [n t] I. rewrite Forall_forall in IH, N. apply (IH (n, t) I); [apply (N (n, t) I)|]. intros p i J. apply (H (n :: p) i). cbn [items_at snd] in *. rewrite (in_child_at (items_at p) n t children D I). exact J.
Qed.
Lemma code_written l : (forall i, In i l -> module_path (item_name i) <> [] /\ write_item i = Ok tt) -> write_code (tree_of l) = Ok tt.
Proof.
  intro H. pose proof (tree_well_named l) as W. assert (A : forall p i, In i (items_at p (tree_of l)) -> write_item i = Ok tt). { intros p i I. rewrite items_at_tree in I. apply filter_In in I as (I & _). apply (H i I). }
  pose proof (tree_written _ W A) as T. assert (E : items_at [] (tree_of l) = []).
  { rewrite items_at_tree. assert (F : forall i, In i l -> path_eqb (module_path (item_name i)) [] = false). { intros i I. destruct (H i I) as (N & _). apply path_eqb_neq, N. }
    clear - F. induction l as [|i l IH]; [reflexivity|]. cbn [filter]. rewrite (F i (or_introl eq_refl)). apply IH. intros j J. apply F. right. exact J. }
  destruct (tree_of l) as [items children]. cbn [items_at] in E. subst items. cbn [write_code write_tree all_ok fold_right bind] in *. exact T.
Qed.
Lemma make_variants_small e vs : forall i, i + N.of_nat (length vs) <= 2 ^ 32 -> exists l, make_variants e i vs = Done l.
Proof.
  induction vs as [|[t name] vs IH]; intros i H; cbn [make_variants length] in *; [exists []; reflexivity|]. destruct (N.ltb_spec i (2 ^ 32)); [|lia]. destruct (IH (i + 1)) as (l & ->); [lia|]. cbn [obind]. eexists. reflexivity.
Qed.
Lemma type_generated k m n r t e : small_enough m -> Forall (fun c => typed_constant (snd c)) (c_constants m) -> (marked_enum t -> constants_below (2 ^ 32) m) -> generate_rust_type k m n r t e <> Crash.
Proof.
  intros S T M. destruct (has_enum_directive t) eqn:D.
  - apply marked_right in D. pose proof (enum_spec k m n r t e D T) as X. intro E. rewrite E in X. destruct X as (bits & _ & X). apply X, M, D.
  - unfold generate_rust_type. rewrite D. destruct (c_kind m) as [fs|b vs] eqn:K; [discriminate|]. destruct (make_variants_small e vs 0) as (l & ->); [|discriminate]. pose proof (se_variants m S) as V. rewrite K in V. cbn [members is_union] in V. rewrite map_length in V. specialize (V I). lia.
Qed.
Lemma from_dsdl_generated comments k c e : (forall r m, declared_in c r m -> forall n, generate_rust_type k m n r (comments k r) e <> Crash) -> generate_from_dsdl comments k c e <> Crash.
Proof.
  unfold generate_from_dsdl, declared_in. intro H. destruct (compiled_kind c) as [m|a b].
  - pose proof (H RoleMessage m eq_refl (for_message_type k e)) as X. destruct (generate_rust_type k m _ _ _ e); cbn [obind]; congruence.
  - unfold for_service_type. pose proof (H RoleRequest a eq_refl (with_suffix (for_message_type k e) "Request")) as X. pose proof (H RoleResponse b eq_refl (with_suffix (for_message_type k e) "Response")) as Y.
    destruct (generate_rust_type k a _ _ _ e); cbn [obind]; try congruence. destruct (generate_rust_type k b _ _ _ e); cbn [obind]; congruence.
Qed.
Lemma items_generated comments e pk : (forall k c, In (k, c) pk -> generate_from_dsdl comments k c e <> Crash) -> generate_items comments e pk <> Crash.
Proof.
  induction pk as [|[k c] pk IH]; intro H; cbn [generate_items]; [discriminate|]. assert (IH' : generate_items comments e pk <> Crash) by (apply IH; intros k' c' I; apply H; right; exact I). destruct (external_module (key_path k) e); [exact IH'|].
  pose proof (H k c (or_introl eq_refl)) as X. destruct (generate_from_dsdl comments k c e); cbn [obind]; try congruence. destruct (generate_items comments e pk); cbn [obind]; congruence.
Qed.
Lemma declared_message c r m : declared_in c r m -> In m (messages c).
Proof. unfold declared_in, messages. destruct (compiled_kind c), r; intro H; try contradiction; subst; [left|left|right; left]; reflexivity. Qed.
Lemma item_path comments e pk l i : generate_items comments e pk = Done l -> In i l -> exists k c, In (k, c) pk /\ external_module (key_path k) e = None /\ module_path (item_name i) = module_path (for_message_type k e).
Proof.
  intros H I. destruct (items_from _ _ _ _ i H I) as (k & c & l' & I1 & X & G & J). exists k, c. split; [exact I1|]. split; [exact X|]. apply from_dsdl in G. destruct (compiled_kind c) as [m|a b].
  - destruct G as (g & G & ->). apply in_app_or in J as [J|J]; [destruct (port_id c); [destruct J as [<-|[] ]; reflexivity|destruct J]|]. destruct J as [<-|[] ]. apply rust_type_keeps in G as (_ & G & _). cbn [item_name]. rewrite G. apply type_module.
  - destruct G as (g & g' & G & G' & ->). apply rust_type_keeps in G as (_ & G & _). apply rust_type_keeps in G' as (_ & G' & _). apply in_app_or in J as [J|J]; [destruct (port_id c); [destruct J as [<-|[] ]; reflexivity|destruct J]|]. destruct J as [<-|[<-|[] ] ]; cbn [item_name]; [rewrite G|rewrite G']; apply type_module.
Qed.
Lemma path_not_empty k e : module_path (for_message_type k e) <> [].
Proof. unfold for_message_type. destruct (external_module (key_path k) e); cbn [module_path]; apply not_eq_sym, app_cons_not_nil. Qed.

(** * Zero-copy types *)
Lemma unmarked_kind k m n r t e g fs : generate_rust_type k m n r t e = Done g -> ~ marked_enum t -> c_kind m = CStruct fs -> g_kind g = GStruct (map (make_field e) fs).
Proof. unfold generate_rust_type. intros H M K. rewrite K in H. destruct (has_enum_directive t) eqn:D; [exfalso; apply M, marked_right, D|]. injection H as <-. reflexivity. Qed.
Lemma fields_type_zero_copy fs e : fields_zero_copy cmessage_zero_copy fs = true -> forallb (fun f => match f with GPadding _ => false | GData _ _ t _ => ftype_zero_copy cmessage_zero_copy t end) (map (make_field e) fs) = true.
Proof. induction fs as [|f fs IH]; cbn [fields_zero_copy map forallb]; [reflexivity|]. destruct f as [bits al|t name al]; cbn [make_field]; [discriminate|]. rewrite !andb_true_iff. intros ( (_ & Z) & F). split; [exact Z|apply IH, F]. Qed.
Lemma message_type_zero_copy k m n r t e g : generate_rust_type k m n r t e = Done g -> ~ marked_enum t -> cmessage_zero_copy m = true -> gtype_zero_copy g = true.
Proof.
  intros H M Z. pose proof (rust_type_keeps _ _ _ _ _ _ _ H) as (_ & _ & _ & K & _). destruct m as [d x [fs|b vs] l cs]; cbn [cmessage_zero_copy] in Z; [|discriminate Z]. unfold gtype_zero_copy. rewrite (unmarked_kind _ _ _ _ _ _ _ fs H M eq_refl), K. apply andb_true_iff in Z as (Z1 & Z2). cbn [c_length]. rewrite Z1. apply fields_type_zero_copy, Z2.
Qed.
Lemma to_rust_plain (P : rust_name -> Prop) t e : ftype_zero_copy cmessage_zero_copy t = true -> (forall k m, ftype_scalar t = RComposite k m -> cmessage_zero_copy m = true -> P (for_message_type k e)) -> plain_type P (to_rust t e).
Proof.
  intros Z H. assert (S : forall s, rscalar_zero_copy cmessage_zero_copy s = true -> (forall k m, s = RComposite k m -> cmessage_zero_copy m = true -> P (for_message_type k e)) -> plain_type P (scalar_to_rust s e)).
  { clear. intros s Z H. destruct s as [k m|p|bits]; cbn [rscalar_zero_copy scalar_to_rust] in *; [constructor; apply (H k m eq_refl Z)| |discriminate Z]. destruct p; try discriminate Z; constructor. }
  destruct t as [s|s n|s n]; cbn [ftype_zero_copy ftype_scalar to_rust] in *; [apply (S s Z H)| |discriminate Z]. destruct s as [k m|p|bits]; [constructor; apply (S _ Z H)| |discriminate Z]. destruct p; try discriminate Z; constructor; apply (S _ Z H).
Qed.
