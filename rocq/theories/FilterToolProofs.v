(** Proofs for FilterToolProps.v *)
From Verif Require Import Base TextModel FilterModel FilterProofs FilterToolModel FilterToolSpec.
Open Scope N_scope.
Ltac Zify.zify_post_hook ::= Z.div_mod_to_equations.

(** ** Numerals *)
Lemma digit_right base c d : base <= 36 -> digit_value base c = Some d <-> digit c d /\ d < base.
Proof.
  intro Hb. unfold digit_value. split.
  - intro H. destruct (N.leb_spec 48 c); cbn [andb] in H.
    + destruct (N.leb_spec c 57).
      * destruct (N.ltb_spec (c - 48) base); [|discriminate H]. injection H as <-. split; [|assumption]. replace c with (48 + (c - 48)) at 1 by lia. constructor. lia.
      * destruct (N.leb_spec 97 c), (N.leb_spec c 122); cbn [andb] in H; try (destruct (N.ltb_spec (c - 87) base); [|discriminate H]; injection H as <-; split; [|assumption]; replace c with (97 + ((c - 87) - 10)) at 1 by lia; constructor; lia);
        (destruct (N.leb_spec 65 c), (N.leb_spec c 90); cbn [andb] in H; try discriminate H; destruct (N.ltb_spec (c - 55) base); [|discriminate H]; injection H as <-; split; [|assumption]; replace c with (65 + ((c - 55) - 10)) at 1 by lia; apply digit_capital; lia).
    + replace (97 <=? c) with false in H by lia. replace (65 <=? c) with false in H by lia. discriminate H.
  - intros (H & L). destruct H as [d H|d H|d H].
    + replace ((48 <=? 48 + d) && (48 + d <=? 57)) with true by lia. replace (48 + d - 48) with d by lia. replace (d <? base) with true by lia. reflexivity.
    + replace ((48 <=? 97 + (d - 10)) && (97 + (d - 10) <=? 57)) with false by lia. replace ((97 <=? 97 + (d - 10)) && (97 + (d - 10) <=? 122)) with true by lia. replace (97 + (d - 10) - 87) with d by lia. replace (d <? base) with true by lia. reflexivity.
    + replace ((48 <=? 65 + (d - 10)) && (65 + (d - 10) <=? 57)) with false by lia. replace ((97 <=? 65 + (d - 10)) && (65 + (d - 10) <=? 122)) with false by lia. replace ((65 <=? 65 + (d - 10)) && (65 + (d - 10) <=? 90)) with true by lia. replace (65 + (d - 10) - 55) with d by lia. replace (d <? base) with true by lia. reflexivity.
Qed.
Lemma fold_grows base ds : 1 <= base -> forall a, a <= fold_left (fun a d => a * base + d) ds a.
Proof. intro Hb. induction ds as [|d ds IH]; intro a; [cbn; lia|]. cbn [fold_left]. specialize (IH (a * base + d)). nia. Qed.
Lemma checked_right base limit : 1 <= base <= 36 -> forall t acc n, acc < limit ->
  checked_digits base limit acc t = Some n <-> n < limit /\ exists ds, Forall2 (fun c d => digit c d /\ d < base) t ds /\ n = fold_left (fun a d => a * base + d) ds acc.
Proof.
  intro Hb. induction t as [|c t IH]; intros acc n Ha; cbn [checked_digits].
  - split.
    + intro H. injection H as <-. split; [exact Ha|]. exists []. split; [constructor|reflexivity].
    + intros (_ & ds & F & ->). inversion F. reflexivity.
  - split.
    + intro H. destruct (digit_value base c) as [d|] eqn:E; [|discriminate H]. apply digit_right in E; [|lia]. destruct (N.ltb_spec (acc * base) limit); [|discriminate H]. destruct (N.ltb_spec (acc * base + d) limit) as [L|]; [|discriminate H]. apply (IH _ _ L) in H. destruct H as (Hn & ds & F & ->). split; [exact Hn|]. exists (d :: ds). split; [constructor; assumption|reflexivity].
    + intros (Hn & ds & F & ->). inversion F as [|c' d t' ds' D F']. subst. cbn [fold_left] in *. pose proof (proj2 (digit_right base c d ltac:(lia)) D) as E. rewrite E. pose proof (fold_grows base ds' ltac:(lia) (acc * base + d)) as G.
      replace (acc * base <? limit) with true by lia. replace (acc * base + d <? limit) with true by lia. apply IH; [lia|]. split; [exact Hn|]. exists ds'. split; [exact F'|reflexivity].
Qed.
Lemma unsigned_right base limit t n : 1 <= base <= 36 -> 0 < limit -> parse_unsigned base limit t = Some n <-> unsigned base limit t n.
Proof.
  intros Hb Hl. unfold parse_unsigned, unsigned, numeral. split.
  - intro H. destruct t as [|c r]; [discriminate H|]. destruct (((c =? 43) || (c =? 45)) && (length r =? 0)%nat) eqn:E; [discriminate H|]. destruct (N.eqb_spec c 43) as [->|Hc].
    + apply checked_right in H; [|exact Hb|exact Hl]. destruct H as (Hn & H). exists [43], r. split; [auto|]. split; [reflexivity|]. split; [intros ->; discriminate E|]. split; [exact H|exact Hn].
    + apply checked_right in H; [|exact Hb|exact Hl]. destruct H as (Hn & H). exists [], (c :: r). split; [auto|]. split; [reflexivity|]. split; [discriminate|]. split; [exact H|exact Hn].
  - intros (sign & ds & [-> | ->] & -> & Hd & H & Hn).
    + destruct ds as [|c r]; [destruct (Hd eq_refl)|]. assert (Hc : c <> 43 /\ c <> 45) by (destruct H as (xs & F & _); inversion F as [|c' d t' ds' (D & _) _]; subst; inversion D; subst; lia).
      cbn [app]. replace (c =? 43) with false by lia. replace (c =? 45) with false by lia. cbn [orb andb]. apply checked_right; [exact Hb|exact Hl|]. split; assumption.
    + cbn [app]. destruct ds as [|c r]; [destruct (Hd eq_refl)|]. change ((43 =? 43) || (43 =? 45)) with true. cbn [length Nat.eqb andb]. change (43 =? 43) with true. cbn iota. apply checked_right; [exact Hb|exact Hl|]. split; assumption.
Qed.

(** ** Arguments *)
Definition hex_argument (t : list N) (id : N) : Prop := exists ds, t = [48; 120] ++ ds /\ unsigned 16 (2 ^ 32) ds id.
Lemma hex_right t id : parse_hex_with_prefix t = inr id <-> hex_argument t id.
Proof.
  unfold parse_hex_with_prefix, hex_argument. split.
  - intro H. destruct (length t <? 3)%nat; [discriminate H|]. destruct t as [|a [|b ds] ]; try discriminate H. destruct ((a =? 48) && (b =? 120)) eqn:E; [|discriminate H]. destruct (parse_unsigned 16 (2 ^ 32) ds) as [n|] eqn:En; [|discriminate H]. injection H as <-. exists ds. split; [cbn [app]; f_equal; [lia|f_equal; lia]|]. apply unsigned_right; [lia|reflexivity|exact En].
  - intros (ds & -> & H). assert (L : ds <> []) by (destruct H as (sign & xs & _ & -> & X & _); intro E; apply app_eq_nil in E; apply X, E). destruct ds as [|c r]; [destruct (L eq_refl)|]. cbn [app length]. replace (S (S (S (length r))) <? 3)%nat with false by lia. change ((48 =? 48) && (120 =? 120)) with true. cbn iota. apply unsigned_right in H; [|lia|reflexivity]. rewrite H. reflexivity.
Qed.
Lemma ids_right ts ids : parse_ids ts = inr ids <-> Forall2 hex_argument ts ids.
Proof.
  revert ids. induction ts as [|t ts IH]; intro ids; cbn [parse_ids].
  - split; intro H; [injection H as <-; constructor|inversion H; reflexivity].
  - split.
    + intro H. destruct (parse_hex_with_prefix t) as [|id] eqn:E; [discriminate H|]. apply hex_right in E. destruct (parse_ids ts) as [|r]; [discriminate H|]. injection H as <-. constructor; [exact E|]. apply IH. reflexivity.
    + intro H. inversion H as [|t' id ts' r E F]. subst. apply hex_right in E. rewrite E. apply IH in F. rewrite F. reflexivity.
Qed.
Lemma hex_bound t id : hex_argument t id -> id < 2 ^ 32.
Proof. intros (ds & _ & sign & xs & _ & _ & _ & _ & H). exact H. Qed.
Lemma top_bits id : id < 2 ^ 32 -> (N.land id (N.lxor 0x1fffffff 0xffffffff) =? 0) = true <-> id < 2 ^ 29.
Proof.
  intro H. change (N.lxor 0x1fffffff 0xffffffff) with (N.shiftl (N.ones 3) 29). rewrite N.eqb_eq. split.
  - intro E. destruct (N.lt_ge_cases id (2 ^ 29)) as [L|L]; [exact L|]. exfalso.
    assert (X : id / 2 ^ 29 = 0); [|apply N.div_small_iff in X; lia].
    assert (Y : N.shiftr (N.land id (N.shiftl (N.ones 3) 29)) 29 = 0) by (rewrite E; reflexivity). rewrite N.shiftr_land, N.shiftr_shiftl_l, N.sub_diag, N.shiftl_0_r, N.land_ones, N.shiftr_div_pow2 in Y by lia. change (2 ^ 32) with (2 ^ 29 * 2 ^ 3) in H. rewrite N.mod_small in Y; [exact Y|]. apply N.div_lt_upper_bound; [discriminate|exact H].
  - intro L. apply N.bits_inj. intro i. rewrite N.land_spec, N.bits_0. destruct (N.lt_ge_cases i 29) as [I|I].
    + rewrite N.shiftl_spec_low by exact I. apply andb_false_r.
    + replace (N.testbit id i) with false; [reflexivity|]. symmetry. destruct (N.eq_dec id 0) as [->|Z]; [apply N.bits_0|]. apply N.bits_above_log2. apply N.lt_le_trans with 29; [|exact I]. apply N.log2_lt_pow2; lia.
Qed.
Lemma args_right args max ids : tool_args args = inr (max, ids) <-> arguments args max ids.
Proof.
  unfold tool_args. split.
  - intro H. destruct args as [|m ts]; [discriminate H|]. destruct (parse_unsigned 10 (2 ^ 64) m) as [n|] eqn:En; [|discriminate H]. apply unsigned_right in En; [|lia|reflexivity]. destruct (parse_ids ts) as [|r] eqn:Er; [discriminate H|]. apply ids_right in Er.
    destruct (existsb _ r) eqn:Ex; [discriminate H|]. injection H as <- <-. constructor; [exact En|]. clear - Er Ex. induction Er as [|t id ts r E F IH]; [constructor|]. cbn [existsb] in Ex. apply orb_false_iff in Ex. destruct Ex as (E1 & E2). constructor; [|apply IH, E2]. pose proof (hex_bound t id E) as B. destruct E as (ds & -> & E). exists ds. split; [reflexivity|]. split; [exact E|]. apply top_bits; [exact B|]. apply negb_false_iff, E1.
  - intro H. destruct H as [m n ts r En F]. apply unsigned_right in En; [|lia|reflexivity]. rewrite En. assert (Er : Forall2 hex_argument ts r) by (clear - F; induction F as [|t id ts r (ds & E & U & _) _ IH]; constructor; [exists ds; split; assumption|exact IH]).
    pose proof (proj2 (ids_right ts r) Er) as E. rewrite E. replace (existsb _ r) with false; [reflexivity|]. symmetry. clear - F. induction F as [|t id ts r (ds & E & U & L) _ IH]; [reflexivity|]. cbn [existsb]. rewrite IH. assert (B : id < 2 ^ 32) by (change (2 ^ 32) with 4294967296; change (2 ^ 29) with 536870912 in L; lia). rewrite (proj2 (top_bits id B) L). reflexivity.
Qed.

(** ** Output *)
Lemma hex_char_digit d : d < 16 -> digit (hex_char d) d.
Proof. intro H. unfold hex_char. destruct (N.ltb_spec d 10); [constructor; lia|]. replace (87 + d) with (97 + (d - 10)) by lia. constructor. lia. Qed.
Lemma hex_reversed_right fuel : forall n, n < 16 ^ N.of_nat (S fuel) ->
  exists ds, Forall2 (fun c d => digit c d /\ d < 16) (rev (hex_reversed (S fuel) n)) ds /\ n = fold_left (fun a d => a * 16 + d) ds 0 /\ (length (hex_reversed (S fuel) n) <= S fuel)%nat.
Proof.
  induction fuel as [|fuel IH]; intros n Hn.
  - change (16 ^ N.of_nat 1) with 16 in Hn. cbn [hex_reversed]. replace (n / 16 =? 0) with true by lia. exists [n mod 16]. split; [constructor; [split; [apply hex_char_digit; lia|lia]|constructor]|]. split; [cbn [fold_left]; lia|cbn; lia].
  - change (hex_reversed (S (S fuel)) n) with (hex_char (n mod 16) :: (if n / 16 =? 0 then [] else hex_reversed (S fuel) (n / 16))). destruct (N.eqb_spec (n / 16) 0) as [E|E].
    + exists [n mod 16]. split; [constructor; [split; [apply hex_char_digit; lia|lia]|constructor]|]. split; [cbn [fold_left]; lia|cbn; lia].
    + destruct (IH (n / 16)) as (ds & F & V & L).
      { rewrite Nat2N.inj_succ, N.pow_succ_r' in Hn. apply N.div_lt_upper_bound; [discriminate|exact Hn]. }
      exists (ds ++ [n mod 16]). cbn [rev]. split; [apply Forall2_app; [exact F|constructor; [split; [apply hex_char_digit; lia|lia]|constructor] ]|]. split; [rewrite fold_left_app; cbn [fold_left]; rewrite <- V; lia|cbn [length]; lia].
Qed.
Lemma format_right n : n < 2 ^ 32 -> exists a, format_hex n = [48; 120] ++ a /\ length a = 8%nat /\ numeral 16 a n.
Proof.
  intro H. destruct (hex_reversed_right 7 n) as (ds & F & V & L); [exact H|]. exists (repeat 48 (10 - 2 - length (rev (hex_reversed 8 n))) ++ rev (hex_reversed 8 n)). split; [reflexivity|]. split; [rewrite app_length, repeat_length, rev_length; lia|].
  set (k := (10 - 2 - length (rev (hex_reversed 8 n)))%nat). exists (repeat 0 k ++ ds). split.
  - apply Forall2_app; [|exact F]. clear. induction k as [|k IH]; constructor; [|exact IH]. split; [apply (digit_figure 0)|]; lia.
  - rewrite fold_left_app. replace (fold_left (fun a d => a * 16 + d) (repeat 0 k) 0) with 0; [exact V|]. clear. induction k as [|k IH]; [reflexivity|]. cbn [repeat fold_left]. exact IH.
Qed.
Lemma line_right f : fl_mask f < 2 ^ 32 -> line (filter_id f) (fl_mask f) (print_line f).
Proof.
  intro H. unfold line, print_line. destruct (format_right (filter_id f)) as (a & -> & La & Na); [pose proof (land29_bound (fl_idv f)) as M; unfold filter_id; change (2 ^ 32) with 4294967296; change (2 ^ 29) with 536870912 in M; lia|]. destruct (format_right (fl_mask f) H) as (b & -> & Lb & Nb).
  exists a, b. split; [rewrite <- !app_assoc; reflexivity|]. auto.
Qed.
Lemma table_right l : Forall (fun f => fl_mask f < 2 ^ 32) l -> table (map (fun f => (filter_id f, fl_mask f)) l) (print_filters l).
Proof.
  intro H. exists (map print_line l). split; [reflexivity|]. induction H as [|f l Hf _ IH]; constructor; [apply line_right, Hf|exact IH].
Qed.

(** ** Masks stay within 29 bits *)
Definition narrow (f : filter_t) : Prop := fl_mask f < 2 ^ 32.
Lemma narrow_invalid : narrow invalid.
Proof. reflexivity. Qed.
Lemma narrow_new m i : narrow (filter_new m i).
Proof. unfold narrow. destruct (filter_new_wf m i) as (H & _). change (2 ^ 32) with 4294967296. change (2 ^ 29) with 536870912 in H. lia. Qed.
Lemma narrow_get l i : Forall narrow l -> narrow (fget l i).
Proof. intro H. unfold fget. destruct (nth_in_or_default i l invalid) as [X|X]; [rewrite Forall_forall in H; apply H, X|rewrite X; apply narrow_invalid]. Qed.
Lemma narrow_set f : narrow f -> forall l i, Forall narrow l -> Forall narrow (fset l i f).
Proof. intros Hf l. induction l as [|x l IH]; intros i H; [constructor|]. inversion H. subst. destruct i as [|i]; cbn [fset]; constructor; auto. Qed.
Lemma narrow_loop k : forall v l m, Forall narrow l -> merge_loop k v l = Ok m -> Forall narrow m.
Proof.
  induction k as [|k IH]; intros v l m Hl H; cbn [merge_loop] in H; [injection H as <-; exact Hl|]. destruct (_ =? _)%nat; [|discriminate H]. apply IH in H; [exact H|]. unfold merge_step. destruct (pick l) as (i & j). apply narrow_set; [apply narrow_invalid|]. apply narrow_set; [apply narrow_new|exact Hl].
Qed.
Lemma narrow_sink j : forall l, Forall narrow l -> Forall narrow (sink j l).
Proof. induction j as [|j IH]; intros l H; cbn [sink]; [exact H|]. destruct (_ && _)%bool; [|exact H]. apply IH. apply narrow_set; [apply narrow_get, H|]. apply narrow_set; [apply narrow_get, H|exact H]. Qed.
Lemma narrow_compact l : Forall narrow l -> Forall narrow (compact l).
Proof. unfold compact. generalize (seq 1 (length l - 1)). intro is. revert l. induction is as [|i is IH]; intros l H; cbn [fold_left]; [exact H|]. apply IH, narrow_sink, H. Qed.
Lemma firstn_forall {A} (P : A -> Prop) n l : Forall P l -> Forall P (firstn n l).
Proof. intro H. revert n. induction H as [|x l Hx _ IH]; intro n; destruct n; cbn [firstn]; constructor; auto. Qed.
Lemma narrow_optimize l max out : Forall narrow l -> optimize l max = Ok out -> Forall narrow out.
Proof.
  intros Hl H. unfold optimize in H. destruct (max =? 0)%nat; [injection H as <-; constructor|]. destruct (merge_filters l max) as [m|] eqn:E; [|discriminate H]. apply (narrow_loop _ _ _ _ Hl) in E. destruct (valid_count m <=? max)%nat; [|discriminate H]. cbv zeta in H. destruct (_ && _)%bool; [|discriminate H].
  assert (X : out = firstn (first_invalid (compact m)) (compact m)) by congruence. rewrite X. apply firstn_forall, narrow_compact, E.
Qed.
Lemma narrow_exact ids : Forall narrow (map filter_exact ids).
Proof. apply Forall_map, Forall_forall. intros id _. apply narrow_new. Qed.
Lemma valid_exact ids : Forall (fun f => is_valid f = true) (map filter_exact ids).
Proof. apply Forall_map, Forall_forall. intros id _. apply filter_new_wf. Qed.

Lemma exact_accepts id : accepts (filter_exact id) id = true.
Proof.
  unfold accepts, filter_exact, filter_new, filter_id. cbn [fl_mask fl_idv]. apply N.eqb_eq. apply N.bits_inj. intro i. assert (V : N.testbit VALID_BIT i && N.testbit EXTENDED_ID_MASK i = false) by (rewrite <- N.land_spec; apply N.bits_0). rewrite !N.land_spec, !N.lor_spec, !N.land_spec. destruct (N.testbit id i), (N.testbit EXTENDED_ID_MASK i), (N.testbit VALID_BIT i); try reflexivity; discriminate V.
Qed.
(** ** The tool *)
Lemma tool_right args max ids : arguments args max ids -> 1 <= max ->
  exists out l, tool_run args = Ok (Exit 0 out None) /\ table (map (fun f => (filter_id f, fl_mask f)) l) out /\ N.of_nat (length l) = N.min (N.of_nat (length ids)) max /\
    (forall id, In id ids -> exists f, In f l /\ accepts f id = true) /\ (N.of_nat (length ids) <= max -> l = map filter_exact ids).
Proof.
  intros H Hm. unfold tool_run. rewrite (proj2 (args_right args max ids) H). destruct (optimize_spec (map filter_exact ids) (N.to_nat max) ltac:(lia) (valid_exact ids)) as (l & E & L & _ & C & X). rewrite E. rewrite map_length in L, X.
  exists (print_filters l), l. split; [reflexivity|]. split; [apply table_right; apply (narrow_optimize _ _ _ (narrow_exact ids) E)|]. split; [lia|]. split; [|intro B; apply X; lia].
  intros id I. destruct (C id) as (f & F & _ & A); [|exists f; split; assumption]. exists (filter_exact id). split; [apply in_map, I|]. split; [apply filter_new_wf|]. apply exact_accepts.
Qed.
