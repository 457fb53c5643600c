(** Proofs for ExprSafeProps.v *)
From Coq Require Import QArith Qcanon Permutation.
From Verif Require Import Base BlsModel BlsSpec BlsProofs ExprModel ExprSpec ExprProofs ExprSafeSpec.
Open Scope N_scope.
Ltac Zify.zify_post_hook ::= Z.div_mod_to_equations.

(** ** The remainder of lengths does not panic *)

(** Each remainder is below [d], and not above some length *)
Definition below (o : operator) (d : N) (l : list N) : Prop := (l <> [] /\ is_set l) /\ forall r, In r l -> r < d /\ exists v, den o v /\ r <= v.
Lemma set_of_nil l : set_of l = [] -> l = [].
Proof. intro H. destruct l as [|x l]; [reflexivity|]. assert (X : In x (set_of (x :: l))) by (apply set_of_In; left; reflexivity). rewrite H in X. destruct X. Qed.
Lemma below_set o d l : l <> [] -> (forall r, In r l -> r < d /\ exists v, den o v /\ r <= v) -> below o d (set_of l).
Proof. intros H1 H2. split; [split; [intro H; apply H1, set_of_nil, H|apply set_of_set]|]. intros r R. apply (proj1 (set_of_In l r)) in R. apply H2, R. Qed.
Lemma below_list c d l vs : below c d l -> Forall (fun r => In r l) vs -> exists us, length us = length vs /\ Forall (den c) us /\ total vs <= total us.
Proof.
  intros (_ & H). induction 1 as [|r vs Hr _ (us & L & D & T)]; [exists []; split; [reflexivity|]; split; [constructor|lia]|].
  destruct (H r Hr) as (_ & u & U & Le). exists (u :: us). split; [cbn [length]; congruence|]. split; [constructor; assumption|]. rewrite !total_cons. lia.
Qed.
Lemma small_total d vs n : 0 < d <= 2 ^ 31 -> Forall (fun r => r < d) vs -> N.of_nat (length vs) <= n -> n <= 2 ^ 32 -> total vs < 2 ^ 64.
Proof. intros H1 H2 H3 H4. destruct (small_residues d [0] vs n H1 H2 H3 H4) as [H|H]; [exact H|discriminate H]. Qed.
Lemma cartesian_some ls : Forall (fun l => l <> []) ls -> cartesian ls <> [].
Proof.
  induction 1 as [|l ls H _ IH]; [discriminate|]. destruct l as [|x l]; [destruct (H eq_refl)|]. cbn [cartesian flat_map]. destruct (cartesian ls) as [|v r]; [destruct (IH eq_refl)|]. discriminate.
Qed.
Lemma combos_some k x l : combos k (x :: l) <> [].
Proof. revert l. induction k as [|k IH]; intro l; [discriminate|]. cbn [combos]. destruct (combos k (x :: l)) as [|v r] eqn:E; [destruct (IH l E)|]. discriminate. Qed.
Lemma pad_total c m : forall us k, Forall (den c) us -> den c m -> exists ws, length ws = (length us + k)%nat /\ Forall (den c) ws /\ total us <= total ws.
Proof.
  intros us k H M. exists (us ++ repeat m k). split; [rewrite app_length, repeat_length; reflexivity|]. split.
  - apply Forall_app. split; [exact H|]. apply Forall_forall. intros x X. apply repeat_spec in X. subst x. exact M.
  - clear. induction us as [|u us IH]; [cbn [app]; unfold total at 1; cbn; lia|]. cbn [app]. rewrite !total_cons. lia.
Qed.
Lemma some_map {A B} (f : A -> B) l : l <> [] -> map f l <> [].
Proof. intros H E. apply H. destruct l; [reflexivity|discriminate E]. Qed.

Theorem modulo_fine d : 0 < d <= 2 ^ 31 -> forall o, bls_ok o -> bls_small o -> exists l, op_modulo o d = Ok l /\ below o d l.
Proof.
  intro Hd. assert (Hd0 : d <> 0) by lia.
  apply (op_rect' (fun o => bls_ok o -> bls_small o -> exists l, op_modulo o d = Ok l /\ below o d l)).
  - intros l (_ & Hs & Hn) _. cbn [op_modulo]. rewrite (mapM_ok _ (fun v => v mod d)) by (intros; unfold rem64; destruct (N.eqb_spec d 0); [contradiction|reflexivity]). cbn [bindr].
    eexists. split; [reflexivity|]. apply below_set; [apply some_map, Hn|]. intros r R. apply in_map_iff in R. destruct R as (v & <- & V). split; [apply N.mod_lt, Hd0|]. exists v. split; [exact V|apply N.mod_le, Hd0].
  - intros c a IH Hok Hsm. pose proof Hok as (Hb & Hc & Ha). destruct (IH Hc Hsm) as (l & E & Hl). destruct (op_max_spec _ Hok) as (mx & Emx & _ & Hmx).
    cbn [op_modulo]. rewrite Emx. cbn [bindr].
    assert (Hg : N.gcd a d <> 0) by (intro Hg; apply N.gcd_eq_0_r in Hg; contradiction). assert (Hl2 : exists lcm, lcm64 a d = Ok lcm /\ d <= lcm).
    { unfold lcm64. destruct (N.eqb_spec (N.gcd a d) 0); [contradiction|]. destruct (N.gcd_divide_l a d) as (x & Ex). destruct (N.gcd_divide_r a d) as (y & Ey).
      set (g := N.gcd a d) in *. assert (Edg : d / g = y) by (rewrite Ey at 1; apply N.div_mul; assumption). rewrite Edg. unfold mul64.
      change (2 ^ 31) with 2147483648 in Hd. change (2 ^ 32) with 4294967296 in Ha. rewrite chk64_ok by (change (2 ^ 64) with 18446744073709551616; nia). eexists. split; [reflexivity|].
      assert (Hga : g <= a) by (apply N.divide_pos_le; [lia|exists x; assumption]). clear - Ey Hga. rewrite Ey at 1. rewrite (N.mul_comm a). apply N.mul_le_mono_l. assumption. }
    destruct Hl2 as (lcm & El & Hlcm). rewrite El. cbn [bindr]. rewrite E. cbn [bindr]. destruct Hl as ((Hne & _) & Hl).
    rewrite (mapM_ok _ (fun r => alup a r mod d)).
    2:{ intros r Hr. destruct (Hl r Hr) as (Hlt & u & Hu & Hru).
        assert (Hdu : den (Padding c a) (alup a u)) by (exists u; split; [assumption|apply alup_padded; lia]). specialize (Hmx _ Hdu). destruct (alup_padded a u ltac:(lia)) as (P1 & _).
        destruct (N.leb_spec r mx); [|lia]. destruct (N.ltb_spec r lcm); [|lia]. cbn [andb].
        rewrite align_up_ok; [cbn [bindr]; unfold rem64; destruct (N.eqb_spec d 0); [contradiction|reflexivity]|lia|].
        destruct (alup_padded a r ltac:(lia)) as (_ & P2 & _). change (2 ^ 31) with 2147483648 in Hd. change (2 ^ 32) with 4294967296 in Ha. change (2 ^ 64) with 18446744073709551616. lia. }
    cbn [bindr]. eexists. split; [reflexivity|]. apply below_set; [apply some_map, Hne|]. intros x X. apply in_map_iff in X. destruct X as (r & <- & R). split; [apply N.mod_lt, Hd0|]. destruct (Hl r R) as (_ & u & Hu & Hru).
    exists (alup a u). split; [exists u; split; [assumption|apply alup_padded; lia]|]. transitivity (alup a r); [apply N.mod_le, Hd0|].
    apply (padded_mono a r _ u); [lia|apply alup_padded; lia|apply alup_padded; lia|exact Hru].
  - intros cs IH Hok (Hlen & Hsm). destruct (bls_ok_children cs (or_introl Hok)) as (_ & Hcs). apply all_iff in Hsm.
    assert (H : Forall (fun c => exists l, op_modulo c d = Ok l /\ below c d l) cs) by (rewrite Forall_forall in *; intros c Hc; apply IH; auto).
    apply mapM_Forall2 in H as (ls & E & HF). cbn [op_modulo]. rewrite E. cbn [bindr].
    assert (Hvs : forall vs, In vs (cartesian ls) -> Forall (fun r => r < d) vs /\ exists us, Forall2 den cs us /\ length vs = length cs /\ total vs <= total us).
    { intros vs. rewrite cartesian_In. clear - HF. revert vs. induction HF as [|c l cs ls (_ & H1) _ IH]; intros vs H.
      - inversion H. split; [constructor|]. exists []. split; [constructor|]. split; [reflexivity|lia].
      - inversion H as [|l0 r ls0 vs0 Hr Hvs]. subst. destruct (IH _ Hvs) as (A & us & B & L & T). destruct (H1 r Hr) as (Lt & u & U & Le). split; [constructor; assumption|]. exists (u :: us). split; [constructor; assumption|]. split; [cbn [length]; congruence|]. rewrite !total_cons. lia. }
    rewrite (mapM_ok _ (fun vs => total vs mod d)).
    2:{ intros vs Hin. destruct (Hvs vs Hin) as (A & us & _ & L & _). apply sum_rem_ok; [assumption|]. apply (small_total d vs (2 ^ 32)); [exact Hd|exact A|rewrite L; lia|lia]. }
    cbn [bindr]. eexists. split; [reflexivity|]. apply below_set.
    + apply some_map, cartesian_some. clear - HF. induction HF as [|c l cs ls ((H & _) & _) _ IH]; constructor; assumption.
    + intros x X. apply in_map_iff in X. destruct X as (vs & <- & V). split; [apply N.mod_lt, Hd0|]. destruct (Hvs vs V) as (_ & us & B & _ & T). exists (total us). split; [apply den_concat; exists us; split; [exact B|reflexivity]|]. transitivity (total vs); [apply N.mod_le, Hd0|exact T].
  - intros c n IH Hok Hsm. pose proof Hok as (Hb & Hc & Hn). destruct (IH Hc Hsm) as (l & E & Hl). destruct (equivalent_count_spec n d Hd Hn) as (e & Ee & He1 & He2 & He3).
    assert (He2' : e < 2 * d) by (destruct (n <? 2 * d); lia). assert (Hen : e <= n) by lia. cbn [op_modulo]. rewrite Ee. cbn [bindr]. rewrite E. cbn [bindr].
    rewrite (mapM_ok _ (fun vs => total vs mod d)).
    2:{ intros vs Hin. apply combos_In in Hin as (L1 & L2). apply sum_rem_ok; [assumption|]. apply (small_total d vs (2 ^ 32)); [exact Hd| | |lia].
        - eapply Forall_impl; [|exact L2]. cbv beta. intros r Hr. apply Hl, Hr.
        - change (2 ^ 31) with 2147483648 in Hd. change (2 ^ 32) with 4294967296. lia. }
    cbn [bindr]. eexists. split; [reflexivity|]. apply below_set.
    + apply some_map. destruct Hl as ((Hl & _) & _). destruct l as [|x l]; [destruct (Hl eq_refl)|apply combos_some].
    + intros x X. apply in_map_iff in X. destruct X as (vs & <- & V). split; [apply N.mod_lt, Hd0|]. apply combos_In in V as (L1 & L2). destruct (below_list c d l vs Hl L2) as (us & U1 & U2 & U3). destruct (den_inhabited c Hc) as (w & W). destruct (pad_total c w us (N.to_nat n - length us) U2 W) as (ws & W1 & W2 & W3).
      exists (total ws). split; [exists ws; split; [lia|]; split; [exact W2|reflexivity]|]. transitivity (total vs); [apply N.mod_le, Hd0|lia].
  - intros c n IH Hok Hsm. pose proof Hok as (Hb & Hc & Hn). destruct (IH Hc Hsm) as (l & E & Hl). destruct (equivalent_count_spec n d Hd Hn) as (e & Ee & He1 & He2 & He3).
    assert (He2' : e < 2 * d) by (destruct (n <? 2 * d); lia). assert (Hen : e <= n) by lia. cbn [op_modulo]. rewrite E. cbn [bindr]. rewrite Ee. cbn [bindr].
    rewrite (mapM_ok _ (fun vs => total vs mod d)).
    2:{ intros vs Hin. apply in_flat_map in Hin as (k & Hk & Hin). apply in_seq in Hk. apply combos_In in Hin as (L1 & L2). apply sum_rem_ok; [assumption|]. apply (small_total d vs (2 ^ 32)); [exact Hd| | |lia].
        - eapply Forall_impl; [|exact L2]. cbv beta. intros r Hr. apply Hl, Hr.
        - change (2 ^ 31) with 2147483648 in Hd. change (2 ^ 32) with 4294967296. lia. }
    cbn [bindr]. eexists. split; [reflexivity|]. apply below_set.
    + apply some_map. cbn [seq flat_map]. cbn [combos]. discriminate.
    + intros x X. apply in_map_iff in X. destruct X as (vs & <- & V). split; [apply N.mod_lt, Hd0|]. apply in_flat_map in V as (k & Hk & V). apply in_seq in Hk. apply combos_In in V as (L1 & L2). destruct (below_list c d l vs Hl L2) as (us & U1 & U2 & U3).
      exists (total us). split; [exists us; split; [lia|]; split; [exact U2|reflexivity]|]. transitivity (total vs); [apply N.mod_le, Hd0|lia].
  - intros cs IH Hok (Hlen & Hsm). destruct (bls_ok_children cs (or_intror Hok)) as (Hne & Hcs). apply all_iff in Hsm.
    assert (H : Forall (fun c => exists l, op_modulo c d = Ok l /\ below c d l) cs) by (rewrite Forall_forall in *; intros c Hc; apply IH; auto).
    apply mapM_Forall2 in H as (ls & E & HF). cbn [op_modulo]. rewrite E. cbn [bindr]. eexists. split; [reflexivity|]. apply below_set.
    + destruct HF as [|c l cs ls ((H & _) & _) _]; [destruct (Hne eq_refl)|]. cbn [concat]. destruct l as [|x l]; [destruct (H eq_refl)|discriminate].
    + intros r R. apply in_concat in R. destruct R as (l & L & R). destruct (Forall2_In_r _ _ _ _ HF L) as (c & C & _ & H). destruct (H r R) as (Lt & v & V & Le). split; [exact Lt|]. exists v. split; [|exact Le]. apply den_union, Exists_exists. exists c. split; assumption.
Qed.
Lemma rem_fine o d : 0 < d <= 2 ^ 31 -> bls_ok o -> bls_small o -> exists l, bls_rem o d = Ok (Leaf l) /\ bls_ok (Leaf l).
Proof.
  intros Hd Ho Hs. destruct (modulo_fine d Hd o Ho Hs) as (l & E & (Hne & Hset) & H). unfold bls_rem. rewrite E. cbn [bindr]. exists l. split; [destruct l as [|x l]; [destruct (Hne eq_refl)|reflexivity]|]. cbn [bls_ok den]. split; [|split; [|exact Hne] ].
  - intros v V. destruct (H v V) as (Lt & _). change (2 ^ 31) with 2147483648 in Hd. change (2 ^ 64) with 18446744073709551616. lia.
  - exact Hset.
Qed.

(** ** Operators on careful operands *)

Lemma zero_right q : is_zero q = true -> q = 0%Qc.
Proof. intro H. apply Qc_is_canon. unfold is_zero in H. apply Z.eqb_eq in H. unfold Qeq. change (Qnum (this 0%Qc)) with 0%Z. rewrite H. reflexivity. Qed.
Lemma number_right v q : number_of v = Some q -> number_in v q.
Proof.
  destruct v as [x|s|l|o|b|t]; cbn [number_of]; intro H; try discriminate H; [injection H as <-; constructor|]. unfold implicit_int in H. destruct s as [|c [|? ?] ]; try discriminate H. destruct (N.ltb_spec c 128); [|discriminate H]. injection H as <-. constructor. assumption.
Qed.
Lemma expanded_number v v' : proper v -> expanded v = Done v' -> forall q, number_in v' q -> number_in v q.
Proof.
  intros Hv E q Q. destruct v as [x|s|l|o|b|t]; cbn [expanded] in E; try (injection E as <-; exact Q). unfold expand_set in E. destruct (op_expand_spec o Hv) as (ns & En & _ & Hn). unfold bls_expand in E. rewrite En in E. cbn [of_res obind] in E. injection E as <-.
  inversion Q as [| |l q' X|]. subst. apply in_map_iff in X. destruct X as (n & X & N). injection X as <-. constructor. apply Hn, N.
Qed.
Lemma map_set_careful f l : (forall q, In (VRat q) l -> fine (fun _ => True) (f q)) -> typed TRational l -> forall acc, proper (VSet acc) -> fine (fun m => proper (VSet m)) (map_set f l acc).
Proof.
  intros Hf Hl. induction l as [|x l IH]; intros acc Ha; [exact Ha|]. inversion Hl as [|x' l' Hx Hl']. subst x' l'. apply rational_cases in Hx. destruct Hx as (q & ->). cbn [map_set].
  apply (fine_bind (fun _ => True)); [apply Hf; left; reflexivity|]. intros c _. apply (fine_bind (fun m => proper (VSet m))); [apply insert_fine; [exact Ha|exact Logic.I]|]. intros m Hm. apply IH; [|assumption|assumption]. intros y Y. apply Hf. right. exact Y.
Qed.
Lemma elementwise_careful f v w : (forall a b, number_in v a -> number_in w b -> fine (fun _ => True) (f a b)) -> proper v -> proper w -> fine proper (elementwise f v w).
Proof.
  intros Hf Hv Hw. unfold elementwise. pose proof (expanded_fine v Hv) as Fv. pose proof (expanded_number v) as Nv. destruct (expanded v) as [v'| |]; [|exact Logic.I|exact Fv]. specialize (Nv v' Hv eq_refl). pose proof (expanded_fine w Hw) as Fw. pose proof (expanded_number w) as Nw. destruct (expanded w) as [w'| |]; [|exact Logic.I|exact Fw]. specialize (Nw w' Hw eq_refl). cbn [obind fine] in *.
  assert (R : fine proper (rational_binary (fun a b => obind (f a b) (fun x => Done (VRat x))) v' w')).
  { unfold rational_binary. destruct (number_of v') as [a|] eqn:Ea; [|exact Logic.I]. destruct (number_of w') as [b|] eqn:Eb; [|exact Logic.I]. apply (fine_bind (fun _ => True)); [|intros; exact Logic.I]. apply Hf; [apply Nv|apply Nw]; apply number_right; assumption. }
  assert (M : forall g l, (forall q, In (VRat q) l -> fine (fun _ => True) (g q)) -> proper (VSet l) -> fine proper (if can_hold l TRational then obind (map_set g l []) (fun s => Done (VSet s)) else Fail)).
  { intros g l Hg Hl. destruct (can_hold l TRational) eqn:E; [|exact Logic.I]. apply (fine_bind (fun m => proper (VSet m))); [|auto]. apply map_set_careful; [exact Hg|apply can_hold_typed; assumption|]. apply proper_set. split; [intros x y []|constructor]. }
  destruct v' as [a|s1|l|o1|b1|t1], w' as [b|s2|m|o2|b2|t2]; try exact R.
  - apply M; [|exact Fw]. intros q Q. apply Hf; [apply Nv|apply Nw]; constructor. exact Q.
  - apply (M (fun a => f a b)); [|exact Fv]. intros q Q. apply Hf; [apply Nv|apply Nw]; constructor. exact Q.
Qed.
Lemma binary_careful nfc powf op v w : careful_operands op v w -> proper v -> proper w -> fine proper (apply_binary nfc powf op v w).
Proof.
  intros Hc Hv Hw. destruct op; try (apply binary_fine; [cbn; intuition discriminate|assumption|assumption]); cbn [apply_binary careful_operands] in *.
  - apply elementwise_careful; [|assumption|assumption]. intros a b A B. cbn [arithmetic]. unfold qpow. destruct (qint b) as [z|] eqn:Ez; [|destruct (powf a b); exact Logic.I]. destruct (Z.ltb_spec z 0); [|exact Logic.I]. destruct (is_zero a) eqn:Ea; [|exact Logic.I]. exfalso.
    apply zero_right in Ea. subst a. apply qint_right in Ez. subst b. specialize (Hc z A B). lia.
  - apply elementwise_careful; [|assumption|assumption]. intros a b A B. cbn [arithmetic]. unfold qdiv. destruct (is_zero b) eqn:Eb; [|exact Logic.I]. apply zero_right in Eb. exact (Hc b B Eb).
  - destruct Hc as (Hc & Hd). assert (E : fine proper (elementwise (arithmetic powf Modulo) v w)).
    { apply elementwise_careful; [|assumption|assumption]. intros a b A B. cbn [arithmetic]. unfold qrem. destruct (is_zero b) eqn:Eb; [|exact Logic.I]. apply zero_right in Eb. exact (Hc b B Eb). }
    destruct v as [q1|s1|l|o|b1|t1], w as [q2|s2|m|b|b2|t2]; try exact E. destruct (u64_integer q2) as [n|] eqn:En; [|exact E].
    unfold u64_integer in En. destruct (qint q2) as [z|] eqn:Ez; [|discriminate En]. apply qint_right in Ez. destruct ((0 <=? z)%Z && (z <? 2 ^ 64)%Z)%bool eqn:Eb; [|discriminate En]. injection En as <-. subst q2.
    destruct (Hd o (Z.to_N z) eq_refl) as (H1 & H2); [rewrite Z2N.id by lia; reflexivity|]. assert (Hz : z <> 0%Z) by (intros ->; apply (Hc (integer 0)); [constructor|reflexivity]).
    destruct (rem_fine o (Z.to_N z)) as (l & El & Hl); [change (2 ^ 31) with 2147483648 in *; lia|exact Hv|exact H2|]. rewrite El. cbn [of_res obind fine]. exact Hl.
Qed.

(** ** Expressions *)

Section Careful.
Context (nfc : text -> text) (powf : Qc -> Qc -> option Qc) (sort_sets : list (list value) -> list (list value)) (Hsort : forall ss, Permutation ss (sort_sets ss)).
Context (S : Type) (offset : S -> operator * S) (constants : S -> list (text * value)) (lookup : key -> S -> out (option (operator * list (text * value)) * S)).
Context (I : S -> Prop).
Context (Hoffset : forall s, I s -> bls_ok (fst (offset s)) /\ I (snd (offset s))).
Context (Hconstants : forall s n v, I s -> In (n, v) (constants s) -> proper v).
Context (Hlookup : forall k s, I s -> lookup k s <> Crash /\ forall r s', lookup k s = Done (r, s') -> I s' /\ forall o cs n v, r = Some (o, cs) -> In (n, v) cs -> proper v).
Notation evaluate := (eval nfc powf sort_sets S offset constants lookup).
Notation good := (fine (fun p => proper (fst p) /\ I (snd p))).

Lemma scalar_length_fine t s : I s -> fine (fun p => I (snd p)) (scalar_length S lookup t s).
Proof.
  intro Hs. destruct t as [k|p|b]; cbn [scalar_length]; try exact Hs. destruct (Hlookup k s Hs) as (Hc & Hd). destruct (lookup k s) as [ (m & s')| |]; [|exact Logic.I|destruct (Hc eq_refl)]. destruct (Hd m s' eq_refl) as (Hs' & _). cbn [sbind obind fst snd]. destruct m as [ (o & cs)|]; [exact Hs'|exact Logic.I].
Qed.
Lemma dtype_length_fine t s : I s -> fine (fun p => I (snd p)) (dtype_length S lookup t s).
Proof.
  intro Hs. destruct t as [t|t n|t n]; cbn [dtype_length]; [apply scalar_length_fine, Hs| |]; (apply (fine_bind (fun p => I (snd p))); [apply scalar_length_fine, Hs|]; intros (o & s') H; exact H).
Qed.
Lemma eval_careful : forall e, (forall a s, part a e -> I s -> careful evaluate a s) -> forall s, I s -> good (evaluate e s).
Proof.
  fix IH 1. intros [q|t|b|es|t|t k n|name|u e|e name|op a b] He s Hs.
  - split; [exact Logic.I|exact Hs].
  - split; [exact Logic.I|exact Hs].
  - split; [exact Logic.I|exact Hs].
  - change (good (elements nfc powf sort_sets S offset constants lookup es [] s)). assert (Hes : forall a e s, In e es -> part a e -> I s -> careful evaluate a s) by (intros a e s' E P J; apply He; [apply (part_set a e es E P)|exact J]). clear He.
    assert (Ha : proper (VSet [])) by (apply proper_set; split; [intros x y []|constructor]). generalize dependent (@nil value). revert s Hs. induction es as [|e es IHes]; intros s Hs acc Ha; [split; assumption|]. cbn [elements].
    assert (He : forall a s, part a e -> I s -> careful evaluate a s) by (intros a s' P J; apply (Hes a e); [left; reflexivity|exact P|exact J]).
    pose proof (IH e He s Hs) as G. apply (fine_bind (fun p => proper (fst p) /\ I (snd p))); [exact G|]. intros (v & s') (Pv & Ps). cbn [fst snd] in *. apply (fine_bind (fun m => proper (VSet m))); [apply insert_fine; assumption|]. intros m Hm. apply IHes; [|assumption|assumption]. intros a' e' s2 E P J. apply (Hes a' e'); [right; exact E|exact P|exact J].
  - split; [exact Logic.I|exact Hs].
  - cbn [eval]. assert (Hn : forall a s, part a n -> I s -> careful evaluate a s) by (intros a s' P J; apply He; [constructor; exact P|exact J]). pose proof (IH n Hn s Hs) as G. apply (fine_bind (fun p => proper (fst p) /\ I (snd p))); [exact G|]. intros (v & s') (Pv & Ps). cbn [fst snd] in *. apply (fine_bind (fun _ => True)).
    + unfold array_length. destruct v as [q|s1|l1|o1|b1|t1]; try exact Logic.I. destruct (qint q) as [z|]; [|exact Logic.I]. destruct (z <? 0)%Z; [exact Logic.I|]. destruct (z <? 2 ^ 64)%Z; exact Logic.I.
    + intros m _. apply (fine_bind (fun _ => True)); [unfold array_type; destruct k; try exact Logic.I; destruct (0 <? m); exact Logic.I|]. intros ty _. split; [exact Logic.I|exact Ps].
  - cbn [eval]. destruct (text_eqb name name_offset).
    + destruct (Hoffset s Hs) as (H1 & H2). destruct (offset s) as (o & s'). split; assumption.
    + apply pure_fine; [exact Hs|]. apply find_fine. intros n v X. apply (Hconstants s n v Hs X).
  - cbn [eval]. assert (Hn : forall a s, part a e -> I s -> careful evaluate a s) by (intros a s' P J; apply He; [constructor; exact P|exact J]). pose proof (IH e Hn s Hs) as G. apply (fine_bind (fun p => proper (fst p) /\ I (snd p))); [exact G|]. intros (v & s') (Pv & Ps). cbn [fst snd] in *. apply pure_fine; [exact Ps|]. destruct u, v; exact Logic.I.
  - assert (Hn : forall a s, part a e -> I s -> careful evaluate a s) by (intros a s' P J; apply He; [constructor; exact P|exact J]). pose proof (He _ s (part_self _) Hs) as Hself. cbn [careful] in Hself. cbn [eval] in Hself |- *. pose proof (IH e Hn s Hs) as G. destruct (evaluate e s) as [ (v & s')| |]; [|exact Logic.I|exact G]. destruct G as (Pv & Ps). cbn [sbind obind fst snd] in *.
    destruct (text_eqb name name_bit_length) eqn:E.
    + apply text_eqb_eq in E. subst name. destruct v as [q1|s1|l|o|b1|d]; try exact Logic.I.
      cbn [attribute] in Hself |- *. change (text_eqb name_bit_length name_bit_length) with true in *. cbn iota in *. pose proof (dtype_length_fine d s' Ps) as F. destruct (dtype_length S lookup d s') as [ (o & s2)| |]; [|exact Logic.I|exact F]. cbn [sbind obind fst snd fine] in *. split; [apply (Hself eq_refl o s2 eq_refl)|exact F].
    + apply (attribute_fine sort_sets Hsort S lookup I Hlookup); [|assumption|assumption]. intros ->. change (text_eqb name_bit_length name_bit_length) with true in E. discriminate E.
  - assert (Ha : forall x s, part x a -> I s -> careful evaluate x s) by (intros x s' P J; apply He; [apply part_left; exact P|exact J]). assert (Hb : forall x s, part x b -> I s -> careful evaluate x s) by (intros x s' P J; apply He; [apply part_right; exact P|exact J]). pose proof (He _ s (part_self _) Hs) as Hself. cbn [careful] in Hself. cbn [eval].
    pose proof (IH a Ha s Hs) as G. destruct (evaluate a s) as [ (v & s')| |]; [|exact Logic.I|exact G]. destruct G as (Pv & Ps). cbn [sbind obind fst snd] in *. pose proof (IH b Hb s' Ps) as G2. destruct (evaluate b s') as [ (w & s2)| |] eqn:Eb; [|exact Logic.I|exact G2]. destruct G2 as (Pw & Ps2). cbn [sbind obind fst snd] in *. apply pure_fine; [exact Ps2|]. apply binary_careful; [apply (Hself v s' w s2 eq_refl Eb)|assumption|assumption].
Qed.
End Careful.
