(** Lemmas about DSDL expressions. *)
From Coq Require Import QArith Qpower Qcanon Qfield Sorted Permutation Lia.
From Verif Require Import Base BlsModel BlsSpec BlsProofs GenModel ExprModel ExprSpec.
Open Scope N_scope.
Ltac Zify.zify_post_hook ::= Z.div_mod_to_equations.

Lemma text_eqb_eq a : forall b, text_eqb a b = true <-> a = b.
Proof.
  induction a as [|x a IH]; intros [|y b]; cbn [text_eqb]; split; intro H; try reflexivity; try discriminate H.
  - apply andb_true_iff in H. destruct H as (H1 & H2). apply N.eqb_eq in H1. apply IH in H2. congruence.
  - injection H as <- <-. rewrite N.eqb_refl. apply IH. reflexivity.
Qed.
Lemma qeqb_eq a b : qeqb a b = true <-> a = b.
Proof. unfold qeqb. destruct (Qc_eq_dec a b) as [E|E]; split; intro H; try reflexivity; try assumption; [discriminate H|destruct (E H)]. Qed.
Lemma beqb_eq a b : beqb a b = true <-> a = b.
Proof. apply Bool.eqb_true_iff. Qed.
Lemma etype_eqb_eq a : forall b, etype_eqb a b = true <-> a = b.
Proof.
  revert a. fix IH 1. intros [| |[t|]| |] [| |[u|]| |]; cbn [etype_eqb]; split; intro H; try reflexivity; try discriminate H.
  - apply IH in H. congruence.
  - injection H as <-. apply (IH t). reflexivity.
Qed.

(** ** Numbers *)

Lemma qc_eq (a b : Qc) : a = b <-> (this a == this b)%Q.
Proof. split; [intros ->; reflexivity|apply Qc_is_canon]. Qed.
Lemma integer_this z : this (integer z) = z # 1.
Proof. cbn [integer Q2Qc this]. unfold Qred. pose proof (Z.ggcd_correct_divisors z 1) as H. pose proof (Z.ggcd_gcd z 1) as G. destruct (Z.ggcd z 1) as (g & a & b). cbn [fst snd] in *. rewrite Z.gcd_1_r in G. subst g. destruct H as (H1 & H2). assert (b = 1)%Z as -> by lia. replace a with z by lia. reflexivity. Qed.
Lemma qint_integer z : qint (integer z) = Some z.
Proof. unfold qint. rewrite integer_this. reflexivity. Qed.
Lemma qint_right q z : qint q = Some z <-> q = integer z.
Proof.
  split; [|intros ->; apply qint_integer]. unfold qint. destruct (Pos.eqb_spec (Qden q) 1) as [E|E]; [|discriminate]. intro H. injection H as <-. apply qc_eq. rewrite integer_this. unfold Qeq. cbn [Qnum Qden]. rewrite E. reflexivity.
Qed.
Lemma integer_inj a b : integer a = integer b -> a = b.
Proof. intro H. pose proof (qint_integer a) as Ha. rewrite H, qint_integer in Ha. congruence. Qed.
Lemma is_zero_right q : is_zero q = true <-> q = 0%Qc.
Proof.
  unfold is_zero. rewrite Z.eqb_eq. rewrite qc_eq. change (this 0%Qc) with (0 # 1). unfold Qeq. cbn [Qnum Qden]. lia.
Qed.
Lemma not_zero q : q <> 0%Qc -> is_zero q = false.
Proof. intro H. destruct (is_zero q) eqn:E; [|reflexivity]. apply is_zero_right in E. destruct (H E). Qed.

Lemma qpower_right (a : Qc) n : (Qpower a (Z.of_nat n) == this (Qcpower a n))%Q.
Proof.
  induction n as [|n IH]; [reflexivity|]. cbn [Qcpower]. unfold Qcmult. cbn [this Q2Qc]. rewrite Qred_correct, <- IH.
  destruct n as [|n]; [cbn; ring|]. cbn [Z.of_nat Pos.of_succ_nat Qpower]. rewrite <- Pos.add_1_l, Qpower_plus_positive. reflexivity.
Qed.
Lemma remainder_right A B k R : (A = B * k + R -> (0 <= A -> 0 <= R) -> (A <= 0 -> R <= 0) -> (R < B \/ R < - B) -> (- B < R \/ B < R) -> Z.rem A B = R)%Z.
Proof.
  intros E H1 H2 H3 H4. destruct (Z_lt_le_dec A 0) as [Ha|Ha]; destruct (Z_lt_le_dec B 0) as [Hb|Hb].
  - rewrite <- Z.rem_opp_r', <- (Z.opp_involutive A), Z.rem_opp_l'. rewrite <- (Z.rem_unique (- A) (- B) k (- R)); lia.
  - rewrite <- (Z.opp_involutive A), Z.rem_opp_l'. rewrite <- (Z.rem_unique (- A) B (- k) (- R)); lia.
  - rewrite <- Z.rem_opp_r'. symmetry. apply (Z.rem_unique A (- B) (- k) R); lia.
  - symmetry. apply (Z.rem_unique A B k R); lia.
Qed.
Lemma common (a : Qc) d : (this a == Qnum a * Zpos d # (Qden a * d))%Q.
Proof. unfold Qeq. cbn [Qnum Qden]. lia. Qed.
Lemma le_num (a : Qc) A d : (this a == A # d)%Q -> ((0 <= a)%Qc <-> (0 <= A)%Z) /\ ((a <= 0)%Qc <-> (A <= 0)%Z).
Proof. intro H. unfold Qcle. change (this 0%Qc) with (0 # 1). rewrite H. unfold Qle. cbn [Qnum Qden]. lia. Qed.
Lemma lt_num (a b : Qc) A B d : (this a == A # d)%Q -> (this b == B # d)%Q -> (a < b)%Qc <-> (A < B)%Z.
Proof. intros Ha Hb. unfold Qclt. rewrite Ha, Hb. unfold Qlt. cbn [Qnum Qden]. nia. Qed.
Lemma opp_num (a : Qc) A d : (this a == A # d)%Q -> (this (- a)%Qc == - A # d)%Q.
Proof. intro H. unfold Qcopp. cbn [this Q2Qc]. rewrite Qred_correct, H. unfold Qeq, Qopp. cbn [Qnum Qden]. lia. Qed.

Lemma calc_right powf op a b c : calculates op a b c -> arithmetic powf op a b = Done c.
Proof.
  intros [x y|x y|x y|x y z H E|x y k r H E H1 H2 H3 H4|x n|x n H]; cbn [arithmetic]; try reflexivity.
  - unfold qdiv. rewrite not_zero by exact H. subst x. f_equal. field. exact H.
  - unfold qrem. rewrite not_zero by exact H. f_equal. apply qc_eq. cbn [this Q2Qc]. rewrite Qred_correct.
    set (A := (Qnum x * Zpos (Qden y))%Z). set (B := (Qnum y * Zpos (Qden x))%Z). set (d := (Qden x * Qden y)%positive).
    assert (Ea : (this x == A # d)%Q) by (apply common). assert (Eb : (this y == B # d)%Q) by (unfold B, d; rewrite Pos.mul_comm; apply common).
    assert (Er : (this r == A - B * k # d)%Q).
    { apply qc_eq in E. unfold Qcplus, Qcmult in E. cbn [this Q2Qc] in E. rewrite !Qred_correct, integer_this in E. assert (E2 : (this r == this x - this y * (k # 1))%Q) by (rewrite E; ring). rewrite E2, Ea, Eb. unfold Qeq, Qminus, Qplus, Qopp, Qmult. cbn [Qnum Qden]. lia. }
    rewrite Er. rewrite (remainder_right A B k (A - B * k)); [reflexivity|lia| | | |].
    + intro X. apply (proj1 (le_num r _ d Er)), H1, (proj1 (le_num x _ d Ea)), X.
    + intro X. apply (proj2 (le_num r _ d Er)), H2, (proj2 (le_num x _ d Ea)), X.
    + destruct H3 as [X|X]; [left; apply (lt_num r y _ _ d Er Eb), X|right; apply (lt_num r (- y) _ _ d Er (opp_num _ _ _ Eb)), X].
    + destruct H4 as [X|X]; [left; apply (lt_num (- y) r _ _ d (opp_num _ _ _ Eb) Er), X|right; apply (lt_num y r _ _ d Eb Er), X].
  - unfold qpow. rewrite qint_integer. replace (Z.of_nat n <? 0)%Z with false by lia. cbn [andb]. f_equal. apply qc_eq. cbn [this Q2Qc]. rewrite Qred_correct. apply qpower_right.
  - unfold qpow. rewrite qint_integer, (not_zero x H), andb_false_r. f_equal. apply qc_eq. unfold Qcinv. cbn [this Q2Qc]. rewrite !Qred_correct, <- qpower_right.
    destruct n as [|n]; [reflexivity|]. reflexivity.
Qed.
Lemma stands_right v q : stands_for v q -> number_of v = Some q.
Proof. intros [x|c H]; [reflexivity|]. cbn [number_of implicit_int]. replace (c <? 128) with true by lia. reflexivity. Qed.

Lemma bitwise_right_eq op a b c : is_bitwise op -> bitwise_right op a b c -> bitwise op (integer a) (integer b) = Done (integer c).
Proof.
  intros Hop H. unfold bitwise. rewrite !qint_integer. change qof with integer. f_equal. f_equal.
  assert (G : forall x, (forall i, (0 <= i)%Z -> Z.testbit x i = bit_of op (Z.testbit a i) (Z.testbit b i)) -> x = c).
  { intros x Hx. apply Z.bits_inj'. intros i Hi. rewrite Hx, H by exact Hi. reflexivity. }
  destruct Hop as [<-|[<-|[<-|[] ] ] ]; apply G; intros i Hi; cbn [bit_of]; [apply Z.lor_spec|apply Z.lxor_spec|apply Z.land_spec].
Qed.
Lemma qleb_le a b : qleb a b = true <-> (a <= b)%Qc.
Proof. unfold qleb. rewrite Qle_bool_iff. reflexivity. Qed.
Lemma qle_lt a b : (a < b)%Qc <-> (a <= b)%Qc /\ a <> b.
Proof.
  split.
  - intro H. split; [apply Qclt_le_weak, H|]. intros ->. apply (Qclt_not_eq _ _ H). reflexivity.
  - intros (H & N). destruct (Qc_dec a b) as [[X|X]|X]; [exact X| |destruct (N X)]. destruct (Qclt_not_le _ _ X H).
Qed.
Lemma compare_right op a b : is_comparison op -> comparison_holds op a b = true <-> compares op a b.
Proof.
  intro H. destruct H as [<-|[<-|[<-|[<-|[<-|[<-|[] ] ] ] ] ] ]; cbn [comparison_holds compares].
  - apply qeqb_eq.
  - rewrite negb_true_iff, <- not_true_iff_false, qeqb_eq. reflexivity.
  - apply qleb_le.
  - apply qleb_le.
  - rewrite andb_true_iff, negb_true_iff, <- not_true_iff_false, qeqb_eq, qleb_le. symmetry. apply qle_lt.
  - rewrite andb_true_iff, negb_true_iff, <- not_true_iff_false, qeqb_eq, qleb_le, qle_lt. split; intros (X & Y); split; auto.
Qed.

(** ** Sets *)

Lemma simple_eqb t x y : simple t -> type_of x = t -> type_of y = t -> veqb x y = true <-> x = y.
Proof.
  intros Ht Hx Hy. destruct x as [a|a|a|a|a|a], y as [b|b|b|b|b|b]; cbn in Hx, Hy; destruct Ht as [Ht|[Ht|Ht] ]; subst t; try discriminate Hx; try discriminate Hy; cbn [veqb].
  - rewrite qeqb_eq. split; congruence.
  - rewrite text_eqb_eq. split; congruence.
  - rewrite beqb_eq. split; congruence.
Qed.
Definition typed (t : etype) (l : list value) : Prop := Forall (fun x => type_of x = t) l.
Lemma member_right t x l : simple t -> type_of x = t -> typed t l -> member_of x l = true <-> In x l.
Proof.
  intros Ht Hx Hl. unfold member_of. rewrite existsb_exists. unfold typed in Hl. rewrite Forall_forall in Hl. split.
  - intros (y & Hy & E). apply (simple_eqb t) in E; auto. congruence.
  - intro H. exists x. split; [exact H|]. apply (simple_eqb t); auto.
Qed.
Lemma member_false t x l : simple t -> type_of x = t -> typed t l -> member_of x l = false <-> ~ In x l.
Proof. intros Ht Hx Hl. rewrite <- not_true_iff_false, (member_right t) by assumption. reflexivity. Qed.
Lemma raw_insert_right t x l : simple t -> type_of x = t -> typed t l -> NoDup l -> NoDup (raw_insert x l) /\ typed t (raw_insert x l) /\ forall y, In y (raw_insert x l) <-> y = x \/ In y l.
Proof.
  intros Ht Hx Hl Hn. unfold raw_insert. destruct (member_of x l) eqn:E.
  - apply (member_right t) in E; auto. split; [exact Hn|]. split; [exact Hl|]. intro y. split; [auto|]. intros [->|H]; assumption.
  - apply (member_false t) in E; auto. split; [|split].
    + apply NoDup_rev in Hn. rewrite <- (rev_involutive (l ++ [x])), rev_app_distr. apply NoDup_rev. cbn [rev app]. constructor; [|exact Hn]. rewrite <- in_rev. exact E.
    + apply Forall_app. split; [exact Hl|]. constructor; [exact Hx|constructor].
    + intro y. rewrite in_app_iff. cbn [In]. intuition congruence.
Qed.
Lemma typed_type t l : typed t l -> set_type l = None /\ l = [] \/ set_type l = Some t.
Proof. destruct l as [|x l]; [left; split; reflexivity|]. intro H. inversion H. subst. right. reflexivity. Qed.
Lemma etype_refl t : etype_eqb t t = true.
Proof. apply etype_eqb_eq. reflexivity. Qed.
Lemma insert_right t x l : simple t -> type_of x = t -> typed t l -> NoDup l -> exists m, insert l x = Done m /\ NoDup m /\ typed t m /\ forall y, In y m <-> y = x \/ In y l.
Proof.
  intros Ht Hx Hl Hn. unfold insert. destruct (typed_type t l Hl) as [(-> & ->)| ->].
  - exists [x]. split; [reflexivity|]. split; [constructor; [intros []|constructor]|]. split; [constructor; [exact Hx|constructor]|]. intro y. cbn [In]. intuition congruence.
  - rewrite Hx, etype_refl. eexists. split; [reflexivity|]. apply raw_insert_right; assumption.
Qed.
Lemma can_hold_right t l : typed t l -> can_hold l t = true.
Proof. intro H. unfold can_hold. destruct (typed_type t l H) as [(-> & _)| ->]; [reflexivity|apply etype_refl]. Qed.
Lemma compatible_right t l m : typed t l -> typed t m -> is_compatible l m = true.
Proof. intros Hl Hm. unfold is_compatible. destruct (typed_type t l Hl) as [(-> & _)| ->]; [reflexivity|]. destruct (typed_type t m Hm) as [(-> & _)| ->]; [reflexivity|apply etype_refl]. Qed.

Lemma sorted_nodup l : is_set l -> NoDup l.
Proof.
  intro H. induction H as [|x l H IH F]; [constructor|]. constructor; [|exact IH]. intro X. rewrite Forall_forall in F. specialize (F x X). lia.
Qed.
Lemma vrat_inj a b : VRat a = VRat b -> a = b.
Proof. intro H. exact (f_equal (fun v => match v with VRat q => q | _ => a end) H). Qed.
Lemma rational_inj a b : VRat (rational_of a) = VRat (rational_of b) -> a = b.
Proof. intro H. apply vrat_inj in H. change (integer (Z.of_N a) = integer (Z.of_N b)) in H. apply integer_inj in H. lia. Qed.
Lemma expand_right o : bls_ok o -> exists ns l, bls_expand o = Ok ns /\ expand_set o = Done l /\ length l = length ns /\ NoDup l /\ typed TRational l /\ forall x, In x l <-> element x (VBls o).
Proof.
  intro H. destruct (op_expand_spec o H) as (ns & E & Hs & D). exists ns, (set_of_lengths ns). unfold expand_set, bls_expand. rewrite E. split; [reflexivity|]. split; [reflexivity|]. unfold set_of_lengths. split; [apply map_length|]. split; [|split].
  - apply sorted_nodup in Hs. clear - Hs. induction Hs as [|x l N Hs IH]; [constructor|]. cbn [map]. constructor; [|exact IH]. intro X. apply in_map_iff in X. destruct X as (y & E & Y). apply rational_inj in E. subst y. destruct (N Y).
  - apply Forall_forall. intros x X. apply in_map_iff in X. destruct X as (n & <- & _). reflexivity.
  - intro x. rewrite in_map_iff. cbn [element]. split; intros (n & E1 & E2); exists n; (split; [symmetry; exact E1|]); apply D; exact E2.
Qed.
Lemma expanded_right t v : set_of_type t v -> exists l, expanded v = Done (VSet l) /\ NoDup l /\ typed t l /\ forall x, In x l <-> element x v.
Proof.
  destruct v as [q|s|l|o|b|d]; cbn [set_of_type]; intro H; try contradiction H.
  - destruct H as (Hn & Hl). exists l. split; [reflexivity|]. split; [exact Hn|]. split; [exact Hl|]. intro x. reflexivity.
  - destruct H as (-> & H). destruct (expand_right o H) as (ns & l & _ & E & _ & Hn & Hl & He). exists l. cbn [expanded]. rewrite E. split; [reflexivity|]. split; [exact Hn|]. split; [exact Hl|exact He].
Qed.
Lemma rational_cases x : type_of x = TRational -> exists q, x = VRat q.
Proof. destruct x; cbn; intro H; try discriminate H. eauto. Qed.
Lemma simple_rational : simple TRational. Proof. left. reflexivity. Qed.
Lemma map_set_right f : forall l acc, typed TRational l -> typed TRational acc -> NoDup acc -> (forall q, In (VRat q) l -> exists c, f q = Done c) ->
  exists m, map_set f l acc = Done m /\ NoDup m /\ typed TRational m /\ forall y, In y m <-> In y acc \/ exists q c, In (VRat q) l /\ f q = Done c /\ y = VRat c.
Proof.
  induction l as [|x l IH]; intros acc Hl Ha Hn Hf.
  - exists acc. split; [reflexivity|]. split; [exact Hn|]. split; [exact Ha|]. intro y. split; [auto|]. intros [H|(q & c & [] & _)]. exact H.
  - inversion Hl as [|x' l' Hx Hl']. subst x' l'. apply rational_cases in Hx. destruct Hx as (q & ->). destruct (Hf q (or_introl eq_refl)) as (c & Ec). cbn [map_set]. rewrite Ec. cbn [obind].
    destruct (insert_right TRational (VRat c) acc simple_rational eq_refl Ha Hn) as (acc' & E1 & Hn' & Ha' & Hi). rewrite E1. cbn [obind]. destruct (IH acc' Hl' Ha' Hn') as (m & E2 & Hm & Ht & Hi2); [intros q' Hq; apply Hf; right; exact Hq|].
    exists m. split; [exact E2|]. split; [exact Hm|]. split; [exact Ht|]. intro y. rewrite Hi2, Hi. split.
    + intros [[->|H]|(q' & c' & H1 & H2 & H3)]; [right; exists q, c; split; [left; reflexivity|auto]|auto|right; exists q', c'; split; [right; exact H1|auto] ].
    + intros [H|(q' & c' & [H1|H1] & H2 & H3)]; [auto| |right; exists q', c'; auto]. apply vrat_inj in H1. subst q'. left. left. congruence.
Qed.

(** ** Set operators *)

Lemma union_right t l : forall m, simple t -> typed t l -> typed t m -> NoDup l -> NoDup (union l m) /\ typed t (union l m) /\ forall y, In y (union l m) <-> In y l \/ In y m.
Proof.
  intros m Ht Hl Hm Hn. unfold union. revert l Hl Hn. induction m as [|x m IH]; intros l Hl Hn; cbn [fold_left].
  - split; [exact Hn|]. split; [exact Hl|]. intro y. cbn [In]. tauto.
  - inversion Hm as [|x' m' Hx Hm']. subst x' m'. destruct (raw_insert_right t x l Ht Hx Hl Hn) as (H1 & H2 & H3). destruct (IH Hm' _ H2 H1) as (G1 & G2 & G3). split; [exact G1|]. split; [exact G2|]. intro y. rewrite G3, H3. cbn [In]. intuition congruence.
Qed.
Lemma typed_filter t f l : typed t l -> typed t (filter f l).
Proof. unfold typed. rewrite !Forall_forall. intros H x X. apply filter_In in X. apply H, X. Qed.
Lemma nodup_app {A} (l m : list A) : NoDup l -> NoDup m -> (forall x, In x l -> ~ In x m) -> NoDup (l ++ m).
Proof.
  intros Hl Hm H. induction Hl as [|x l N Hl IH]; [exact Hm|]. cbn [app]. constructor.
  - rewrite in_app_iff. intros [X|X]; [destruct (N X)|]. apply (H x); [left; reflexivity|exact X].
  - apply IH. intros y Y. apply H. right. exact Y.
Qed.
Lemma intersection_right t l m : simple t -> typed t l -> typed t m -> NoDup l -> NoDup (intersection l m) /\ typed t (intersection l m) /\ forall y, In y (intersection l m) <-> In y l /\ In y m.
Proof.
  intros Ht Hl Hm Hn. unfold intersection. split; [apply NoDup_filter, Hn|]. split; [apply typed_filter, Hl|]. intro y. rewrite filter_In. assert (Hy : In y l -> type_of y = t) by (unfold typed in Hl; rewrite Forall_forall in Hl; apply Hl). split; intros (H1 & H2); (split; [exact H1|]).
  - apply (member_right t) in H2; auto.
  - apply (member_right t); auto.
Qed.
Lemma difference_right t l m y : simple t -> typed t l -> typed t m -> In y (filter (fun x => negb (member_of x m)) l) <-> In y l /\ ~ In y m.
Proof.
  intros Ht Hl Hm. rewrite filter_In, negb_true_iff. assert (Hy : In y l -> type_of y = t) by (unfold typed in Hl; rewrite Forall_forall in Hl; apply Hl). split; intros (H1 & H2); (split; [exact H1|]).
  - apply (member_false t) in H2; auto.
  - apply (member_false t); auto.
Qed.
Lemma symmetric_right t l m : simple t -> typed t l -> typed t m -> NoDup l -> NoDup m ->
  NoDup (symmetric_difference l m) /\ typed t (symmetric_difference l m) /\ forall y, In y (symmetric_difference l m) <-> (In y l /\ ~ In y m) \/ (In y m /\ ~ In y l).
Proof.
  intros Ht Hl Hm Hn Hn2. unfold symmetric_difference. split; [|split].
  - apply nodup_app; [apply NoDup_filter, Hn|apply NoDup_filter, Hn2|]. intros x X Y. apply (difference_right t) in X; auto. apply (difference_right t) in Y; auto. tauto.
  - apply Forall_app. split; apply typed_filter; assumption.
  - intro y. rewrite in_app_iff, !(difference_right t) by assumption. reflexivity.
Qed.
Lemma subset_right t l m : simple t -> typed t l -> typed t m -> is_subset l m = true <-> forall x, In x l -> In x m.
Proof.
  intros Ht Hl Hm. unfold is_subset. rewrite forallb_forall. unfold typed in Hl. rewrite Forall_forall in Hl. split; intros H x X; [apply (member_right t); auto|apply (member_right t); auto].
Qed.
Lemma equal_right t l m : simple t -> typed t l -> typed t m -> set_equal l m = true <-> (forall x, In x l -> In x m) /\ (forall x, In x m -> In x l).
Proof.
  intros Ht Hl Hm. unfold set_equal. cbn [veqb]. rewrite andb_true_iff, !forallb_forall. unfold typed in Hl, Hm. rewrite Forall_forall in Hl, Hm. split; intros (H1 & H2); split; intros x X.
  - specialize (H1 x X). apply existsb_exists in H1. destruct H1 as (y & Y & E). apply (simple_eqb t) in E; auto. congruence.
  - specialize (H2 x X). apply existsb_exists in H2. destruct H2 as (y & Y & E). apply (simple_eqb t) in E; auto. congruence.
  - apply existsb_exists. exists x. split; [apply H1, X|]. apply (simple_eqb t); auto.
  - apply existsb_exists. exists x. split; [apply H2, X|]. apply (simple_eqb t); auto.
Qed.
Lemma set_comparison_right t op v w l m : simple t -> is_comparison op -> typed t l -> typed t m -> (forall x, In x l <-> element x v) -> (forall x, In x m <-> element x w) ->
  set_comparison op l m = true <-> compares_sets op v w.
Proof.
  intros Ht Hop Hl Hm Hv Hw. assert (S1 : is_subset l m = true <-> included v w) by (rewrite (subset_right t) by assumption; unfold included; split; intros H x X; [apply Hw, H, Hv, X|apply Hw, H, Hv, X]).
  assert (S2 : is_subset m l = true <-> included w v) by (rewrite (subset_right t) by assumption; unfold included; split; intros H x X; [apply Hv, H, Hw, X|apply Hv, H, Hw, X]).
  assert (E : set_equal l m = true <-> included v w /\ included w v) by (rewrite (equal_right t) by assumption; rewrite <- S1, <- S2, !(subset_right t) by assumption; reflexivity).
  destruct Hop as [<-|[<-|[<-|[<-|[<-|[<-|[] ] ] ] ] ] ]; cbn [set_comparison compares_sets]; rewrite ?andb_true_iff, ?negb_true_iff, <- ?not_true_iff_false, ?S1, ?S2, ?E; tauto.
Qed.

(** ** Attributes *)

Lemma rationals_right l : typed TRational l -> exists qs, rationals l = Some qs /\ l = map VRat qs.
Proof.
  induction l as [|x l IH]; intro H; [exists []; split; reflexivity|]. inversion H as [|x' l' Hx Hl]. subst x' l'. apply rational_cases in Hx. destruct Hx as (q & ->). destruct (IH Hl) as (qs & E & ->). exists (q :: qs). cbn [rationals]. rewrite E. split; reflexivity.
Qed.
Lemma qbest_least a b : (qbest true a b <= a /\ qbest true a b <= b /\ (qbest true a b = a \/ qbest true a b = b))%Qc.
Proof.
  unfold qbest. destruct (qleb a b) eqn:E; [apply qleb_le in E|].
  - split; [apply Qcle_refl|]. split; [exact E|left; reflexivity].
  - assert (b < a)%Qc by (apply Qcnot_le_lt; rewrite <- qleb_le; congruence). split; [apply Qclt_le_weak; assumption|]. split; [apply Qcle_refl|right; reflexivity].
Qed.
Lemma qbest_greatest a b : (a <= qbest false a b /\ b <= qbest false a b /\ (qbest false a b = a \/ qbest false a b = b))%Qc.
Proof.
  unfold qbest. destruct (qleb a b) eqn:E; [apply qleb_le in E|].
  - split; [exact E|]. split; [apply Qcle_refl|right; reflexivity].
  - assert (b < a)%Qc by (apply Qcnot_le_lt; rewrite <- qleb_le; congruence). split; [apply Qcle_refl|]. split; [apply Qclt_le_weak; assumption|left; reflexivity].
Qed.
Lemma fold_least l : forall q, let m := fold_left (qbest true) l q in In m (q :: l) /\ forall x, In x (q :: l) -> (m <= x)%Qc.
Proof.
  induction l as [|a l IH]; intro q; cbn [fold_left]; [split; [left; reflexivity|intros x [->|[] ]; apply Qcle_refl]|]. destruct (qbest_least q a) as (H1 & H2 & H3). destruct (IH (qbest true q a)) as (H4 & H5). split.
  - destruct H4 as [H4|H4]; [|right; right; exact H4]. rewrite <- H4. destruct H3 as [-> | ->]; [left; reflexivity|right; left; reflexivity].
  - intros x [->|[->|X] ].
    + eapply Qcle_trans; [apply H5; left; reflexivity|exact H1].
    + eapply Qcle_trans; [apply H5; left; reflexivity|exact H2].
    + apply H5. right. exact X.
Qed.
Lemma fold_greatest l : forall q, let m := fold_left (qbest false) l q in In m (q :: l) /\ forall x, In x (q :: l) -> (x <= m)%Qc.
Proof.
  induction l as [|a l IH]; intro q; cbn [fold_left]; [split; [left; reflexivity|intros x [->|[] ]; apply Qcle_refl]|]. destruct (qbest_greatest q a) as (H1 & H2 & H3). destruct (IH (qbest false q a)) as (H4 & H5). split.
  - destruct H4 as [H4|H4]; [|right; right; exact H4]. rewrite <- H4. destruct H3 as [-> | ->]; [left; reflexivity|right; left; reflexivity].
  - intros x [->|[->|X] ].
    + eapply Qcle_trans; [exact H1|apply H5; left; reflexivity].
    + eapply Qcle_trans; [exact H2|apply H5; left; reflexivity].
    + apply H5. right. exact X.
Qed.

Lemma expanded_number q : expanded (VRat q) = Done (VRat q). Proof. reflexivity. Qed.
Lemma calculates_arithmetic op a b c : calculates op a b c -> is_arithmetic op.
Proof. intros []; cbn; tauto. Qed.
Lemma calculates_fun op a b c d : calculates op a b c -> calculates op a b d -> c = d.
Proof. intros H1 H2. apply (calc_right (fun _ _ => None)) in H1. apply (calc_right (fun _ _ => None)) in H2. rewrite H1 in H2. exact (f_equal (fun o => match o with Done x => x | _ => c end) H2). Qed.
Lemma done_inj {A} (a b : A) : Done a = Done b -> a = b.
Proof. intro H. exact (f_equal (fun o => match o with Done x => x | _ => a end) H). Qed.

Section Known.
Context (nfc : text -> text) (powf : Qc -> Qc -> option Qc) (sort_sets : list (list value) -> list (list value)).

Lemma elementwise_left op v b : set_of_type TRational v -> (forall x, element (VRat x) v -> exists c, calculates op x b c) ->
  exists r, elementwise (arithmetic powf op) v (VRat b) = Done r /\ explicit r /\ set_of_type TRational r /\ forall y, element y r <-> exists x c, element (VRat x) v /\ calculates op x b c /\ y = VRat c.
Proof.
  intros Hv Hc. destruct (expanded_right _ _ Hv) as (l & E & Hn & Hl & He). unfold elementwise. rewrite E, expanded_number. cbn [obind]. rewrite can_hold_right by exact Hl.
  destruct (map_set_right (fun a => arithmetic powf op a b) l [] Hl (Forall_nil _) (NoDup_nil _)) as (m & E2 & Hm & Ht & Hi).
  { intros q Q. apply He in Q. destruct (Hc q Q) as (c & C). exists c. apply calc_right, C. }
  rewrite E2. cbn [obind]. exists (VSet m). split; [reflexivity|]. split; [exact Logic.I|]. split; [split; [exact Hm|exact Ht]|]. intro y. cbn [element]. rewrite Hi. split.
  - intros [[]|(q & c & Q & C & ->)]. apply He in Q. destruct (Hc q Q) as (c' & C'). exists q, c. split; [exact Q|]. split; [|reflexivity]. pose proof (calc_right powf _ _ _ _ C') as C2. rewrite C in C2. apply done_inj in C2. subst c'. exact C'.
  - intros (q & c & Q & C & ->). right. exists q, c. split; [apply He, Q|]. split; [apply calc_right, C|reflexivity].
Qed.
Lemma elementwise_right op v a : set_of_type TRational v -> (forall x, element (VRat x) v -> exists c, calculates op a x c) ->
  exists r, elementwise (arithmetic powf op) (VRat a) v = Done r /\ explicit r /\ set_of_type TRational r /\ forall y, element y r <-> exists x c, element (VRat x) v /\ calculates op a x c /\ y = VRat c.
Proof.
  intros Hv Hc. destruct (expanded_right _ _ Hv) as (l & E & Hn & Hl & He). unfold elementwise. rewrite E, expanded_number. cbn [obind]. rewrite can_hold_right by exact Hl.
  destruct (map_set_right (arithmetic powf op a) l [] Hl (Forall_nil _) (NoDup_nil _)) as (m & E2 & Hm & Ht & Hi).
  { intros q Q. apply He in Q. destruct (Hc q Q) as (c & C). exists c. apply calc_right, C. }
  rewrite E2. cbn [obind]. exists (VSet m). split; [reflexivity|]. split; [exact Logic.I|]. split; [split; [exact Hm|exact Ht]|]. intro y. cbn [element]. rewrite Hi. split.
  - intros [[]|(q & c & Q & C & ->)]. apply He in Q. destruct (Hc q Q) as (c' & C'). exists q, c. split; [exact Q|]. split; [|reflexivity]. pose proof (calc_right powf _ _ _ _ C') as C2. rewrite C in C2. apply done_inj in C2. subst c'. exact C'.
  - intros (q & c & Q & C & ->). right. exists q, c. split; [apply He, Q|]. split; [apply calc_right, C|reflexivity].
Qed.
Lemma stands_cases v q : stands_for v q -> v = VRat q \/ exists c, v = VStr [c].
Proof. intros [x|c H]; [left; reflexivity|right; eauto]. Qed.
Lemma elementwise_numbers f v w a b : stands_for v a -> stands_for w b -> elementwise f v w = obind (f a b) (fun x => Done (VRat x)).
Proof.
  intros Hv Hw. pose proof (stands_right _ _ Hv) as Ev. pose proof (stands_right _ _ Hw) as Ew. destruct Hv as [x|x Hx], Hw as [y|y Hy]; unfold elementwise; cbn [expanded obind]; unfold rational_binary; rewrite Ev, Ew; reflexivity.
Qed.
Lemma binary_numbers op v w a b c : stands_for v a -> stands_for w b -> ~ (op = Add /\ (exists s, v = VStr s) /\ (exists s, w = VStr s)) -> calculates op a b c ->
  apply_binary nfc powf op v w = Done (VRat c).
Proof.
  intros Hv Hw Hs Hc. pose proof (elementwise_numbers (arithmetic powf op) v w a b Hv Hw) as E. rewrite (calc_right powf _ _ _ _ Hc) in E. cbn [obind] in E.
  destruct (calculates_arithmetic _ _ _ _ Hc) as [<-|[<-|[<-|[<-|[<-|[<-|[] ] ] ] ] ] ]; cbn [apply_binary]; try exact E.
  - destruct Hv as [x|x Hx]; exact E.
  - destruct Hv as [x|x Hx], Hw as [y|y Hy]; try exact E. exfalso. apply Hs. split; [reflexivity|]. split; eauto.
Qed.
Lemma binary_bits op v w a b c : is_bitwise op -> stands_for v (integer a) -> stands_for w (integer b) -> bitwise_right op a b c -> apply_binary nfc powf op v w = Done (VRat (integer c)).
Proof.
  intros Hop Hv Hw Hc. assert (E : rational_or_set op v w = Done (VRat (integer c))).
  { assert (G : rational_or_set op v w = rational_binary (fun a b => obind (bitwise op a b) (fun x => Done (VRat x))) v w) by (destruct (stands_cases _ _ Hv) as [->|(x & ->)], (stands_cases _ _ Hw) as [->|(y & ->)]; reflexivity).
    rewrite G. unfold rational_binary. rewrite (stands_right _ _ Hv), (stands_right _ _ Hw), (bitwise_right_eq op a b c Hop Hc). reflexivity. }
  destruct Hop as [<-|[<-|[<-|[] ] ] ]; cbn [apply_binary]; exact E.
Qed.
Lemma binary_compare op v w a b : is_comparison op -> stands_for v a -> stands_for w b -> ~ ((op = Equal \/ op = NotEqual) /\ (exists s, v = VStr s) /\ (exists s, w = VStr s)) ->
  exists r, apply_binary nfc powf op v w = Done (VBool r) /\ (r = true <-> compares op a b).
Proof.
  intros Hop Hv Hw Hs. exists (comparison_holds op a b). split; [|apply compare_right, Hop].
  assert (E : rational_or_set_comparison op v w = Done (VBool (comparison_holds op a b))).
  { assert (G : rational_or_set_comparison op v w = rational_binary (fun a b => Done (VBool (comparison_holds op a b))) v w) by (destruct (stands_cases _ _ Hv) as [->|(x & ->)], (stands_cases _ _ Hw) as [->|(y & ->)]; reflexivity).
    rewrite G. unfold rational_binary. rewrite (stands_right _ _ Hv), (stands_right _ _ Hw). reflexivity. }
  destruct (stands_cases _ _ Hv) as [->|(x & ->)], (stands_cases _ _ Hw) as [->|(y & ->)]; try (destruct Hop as [<-|[<-|[<-|[<-|[<-|[<-|[] ] ] ] ] ] ]; exact E).
  destruct Hop as [<-|[<-|[<-|[<-|[<-|[<-|[] ] ] ] ] ] ]; try exact E; exfalso; apply Hs; (split; [auto|]); split; eauto.
Qed.

Lemma den_two a b v : den (Union [a; b]) v <-> den a v \/ den b v.
Proof. cbn [den]. tauto. Qed.
Lemma unite_ok a b : bls_ok a -> bls_ok b -> bls_ok (Union [a; b]).
Proof.
  intros Ha Hb. change ((forall v, den (Union [a; b]) v -> v < 2 ^ 64) /\ [a; b] <> [] /\ bls_ok a /\ bls_ok b /\ True). split; [|split; [discriminate|tauto] ]. intros v H. apply den_two in H. destruct H as [H|H]; [apply (bls_ok_bound a)|apply (bls_ok_bound b)]; assumption.
Qed.
Lemma binary_sets op t v w : is_bitwise op -> simple t -> set_of_type t v -> set_of_type t w -> (explicit v /\ explicit w) \/ (lengths v /\ lengths w) ->
  exists r, apply_binary nfc powf op v w = Done r /\ set_of_type t r /\ forall x, element x r <-> combines op (element x v) (element x w).
Proof.
  intros Hop Ht Hv Hw H.
  assert (G : exists r, rational_or_set op v w = Done r /\ set_of_type t r /\ forall x, element x r <-> combines op (element x v) (element x w)).
  { destruct v as [q1|s1|l|a|b1|t1], w as [q2|s2|m|b|b2|t2]; try contradiction Hv; try contradiction Hw; try (destruct H as [(X & Y)|(X & Y)]; contradiction).
    - destruct Hv as (Hn & Hl), Hw as (Hn2 & Hm). cbn [rational_or_set]. rewrite (compatible_right t) by assumption. eexists. split; [reflexivity|].
      destruct Hop as [<-|[<-|[<-|[] ] ] ]; cbn [set_of_type element combines].
      + destruct (union_right t l m Ht Hl Hm Hn) as (H1 & H2 & H3). split; [split; assumption|exact H3].
      + destruct (symmetric_right t l m Ht Hl Hm Hn Hn2) as (H1 & H2 & H3). split; [split; assumption|exact H3].
      + destruct (intersection_right t l m Ht Hl Hm Hn) as (H1 & H2 & H3). split; [split; assumption|exact H3].
    - destruct Hv as (-> & Ha), Hw as (_ & Hb). destruct (expand_right a Ha) as (ns & l & _ & El & _ & Hn & Hl & He). destruct (expand_right b Hb) as (ns2 & m & _ & Em & _ & Hn2 & Hm & He2). cbn [rational_or_set].
      destruct Hop as [<-|[<-|[<-|[] ] ] ].
      + eexists. split; [reflexivity|]. split; [split; [reflexivity|apply unite_ok; assumption]|]. intro x. cbn [element combines]. unfold bls_unite. split.
        * intros (n & -> & D). apply den_two in D. destruct D as [D|D]; [left|right]; eauto.
        * intros [(n & -> & D)|(n & -> & D)]; exists n; (split; [reflexivity|]); apply den_two; auto.
      + rewrite El, Em. cbn [obind]. eexists. split; [reflexivity|]. destruct (symmetric_right _ l m simple_rational Hl Hm Hn Hn2) as (H1 & H2 & H3). split; [split; assumption|]. intro x. change (element x (VSet (symmetric_difference l m))) with (In x (symmetric_difference l m)). rewrite H3, He, He2. reflexivity.
      + rewrite El, Em. cbn [obind]. eexists. split; [reflexivity|]. destruct (intersection_right _ l m simple_rational Hl Hm Hn) as (H1 & H2 & H3). split; [split; assumption|]. intro x. change (element x (VSet (intersection l m))) with (In x (intersection l m)). rewrite H3, He, He2. reflexivity. }
  destruct Hop as [<-|[<-|[<-|[] ] ] ]; exact G.
Qed.
Lemma binary_set_comparison op t v w : is_comparison op -> simple t -> set_of_type t v -> set_of_type t w ->
  exists r, apply_binary nfc powf op v w = Done (VBool r) /\ (r = true <-> compares_sets op v w).
Proof.
  intros Hop Ht Hv Hw. destruct (expanded_right t v Hv) as (l & El & Hn & Hl & He). destruct (expanded_right t w Hw) as (m & Em & Hn2 & Hm & He2). exists (set_comparison op l m). split; [|apply (set_comparison_right t); assumption].
  assert (E : rational_or_set_comparison op v w = Done (VBool (set_comparison op l m))) by (unfold rational_or_set_comparison; rewrite El, Em; cbn [obind]; rewrite (compatible_right t) by assumption; reflexivity).
  destruct v as [q1|s1|l1|o1|b1|t1]; try contradiction Hv; destruct Hop as [<-|[<-|[<-|[<-|[<-|[<-|[] ] ] ] ] ] ]; exact E.
Qed.
Lemma binary_remainder o d : 0 < d <= 2 ^ 31 -> bls_ok o -> bls_small o -> compatible d o ->
  exists r, apply_binary nfc powf Modulo (VBls o) (VRat (integer (Z.of_N d))) = Done r /\ set_of_type TRational r /\ forall x, element x r <-> exists n, den o n /\ x = VRat (integer (Z.of_N (n mod d))).
Proof.
  intros Hd Ho Hs Hc. cbn [apply_binary]. unfold u64_integer. rewrite qint_integer. replace ((0 <=? Z.of_N d)%Z && (Z.of_N d <? 2 ^ 64)%Z)%bool with true by lia. rewrite N2Z.id. unfold bls_rem. destruct (op_modulo_spec d Hd o Ho Hs Hc) as (l & E & R). rewrite E. cbn [bindr].
  destruct (den_inhabited o Ho) as (v & Dv). pose proof R as (Rs & Ri). assert (Hin : In (v mod d) l) by (apply Ri; eauto). destruct l as [|x l]; [destruct Hin|]. cbn [of_res obind]. eexists. split; [reflexivity|]. split; [split; [reflexivity|]|].
  - cbn [bls_ok den]. split; [|split; [exact Rs|discriminate] ]. intros n Hn. pose proof (rem_lt o d _ (proj1 Hd) R n Hn). lia.
  - intro y. cbn [element den]. split.
    + intros (n & -> & D). apply Ri in D. destruct D as (u & Du & ->). eauto.
    + intros (n & D & ->). exists (n mod d). split; [reflexivity|]. apply Ri. eauto.
Qed.

(** ** Attributes *)

Context (S : Type) (offset : S -> operator * S) (constants : S -> list (text * value)) (lookup : key -> S -> out (option (operator * list (text * value)) * S)).
Lemma map_vrat x qs : In x (map VRat qs) <-> exists q, x = VRat q /\ In q qs.
Proof. rewrite in_map_iff. split; intros (q & E & Q); exists q; split; auto. Qed.
Lemma attribute_least v s : set_of_type TRational v -> (exists x, element x v) ->
  exists m, attribute sort_sets S lookup v name_min s = Done (VRat m, s) /\ element (VRat m) v /\ forall x, element (VRat x) v -> (m <= x)%Qc.
Proof.
  intros Hv (x0 & X0). destruct v as [q1|s1|l|o|b1|t1]; try contradiction Hv.
  - destruct Hv as (Hn & Hl). destruct l as [|x l]; [destruct X0|]. destruct (rationals_right _ Hl) as (qs & E & El). destruct qs as [|q qs]; [discriminate El|].
    cbn [attribute]. change (text_eqb name_min name_min) with true. cbn [pure]. unfold set_best. assert (T : set_type (x :: l) = Some TRational) by (inversion Hl; cbn [set_type]; congruence). rewrite T, E. cbn [pure obind]. destruct (fold_least qs q) as (H1 & H2). eexists. split; [reflexivity|]. rewrite El. cbn [element]. split; [apply map_vrat; eauto|].
    intros y Y. apply map_vrat in Y. destruct Y as (q' & Eq & Y). apply vrat_inj in Eq. subst q'. apply H2, Y.
  - destruct Hv as (_ & Ho). destruct (op_min_spec o Ho) as (m & E & Dm & Hm). cbn [attribute]. change (text_eqb name_min name_min) with true. unfold bls_min_value. rewrite E. cbn [of_res obind pure]. exists (integer (Z.of_N m)). split; [reflexivity|]. split; [exists m; split; [reflexivity|exact Dm]|].
    intros x (n & Ex & Dn). apply vrat_inj in Ex. subst x. specialize (Hm n Dn). unfold Qcle. rewrite !integer_this. unfold Qle. cbn [Qnum Qden]. lia.
Qed.
Lemma attribute_greatest v s : set_of_type TRational v -> (exists x, element x v) ->
  exists m, attribute sort_sets S lookup v name_max s = Done (VRat m, s) /\ element (VRat m) v /\ forall x, element (VRat x) v -> (x <= m)%Qc.
Proof.
  intros Hv (x0 & X0). destruct v as [q1|s1|l|o|b1|t1]; try contradiction Hv.
  - destruct Hv as (Hn & Hl). destruct l as [|x l]; [destruct X0|]. destruct (rationals_right _ Hl) as (qs & E & El). destruct qs as [|q qs]; [discriminate El|].
    cbn [attribute]. change (text_eqb name_max name_min) with false. change (text_eqb name_max name_max) with true. cbn [pure]. unfold set_best. assert (T : set_type (x :: l) = Some TRational) by (inversion Hl; cbn [set_type]; congruence). rewrite T, E. cbn [pure obind]. destruct (fold_greatest qs q) as (H1 & H2). eexists. split; [reflexivity|]. rewrite El. cbn [element]. split; [apply map_vrat; eauto|].
    intros y Y. apply map_vrat in Y. destruct Y as (q' & Eq & Y). apply vrat_inj in Eq. subst q'. apply H2, Y.
  - destruct Hv as (_ & Ho). destruct (op_max_spec o Ho) as (m & E & Dm & Hm). cbn [attribute]. change (text_eqb name_max name_min) with false. change (text_eqb name_max name_max) with true. unfold bls_max_value. rewrite E. cbn [of_res obind pure]. exists (integer (Z.of_N m)). split; [reflexivity|]. split; [exists m; split; [reflexivity|exact Dm]|].
    intros x (n & Ex & Dn). apply vrat_inj in Ex. subst x. specialize (Hm n Dn). unfold Qcle. rewrite !integer_this. unfold Qle. cbn [Qnum Qden]. lia.
Qed.
Lemma attribute_count t v s : set_of_type t v ->
  exists l, NoDup l /\ (forall x, In x l <-> element x v) /\ attribute sort_sets S lookup v name_count s = Done (VRat (integer (Z.of_nat (length l))), s).
Proof.
  intros Hv. destruct v as [q1|s1|l|o|b1|t1]; try contradiction Hv.
  - destruct Hv as (Hn & Hl). exists l. split; [exact Hn|]. split; [intro x; reflexivity|]. cbn [attribute]. change (text_eqb name_count name_min) with false. change (text_eqb name_count name_max) with false. change (text_eqb name_count name_count) with true. cbn [pure]. unfold rational_of. rewrite nat_N_Z. reflexivity.
  - destruct Hv as (_ & Ho). destruct (expand_right o Ho) as (ns & l & E & _ & L & Hn & _ & He). exists l. split; [exact Hn|]. split; [exact He|]. cbn [attribute]. change (text_eqb name_count name_min) with false. change (text_eqb name_count name_max) with false. change (text_eqb name_count name_count) with true. rewrite E. cbn [of_res obind pure]. unfold rational_of. rewrite nat_N_Z, L. reflexivity.
Qed.

(** ** Expressions *)

Lemma denotes_right e v : denotes e v -> forall s, eval nfc powf sort_sets S offset constants lookup e s = Done (v, s).
Proof.
  induction 1 as [q|b|e q H IH|e q H IH|e b H IH|op e1 e2 a b c H1 IH1 H2 IH2 C|op e1 e2 a b c Hop H1 IH1 H2 IH2 C|op e1 e2 a b Hop H1 IH1 H2 IH2 C|op e1 e2 a b Hop H1 IH1 H2 IH2 C|e1 e2 x y H1 IH1 H2 IH2|e1 e2 x y H1 IH1 H2 IH2|e1 e2 x y H1 IH1 H2 IH2|e1 e2 x y H1 IH1 H2 IH2];
    intro s; cbn [eval]; try reflexivity; try (rewrite IH; reflexivity); rewrite IH1; cbn [sbind obind fst snd]; rewrite IH2; cbn [sbind obind fst snd]; try reflexivity.
  - rewrite (binary_numbers op _ _ a b c (sf_number a) (sf_number b)); [reflexivity| |exact C]. intros (_ & (x & X) & _). discriminate X.
  - rewrite (binary_bits op _ _ a b c Hop (sf_number _) (sf_number _) C). reflexivity.
  - destruct (binary_compare op _ _ a b Hop (sf_number a) (sf_number b)) as (r & E & R); [intros (_ & (x & X) & _); discriminate X|]. rewrite E. apply R in C. subst r. reflexivity.
  - destruct (binary_compare op _ _ a b Hop (sf_number a) (sf_number b)) as (r & E & R); [intros (_ & (x & X) & _); discriminate X|]. rewrite E. destruct r; [destruct (C (proj1 R eq_refl))|]. reflexivity.
Qed.
End Known.

(** ** Set literals and assertions about the offset *)

Section Literals.
Context (nfc : text -> text) (powf : Qc -> Qc -> option Qc) (sort_sets : list (list value) -> list (list value)).
Context (S : Type) (offset : S -> operator * S) (constants : S -> list (text * value)) (lookup : key -> S -> out (option (operator * list (text * value)) * S)).
Notation evaluate := (eval nfc powf sort_sets S offset constants lookup).
Definition elements : list expr -> list value -> S -> out (value * S) :=
  fix elements (es : list expr) (acc : list value) (s : S) {struct es} : out (value * S) :=
    match es with
    | [] => Done (VSet acc, s)
    | e :: r => sbind S (evaluate e s) (fun v s => obind (insert acc v) (fun acc => elements r acc s))
    end.
Lemma eval_set es s : evaluate (ESet es) s = elements es [] s.
Proof. reflexivity. Qed.
Lemma eval_binary op a b s : evaluate (EBinary op a b) s = sbind S (evaluate a s) (fun v s => sbind S (evaluate b s) (fun w s => pure S s (apply_binary nfc powf op v w))).
Proof. reflexivity. Qed.
Lemma eval_offset s : evaluate (EIdentifier name_offset) s = let '(o, s) := offset s in Done (VBls o, s).
Proof. reflexivity. Qed.
Lemma eval_number q s : evaluate (ENumber q) s = Done (VRat q, s).
Proof. reflexivity. Qed.
Lemma elements_right t es xs : simple t -> Forall2 denotes es xs -> typed t xs -> forall acc s, typed t acc -> NoDup acc ->
  exists m, elements es acc s = Done (VSet m, s) /\ NoDup m /\ typed t m /\ forall x, In x m <-> In x acc \/ In x xs.
Proof.
  intros Ht H. induction H as [|e x es xs He H IH]; intros Hx acc s Ha Hn.
  - exists acc. split; [reflexivity|]. split; [exact Hn|]. split; [exact Ha|]. intro y. cbn [In]. tauto.
  - inversion Hx as [|x' xs' Tx Txs]. subst x' xs'. cbn [elements]. rewrite (denotes_right nfc powf sort_sets S offset constants lookup e x He s). cbn [sbind obind fst snd]. destruct (insert_right t x acc Ht Tx Ha Hn) as (acc' & E & Hn' & Ha' & Hi). rewrite E. cbn [obind]. destruct (IH Txs acc' s Ha' Hn') as (m & E2 & Hm & Tm & Him). exists m. split; [exact E2|]. split; [exact Hm|]. split; [exact Tm|]. intro y. rewrite Him, Hi. cbn [In]. intuition congruence.
Qed.
Lemma literal_right t es xs s : simple t -> Forall2 denotes es xs -> typed t xs -> exists m, evaluate (ESet es) s = Done (VSet m, s) /\ set_of_type t (VSet m) /\ forall x, element x (VSet m) <-> In x xs.
Proof.
  intros Ht H Hx. destruct (elements_right t es xs Ht H Hx [] s (Forall_nil _) (NoDup_nil _)) as (m & E & Hm & Tm & Hi). exists m. rewrite eval_set. split; [exact E|]. split; [split; assumption|]. intro x. cbn [element]. rewrite Hi. cbn [In]. tauto.
Qed.
(** [_offset_ % d == {xs}] *)
Lemma assertion_right d ns s : 0 < d <= 2 ^ 31 -> bls_ok (fst (offset s)) -> bls_small (fst (offset s)) -> compatible d (fst (offset s)) ->
  exists b, evaluate (EBinary Equal (EBinary Modulo (EIdentifier name_offset) (ENumber (integer (Z.of_N d)))) (ESet (map (fun n => ENumber (integer (Z.of_N n))) ns))) s = Done (VBool b, snd (offset s)) /\
    (b = true <-> forall r, In r ns <-> exists v, den (fst (offset s)) v /\ r = v mod d).
Proof.
  intros Hd Ho Hs Hc. rewrite !eval_binary, eval_offset. destruct (offset s) as (o & s') eqn:Es. cbn [fst snd] in Ho, Hs, Hc |- *. cbn [sbind obind fst snd]. rewrite eval_number. cbn [sbind obind fst snd].
  destruct (binary_remainder nfc powf o d Hd Ho Hs Hc) as (r & E & Hr & Hi). rewrite E. cbn [pure obind fst snd].
  set (es := map (fun n => ENumber (integer (Z.of_N n))) ns). set (xs := map (fun n => VRat (integer (Z.of_N n))) ns).
  assert (F : Forall2 denotes es xs) by (subst es xs; clear; induction ns as [|n ns IH]; cbn [map]; constructor; [constructor|exact IH]).
  assert (T : typed TRational xs) by (apply Forall_forall; intros x X; apply in_map_iff in X; destruct X as (n & <- & _); reflexivity).
  destruct (literal_right TRational es xs s' simple_rational F T) as (m & Em & Hm & Hmi). cbn [sbind obind fst snd]. rewrite Em. cbn [sbind obind fst snd].
  destruct (binary_set_comparison nfc powf Equal TRational r (VSet m)) as (b & Eb & Hb); [left; reflexivity|exact simple_rational|exact Hr|exact Hm|]. rewrite Eb. exists b. split; [reflexivity|]. rewrite Hb. cbn [compares_sets]. unfold included.
  assert (A : forall n, element (VRat (integer (Z.of_N n))) r <-> exists v, den o v /\ n = v mod d).
  { intro n. rewrite Hi. split; intros (v & D & X); exists v; (split; [exact D|]); [apply vrat_inj, integer_inj in X; lia|subst n; reflexivity]. }
  assert (B : forall n, element (VRat (integer (Z.of_N n))) (VSet m) <-> In n ns).
  { intro n. rewrite Hmi. unfold xs. rewrite in_map_iff. split; [intros (k & X & K); apply vrat_inj, integer_inj in X; replace n with k by lia; exact K|intro K; exists n; auto]. }
  split.
  - intros (H1 & H2) n. rewrite <- A, <- B. split; auto.
  - intro H. split; intros x X.
    + apply Hi in X. destruct X as (v & D & ->). apply B, H. eauto.
    + apply Hmi in X. apply in_map_iff in X. destruct X as (n & <- & K). apply A, H, K.
Qed.
End Literals.

(** ** No panic *)

Lemma proper_set l : proper (VSet l) <-> (forall x y, In x l -> In y l -> type_of x = type_of y) /\ Forall proper l.
Proof.
  cbn [proper]. assert (E : (fix all (l : list value) : Prop := match l with [] => True | x :: r => proper x /\ all r end) l <-> Forall proper l).
  { induction l as [|x l IH]; [split; [constructor|exact (fun _ => Logic.I)]|]. split; intro H; [destruct H as (H1 & H2); constructor; [exact H1|apply IH, H2]|inversion H; split; [assumption|apply IH; assumption] ]. }
  rewrite E. reflexivity.
Qed.
Definition fine {A} (P : A -> Prop) (x : out A) : Prop := match x with Done a => P a | Fail => True | Crash => False end.
Lemma fine_bind {A B} (P : A -> Prop) (Q : B -> Prop) x f : fine P x -> (forall a, P a -> fine Q (f a)) -> fine Q (obind x f).
Proof. destruct x as [a| |]; cbn [fine obind]; auto. Qed.
Lemma fine_not_crash {A} (P : A -> Prop) x : fine P x -> x <> Crash.
Proof. destruct x; cbn [fine]; [discriminate|discriminate|intros []]. Qed.

Lemma same_types l t : (forall x y, In x l -> In y l -> type_of x = type_of y) -> set_type l = Some t -> typed t l.
Proof. intros H E. destruct l as [|x l]; [discriminate E|]. injection E as <-. apply Forall_forall. intros y Y. apply H; [exact Y|left; reflexivity]. Qed.
Lemma typed_same t l : typed t l -> forall x y, In x l -> In y l -> type_of x = type_of y.
Proof. unfold typed. rewrite Forall_forall. intros H x y X Y. rewrite (H x X), (H y Y). reflexivity. Qed.
Lemma raw_insert_in x l y : In y (raw_insert x l) -> y = x \/ In y l.
Proof. unfold raw_insert. destruct (member_of x l); [auto|]. rewrite in_app_iff. cbn [In]. intuition congruence. Qed.
Lemma proper_raw_insert x l t : proper (VSet l) -> set_type l = Some t -> type_of x = t -> proper x -> proper (VSet (raw_insert x l)).
Proof.
  intros H E Ex Px. apply proper_set in H. destruct H as (H1 & H2). pose proof (same_types l t H1 E) as T. apply proper_set. rewrite Forall_forall in *. unfold typed in T. rewrite Forall_forall in T. split.
  - intros a b A B. apply raw_insert_in in A. apply raw_insert_in in B. transitivity t; [destruct A as [->|A]; auto|symmetry; destruct B as [->|B]; auto].
  - intros a A. apply raw_insert_in in A. destruct A as [->|A]; auto.
Qed.
Lemma insert_fine l v : proper (VSet l) -> proper v -> fine (fun m => proper (VSet m)) (insert l v).
Proof.
  intros Hl Hv. unfold insert. destruct (set_type l) as [t|] eqn:E.
  - destruct (etype_eqb t (type_of v)) eqn:Et; [apply etype_eqb_eq in Et; cbn [fine]; apply (proper_raw_insert v l t); auto|]. destruct v as [q|s|m|o|b|d]; try exact Logic.I. destruct (implicit_int s) as [n|]; [|exact Logic.I]. destruct (etype_eqb t TRational) eqn:Er; [|exact Logic.I]. apply etype_eqb_eq in Er. cbn [fine]. apply (proper_raw_insert _ l t); auto.
  - cbn [fine]. apply proper_set. split; [|constructor; [exact Hv|constructor] ]. intros x y [<-|[] ] [<-|[] ]. reflexivity.
Qed.
Lemma expanded_fine v : proper v -> fine proper (expanded v).
Proof.
  intro H. destruct v as [q|s|l|o|b|d]; try exact H. cbn [expanded]. destruct (expand_right o H) as (ns & l & _ & E & _ & _ & T & _). rewrite E. cbn [obind fine]. apply proper_set. split; [apply (typed_same _ _ T)|]. apply Forall_forall. intros x X. unfold typed in T. rewrite Forall_forall in T. specialize (T x X). apply rational_cases in T. destruct T as (q & ->). exact Logic.I.
Qed.
Lemma map_set_fine f l : (forall q, fine (fun _ => True) (f q)) -> typed TRational l -> forall acc, proper (VSet acc) -> fine (fun m => proper (VSet m)) (map_set f l acc).
Proof.
  intros Hf Hl. induction l as [|x l IH]; intros acc Ha; [exact Ha|]. inversion Hl as [|x' l' Hx Hl']. subst x' l'. apply rational_cases in Hx. destruct Hx as (q & ->). cbn [map_set].
  apply (fine_bind (fun _ => True)); [apply Hf|]. intros c _. apply (fine_bind (fun m => proper (VSet m))); [apply insert_fine; [exact Ha|exact Logic.I]|]. intros m Hm. apply IH; assumption.
Qed.
Lemma can_hold_typed l t : proper (VSet l) -> can_hold l t = true -> typed t l.
Proof.
  intros H E. apply proper_set in H. destruct H as (H & _). unfold can_hold, types_compatible in E. destruct (set_type l) as [u|] eqn:Eu; [|destruct l; [constructor|discriminate Eu] ]. apply etype_eqb_eq in E. subst u. apply same_types; assumption.
Qed.
Lemma rational_binary_fine f v w : (forall a b, fine proper (f a b)) -> fine proper (rational_binary f v w).
Proof. intro H. unfold rational_binary. destruct (number_of v); [|exact Logic.I]. destruct (number_of w); [|exact Logic.I]. apply H. Qed.
Lemma elementwise_fine f v w : (forall a b, fine (fun _ => True) (f a b)) -> proper v -> proper w -> fine proper (elementwise f v w).
Proof.
  intros Hf Hv Hw. unfold elementwise. apply (fine_bind proper); [apply expanded_fine, Hv|]. intros v' Hv'. apply (fine_bind proper); [apply expanded_fine, Hw|]. intros w' Hw'.
  assert (R : fine proper (rational_binary (fun a b => obind (f a b) (fun x => Done (VRat x))) v' w')) by (apply rational_binary_fine; intros a b; apply (fine_bind (fun _ => True)); [apply Hf|intros; exact Logic.I]).
  assert (M : forall g l, (forall q, fine (fun _ => True) (g q)) -> proper (VSet l) -> fine proper (if can_hold l TRational then obind (map_set g l []) (fun s => Done (VSet s)) else Fail)).
  { intros g l Hg Hl. destruct (can_hold l TRational) eqn:E; [|exact Logic.I]. apply (fine_bind (fun m => proper (VSet m))); [|auto]. apply map_set_fine; [exact Hg|apply can_hold_typed; assumption|]. apply proper_set. split; [intros x y []|constructor]. }
  destruct v' as [a|s1|l|o1|b1|t1], w' as [b|s2|m|o2|b2|t2]; try exact R; [apply M; auto|apply (M (fun a => f a b)); auto].
Qed.
Lemma proper_sub l m : proper (VSet l) -> (forall x, In x m -> In x l) -> proper (VSet m).
Proof. rewrite !proper_set, !Forall_forall. intros (H1 & H2) H. split; [intros x y X Y; apply H1; auto|auto]. Qed.
Lemma union_in l : forall m x, In x (union l m) -> In x l \/ In x m.
Proof.
  intros m. unfold union. revert l. induction m as [|y m IH]; intros l x; cbn [fold_left]; [auto|]. intro H. apply IH in H. destruct H as [H|H]; [|right; right; exact H]. apply raw_insert_in in H. destruct H as [->|H]; [right; left; reflexivity|left; exact H].
Qed.
Lemma proper_app l m : proper (VSet l) -> proper (VSet m) -> is_compatible l m = true -> proper (VSet (l ++ m)).
Proof.
  intros Hl Hm H. pose proof Hl as P1. pose proof Hm as P2. apply proper_set in P1. apply proper_set in P2. destruct P1 as (L1 & L2), P2 as (M1 & M2). unfold is_compatible, types_compatible in H.
  destruct (set_type l) as [t|] eqn:Et; [|destruct l; [exact Hm|discriminate Et] ]. destruct (set_type m) as [u|] eqn:Eu; [|destruct m; [rewrite app_nil_r; exact Hl|discriminate Eu] ]. apply etype_eqb_eq in H. subst u. pose proof (same_types l t L1 Et) as T1. pose proof (same_types m t M1 Eu) as T2.
  apply proper_set. split; [apply (typed_same t), Forall_app; split; assumption|apply Forall_app; split; assumption].
Qed.
Lemma sets_fine op l m : proper (VSet l) -> proper (VSet m) -> is_compatible l m = true -> proper (VSet (match op with BitOr => union l m | BitXor => symmetric_difference l m | _ => intersection l m end)).
Proof.
  intros Hl Hm H. assert (I : proper (VSet (intersection l m))) by (apply (proper_sub l); [exact Hl|]; unfold intersection; intros x X; apply filter_In in X; apply X).
  pose proof (proper_app l m Hl Hm H) as A. destruct op; try exact I.
  - apply (proper_sub (l ++ m)); [exact A|]. intros x X. apply union_in in X. apply in_app_iff. exact X.
  - apply (proper_sub (l ++ m)); [exact A|]. unfold symmetric_difference. intros x X. apply in_app_iff in X. apply in_app_iff. destruct X as [X|X]; apply filter_In in X; destruct X; auto.
Qed.
Lemma expand_fine o : bls_ok o -> fine (fun l => proper (VSet l) /\ typed TRational l) (expand_set o).
Proof.
  intro H. pose proof (expanded_fine (VBls o) H) as F. cbn [expanded] in F. destruct (expand_right o H) as (ns & l & _ & E & _ & _ & T & _). rewrite E in *. cbn [obind fine] in *. auto.
Qed.
Lemma rational_or_set_fine op v w : proper v -> proper w -> fine proper (rational_or_set op v w).
Proof.
  intros Hv Hw. assert (R : fine proper (rational_binary (fun a b => obind (bitwise op a b) (fun x => Done (VRat x))) v w)).
  { apply rational_binary_fine. intros a b. unfold bitwise. destruct (qint a); [|exact Logic.I]. destruct (qint b); exact Logic.I. }
  destruct v as [q1|s1|l|a|b1|t1], w as [q2|s2|m|b|b2|t2]; try exact R; cbn [rational_or_set].
  - destruct (is_compatible l m) eqn:E; [|exact Logic.I]. cbn [fine]. apply sets_fine; assumption.
  - assert (F : forall op, fine proper (obind (expand_set a) (fun l => obind (expand_set b) (fun m => Done (VSet (match op with BitOr => union l m | BitXor => symmetric_difference l m | _ => intersection l m end)))))).
    { intro op'. apply (fine_bind (fun l => proper (VSet l) /\ typed TRational l)); [apply expand_fine, Hv|]. intros l (Pl & Tl). apply (fine_bind (fun l => proper (VSet l) /\ typed TRational l)); [apply expand_fine, Hw|]. intros m (Pm & Tm). cbn [fine]. apply sets_fine; [exact Pl|exact Pm|apply (compatible_right TRational); assumption]. }
    destruct op; try exact (F BitAnd); [|exact (F BitXor)]. cbn [fine proper]. apply unite_ok; assumption.
Qed.
Lemma comparison_fine op v w : proper v -> proper w -> fine proper (rational_or_set_comparison op v w).
Proof.
  intros Hv Hw. unfold rational_or_set_comparison. apply (fine_bind proper); [apply expanded_fine, Hv|]. intros v' _. apply (fine_bind proper); [apply expanded_fine, Hw|]. intros w' _.
  assert (R : fine proper (rational_binary (fun a b => Done (VBool (comparison_holds op a b))) v' w')) by (apply rational_binary_fine; intros; exact Logic.I).
  destruct v' as [q1|s1|l|o1|b1|t1], w' as [q2|s2|m|o2|b2|t2]; try exact R. destruct (is_compatible l m); exact Logic.I.
Qed.
Lemma binary_fine nfc powf op v w : ~ In op [Divide; Modulo; Exponent] -> proper v -> proper w -> fine proper (apply_binary nfc powf op v w).
Proof.
  intros Hop Hv Hw. pose proof (comparison_fine op v w Hv Hw) as C. pose proof (rational_or_set_fine op v w Hv Hw) as B.
  assert (A : (forall a b, fine (fun _ => True) (arithmetic powf op a b)) -> fine proper (elementwise (arithmetic powf op) v w)) by (intro H; apply elementwise_fine; assumption).
  destruct op; cbn [apply_binary]; try exact B; try exact C; try (exfalso; apply Hop; cbn; tauto); try (apply A; intros; exact Logic.I).
  - assert (E : fine proper (elementwise (arithmetic powf Add) v w)) by (apply A; intros; exact Logic.I). destruct v, w; try exact E. exact Logic.I.
  - destruct v, w; try exact C; exact Logic.I.
  - destruct v, w; try exact C; exact Logic.I.
  - destruct v, w; exact Logic.I.
  - destruct v, w; exact Logic.I.
Qed.
Lemma inner_fine l : (forall x, In x l -> exists t, type_of x = TSet t) -> Forall proper l -> fine (fun ss => length ss = length l /\ Forall (fun s => proper (VSet s)) ss) (inner_sets l).
Proof.
  induction l as [|x l IH]; intros T P; [split; [reflexivity|constructor]|]. inversion P as [|x' l' Px Pl]. subst x' l'. assert (Tl : forall x, In x l -> exists t, type_of x = TSet t) by (intros y Y; apply T; right; exact Y). specialize (IH Tl Pl). destruct (T x (or_introl eq_refl)) as (t & Tx).
  destruct x as [q1|s1|s|o|b1|t1]; try discriminate Tx; cbn [inner_sets].
  - apply (fine_bind (fun ss => length ss = length l /\ Forall (fun s => proper (VSet s)) ss)); [exact IH|]. intros ss (L & F). cbn [fine length]. split; [congruence|constructor; assumption].
  - apply (fine_bind (fun l => proper (VSet l) /\ typed TRational l)); [apply expand_fine, Px|]. intros s (Ps & _). apply (fine_bind (fun ss => length ss = length l /\ Forall (fun s => proper (VSet s)) ss)); [exact IH|]. intros ss (L & F). cbn [fine length]. split; [congruence|constructor; assumption].
Qed.
Lemma best_fine sort_sets least l : (forall ss, Permutation ss (sort_sets ss)) -> proper (VSet l) -> fine proper (set_best sort_sets least l).
Proof.
  intros Hs H. apply proper_set in H. destruct H as (H1 & H2). unfold set_best. destruct (set_type l) as [t|] eqn:E; [|exact Logic.I]. pose proof (same_types l t H1 E) as T. destruct t as [| |t| |]; try exact Logic.I.
  - destruct (rationals_right l T) as (qs & E2 & ->). rewrite E2. destruct qs as [|q qs]; [discriminate E|exact Logic.I].
  - destruct (implicit_ints l) as [ [|n ns]|]; exact Logic.I.
  - assert (Tl : forall x, In x l -> exists t, type_of x = TSet t) by (intros x X; unfold typed in T; rewrite Forall_forall in T; eauto).
    apply (fine_bind (fun ss => length ss = length l /\ Forall (fun s => proper (VSet s)) ss)); [apply inner_fine; assumption|]. intros ss (L & F).
    assert (G : forall ts, Permutation ss ts -> fine proper (match ts with s :: _ => Done (VSet s) | [] => Crash end)).
    { intros ts P. destruct ts as [|s ts]; [apply Permutation_sym, Permutation_nil in P; subst ss; destruct l; [discriminate E|discriminate L]|]. cbn [fine]. rewrite Forall_forall in F. apply F. eapply Permutation_in; [apply Permutation_sym, P|left; reflexivity]. }
    destruct least; apply G; [apply Hs|]. eapply Permutation_trans; [apply Hs|apply Permutation_rev].
Qed.

Section Safe.
Context (nfc : text -> text) (powf : Qc -> Qc -> option Qc) (sort_sets : list (list value) -> list (list value)) (Hsort : forall ss, Permutation ss (sort_sets ss)).
Context (S : Type) (offset : S -> operator * S) (constants : S -> list (text * value)) (lookup : key -> S -> out (option (operator * list (text * value)) * S)).
Context (I : S -> Prop).
Context (Hoffset : forall s, I s -> bls_ok (fst (offset s)) /\ I (snd (offset s))).
Context (Hconstants : forall s n v, I s -> In (n, v) (constants s) -> proper v).
Context (Hlookup : forall k s, I s -> lookup k s <> Crash /\ forall r s', lookup k s = Done (r, s') -> I s' /\ forall o cs n v, r = Some (o, cs) -> In (n, v) cs -> proper v).
Notation evaluate := (eval nfc powf sort_sets S offset constants lookup).
Notation good := (fine (fun p => proper (fst p) /\ I (snd p))).

Lemma find_fine name cs : (forall n v, In (n, v) cs -> proper v) -> fine proper (of_option (find_constant name cs)).
Proof.
  intro H. induction cs as [|(n & v) cs IH]; [exact Logic.I|]. cbn [find_constant]. destruct (text_eqb n name); [apply (H n v); left; reflexivity|]. apply IH. intros n' v' X. apply (H n' v'). right. exact X.
Qed.
Lemma pure_fine s x : I s -> fine proper x -> good (pure S s x).
Proof. intros Hs H. unfold pure. apply (fine_bind proper); [exact H|]. intros a Ha. split; assumption. Qed.
Lemma attribute_fine v name s : name <> name_bit_length -> proper v -> I s -> good (attribute sort_sets S lookup v name s).
Proof.
  intros Hn Hv Hs. destruct v as [q1|s1|l|o|b1|d]; try exact Logic.I; cbn [attribute].
  - destruct (text_eqb name name_min); [apply pure_fine; [exact Hs|apply best_fine; assumption]|]. destruct (text_eqb name name_max); [apply pure_fine; [exact Hs|apply best_fine; assumption]|]. destruct (text_eqb name name_count); [|exact Logic.I]. split; [exact Logic.I|exact Hs].
  - destruct (op_min_spec o Hv) as (mn & E1 & _). destruct (op_max_spec o Hv) as (mx & E2 & _). destruct (expand_right o Hv) as (ns & l & E3 & _). unfold bls_min_value, bls_max_value. rewrite E1, E2, E3.
    destruct (text_eqb name name_min); [split; [exact Logic.I|exact Hs]|]. destruct (text_eqb name name_max); [split; [exact Logic.I|exact Hs]|]. destruct (text_eqb name name_count); [|exact Logic.I]. split; [exact Logic.I|exact Hs].
  - destruct (text_eqb name name_bit_length) eqn:E; [apply text_eqb_eq in E; destruct (Hn E)|]. destruct d as [ [k|?|?]|? ?|? ?]; try exact Logic.I. destruct (Hlookup k s Hs) as (Hc & Hd). destruct (lookup k s) as [ (m & s')| |] eqn:El; [|exact Logic.I|destruct (Hc eq_refl)]. destruct (Hd m s' eq_refl) as (Hs' & Hcs). cbn [sbind obind fst snd]. destruct m as [ (o & cs)|]; [|exact Logic.I]. apply pure_fine; [exact Hs'|]. apply find_fine. intros n v X. apply (Hcs o cs n v eq_refl X).
Qed.
Lemma eval_fine : forall e, harmless e -> forall s, I s -> good (evaluate e s).
Proof.
  fix IH 1. intros [q|t|b|es|t|t k n|name|u e|e name|op a b] He s Hs.
  - split; [exact Logic.I|exact Hs].
  - split; [exact Logic.I|exact Hs].
  - split; [exact Logic.I|exact Hs].
  - change (good (elements nfc powf sort_sets S offset constants lookup es [] s)). cbn [harmless] in He.
    assert (Ha : proper (VSet [])) by (apply proper_set; split; [intros x y []|constructor]). generalize dependent (@nil value). revert s Hs. induction es as [|e es IHes]; intros s Hs acc Ha; [split; assumption|]. destruct He as (He & Hes). cbn [elements]. pose proof (IH e He s Hs) as G. apply (fine_bind (fun p => proper (fst p) /\ I (snd p))); [exact G|]. intros (v & s') (Pv & Ps). cbn [fst snd] in *. apply (fine_bind (fun m => proper (VSet m))); [apply insert_fine; assumption|]. intros m Hm. apply IHes; assumption.
  - split; [exact Logic.I|exact Hs].
  - cbn [harmless] in He. cbn [eval]. pose proof (IH n He s Hs) as G. apply (fine_bind (fun p => proper (fst p) /\ I (snd p))); [exact G|]. intros (v & s') (Pv & Ps). cbn [fst snd] in *. apply (fine_bind (fun _ => True)).
    + unfold array_length. destruct v as [q|s1|l1|o1|b1|t1]; try exact Logic.I. destruct (qint q) as [z|]; [|exact Logic.I]. destruct (z <? 0)%Z; [exact Logic.I|]. destruct (z <? 2 ^ 64)%Z; exact Logic.I.
    + intros m _. apply (fine_bind (fun _ => True)); [unfold array_type; destruct k; try exact Logic.I; destruct (0 <? m); exact Logic.I|]. intros ty _. split; [exact Logic.I|exact Ps].
  - cbn [eval]. destruct (text_eqb name name_offset).
    + destruct (Hoffset s Hs) as (H1 & H2). destruct (offset s) as (o & s'). split; assumption.
    + apply pure_fine; [exact Hs|]. apply find_fine. intros n v X. apply (Hconstants s n v Hs X).
  - cbn [harmless] in He. cbn [eval]. pose proof (IH e He s Hs) as G. apply (fine_bind (fun p => proper (fst p) /\ I (snd p))); [exact G|]. intros (v & s') (Pv & Ps). cbn [fst snd] in *. apply pure_fine; [exact Ps|]. destruct u, v; exact Logic.I.
  - cbn [harmless] in He. destruct He as (He & Hn). cbn [eval]. pose proof (IH e He s Hs) as G. apply (fine_bind (fun p => proper (fst p) /\ I (snd p))); [exact G|]. intros (v & s') (Pv & Ps). cbn [fst snd] in *. apply attribute_fine; assumption.
  - cbn [harmless] in He. destruct He as (Hop & Ha & Hb). cbn [eval]. pose proof (IH a Ha s Hs) as G. apply (fine_bind (fun p => proper (fst p) /\ I (snd p))); [exact G|]. intros (v & s') (Pv & Ps). cbn [fst snd] in *. pose proof (IH b Hb s' Ps) as G2. apply (fine_bind (fun p => proper (fst p) /\ I (snd p))); [exact G2|]. intros (w & s2) (Pw & Ps2). cbn [fst snd] in *. apply pure_fine; [exact Ps2|]. apply binary_fine; assumption.
Qed.
End Safe.

(** ** Constants *)

Lemma constant_right to_float declared v c : (forall bits, declared = PInt bits -> (1 <= bits)%nat) -> ~ In declared [PFloat16; PFloat32; PFloat64] ->
  check_constant to_float declared v = Done c <-> constant_fits declared v c.
Proof.
  intros Hb Hf. split.
  - intro H. destruct declared as [| | |bits|bits| | |], v as [q|s|l|o|b|d]; cbn [check_constant] in H; try discriminate H; try (exfalso; apply Hf; cbn; tauto).
    + injection H as <-. constructor.
    + destruct (qint q) as [z|] eqn:E; [|discriminate H]. apply qint_right in E. subst q. destruct ((- 2 ^ Z.of_nat (bits - 1) <=? z) && (z <? 2 ^ Z.of_nat (bits - 1)))%Z%bool eqn:B; [|discriminate H]. injection H as <-. specialize (Hb bits eq_refl). constructor. rewrite Nat2Z.inj_sub in B by exact Hb. change (Z.of_nat 1) with 1%Z in B. lia.
    + destruct (qint q) as [z|] eqn:E; [|discriminate H]. apply qint_right in E. subst q. destruct ((0 <=? z) && (z <? 2 ^ Z.of_nat bits))%Z%bool eqn:B; [|discriminate H]. injection H as <-. constructor. lia.
    + destruct (Nat.eqb_spec bits 8) as [->|]; [|discriminate H]. destruct s as [|x [|y s] ]; cbn [implicit_int option_map of_option] in H; try discriminate H. destruct (N.ltb_spec x 128); [|discriminate H]. cbn [option_map of_option] in H. injection H as <-. constructor. assumption.
  - intro H. revert Hb Hf. destruct H as [b|x Hx|bits z Hz|bits z Hz]; intros Hb Hf; cbn [check_constant].
    + reflexivity.
    + cbn [implicit_int Nat.eqb]. replace (x <? 128) with true by lia. reflexivity.
    + rewrite qint_integer. specialize (Hb bits eq_refl). rewrite Nat2Z.inj_sub by exact Hb. change (Z.of_nat 1) with 1%Z. replace ((- 2 ^ (Z.of_nat bits - 1) <=? z) && (z <? 2 ^ (Z.of_nat bits - 1)))%Z%bool with true by lia. reflexivity.
    + rewrite qint_integer. replace ((0 <=? z) && (z <? 2 ^ Z.of_nat bits))%Z%bool with true by lia. reflexivity.
Qed.
