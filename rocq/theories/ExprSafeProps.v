(** C90, for expressions with all operators *)
From Coq Require Import QArith Qcanon Permutation Lia.
From Verif Require Import Base BlsModel BlsSpec BlsProofs GenModel ExprModel ExprSpec ExprProofs ExprSafeSpec ExprSafeProofs.
Open Scope N_scope.

(** An expression whose parts all meet what their operators need makes the compiler not panic: whenever an operation is evaluated, it does
    not divide by zero or raise zero to a negative integer, and whenever a length is taken, it fits into 64 bits.  As in
    [C90_no_panic_partial], the offset, constants and other types are those of states that satisfy an invariant [I].  Missing: expressions
    that are not careful; they can panic. *)
Theorem C90_careful_partial : forall nfc powf sort_sets S offset constants lookup (I : S -> Prop),
  (forall ss, Permutation ss (sort_sets ss)) ->
  (forall s, I s -> bls_ok (fst (offset s)) /\ I (snd (offset s))) ->
  (forall s n v, I s -> In (n, v) (constants s) -> proper v) ->
  (forall k s, I s -> lookup k s <> Crash /\ forall r s', lookup k s = Done (r, s') -> I s' /\ forall o cs n v, r = Some (o, cs) -> In (n, v) cs -> proper v) ->
  forall e s, I s ->
  (forall a s, part a e -> I s -> careful (eval nfc powf sort_sets S offset constants lookup) a s) ->
  eval nfc powf sort_sets S offset constants lookup e s <> Crash /\
  forall v s', eval nfc powf sort_sets S offset constants lookup e s = Done (v, s') -> proper v /\ I s'.
Proof.
  intros nfc powf sort_sets S offset constants lookup I H1 H2 H3 H4 e s Hs He. pose proof (eval_careful nfc powf sort_sets H1 S offset constants lookup I H2 H3 H4 e He s Hs) as F.
  split; [apply (fine_not_crash _ _ F)|]. intros v s' E. rewrite E in F. exact F.
Qed.
Print Assumptions C90_careful_partial.

(** A division or remainder by zero always panics, and so does zero raised to a negative integer: carefulness asks no more of numbers than
    is needed *)
Theorem C90_careless_refuted : forall nfc powf sort_sets S offset constants lookup op a b x y (s s1 s2 : S),
  In op [Divide; Modulo; Exponent] ->
  eval nfc powf sort_sets S offset constants lookup a s = Done (VRat x, s1) ->
  eval nfc powf sort_sets S offset constants lookup b s1 = Done (VRat y, s2) ->
  ~ careful_operands op (VRat x) (VRat y) ->
  eval nfc powf sort_sets S offset constants lookup (EBinary op a b) s = Crash.
Proof.
  intros nfc powf sort_sets S offset constants lookup op a b x y s s1 s2 Hop Ea Eb H. rewrite eval_binary, Ea. cbn [sbind obind fst snd]. rewrite Eb. cbn [sbind obind fst snd].
  assert (Z : forall q, (q <> 0%Qc -> False) -> is_zero q = true).
  { intros q Hq. destruct (is_zero q) eqn:E; [reflexivity|]. exfalso. apply Hq. intros ->. discriminate E. }
  destruct Hop as [<-|[<-|[<-|[] ] ] ]; cbn [careful_operands] in H; cbn [apply_binary].
  - unfold elementwise. cbn [expanded obind]. unfold rational_binary. cbn [number_of arithmetic]. unfold qdiv. rewrite (Z y); [reflexivity|]. intro Hy. apply H. intros q Q. inversion Q. subst. exact Hy.
  - unfold elementwise. cbn [expanded obind]. unfold rational_binary. cbn [number_of arithmetic]. unfold qrem. rewrite (Z y); [reflexivity|]. intro Hy. apply H. split; [intros q Q; inversion Q; subst; exact Hy|]. intros o n E. discriminate E.
  - unfold elementwise. cbn [expanded obind]. unfold rational_binary. cbn [number_of arithmetic]. unfold qpow. destruct (qint y) as [z|] eqn:Ez.
    + destruct (Z.ltb_spec z 0) as [L|L].
      * rewrite (Z x); [reflexivity|]. intro Hx. apply H. intros z' X Y. inversion X. subst. destruct (Hx eq_refl).
      * exfalso. apply H. intros z' X Y. inversion Y as [q E| | |]. subst. apply qint_right in Ez. apply integer_inj in Ez. subst. exact L.
    + exfalso. apply H. intros z X Y. inversion Y as [q E| | |]. subst. change (Q2Qc (z # 1)) with (integer z) in Ez. rewrite qint_integer in Ez. discriminate Ez.
Qed.
Print Assumptions C90_careless_refuted.

Definition number (z : Z) : expr := ENumber (integer z).
(** [uint8[<=3]._bit_length_ % 16 == {0, 8} && 2 ** -1 / 4 == 3 % 2 / 8] *)
Definition ex_careful : expr :=
  EBinary LogicalAnd
    (EBinary Equal (EBinary Modulo (EAttribute (EArray (Primitive (PUInt 8)) AInclusive (number 3)) name_bit_length) (number 16)) (ESet [number 0; number 8]))
    (EBinary Equal (EBinary Divide (EBinary Exponent (number 2) (EUnary UnaryMinus (number 1))) (number 4)) (EBinary Divide (EBinary Modulo (number 3) (number 2)) (number 8))).
Definition ex_evaluate : expr -> unit -> out (value * unit) :=
  eval (fun t => t) (fun _ _ => None) (fun ss => ss) unit (fun s => (bls_single 0, s)) (fun _ => []) (fun _ _ => Fail).
Lemma nonzero z : z <> 0%Z -> forall q, number_in (VRat (integer z)) q -> q <> 0%Qc.
Proof. intros H q Q. inversion Q. subst. intro E. apply H. apply integer_inj. exact E. Qed.
Lemma ex_length : ex_evaluate (EAttribute (EArray (Primitive (PUInt 8)) AInclusive (number 3)) name_bit_length) tt = Done (VBls (RangeRepeat (Leaf [8]) 3), tt).
Proof. vm_compute. reflexivity. Qed.
Lemma ex_length_ok : bls_ok (RangeRepeat (Leaf [8]) 3).
Proof.
  assert (B : forall v, In v [8] -> v = 8) by (intros v [<-|[] ]; reflexivity). cbn [bls_ok den]. split; [|split; [|reflexivity] ].
  - intros v (vs & L & D & ->). change (2 ^ 64) with 18446744073709551616. assert (T : total vs <= 8 * N.of_nat (length vs)) by (apply total_bound; eapply Forall_impl; [|exact D]; cbv beta; intros u U; rewrite (B u U); lia). change (N.to_nat 3) with 3%nat in L. lia.
  - split; [intros v V; rewrite (B v V); reflexivity|]. split; [repeat constructor|discriminate].
Qed.
Example C90_careful_witness : (forall a s, part a ex_careful -> careful ex_evaluate a s) /\ ex_evaluate ex_careful tt = Done (VBool true, tt) /\
  ~ harmless ex_careful /\ ~ careful_operands Divide (VRat 1%Qc) (VRat 0%Qc).
Proof.
  split; [|split; [vm_compute; reflexivity|split; [cbn; tauto|intro H; apply (H 0%Qc); constructor] ] ].
  intros a s P. destruct s. unfold ex_careful in P.
  Ltac parts := repeat match goal with
    | P : part _ (EBinary _ _ _) |- _ => inversion P; clear P; subst
    | P : part _ (EUnary _ _) |- _ => inversion P; clear P; subst
    | P : part _ (EAttribute _ _) |- _ => inversion P; clear P; subst
    | P : part _ (EArray _ _ _) |- _ => inversion P; clear P; subst
    | P : part _ (number _) |- _ => inversion P; clear P; subst
    | P : part _ (ESet _) |- _ => inversion P; clear P; subst
    | P : In _ [number _; number _] |- _ => destruct P as [<-|[<-|[] ] ]
    end.
  parts; try exact Logic.I; try (intros v s1 w s2 _ _; exact Logic.I).
  - intros v s1 w s2 Ea Eb. rewrite ex_length in Ea. assert (v = VBls (RangeRepeat (Leaf [8]) 3)) by congruence. assert (w = VRat (integer 16)) by (change (ex_evaluate (number 16) s1) with (@Done (value * unit) (VRat (integer 16), s1)) in Eb; congruence). subst v w. split; [apply (nonzero 16); discriminate|].
    intros o n E1 E2. injection E1 as <-. assert (E3 : integer 16 = integer (Z.of_N n)) by (unfold integer at 2; congruence). apply integer_inj in E3. split; [|exact Logic.I]. lia.
  - intros _ o s1 E. rewrite ex_length in E. assert (o = RangeRepeat (Leaf [8]) 3) by congruence. subst o. apply ex_length_ok.
  - intros v s1 w s2 _ Eb. assert (w = VRat (integer 4)) by (change (ex_evaluate (number 4) s1) with (@Done (value * unit) (VRat (integer 4), s1)) in Eb; congruence). subst w. exact (nonzero 4 ltac:(discriminate)).
  - intros v s1 w s2 Ea _. assert (v = VRat (integer 2)) by (change (ex_evaluate (number 2) tt) with (@Done (value * unit) (VRat (integer 2), tt)) in Ea; congruence). subst v. intros z X. exfalso. apply (nonzero 2 ltac:(discriminate) _ X). reflexivity.
  - intros v s1 w s2 _ Eb. assert (w = VRat (integer 8)) by (change (ex_evaluate (number 8) s1) with (@Done (value * unit) (VRat (integer 8), s1)) in Eb; congruence). subst w. exact (nonzero 8 ltac:(discriminate)).
  - intros v s1 w s2 Ea Eb. assert (v = VRat (integer 3)) by (change (ex_evaluate (number 3) tt) with (@Done (value * unit) (VRat (integer 3), tt)) in Ea; congruence). assert (w = VRat (integer 2)) by (change (ex_evaluate (number 2) s1) with (@Done (value * unit) (VRat (integer 2), s1)) in Eb; congruence). subst v w. split; [apply (nonzero 2); discriminate|]. intros o n E. discriminate E.
Qed.
