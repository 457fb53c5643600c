(** Properties C89-C91: DSDL expressions and constants. *)
From Coq Require Import QArith Qpower Qcanon Permutation Lia.
From Verif Require Import Base BlsModel BlsSpec BlsProofs GenModel ExprModel ExprSpec ExprProofs.
Open Scope N_scope.

(** Environments for the examples: a fixed offset, some constants and no other types *)
Definition ex_offset (o : operator) (s : unit) : operator * unit := (o, s).
Definition ex_lookup (k : key) (s : unit) : out (option (operator * list (text * value)) * unit) := Fail.
Definition ex_eval (o : operator) (cs : list (text * value)) (e : expr) : out (value * unit) :=
  eval (fun t => t) (fun _ _ => None) (fun l => l) unit (ex_offset o) (fun _ => cs) ex_lookup e tt.
Definition num (z : Z) : expr := ENumber (integer z).

(** * C89: expressions have the values that arithmetic and set theory give them *)

(** Numbers, and single characters in the place of numbers *)
Theorem C89_numbers : forall nfc powf op v w a b c, stands_for v a -> stands_for w b ->
  ~ (op = Add /\ (exists s, v = VStr s) /\ (exists s, w = VStr s)) -> calculates op a b c -> apply_binary nfc powf op v w = Done (VRat c).
Proof. exact binary_numbers. Qed.
Print Assumptions C89_numbers.
Example C89_numbers_witness : calculates Modulo (integer (-7)) (integer 2) (integer (-1)) /\ calculates Divide (integer 3) (integer 2) (Q2Qc (3 # 2)) /\
  calculates Exponent (integer 2) (integer (-3)) (Q2Qc (1 # 8)).
Proof.
  split; [|split].
  - apply (ca_modulo _ _ (-3)); try (vm_compute; intuition congruence).
  - apply ca_divide; [vm_compute; congruence|apply qc_eq; vm_compute; reflexivity].
  - replace (Q2Qc (1 # 8)) with (/ Qcpower (integer 2) 3)%Qc by (apply qc_eq; vm_compute; reflexivity). apply (ca_inverse (integer 2) 3). vm_compute. congruence.
Qed.
Theorem C89_bitwise : forall nfc powf op v w a b c, is_bitwise op -> stands_for v (integer a) -> stands_for w (integer b) -> bitwise_right op a b c ->
  apply_binary nfc powf op v w = Done (VRat (integer c)).
Proof. exact binary_bits. Qed.
Print Assumptions C89_bitwise.
Example C89_bitwise_witness : bitwise_right BitXor 12 (-6) (-10).
Proof. intros i Hi. cbn [bit_of]. rewrite <- Z.lxor_spec. reflexivity. Qed.
Theorem C89_comparisons : forall nfc powf op v w a b, is_comparison op -> stands_for v a -> stands_for w b ->
  ~ ((op = Equal \/ op = NotEqual) /\ (exists s, v = VStr s) /\ (exists s, w = VStr s)) ->
  exists r, apply_binary nfc powf op v w = Done (VBool r) /\ (r = true <-> compares op a b).
Proof. exact binary_compare. Qed.
Print Assumptions C89_comparisons.
Example C89_comparisons_witness : exists r, apply_binary (fun t => t) (fun _ _ => None) Less (VRat (integer 48)) (VStr [49]) = Done (VBool r) /\ r = true.
Proof. eexists. split; [vm_compute; reflexivity|reflexivity]. Qed.

(** Strings are joined and compared; booleans are combined and compared *)
Theorem C89_strings : forall nfc powf s t,
  apply_binary nfc powf Add (VStr s) (VStr t) = Done (VStr (nfc (s ++ t))) /\
  (exists r, apply_binary nfc powf Equal (VStr s) (VStr t) = Done (VBool r) /\ (r = true <-> s = t)) /\
  (exists r, apply_binary nfc powf NotEqual (VStr s) (VStr t) = Done (VBool r) /\ (r = true <-> s <> t)).
Proof.
  intros. split; [reflexivity|]. split; eexists; (split; [reflexivity|]).
  - apply text_eqb_eq.
  - rewrite negb_true_iff, <- not_true_iff_false, text_eqb_eq. reflexivity.
Qed.
Print Assumptions C89_strings.

(** Operators apply to each element of a set *)
Theorem C89_elementwise : forall nfc powf op v b, is_arithmetic op -> set_of_type TRational v -> (forall x, element (VRat x) v -> exists c, calculates op x b c) -> (op = Modulo -> explicit v) ->
  exists r, apply_binary nfc powf op v (VRat b) = Done r /\ set_of_type TRational r /\
    forall y, element y r <-> exists x c, element (VRat x) v /\ calculates op x b c /\ y = VRat c.
Proof.
  intros nfc powf op v b A Hv Hc Hm. destruct (elementwise_left powf op v b Hv Hc) as (r & E & _ & Hr & Hi). exists r. split; [|split; assumption].
  destruct A as [<-|[<-|[<-|[<-|[<-|[<-|[] ] ] ] ] ] ]; cbn [apply_binary]; try exact E.
  - specialize (Hm eq_refl). destruct v; try contradiction Hm; exact E.
  - destruct v; try contradiction Hv; exact E.
Qed.
Print Assumptions C89_elementwise.
Theorem C89_elementwise_right : forall nfc powf op v a, is_arithmetic op -> set_of_type TRational v -> (forall x, element (VRat x) v -> exists c, calculates op a x c) ->
  exists r, apply_binary nfc powf op (VRat a) v = Done r /\ set_of_type TRational r /\
    forall y, element y r <-> exists x c, element (VRat x) v /\ calculates op a x c /\ y = VRat c.
Proof.
  intros nfc powf op v a A Hv Hc. destruct (elementwise_right powf op v a Hv Hc) as (r & E & _ & Hr & Hi). exists r. split; [|split; assumption].
  destruct A as [<-|[<-|[<-|[<-|[<-|[<-|[] ] ] ] ] ] ]; exact E.
Qed.
Print Assumptions C89_elementwise_right.
Example C89_elementwise_witness : set_of_type TRational (VSet [VRat (integer 1); VRat (integer 3)]) /\ set_of_type TRational (VBls (bls_single 8)) /\
  forall x, exists c, calculates Subtract x (integer 5) c.
Proof.
  split; [|split].
  - split; [|repeat constructor]. constructor; [intros [H|[] ]; apply vrat_inj, integer_inj in H; discriminate H|]. constructor; [intros []|constructor].
  - split; [reflexivity|]. cbn [bls_single bls_ok den]. split; [intros v [<-|[] ]; reflexivity|]. split; [repeat constructor|discriminate].
  - intro x. eexists. constructor.
Qed.
(** The remainders of a set of bit lengths; see C43 for the conditions *)
Theorem C89_remainders_partial : forall nfc powf o d, 0 < d <= 2 ^ 31 -> bls_ok o -> bls_small o -> compatible d o ->
  exists r, apply_binary nfc powf Modulo (VBls o) (VRat (integer (Z.of_N d))) = Done r /\ set_of_type TRational r /\
    forall x, element x r <-> exists n, den o n /\ x = VRat (integer (Z.of_N (n mod d))).
Proof. exact binary_remainder. Qed.
Print Assumptions C89_remainders_partial.
(** Without them, the remainder by 3 of the only length, 16, is said to be 0 *)
Theorem C89_remainders_refuted : exists o, bls_ok o /\ (forall n, den o n <-> n = 16) /\
  ex_eval o [] (EBinary Equal (EBinary Modulo (EIdentifier name_offset) (num 3)) (ESet [num 0])) = Done (VBool true, tt).
Proof.
  exists (bls_pad (bls_single 9) 8). assert (D : forall v, den (Padding (Leaf [9]) 8) v <-> v = 16).
  { intro v. cbn [den]. split; [|intros ->; exists 9; split; [left; reflexivity|vm_compute; repeat split; congruence] ]. intros (u & [<-|[] ] & H1 & H2 & H3). Ltac Zify.zify_post_hook ::= Z.div_mod_to_equations. lia. }
  split; [|split; [exact D|vm_compute; reflexivity] ]. unfold bls_pad, bls_single. split; [intros v Hv; apply D in Hv; subst; reflexivity|]. split; [|split; vm_compute; congruence]. split; [intros v [<-|[] ]; reflexivity|]. split; [repeat constructor|discriminate].
Qed.
Print Assumptions C89_remainders_refuted.

(** Union, intersection and symmetric difference of two sets of the same kind *)
Theorem C89_set_operators_partial : forall nfc powf op t v w, is_bitwise op -> simple t -> set_of_type t v -> set_of_type t w -> (explicit v /\ explicit w) \/ (lengths v /\ lengths w) ->
  exists r, apply_binary nfc powf op v w = Done r /\ set_of_type t r /\ forall x, element x r <-> combines op (element x v) (element x w).
Proof. exact binary_sets. Qed.
Print Assumptions C89_set_operators_partial.
(** A set of bit lengths and another set of numbers cannot be combined, although both are sets of numbers *)
Theorem C89_set_operators_refuted : exists v w, set_of_type TRational v /\ set_of_type TRational w /\ type_of v = type_of w /\
  forall nfc powf op, is_bitwise op -> apply_binary nfc powf op v w = Fail.
Proof.
  exists (VSet [VRat (integer 1)]), (VBls (bls_single 8)). split; [split; repeat constructor; intros []|]. split; [apply C89_elementwise_witness|]. split; [reflexivity|]. intros nfc powf op [<-|[<-|[<-|[] ] ] ]; reflexivity.
Qed.
Print Assumptions C89_set_operators_refuted.
(** Inclusion and equality of two sets, of either kind *)
Theorem C89_set_comparisons : forall nfc powf op t v w, is_comparison op -> simple t -> set_of_type t v -> set_of_type t w ->
  exists r, apply_binary nfc powf op v w = Done (VBool r) /\ (r = true <-> compares_sets op v w).
Proof. exact binary_set_comparison. Qed.
Print Assumptions C89_set_comparisons.
Example C89_set_comparisons_witness : exists v w, set_of_type TRational v /\ set_of_type TRational w /\ apply_binary (fun t => t) (fun _ _ => None) Less v w = Done (VBool true) /\
  apply_binary (fun t => t) (fun _ _ => None) Equal v w = Done (VBool false).
Proof.
  exists (VBls (bls_single 3)), (VSet [VRat (integer 1); VRat (integer 3)]). split; [|split; [apply C89_elementwise_witness|split; vm_compute; reflexivity] ].
  split; [reflexivity|]. cbn [bls_single bls_ok den]. split; [intros v [<-|[] ]; reflexivity|]. split; [repeat constructor|discriminate].
Qed.

(** The attributes of sets: the least and the greatest number, and the number of elements *)
Theorem C89_attributes_partial : forall sort_sets S lookup v s, set_of_type TRational v -> (exists x, element x v) ->
  (exists m, attribute sort_sets S lookup v name_min s = Done (VRat m, s) /\ element (VRat m) v /\ forall x, element (VRat x) v -> (m <= x)%Qc) /\
  (exists m, attribute sort_sets S lookup v name_max s = Done (VRat m, s) /\ element (VRat m) v /\ forall x, element (VRat x) v -> (x <= m)%Qc).
Proof. intros sort_sets S lookup v s Hv Hx. split; [exact (attribute_least sort_sets S (fun s => (bls_single 0, s)) (fun _ => []) lookup v s Hv Hx)|exact (attribute_greatest sort_sets S (fun s => (bls_single 0, s)) (fun _ => []) lookup v s Hv Hx)]. Qed.
Print Assumptions C89_attributes_partial.
Theorem C89_count : forall sort_sets S lookup t v s, set_of_type t v ->
  exists l, NoDup l /\ (forall x, In x l <-> element x v) /\ attribute sort_sets S lookup v name_count s = Done (VRat (integer (Z.of_nat (length l))), s).
Proof. exact attribute_count. Qed.
Print Assumptions C89_count.
(** Sets of sets have a "minimum" that is not a part of the others *)
Theorem C89_attributes_refuted : exists l, forall sort_sets S lookup (s : S), (forall ss, Permutation ss (sort_sets ss)) ->
  exists r x, attribute sort_sets S lookup (VSet l) name_min s = Done (r, s) /\ element x (VSet l) /\ ~ included r x.
Proof.
  set (a := [VRat (integer 1)]). set (b := [VRat (integer 2)]). exists [VSet a; VSet b]. intros sort_sets S lookup s Hs.
  assert (E : attribute sort_sets S lookup (VSet [VSet a; VSet b]) name_min s = pure S s (match sort_sets [a; b] with s :: _ => Done (VSet s) | [] => Crash end)) by reflexivity.
  pose proof (Hs [a; b]) as P. rewrite E. destruct (sort_sets [a; b]) as [|r t]; [apply Permutation_length in P; discriminate P|]. assert (R : In r [a; b]) by (eapply Permutation_in; [apply Permutation_sym, P|left; reflexivity]). exists (VSet r). destruct R as [<-|[<-|[] ] ].
  - exists (VSet b). split; [reflexivity|]. split; [right; left; reflexivity|]. intro H. specialize (H _ (or_introl eq_refl)). destruct H as [H|[] ]. apply vrat_inj, integer_inj in H. discriminate H.
  - exists (VSet a). split; [reflexivity|]. split; [left; reflexivity|]. intro H. specialize (H _ (or_introl eq_refl)). destruct H as [H|[] ]. apply vrat_inj, integer_inj in H. discriminate H.
Qed.
Print Assumptions C89_attributes_refuted.

(** Whole expressions *)
Theorem C89_expressions : forall nfc powf sort_sets S offset constants lookup e v, denotes e v -> forall s : S, eval nfc powf sort_sets S offset constants lookup e s = Done (v, s).
Proof. exact denotes_right. Qed.
Print Assumptions C89_expressions.
Theorem C89_set_literals : forall nfc powf sort_sets S offset constants lookup t es xs (s : S), simple t -> Forall2 denotes es xs -> Forall (fun x => type_of x = t) xs ->
  exists m, eval nfc powf sort_sets S offset constants lookup (ESet es) s = Done (VSet m, s) /\ set_of_type t (VSet m) /\ forall x, element x (VSet m) <-> In x xs.
Proof. exact literal_right. Qed.
Print Assumptions C89_set_literals.
(** [_offset_ % d == {ns}], as used in assertions, holds if and only if [ns] are the remainders of the possible offsets *)
Theorem C89_offset_assertion_partial : forall nfc powf sort_sets S offset constants lookup d ns (s : S), 0 < d <= 2 ^ 31 ->
  bls_ok (fst (offset s)) -> bls_small (fst (offset s)) -> compatible d (fst (offset s)) ->
  exists b, eval nfc powf sort_sets S offset constants lookup
              (EBinary Equal (EBinary Modulo (EIdentifier name_offset) (ENumber (integer (Z.of_N d)))) (ESet (map (fun n => ENumber (integer (Z.of_N n))) ns))) s =
            Done (VBool b, snd (offset s)) /\
    (b = true <-> forall r, In r ns <-> exists v, den (fst (offset s)) v /\ r = v mod d).
Proof. exact assertion_right. Qed.
Print Assumptions C89_offset_assertion_partial.
Example C89_expressions_witness :
  denotes (EBinary LogicalAnd (EBinary Less (EUnary UnaryMinus (num 2)) (EBinary Multiply (num 3) (num 5))) (EUnary UnaryNot (EBoolean false))) (VBool (true && negb false)) /\
  ex_eval (bls_concatenate (bls_single 8) [bls_pad (bls_single 3) 8]) [] (EBinary Equal (EBinary Modulo (EIdentifier name_offset) (num 8)) (ESet [num 0])) = Done (VBool true, tt) /\
  ex_eval (bls_concatenate (bls_single 8) [bls_single 3]) [] (EBinary Equal (EBinary Modulo (EIdentifier name_offset) (num 8)) (ESet [num 0])) = Done (VBool false, tt).
Proof.
  split; [|split; vm_compute; reflexivity]. apply de_and; [|apply de_not, de_boolean]. eapply de_true; [cbn; tauto|apply de_minus, de_number|eapply de_arithmetic; [apply de_number|apply de_number|apply ca_multiply]|vm_compute; reflexivity].
Qed.

(** * C90: no expression makes the compiler panic *)

(** Dividing by zero does, and so do lengths of more than 64 bits *)
Theorem C90_no_panic_refuted : forall nfc powf sort_sets S offset constants lookup (s : S),
  eval nfc powf sort_sets S offset constants lookup (EBinary Divide (num 1) (num 0)) s = Crash /\
  eval nfc powf sort_sets S offset constants lookup (EBinary Modulo (num 1) (num 0)) s = Crash /\
  eval nfc powf sort_sets S offset constants lookup (EBinary Exponent (num 0) (EUnary UnaryMinus (num 1))) s = Crash /\
  eval nfc powf sort_sets S offset constants lookup (EAttribute (EAttribute (EArray (Primitive (PUInt 64)) AFixed (num (2 ^ 64 - 1))) name_bit_length) name_max) s = Crash.
Proof. intros. split; [reflexivity|]. split; [reflexivity|]. split; vm_compute; reflexivity. Qed.
Print Assumptions C90_no_panic_refuted.
(** Expressions without these are safe, if lengths and constants are those that the compiler makes ([proper]) in all states that satisfy an
    invariant [I].  Missing: division, remainder, powers and _bit_length_. *)
Theorem C90_no_panic_partial : forall nfc powf sort_sets S offset constants lookup (I : S -> Prop),
  (forall ss, Permutation ss (sort_sets ss)) ->
  (forall s, I s -> bls_ok (fst (offset s)) /\ I (snd (offset s))) ->
  (forall s n v, I s -> In (n, v) (constants s) -> proper v) ->
  (forall k s, I s -> lookup k s <> Crash /\ forall r s', lookup k s = Done (r, s') -> I s' /\ forall o cs n v, r = Some (o, cs) -> In (n, v) cs -> proper v) ->
  forall e s, harmless e -> I s ->
  eval nfc powf sort_sets S offset constants lookup e s <> Crash /\
  forall v s', eval nfc powf sort_sets S offset constants lookup e s = Done (v, s') -> proper v /\ I s'.
Proof.
  intros nfc powf sort_sets S offset constants lookup I H1 H2 H3 H4 e s He Hs. pose proof (eval_fine nfc powf sort_sets H1 S offset constants lookup I H2 H3 H4 e He s Hs) as F.
  split; [apply (fine_not_crash _ _ F)|]. intros v s' E. rewrite E in F. exact F.
Qed.
Print Assumptions C90_no_panic_partial.
Example C90_witness : exists e, harmless e /\ bls_ok (bls_single 8) /\ proper (VSet [VRat (integer 4); VRat (integer 2)]) /\
  ex_eval (bls_single 8) [([67], VSet [VRat (integer 4); VRat (integer 2)])] e = Done (VBool true, tt).
Proof.
  exists (EBinary Greater (EAttribute (EIdentifier name_offset) name_max) (EAttribute (EBinary Add (EIdentifier [67]) (num 3)) name_max)).
  split; [cbn; intuition discriminate|]. split; [apply C89_elementwise_witness|]. split; [apply proper_set; split; [intros x y [<-|[<-|[] ] ] [<-|[<-|[] ] ]; reflexivity|repeat constructor]|]. vm_compute. reflexivity.
Qed.

(** * C91: a constant gets a value if and only if the value fits into its declared type *)

Theorem C91_constants_partial : forall to_float declared v c, (forall bits, declared = PInt bits -> (1 <= bits)%nat) -> ~ In declared [PFloat16; PFloat32; PFloat64] ->
  check_constant to_float declared v = Done c <-> constant_fits declared v c.
Proof. exact constant_right. Qed.
Print Assumptions C91_constants_partial.
(** A number becomes a floating point constant if and only if it has a finite nearest value in that type, which it becomes *)
Theorem C91_floats_partial : forall (to_float : nat -> Qc -> option N) v c,
  (check_constant to_float PFloat16 v = Done c <-> exists q x, v = VRat q /\ to_float 16%nat q = Some x /\ c = CFloat 16 x) /\
  (check_constant to_float PFloat32 v = Done c <-> exists q x, v = VRat q /\ to_float 32%nat q = Some x /\ c = CFloat 32 x) /\
  (check_constant to_float PFloat64 v = Done c <-> exists q x, v = VRat q /\ to_float 64%nat q = Some x /\ c = CFloat 64 x).
Proof.
  intros to_float v c.
  assert (G : forall w, of_option (match v with VRat q => option_map (CFloat w) (to_float w q) | _ => None end) = Done c <-> exists q x, v = VRat q /\ to_float w q = Some x /\ c = CFloat w x).
  { intro w. split.
    - destruct v as [q|s|l|o|b|d]; try (intro E; discriminate E). destruct (to_float w q) as [x|] eqn:E; cbn [option_map of_option]; intro H; [|discriminate H]. apply done_inj in H. subst c. exists q, x. auto.
    - intros (q & x & -> & E & ->). rewrite E. reflexivity. }
  split; [|split]; rewrite <- G; destruct v; reflexivity.
Qed.
Print Assumptions C91_floats_partial.
Example C91_witness : check_constant (fun _ _ => None) (PInt 8) (VRat (integer (-128))) = Done (CInt (-128)) /\ check_constant (fun _ _ => None) (PInt 8) (VRat (integer 128)) = Fail /\
  check_constant (fun _ _ => None) (PUInt 8) (VStr [35]) = Done (CInt 35).
Proof. split; [|split]; reflexivity. Qed.
