(** Properties C95-C101: compiling DSDL files. *)
From Coq Require Import String QArith Qcanon Lia Permutation.
From Verif Require Import Base EncModel BlsModel BlsSpec BlsProofs GenModel GenSpec GenProps ExprModel ExprSpec ExprProofs PkgModel PkgSpec PkgProofs CompModel CompSpec CompProofs CompFileProofs.
Open Scope list_scope.
Open Scope N_scope.

(** ** Files for the examples *)
Definition ex_compile := compile (fun t => t) (fun _ _ => None) (fun l => l) (fun _ _ => None).
Definition num (z : Z) : expr := ENumber (integer z).
Definition uint (n : nat) : stype := TypeScalar (Primitive (PUInt n)).
Definition key_in (name : string) : key := Key [name_of "ns"] (name_of name) 1 0.
Definition local (name : string) : tscalar := Versioned (Key [] (name_of name) 1 0).
Definition sealed_directive : statement := SDirective DSealed None.
Definition extent_directive (n : Z) : statement := SDirective DExtent (Some (num n)).
Definition assertion (e : expr) : statement := SDirective DAssert (Some e).
Definition inner_file : file :=
  File (Some [SConstant (PUInt 8) (name_of "X") (num 5); SField (uint 16) (name_of "a"); SPadding 3; assertion (EBinary Equal (num 2) (EBinary Add (num 1) (num 1)));
              SField (TypeArray (Primitive PBool) AExclusive (EBinary Add (num 5) (num 6))) (name_of "b"); extent_directive 1024]) None.
Definition outer_file : file :=
  File (Some [deprecated_directive; union_directive; SField (TypeScalar (local "Inner")) (name_of "a"); SField (TypeArray (Versioned (key_in "Inner")) AFixed (num 2)) (name_of "b");
              SDirective DPrint (Some (EIdentifier name_offset)); sealed_directive]) (Some 1234).
Definition service_file : file :=
  File (Some [deprecated_directive; SField (TypeScalar (local "Outer")) (name_of "o"); SField (uint 7) (name_of "x"); sealed_directive; SMarker; SField (uint 3) (name_of "x"); extent_directive 64]) (Some 99).
Definition ex_files : list (key * file) := [(key_in "Outer", outer_file); (key_in "Inner", inner_file); (key_in "Service", service_file)].
Lemma ex_distinct : distinct ex_files.
Proof. repeat constructor; (intros (_ & X & _); vm_compute in X; discriminate X). Qed.

(** * C95: compiling ends, and every file is compiled once *)

(** Neither the bound on recursion that the model needs, nor the assertions about types that are compiled twice, have an effect: whatever the
    compiler would do there ([stop]), the result is the same. *)
Theorem C95_ends : forall nfc powf sort_sets to_float files, distinct files -> forall stop fuel, (length files <= fuel)%nat ->
  compile_with nfc powf sort_sets to_float stop fuel files = compile nfc powf sort_sets to_float files.
Proof. intros nfc powf ss tf files D stop fuel L. symmetry. unfold compile, compile_with. apply (all_same nfc powf ss tf files); [apply le_n|exact L|apply (distinct_separate files D)]. Qed.
Print Assumptions C95_ends.
(** Files and results correspond one to one, with the same names except for case, and the same port IDs. *)
Theorem C95_once_partial : forall nfc powf sort_sets to_float files rs, distinct files -> compile nfc powf sort_sets to_float files = Done rs ->
  exists rs', Permutation rs rs' /\ Forall2 (fun f r => same_key (fst f) (fst r) /\ port_id (snd r) = file_port (snd f)) files rs'.
Proof.
  intros nfc powf ss tf files rs D H. pose proof (compile_items nfc powf ss tf files rs H D) as P. apply Permutation_map_inv in P. destruct P as (rs' & E & P). exists rs'. split; [exact P|].
  clear - E. revert rs' E. induction files as [|f files IH]; intros rs' E; destruct rs' as [|r rs']; cbn [map] in E; try discriminate E; constructor; injection E as E1 E2 E3 E4 E5 E6.
  - split; [repeat split; assumption|symmetry; exact E5].
  - apply IH. exact E6.
Qed.
Print Assumptions C95_once_partial.
Example C95_witness : distinct ex_files /\ exists rs, ex_compile ex_files = Done rs /\ map fst rs = [key_in "Inner"; key_in "Outer"; key_in "Service"] /\ map (fun r => port_id (snd r)) rs = [None; Some 1234; Some 99].
Proof. split; [apply ex_distinct|]. eexists. split; [vm_compute; reflexivity|]. split; vm_compute; reflexivity. Qed.
(** The code violates the rest: a reference with the wrong case makes the name wrong in the result, or is an error, depending on the order of files. *)
Definition case_files (first : string) : list (key * file) :=
  let referring := (key_in first, File (Some [SField (TypeScalar (local "b")) (name_of "x"); sealed_directive]) None) in
  let plain := (key_in "B", File (Some [sealed_directive]) None) in
  if String.eqb first "A" then [referring; plain] else [plain; referring].
Theorem C95_case_refuted : (exists rs, ex_compile (case_files "A") = Done rs /\ map fst rs = [key_in "b"; key_in "A"]) /\ ex_compile (case_files "C") = Fail.
Proof. split; [eexists; split; vm_compute; reflexivity|vm_compute; reflexivity]. Qed.
Print Assumptions C95_case_refuted.

(** * C96: what a type refers to *)

(** The types inside of a compiled type, at any depth, are those in the result, under the name by which it refers to them. *)
Theorem C96_embedded : forall nfc powf sort_sets to_float files rs, compile nfc powf sort_sets to_float files = Done rs ->
  forall k c m k' inner, In (k, c) rs -> In m (messages c) -> contains m k' inner -> exists port, In (k', Compiled port (KMessage inner)) rs.
Proof.
  intros nfc powf ss tf files rs H k c m k' inner I M C. apply in_split in I. destruct I as (pre & post & E). destruct (contained_before nfc powf ss tf files rs H m k' inner C pre k c post E M) as (port & X). exists port. rewrite E. apply in_or_app. left. exact X.
Qed.
Print Assumptions C96_embedded.
(** No type contains itself. *)
Theorem C96_acyclic : forall nfc powf sort_sets to_float files rs, distinct files -> compile nfc powf sort_sets to_float files = Done rs ->
  forall k c m k' inner, In (k, c) rs -> In m (messages c) -> contains m k' inner -> ~ same_key k k'.
Proof.
  intros nfc powf ss tf files rs D H k c m k' inner I M C. apply in_split in I. destruct I as (pre & post & E). destruct (contained_before nfc powf ss tf files rs H m k' inner C pre k c post E M) as (port & X). apply (rs_distinct nfc powf ss tf files rs H D pre k c post k' (Compiled port (KMessage inner)) E). apply in_or_app. left. exact X.
Qed.
Print Assumptions C96_acyclic.
Definition cyclic_files : list (key * file) :=
  [(key_in "A", File (Some [SField (TypeScalar (local "B")) (name_of "x"); sealed_directive]) None); (key_in "B", File (Some [SField (TypeScalar (local "A")) (name_of "x"); sealed_directive]) None)].
Example C96_witness : (exists rs m inner, ex_compile ex_files = Done rs /\ In (key_in "Service", Compiled (Some 99) (KService m inner)) rs /\ exists k i, contains m k i /\ k = key_in "Inner") /\ ex_compile cyclic_files = Fail.
Proof.
  split; [|vm_compute; reflexivity]. eexists. eexists. eexists. split; [vm_compute; reflexivity|]. split; [right; right; left; vm_compute; reflexivity|]. eexists. eexists. split; [|vm_compute; reflexivity].
  eapply co_inside; [eexists; eexists; split; [left; reflexivity|reflexivity]|]. eapply co_member. eexists. eexists. split; [left; reflexivity|reflexivity].
Qed.

(** * C97: deprecation *)

(** A type that is not deprecated contains no deprecated type, at any depth. *)
Theorem C97_deprecated : forall nfc powf sort_sets to_float files rs, compile nfc powf sort_sets to_float files = Done rs ->
  forall k c m k' inner, In (k, c) rs -> In m (messages c) -> contains m k' inner -> c_deprecated inner = true -> c_deprecated m = true.
Proof.
  intros nfc powf ss tf files rs H k c m k' inner I M C. revert k c I M.
  assert (D : forall k c m k' inner, In (k, c) rs -> In m (messages c) -> refers (c_kind m) k' inner -> c_deprecated inner = true -> c_deprecated m = true).
  { clear m k' inner C. intros k c m k' inner I1 M1 R1 D1. apply in_split in I1. destruct I1 as (pre & post & E). destruct (entry_made nfc powf ss tf files rs H pre k c post E) as (k0 & f & sts & _ & _ & _ & _ & X & _). destruct (made_messages tf pre sts _ c m X M1) as (sect & d & pad & S & _).
    rewrite (ds_deprecated _ _ _ _ _ _ (sm_describes _ _ _ _ _ _ _ S)). pose proof (sm_hidden _ _ _ _ _ _ _ S) as Hh. rewrite Forall_forall in Hh. destruct R1 as (t & name & It & Et). specialize (Hh _ It). cbn [not_hidden] in Hh. rewrite Et in Hh. auto. }
  induction C as [m k' inner R|m k1 inner1 k' inner R C IH]; intros k c I M E.
  - apply (D k c m k' inner I M R E).
  - apply (D k c m k1 inner1 I M R). destruct (C96_embedded nfc powf ss tf files rs H k c m k1 inner1 I M (co_member _ _ _ R)) as (port & X). apply (IH k1 _ X); [left; reflexivity|exact E].
Qed.
Print Assumptions C97_deprecated.
Definition hidden_files : list (key * file) :=
  [(key_in "A", File (Some [SField (TypeScalar (local "B")) (name_of "x"); sealed_directive]) None); (key_in "B", File (Some [deprecated_directive; sealed_directive]) None)].
Example C97_witness : ex_compile hidden_files = Fail /\ exists rs, ex_compile ex_files = Done rs /\ map (fun r => map c_deprecated (messages (snd r))) rs = [[false]; [true]; [true; true]].
Proof. split; [vm_compute; reflexivity|]. eexists. split; vm_compute; reflexivity. Qed.

(** * C98: what a type is compiled to *)

(** Every result is what its file declares: the members with their types, in order; the constants; the extent; whether it is a union, a
    service or deprecated. *)
Theorem C98_declared : forall nfc powf sort_sets to_float files rs, compile nfc powf sort_sets to_float files = Done rs ->
  forall k c, In (k, c) rs -> exists k0 f sts, In (k0, f) files /\ same_key k0 k /\ file_content f = Some sts /\ port_id c = file_port f /\ file_for to_float rs (key_path k) sts (compiled_kind c).
Proof.
  intros nfc powf ss tf files rs H k c I. apply in_split in I. destruct I as (pre & post & E). destruct (entry_made nfc powf ss tf files rs H pre k c post E) as (k0 & f & sts & E1 & E2 & E3 & E4 & E5 & _). exists k0, f, sts. split; [exact E1|]. split; [exact E2|]. split; [exact E3|]. split; [exact E4|]. apply (file_made_for tf rs pre); [|exact E5]. rewrite E. apply incl_appl, incl_refl.
Qed.
Print Assumptions C98_declared.
Example C98_witness : exists rs m, ex_compile ex_files = Done rs /\ In (key_in "Inner", Compiled None (KMessage m)) rs /\ c_extent m = Delimited 1024 /\ c_deprecated m = false /\
  c_constants m = [(name_of "X", Constant (PUInt 8) (VRat (integer 5)) (CInt 5))] /\
  members (c_kind m) = [MemberData (FScalar (RPrimitive (PUInt 16))) (name_of "a"); MemberPadding 3; MemberData (FVariable (RPrimitive PBool) 10) (name_of "b")].
Proof. eexists. eexists. split; [vm_compute; reflexivity|]. split; [left; vm_compute; reflexivity|]. repeat split; vm_compute; reflexivity. Qed.

(** * C99: lengths and alignment *)

(** The length set of a message, and of a response, is the one that the code generator model (C66-C72) calculates for the type; that of a request
    is it except for the padding to bytes. *)
Theorem C99_lengths_partial : forall nfc powf sort_sets to_float files rs, compile nfc powf sort_sets to_float files = Done rs ->
  forall k port kind, In (k, Compiled port kind) rs ->
  match kind with
  | KMessage m => c_length m = bit_length (erase m)
  | KService request response => bls_pad (c_length request) 8 = bit_length (erase request) /\ c_length response = bit_length (erase response)
  end.
Proof.
  intros nfc powf ss tf files rs H k port kind I. apply in_split in I. destruct I as (pre & post & E). pose proof (prefix_sized nfc powf ss tf files rs H pre _ E) as L. destruct (entry_made nfc powf ss tf files rs H pre k _ post E) as (k0 & f & sts & _ & _ & _ & _ & M & _). cbn [compiled_kind] in M.
  destruct M as [d m N D S|b a d r m Es N1 N2 D F S1 S2].
  - apply (right_sized pre (key_path k) sts m true L); [apply S|apply S, L].
  - split; [apply (right_sized pre (key_path k) b r false L); [apply S1|apply S1, L]|apply (right_sized pre (key_path k) a m true L); [apply S2|apply S2, L] ].
Qed.
Print Assumptions C99_lengths_partial.
(** So the lengths of values are in it, with the exceptions of C71. *)
Theorem C99_values_partial : forall nfc powf sort_sets to_float files rs, compile nfc powf sort_sets to_float files = Done rs ->
  forall k port m v, In (k, Compiled port (KMessage m)) rs -> compiles (erase m) -> counted (erase m) = true -> fits (erase m) v = true -> den (c_length m) (N.of_nat (length (enc (erase m) v))).
Proof.
  intros nfc powf ss tf files rs H k port m v I C K F. pose proof (C99_lengths_partial nfc powf ss tf files rs H k port (KMessage m) I) as E. cbn beta iota in E. rewrite E. apply (C71_lengths_partial (erase m) v C K F).
Qed.
Print Assumptions C99_values_partial.
(** The flags that say which fields begin at a byte boundary, and the sizes of discriminants, are those of the code generator model. *)
Theorem C99_flags : forall nfc powf sort_sets to_float files rs, compile nfc powf sort_sets to_float files = Done rs ->
  forall k c m, In (k, c) rs -> In m (messages c) ->
  match c_kind m with
  | CStruct fs => map flag fs = map fst (with_flags None (map (erase_field erase) fs))
  | CUnion bits vs => bits = discriminant_bits (length vs)
  end.
Proof.
  intros nfc powf ss tf files rs H k c m I M. apply in_split in I. destruct I as (pre & post & E). pose proof (prefix_sized nfc powf ss tf files rs H pre _ E) as L. destruct (entry_made nfc powf ss tf files rs H pre k _ post E) as (k0 & f & sts & _ & _ & _ & _ & X & _). destruct (made_messages tf pre sts _ c m X M) as (sect & d & pad & S & _). apply (sm_length _ _ _ _ _ _ _ S L).
Qed.
Print Assumptions C99_flags.
Example C99_witness : exists rs m o, ex_compile ex_files = Done rs /\ In (key_in "Inner", Compiled None (KMessage m)) rs /\ compiles (erase m) /\ counted (erase m) = true /\ bls_expand (c_length m) = Ok o /\ o = [32; 40] /\
  match c_kind m with CStruct fs => map flag fs = [true; true; false] | _ => False end.
Proof.
  eexists. eexists. eexists. split; [vm_compute; reflexivity|]. split; [left; vm_compute; reflexivity|]. split; [split; [vm_compute; reflexivity|]; eexists; vm_compute; reflexivity|]. split; [vm_compute; reflexivity|]. split; [vm_compute; reflexivity|]. split; vm_compute; reflexivity.
Qed.
(** The code violates it for requests, which are not padded to bytes. *)
Theorem C99_request_refuted : exists rs request response, ex_compile [(key_in "S", File (Some [SField (uint 7) (name_of "x"); sealed_directive; SMarker; SField (uint 7) (name_of "x"); sealed_directive]) None)] = Done rs /\
  In (key_in "S", Compiled None (KService request response)) rs /\ bls_expand (c_length request) = Ok [7] /\ bls_expand (c_length response) = Ok [8] /\ bls_expand (bit_length (erase request)) = Ok [8].
Proof. eexists. eexists. eexists. split; [vm_compute; reflexivity|]. split; [left; vm_compute; reflexivity|]. repeat split; vm_compute; reflexivity. Qed.
Print Assumptions C99_request_refuted.

(** * C100: statements are accepted only in order, and assertions hold *)

Theorem C100_order : forall nfc powf sort_sets to_float files rs, distinct files -> compile nfc powf sort_sets to_float files = Done rs ->
  forall k f, In (k, f) files -> exists sts, file_content f = Some sts /\ sections_ordered sts /\
    forall e, In (SDirective DAssert (Some e)) sts -> forall w, denotes e w -> w = VBool true.
Proof.
  intros nfc powf ss tf files rs D H k f I. pose proof (compile_items nfc powf ss tf files rs H D) as P. assert (X : In (file_item (k, f)) (map done_item rs)) by (apply (Permutation_in _ P); apply in_map; exact I).
  apply in_map_iff in X. destruct X as ( (k1 & c) & X1 & X2). unfold done_item, file_item in X1. cbn [fst snd] in X1. assert (Sk : same_key k1 k) by (apply folded_same; congruence). apply in_split in X2. destruct X2 as (pre & post & E).
  destruct (entry_made nfc powf ss tf files rs H pre k1 c post E) as (k0 & f0 & sts & I0 & S0 & C0 & _ & M & g & R).
  assert (Ef : f0 = f).
  { assert (S2 : same_key k0 k) by (apply (same_trans _ k1); assumption). clear - D I I0 S2. unfold distinct in D. apply ForallOrdPairs_In with (x := (k0, f0)) (y := (k, f)) in D; try assumption. destruct D as [D|[D|D] ]; [congruence|destruct (D S2)|destruct D; apply same_sym, S2]. }
  subst f0. exists sts. split; [exact C0|]. split; [|apply (runs_assertions _ _ _ _ _ R)]. destruct M as [d m N _ S|b a d r m -> N1 N2 _ F S1 S2]; [apply so_message; [exact N|apply S]|apply so_service; try assumption; [apply S1|apply S2] ].
Qed.
Print Assumptions C100_order.
Definition one_file (sts : list statement) : list (key * file) := [(key_in "T", File (Some sts) None)].
Example C100_witness : (exists rs, ex_compile ex_files = Done rs) /\ sections_ordered [deprecated_directive; SField (uint 3) (name_of "x"); sealed_directive; SMarker; sealed_directive] /\
  ex_compile (one_file [sealed_directive; SField (uint 3) (name_of "x")]) = Fail /\ ex_compile (one_file [assertion (EBinary Equal (num 2) (num 3)); sealed_directive]) = Fail.
Proof.
  split; [eexists; vm_compute; reflexivity|]. split; [|split; vm_compute; reflexivity].
  change [deprecated_directive; SField (uint 3) (name_of "x"); sealed_directive; SMarker; sealed_directive] with ([deprecated_directive; SField (uint 3) (name_of "x"); sealed_directive] ++ SMarker :: [sealed_directive]).
  assert (O : exists rs, ex_compile (one_file ([deprecated_directive; SField (uint 3) (name_of "x"); sealed_directive] ++ SMarker :: [sealed_directive])) = Done rs) by (eexists; vm_compute; reflexivity). destruct O as (rs & O).
  destruct (C100_order _ _ _ _ (one_file _) rs (FOP_cons _ (Forall_nil _) (FOP_nil _)) O _ _ (or_introl eq_refl)) as (sts & E & S & _). injection E as <-. exact S.
Qed.

(** * C101: the rules for names and extents *)

(** Members have different names, and so have constants; a union has at least two variants; an extent is a multiple of eight bits.  Missing: a
    constant and a field can have the same name, the names of members can be reserved, and the extent can be shorter than the type. *)
Theorem C101_rules_partial : forall nfc powf sort_sets to_float files rs, compile nfc powf sort_sets to_float files = Done rs ->
  forall k c m, In (k, c) rs -> In m (messages c) ->
  NoDup (member_names (members (c_kind m))) /\ NoDup (map fst (c_constants m)) /\ (forall name x, In (name, x) (c_constants m) -> ~ reserved name) /\
  (is_union (c_kind m) -> (2 <= length (members (c_kind m)))%nat /\ forall bits, ~ In (MemberPadding bits) (members (c_kind m))) /\
  (forall bits, c_extent m = Delimited bits -> bits mod 8 = 0 /\ bits < 2 ^ 64).
Proof.
  intros nfc powf ss tf files rs H k c m I M. apply in_split in I. destruct I as (pre & post & E). destruct (entry_made nfc powf ss tf files rs H pre k _ post E) as (k0 & f & sts & _ & _ & _ & _ & X & _). destruct (made_messages tf pre sts _ c m X M) as (sect & d & pad & S & _). pose proof (sm_describes _ _ _ _ _ _ _ S) as Ds.
  split; [apply S|]. split; [apply S|]. split.
  - intros name x Ix. destruct (Forall2_In_r _ _ _ _ (ds_constants _ _ _ _ _ _ Ds) Ix) as (st & _ & F). inversion F. subst. assumption.
  - split.
    + intro U. split; [apply S, U|]. intros bits Ib. destruct (c_kind m) as [fs|n vs]; [destruct U|]. cbn [members] in Ib. apply in_map_iff in Ib. destruct Ib as (v & Ev & _). discriminate Ev.
    + intros bits Eb. destruct (ds_ending _ _ _ _ _ _ Ds) as (st & _ & F). rewrite Eb in F. inversion F. subst. auto.
Qed.
Print Assumptions C101_rules_partial.
Example C101_witness : (exists rs, ex_compile ex_files = Done rs) /\ ex_compile (one_file [SField (uint 8) (name_of "x"); SField (uint 8) (name_of "x"); sealed_directive]) = Fail /\
  ex_compile (one_file [union_directive; SField (uint 8) (name_of "x"); sealed_directive]) = Fail /\ ex_compile (one_file [SField (uint 8) (name_of "x"); extent_directive 12]) = Fail.
Proof. split; [eexists; vm_compute; reflexivity|]. repeat split; vm_compute; reflexivity. Qed.
Theorem C101_names_refuted : exists rs m x, ex_compile (one_file [SConstant (PUInt 8) (name_of "x") (num 5); SField (uint 8) (name_of "x"); SField (uint 8) (name_of "void"); sealed_directive]) = Done rs /\
  In (key_in "T", Compiled None (KMessage m)) rs /\ In (name_of "x", x) (c_constants m) /\ In (name_of "x") (member_names (members (c_kind m))) /\ In (name_of "void") (member_names (members (c_kind m))) /\ reserved (name_of "void").
Proof.
  eexists. eexists. eexists. split; [vm_compute; reflexivity|]. split; [left; vm_compute; reflexivity|]. split; [left; vm_compute; reflexivity|]. split; [left; vm_compute; reflexivity|]. split; [right; left; vm_compute; reflexivity|]. apply reserved_right. vm_compute. reflexivity.
Qed.
Print Assumptions C101_names_refuted.
Theorem C101_extent_refuted : exists rs m, ex_compile (one_file [SField (uint 32) (name_of "x"); extent_directive 8]) = Done rs /\ In (key_in "T", Compiled None (KMessage m)) rs /\
  c_extent m = Delimited 8 /\ bls_min_value (c_length m) = Ok 32.
Proof. eexists. eexists. split; [vm_compute; reflexivity|]. split; [left; vm_compute; reflexivity|]. split; vm_compute; reflexivity. Qed.
Print Assumptions C101_extent_refuted.
