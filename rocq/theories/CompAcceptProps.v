(** Properties C99 (alignment) and C102: what the flags of compiled fields mean, and which packages of DSDL files are accepted. *)
From Coq Require Import String QArith Qcanon Lia Permutation.
From Verif Require Import Base EncModel BlsModel BlsSpec BlsProofs GenModel GenSpec GenLenProofs GenProps ExprModel ExprSpec ExprProofs PkgModel PkgSpec PkgProofs CompModel CompSpec CompProofs CompFileProofs CompProps CompAcceptSpec CompAcceptProofs.
Open Scope list_scope.
Open Scope N_scope.

(** * C99: alignment *)

(** A field has the flag exactly if every length that the fields before it can have is a whole number of bytes (all lengths fit into 64 bits). *)
Theorem C99_aligned : forall nfc powf sort_sets to_float files rs, compile nfc powf sort_sets to_float files = Done rs ->
  forall k c m earlier f later, In (k, c) rs -> In m (messages c) -> c_kind m = CStruct (earlier ++ f :: later) -> bls_ok (struct_length bit_length None (map (erase_field erase) (earlier ++ f :: later))) ->
  (flag f = true <-> forall v, den (struct_length bit_length None (map (erase_field erase) earlier)) v -> v mod 8 = 0).
Proof.
  intros nfc powf ss tf files rs H k c m a f b I M K O. pose proof (C99_flags nfc powf ss tf files rs H k c m I M) as F. rewrite K in F. rewrite !map_app in F. cbn [map] in F. rewrite with_flags_app in F. rewrite map_app in F. cbn [map fst] in F.
  assert (L : length (map flag a) = length (map fst (with_flags None (map (erase_field erase) a)))) by (rewrite !map_length, with_flags_length, map_length; reflexivity). apply app_inj_length in F; [|exact L]. destruct F as (_ & F). injection F as F _.
  destruct a as [|x a].
  - cbn [map struct_length] in *. rewrite F. cbn [always_aligned]. split; [|reflexivity]. intros _ v V. apply den_single in V. subst v. reflexivity.
  - rewrite map_app in O. destruct (aligned_prefix (map (erase_field erase) (x :: a)) (map (erase_field erase) (f :: b))) as (y & Y & Z); [intro E; discriminate E|exact O|]. rewrite F. cbn [map] in *. cbn [always_aligned]. rewrite Y. exact Z.
Qed.
Print Assumptions C99_aligned.
Example C99_aligned_witness : exists rs m, ex_compile ex_files = Done rs /\ In (key_in "Inner", Compiled None (KMessage m)) rs /\
  exists a b c, c_kind m = CStruct ([a; b] ++ c :: []) /\ bls_ok (struct_length bit_length None (map (erase_field erase) ([a; b] ++ c :: []))) /\ flag b = true /\ flag c = false.
Proof.
  eexists. eexists. split; [vm_compute; reflexivity|]. split; [left; vm_compute; reflexivity|]. eexists. eexists. eexists. split; [reflexivity|]. split; [|split; reflexivity]. apply bls_okb_right. vm_compute. reflexivity.
Qed.

(** * C102: acceptance *)

(** If every file of a package declares a type by the rules -- its statements are in order, its expressions have values, assertions hold, names
    are different, lengths fit into 64 bits, types that are referred to are declared and not hidden or services -- then the package is compiled,
    to these types. *)
Theorem C102_accepted : forall nfc powf sort_sets to_float files types, distinct files -> right_types to_float files types ->
  exists rs, compile nfc powf sort_sets to_float files = Done rs /\ Permutation rs types.
Proof. intros nfc powf ss tf files types D H. apply (plan_accepted nfc powf ss tf files types D H). Qed.
Print Assumptions C102_accepted.
Definition union_file : file :=
  File (Some [deprecated_directive; union_directive; SField (TypeScalar (local "Inner")) (name_of "a"); SField (TypeArray (Versioned (key_in "Inner")) AFixed (num 2)) (name_of "b"); sealed_directive]) (Some 1234).
Definition more_files : list (key * file) := [(key_in "Outer", union_file); (key_in "Inner", inner_file); (key_in "Service", service_file)].
Lemma more_distinct : distinct more_files.
Proof. repeat constructor; (intros (_ & X & _); vm_compute in X; discriminate X). Qed.
Definition message_with (pad deprecated : bool) (e : extent) (k : ckind cmessage) (constants : list (text * constant)) : cmessage :=
  let l := unpadded (CMessage deprecated e k (bls_single 0) constants) in CMessage deprecated e k (if pad then bls_pad l 8 else l) constants.
Definition inner_type : cmessage :=
  message_with true false (Delimited 1024) (CStruct [FData (FScalar (RPrimitive (PUInt 16))) (name_of "a") true; FPadding 3 true; FData (FVariable (RPrimitive PBool) 10) (name_of "b") false])
    [(name_of "X", Constant (PUInt 8) (VRat (integer 5)) (CInt 5))].
Definition outer_type : cmessage :=
  message_with true true Sealed (CUnion 8 [(FScalar (RComposite (key_in "Inner") inner_type), name_of "a"); (FFixed (RComposite (key_in "Inner") inner_type) 2, name_of "b")]) [].
Definition request_type : cmessage :=
  message_with false true Sealed (CStruct [FData (FScalar (RComposite (key_in "Outer") outer_type)) (name_of "o") true; FData (FScalar (RPrimitive (PUInt 7))) (name_of "x") true]) [].
Definition response_type : cmessage := message_with true true (Delimited 64) (CStruct [FData (FScalar (RPrimitive (PUInt 3))) (name_of "x") true]) [].
Definition more_types : list (key * compiled) :=
  [(key_in "Inner", Compiled None (KMessage inner_type)); (key_in "Outer", Compiled (Some 1234) (KMessage outer_type)); (key_in "Service", Compiled (Some 99) (KService request_type response_type))].
Ltac not_in := cbn [In]; let X := fresh "X" in intro X; repeat (destruct X as [X|X]; [discriminate X|]); destruct X.
Ltac in_order :=
  let pre := fresh "pre" in let st := fresh "st" in let post := fresh "post" in let E := fresh "E" in intros pre st post E; unfold assertion, extent_directive in E;
  repeat (destruct pre as [|? pre]; [injection E as <- _; constructor; unfold union_directive, deprecated_directive, sealed_directive; cbn; intros; try discriminate; try contradiction; repeat split; intros; try congruence; try lia; intuition congruence|injection E as <- E]);
  destruct pre; discriminate E.
Lemma number_of n : number (num (Z.of_N n)) n.
Proof. apply de_number. Qed.
Lemma inner_right : file_declares (fun _ _ => None) [] [name_of "ns"] (match file_content inner_file with Some sts => sts | None => [] end) (KMessage inner_type).
Proof.
  cbn [inner_file file_content]. apply (fd_message _ _ _ _ false); [not_in|split; [intro X; discriminate X|not_in]|]. constructor.
  - repeat constructor. apply (de_arithmetic _ _ _ (integer 5) (integer 6) (integer 11)); constructor.
  - split; [intros []|not_in].
  - repeat constructor. rewrite <- reserved_right. intro X. vm_compute in X. discriminate X.
  - eexists. split; [reflexivity|]. apply (ew_extent (num (Z.of_N 1024)) 1024); [apply number_of|reflexivity|reflexivity].
  - reflexivity.
  - intros e I. cbn [In] in I. destruct I as [I|[I|[I|[I|[I|[I|[] ] ] ] ] ] ]; try discriminate I. pose proof (f_equal (fun st => match st with SDirective _ x => x | _ => None end) I) as J. cbn [assertion] in J. subst e. eexists. split; [reflexivity|]. apply (de_true _ _ _ (integer 2) (integer 2)); [left; reflexivity|constructor| |reflexivity].
    apply (de_arithmetic _ _ _ (integer 1) (integer 1) (integer 2)); constructor.
  - intros e. not_in.
  - repeat constructor; cbn [In]; intros X; repeat (destruct X as [X|X]; [vm_compute in X; discriminate X|]); destruct X.
  - intros k inner (t & name & I & E). cbn [members c_kind inner_type message_with map member_of_field In] in I. repeat (destruct I as [I|I]; [try discriminate I; injection I as <- <-; discriminate E|]). destruct I.
  - in_order.
  - split; [reflexivity|]. split; [apply bls_okb_right; vm_compute; reflexivity|vm_compute; reflexivity].
Qed.
Lemma outer_right : file_declares (fun _ _ => None) [(key_in "Inner", Compiled None (KMessage inner_type))] [name_of "ns"] (match file_content union_file with Some sts => sts | None => [] end) (KMessage outer_type).
Proof.
  cbn [union_file file_content]. apply (fd_message _ _ _ _ true); [not_in|split; [intros _; left; reflexivity|reflexivity]|]. constructor.
  - constructor; [|constructor; [|constructor] ].
    + constructor. constructor. apply (sf_local _ [name_of "ns"] (name_of "Inner") 1 0 None). left. reflexivity.
    + constructor. apply (tw_fixed _ _ _ _ (num (Z.of_N 2)) 2); [|apply number_of|reflexivity]. apply (sf_full _ _ (key_in "Inner") None); [intro X; discriminate X|left; reflexivity].
  - split; [intros _; right; left; reflexivity|intros _; exact Logic.I].
  - constructor.
  - eexists. split; [reflexivity|constructor].
  - reflexivity.
  - intros e. not_in.
  - intros e. not_in.
  - repeat constructor; cbn [In]; intros X; repeat (destruct X as [X|X]; [vm_compute in X; discriminate X|]); destruct X.
  - reflexivity.
  - in_order.
  - split; reflexivity.
Qed.
Lemma service_right : file_declares (fun _ _ => None) [(key_in "Inner", Compiled None (KMessage inner_type)); (key_in "Outer", Compiled (Some 1234) (KMessage outer_type))] [name_of "ns"] (match file_content service_file with Some sts => sts | None => [] end) (KService request_type response_type).
Proof.
  cbn [service_file file_content]. apply (fd_service _ _ _ [deprecated_directive; SField (TypeScalar (local "Outer")) (name_of "o"); SField (uint 7) (name_of "x"); sealed_directive] [SField (uint 3) (name_of "x"); extent_directive 64] true); [not_in|not_in|split; [intros _; left; reflexivity|reflexivity]|intro e; not_in| |]; constructor.
  - constructor; [|constructor; [|constructor] ].
    + constructor. constructor. apply (sf_local _ [name_of "ns"] (name_of "Outer") 1 0 (Some 1234)). right. left. reflexivity.
    + repeat constructor.
  - split; [intros []|not_in].
  - constructor.
  - eexists. split; [reflexivity|constructor].
  - reflexivity.
  - intros e. not_in.
  - intros e. not_in.
  - repeat constructor; cbn [In]; intros X; repeat (destruct X as [X|X]; [vm_compute in X; discriminate X|]); destruct X.
  - reflexivity.
  - in_order.
  - split; [reflexivity|]. split; [apply bls_okb_right; vm_compute; reflexivity|vm_compute; reflexivity].
  - repeat constructor.
  - split; [intros []|not_in].
  - constructor.
  - eexists. split; [reflexivity|]. apply (ew_extent (num (Z.of_N 64)) 64); [apply number_of|reflexivity|reflexivity].
  - reflexivity.
  - intros e. not_in.
  - intros e. not_in.
  - repeat constructor; cbn [In]; tauto.
  - reflexivity.
  - in_order.
  - split; [reflexivity|]. split; [apply bls_okb_right; vm_compute; reflexivity|vm_compute; reflexivity].
Qed.
Example C102_witness : distinct more_files /\ right_types (fun _ _ => None) more_files more_types.
Proof.
  split; [apply more_distinct|]. split; [apply perm_swap|]. intros pre k c post E. unfold more_types in E. repeat (destruct pre as [|? pre]; [injection E as <- <- _|injection E as <- E]).
  - eexists. split; [right; left; reflexivity|apply inner_right].
  - eexists. split; [left; reflexivity|apply outer_right].
  - eexists. split; [right; right; left; reflexivity|apply service_right].
  - destruct pre; discriminate E.
Qed.
