(** Properties C110-C118: generating Rust code from compiled DSDL files. *)
From Coq Require Import String QArith Qcanon Lia.
From Verif Require Import Base EncModel EncSpec EncReadProofs BlsModel BlsSpec BlsProofs GenModel GenSpec GenReadProofs GenProps ExprModel ExprSpec ExprProofs PkgModel PkgSpec PkgProofs CompModel CompSpec CompProofs CompProps CompAcceptProofs CodeModel CodeSpec CodeProofs CodeItemProofs CodeNameProofs CodeEnumProofs CodePlaceProofs.
Open Scope list_scope.
Open Scope N_scope.
Ltac Zify.zify_post_hook ::= Z.div_mod_to_equations.

(** ** Files for the examples *)
Definition no_comments (k : key) (r : role) : text := [].
Definition enum_comments (k : key) (r : role) : text := if text_eqb (key_name k) (name_of "Mode") then name_of " Modes" ++ 10 :: name_of "[canadensis(enum)]" else [].
Definition key_at (path : list string) (name : string) : key := Key (map name_of path) (name_of name) 1 0.
Definition mode_file (bits : nat) (values : list (string * Z)) : file :=
  File (Some (map (fun v => SConstant (PUInt bits) (name_of (fst v)) (num (snd v))) values ++ [SField (uint bits) (name_of "value"); sealed_directive])) None.
(** a package that refers to an external one: reg.Pair, ns.Mode, and ns.sub.Message, which has one of each *)
Definition code_files : list (key * file) :=
  [(key_at ["reg"] "Pair", File (Some [SField (uint 32) (name_of "a"); SField (TypeArray (Primitive (PInt 16)) AFixed (num 3)) (name_of "b"); extent_directive 128]) None);
   (key_at ["ns"] "Mode", mode_file 3 [("OFF", 0%Z); ("TURNED_ON", 5%Z)]);
   (key_at ["ns"; "sub"] "Message",
     File (Some [SField (TypeScalar (Versioned (key_at ["reg"] "Pair"))) (name_of "pair"); SField (TypeArray (Versioned (key_at ["ns"] "Mode")) AInclusive (num 4)) (name_of "modes"); SField (uint 7) (name_of "x"); sealed_directive]) (Some 6144));
   (key_at ["ns"; "sub"] "Get",
     File (Some [union_directive; SField (uint 8) (name_of "first_one"); SField (TypeArray (Primitive PBool) AFixed (num 11)) (name_of "second_one"); sealed_directive; SMarker; sealed_directive]) (Some 99))]%string.
Definition reg_external : packages := [([name_of "reg"], [name_of "reg_crate"; name_of "reg"])].
Definition code_result : list (key * compiled) := match ex_compile code_files with Done rs => rs | _ => [] end.
Definition code_tree : tree := match generate_code enum_comments code_result reg_external with Done t => t | _ => empty_tree end.
Lemma code_result_right : ex_compile code_files = Done code_result.
Proof. vm_compute. reflexivity. Qed.
Lemma code_tree_right : generate_code enum_comments code_result reg_external = Done code_tree.
Proof. vm_compute. reflexivity. Qed.

(** * C110: external packages *)

(** Types of packages that are external, or inside of external ones, are not generated; all others are. *)
Theorem C110_generated : forall comments e pk t k c r m, generate_code comments pk e = Done t -> In (k, c) pk -> declared_in c r m ->
  (not_external e (key_path k) <-> exists p g, In (IType g) (items_at p t) /\ g_key g = k /\ g_role g = r).
Proof.
  intros comments e pk t k c r m H I D. apply code_items in H as (l & H & ->). split.
  - intro N. apply external_none in N. destruct (items_done _ _ _ _ H k c I N) as (l' & G & L).
    pose proof (from_dsdl _ _ _ _ _ G) as F. assert (X : exists g, generate_rust_type k m (type_rust_name k r e) r (comments k r) e = Done g).
    { unfold declared_in in D. destruct (compiled_kind c); destruct r; try contradiction; subst m; [destruct F as (g & F & _)|destruct F as (g & g' & F & _)|destruct F as (g' & g & _ & F & _)]; exists g; exact F. }
    destruct X as (g & X). exists (module_path (g_name g)), g. pose proof (rust_type_keeps _ _ _ _ _ _ _ X) as (K1 & _ & K3 & _). split; [|split; assumption]. apply at_tree. split; [|reflexivity]. apply L. apply (from_dsdl_types _ _ _ _ _ g G). exists r, m. split; assumption.
  - intros (p & g & J & K & R). apply at_tree in J as (J & _). apply (items_types _ _ _ _ g H) in J as (k' & c' & _ & X & (r' & m' & _ & Y)). apply rust_type_keeps in Y as (Y & _). rewrite <- K, Y. apply external_none, X.
Qed.
Print Assumptions C110_generated.
(** Where a type refers to another one, it does so by the module of the innermost external package around it, or by the module where it is
    generated. *)
Theorem C110_references : forall nfc powf sort_sets to_float files rs, compile nfc powf sort_sets to_float files = Done rs -> (forall k c, In (k, c) rs -> proper k) ->
  forall comments e t, is_map e -> generate_code comments rs e = Done t ->
  forall p g n, In (IType g) (items_at p t) -> refers_to g n -> exists k port inner, In (k, Compiled port (KMessage inner)) rs /\ referenced_as e k n.
Proof.
  intros nfc powf ss tf files rs C P comments e t M H p g n I R. apply code_items in H as (l & H & ->). apply at_tree in I as (I & _). apply (items_types _ _ _ _ g H) in I as (k & c & I & _ & (r & m & D & G)).
  destruct (refers_from _ _ _ _ _ _ _ n G R) as (k' & inner & F & ->). destruct (C96_embedded _ _ _ _ _ _ C k c m k' inner I (declared_message c r m D) (co_member m k' inner F)) as (port & J). exists k', port, inner. split; [exact J|]. apply referenced_right; [exact M|apply (P _ _ J)].
Qed.
Print Assumptions C110_references.
(** the names of the types in a module, and the type of the first field of the first one *)
Definition names_at (p : list string) (t : tree) : list text := map (fun g => type_name (g_name g)) (types (items_at (map name_of p) t)).
Definition first_field (p : list string) (t : tree) : option rust_type :=
  match types (items_at (map name_of p) t) with g :: _ => match g_kind g with GStruct (GData _ r _ _ :: _) => Some r | _ => None end | [] => None end.
Example C110_witness : is_map reg_external /\ not_external reg_external [name_of "ns"; name_of "sub"] /\ external_for reg_external [name_of "reg"; name_of "x"] [name_of "reg_crate"; name_of "reg"; name_of "x"] /\
  names_at ["reg"; "pair_1_0"]%string code_tree = [] /\ names_at ["ns"; "sub"; "get_1_0"]%string code_tree = [name_of "GetRequest"; name_of "GetResponse"] /\
  first_field ["ns"; "sub"; "message_1_0"]%string code_tree = Some (RustNamed (RustName false [name_of "reg_crate"; name_of "reg"; name_of "pair_1_0"] (name_of "Pair"))).
Proof.
  assert (M : is_map reg_external) by (repeat constructor; intros []). split; [exact M|]. split; [apply external_none; vm_compute; reflexivity|]. split; [apply (external_some _ _ _ M); vm_compute; reflexivity|]. split; [vm_compute; reflexivity|]. split; [vm_compute; reflexivity|vm_compute; reflexivity].
Qed.

(** * C111: different names *)

(** The types in a module have different names.  Missing: packages with a part "_", and constants for port IDs. *)
Theorem C111_types_partial : forall comments e pk t, distinct pk -> (forall k c, In (k, c) pk -> proper k /\ Forall (fun w => w <> [95]) (key_path k)) -> generate_code comments pk e = Done t ->
  forall p, NoDup (map (fun g => type_name (g_name g)) (types (items_at p t))).
Proof. intros comments e pk t D P H p. apply code_items in H as (l & H & ->). apply module_names, (types_distinct _ _ _ _ H D P). Qed.
Print Assumptions C111_types_partial.
(** The fields and variants in a type have different names, if the names in the file follow one convention. *)
Theorem C111_members_partial : forall nfc powf sort_sets to_float files rs, compile nfc powf sort_sets to_float files = Done rs ->
  forall comments e t p g, generate_code comments rs e = Done t -> In (IType g) (items_at p t) ->
  exists c m, In (g_key g, c) rs /\ declared_in c (g_role g) m /\ (uniform (member_names (members (c_kind m))) -> uniform (map fst (c_constants m)) -> NoDup (inner_names g)).
Proof.
  intros nfc powf ss tf files rs C comments e t p g H I. apply code_items in H as (l & H & ->). apply at_tree in I as (I & _). apply (items_types _ _ _ _ g H) in I as (k & c & I & _ & (r & m & D & G)). pose proof (rust_type_keeps _ _ _ _ _ _ _ G) as (K1 & _ & K3 & _). rewrite K1, K3. exists c, m. split; [exact I|]. split; [exact D|]. intros U1 U2.
  destruct (C101_rules_partial _ _ _ _ _ _ C k c m I (declared_message c r m D)) as (D1 & D2 & _). apply (inner_distinct _ _ _ _ _ _ _ G U1 U2 D1 D2).
Qed.
Print Assumptions C111_members_partial.
Definition inner_at (p : list string) (t : tree) : list (list text) := map inner_names (types (items_at (map name_of p) t)).
Lemma code_keys : Forall (fun x => proper (fst x) /\ Forall (fun w => w <> [95]) (key_path (fst x))) code_result.
Proof.
  assert (T : map fst code_result = [key_at ["reg"%string] "Pair"; key_at ["ns"%string] "Mode"; key_at ["ns"; "sub"]%string "Message"; key_at ["ns"; "sub"]%string "Get"]) by (vm_compute; reflexivity).
  assert (P : Forall (fun k => proper k /\ Forall (fun w => w <> [95]) (key_path k)) (map fst code_result)).
  { rewrite T. repeat (constructor; [split; [constructor; [|vm_compute; reflexivity|vm_compute; reflexivity]|repeat constructor; discriminate]|]); [..|constructor];
      cbn [key_at key_path key_name map app]; repeat (apply Forall_cons; [apply identb_right; vm_compute; reflexivity|]); apply Forall_nil. }
  apply Forall_map in P. exact P.
Qed.
Example C111_witness : distinct code_result /\ (forall k c, In (k, c) code_result -> proper k /\ Forall (fun w => w <> [95]) (key_path k)) /\
  inner_at ["ns"; "mode_1_0"]%string code_tree = [ [name_of "Off"; name_of "TurnedOn"] ] /\ inner_at ["ns"; "sub"; "message_1_0"]%string code_tree = [ [name_of "pair"; name_of "modes"; name_of "x"] ] /\
  inner_at ["ns"; "sub"; "get_1_0"]%string code_tree = [ [name_of "FirstOne"; name_of "SecondOne"]; [] ] /\ uniform [name_of "OFF"; name_of "TURNED_ON"].
Proof.
  split; [|split; [|split; [vm_compute; reflexivity|split; [vm_compute; reflexivity|split; [vm_compute; reflexivity|] ] ] ] ].
  - assert (T : map fst code_result = [key_at ["reg"%string] "Pair"; key_at ["ns"%string] "Mode"; key_at ["ns"; "sub"]%string "Message"; key_at ["ns"; "sub"]%string "Get"]) by (vm_compute; reflexivity).
    revert T. generalize code_result. intros rs T. destruct rs as [|[k1 c1] [|[k2 c2] [|[k3 c3] [|[k4 c4] [|? ?] ] ] ] ]; try discriminate T. cbn [map fst] in T. injection T as -> -> -> ->. repeat constructor; cbn [fst]; (intros (A & B & _); vm_compute in A, B; congruence).
  - intros k c I. pose proof code_keys as K. rewrite Forall_forall in K. apply (K (k, c) I).
  - right. apply Forall_cons; [apply ww_one; exists 79, [70; 70]; split; [reflexivity|]; split; [lia|repeat constructor; lia]|]. apply Forall_cons; [|constructor]. change (name_of "TURNED_ON") with ([84; 85; 82; 78; 69; 68] ++ 95 :: [79; 78]). apply ww_more; [|apply ww_one]; (eexists; eexists; split; [reflexivity|]; split; [lia|repeat constructor; lia]).
Qed.
(** "_" and "_0" are made the same. *)
Theorem C111_packages_refuted : exists rs t, ex_compile [(key_at ["ns"; "_"]%string "T", File (Some [sealed_directive]) None); (key_at ["ns"; "_0"]%string "T", File (Some [sealed_directive]) None)] = Done rs /\ generate_code no_comments rs [] = Done t /\
  names_at ["ns"; "_0"; "t_1_0"]%string t = [name_of "T"; name_of "T"].
Proof. eexists. eexists. split; [vm_compute; reflexivity|]. split; [vm_compute; reflexivity|vm_compute; reflexivity]. Qed.
Print Assumptions C111_packages_refuted.
(** Two types can share a module, with two constants of the same name. *)
Theorem C111_constants_refuted : exists rs t, ex_compile [(key_in "FooBar", File (Some [sealed_directive]) (Some 1)); (key_in "Foo_Bar", File (Some [sealed_directive]) (Some 2))] = Done rs /\ generate_code no_comments rs [] = Done t /\
  map (fun x => (type_name (fst (fst x)), snd x)) (constants (items_at (map name_of ["ns"; "foo_bar_1_0"]%string) t)) = [(name_of "SUBJECT", 1); (name_of "SUBJECT", 2)].
Proof. eexists. eexists. split; [vm_compute; reflexivity|]. split; [vm_compute; reflexivity|vm_compute; reflexivity]. Qed.
Print Assumptions C111_constants_refuted.
Theorem C111_members_refuted : (exists rs t, ex_compile (one_file [union_directive; SField (uint 8) (name_of "a_b"); SField (uint 8) (name_of "aB"); sealed_directive]) = Done rs /\ generate_code no_comments rs [] = Done t /\
    inner_at ["ns"; "t_1_0"]%string t = [ [name_of "AB"; name_of "AB"] ]) /\
  (exists rs t, ex_compile (one_file [SField (uint 8) (name_of "_"); SField (uint 8) (name_of "_0"); sealed_directive]) = Done rs /\ generate_code no_comments rs [] = Done t /\
    inner_at ["ns"; "t_1_0"]%string t = [ [name_of "_0"; name_of "_0"] ]).
Proof. split; (eexists; eexists; split; [vm_compute; reflexivity|]; split; [vm_compute; reflexivity|vm_compute; reflexivity]). Qed.
Print Assumptions C111_members_refuted.

(** * C112: names are valid in Rust *)

(** Modules and items have valid names.  Missing: names of types that begin with a digit after underscores, and keywords of Rust. *)
Theorem C112_modules_partial : forall comments e pk t, (forall k c, In (k, c) pk -> proper k /\ Forall (fun w => ~ In w rust_keywords) (key_path k ++ [key_name k]) /\ first_letter (key_name k)) -> generate_code comments pk e = Done t ->
  forall p i, In i (items_at p t) -> Forall rust_identifier p /\ rust_identifier (type_name (item_name i)).
Proof.
  intros comments e pk t P H p i I. apply code_items in H as (l & H & ->). apply at_tree in I as (I & E). pose proof (item_path _ _ _ _ i H I) as (k & c & J & X & Q). destruct (P k c J) as (Pr & Kw & Fl). apply Forall_app in Kw as (Kw1 & Kw2). apply Forall_inv in Kw2. pose proof (pr_names k Pr) as Nm. apply Forall_app in Nm as (Nm1 & Nm2). apply Forall_inv in Nm2. split.
  - rewrite <- E, Q, (internal_name k e X). cbn [module_path]. apply Forall_app. split; [|constructor; [apply (version_identifier k Pr Fl)|constructor] ]. clear - Nm1 Kw1. induction (key_path k) as [|w ws IH]; [constructor|]. inversion Nm1; subst. inversion Kw1; subst. cbn [map]. constructor; [apply make_identifier; assumption|apply IH; assumption].
  - clear k c J X Q Pr Kw1 Kw2 Nm1 Nm2 Fl. destruct (items_from _ _ _ _ i H I) as (k & c & l' & I1 & X & G & J). destruct (P k c I1) as (Pr & Kw & _). apply Forall_app in Kw as (_ & Kw). apply Forall_inv in Kw. pose proof (pr_names k Pr) as Nm. apply Forall_app in Nm as (_ & Nm). apply Forall_inv in Nm.
    assert (T : forall r, rust_identifier (type_name (type_rust_name k r e))). { intro r. pose proof (type_name_identifier k r Nm Kw) as Y. unfold type_rust_name, with_suffix. rewrite (internal_name k e X). destruct r; cbn [type_name suffix] in *; [rewrite app_nil_r in Y| |]; exact Y. }
    assert (Cn : rust_identifier (name_of "SUBJECT") /\ rust_identifier (name_of "SERVICE")).
    { split; (split; [|split; [discriminate|intro Y; apply (upper_keyword 83) in Y; [discriminate Y|lia] ] ]); (apply identb_right; vm_compute; reflexivity). }
    apply from_dsdl in G. destruct (compiled_kind c) as [m|a b].
    + destruct G as (g & G & ->). apply rust_type_keeps in G as (_ & G & _). apply in_app_or in J as [J|J]; [destruct (port_id c); [destruct J as [<-|[] ]; apply Cn|destruct J]|]. destruct J as [<-|[] ]. cbn [item_name]. rewrite G. apply T.
    + destruct G as (g & g' & G & G' & ->). apply rust_type_keeps in G as (_ & G & _). apply rust_type_keeps in G' as (_ & G' & _). apply in_app_or in J as [J|J]; [destruct (port_id c); [destruct J as [<-|[] ]; apply Cn|destruct J]|]. destruct J as [<-|[<-|[] ] ]; cbn [item_name]; [rewrite G|rewrite G']; apply T.
Qed.
Print Assumptions C112_modules_partial.
(** Fields are named as in the file, so they have valid names unless those are keywords; variants have valid names if those in the file follow a
    convention, except for "self". *)
Definition variant_source (n : text) : Prop := conventional n /\ n <> name_of "self" /\ n <> name_of "SELF".
Theorem C112_members_partial : forall comments e pk t p g, generate_code comments pk e = Done t -> In (IType g) (items_at p t) ->
  exists c m, In (g_key g, c) pk /\ declared_in c (g_role g) m /\
    match g_kind g with
    | GStruct _ => Forall (fun n => identifier n /\ ~ In n rust_keywords) (member_names (members (c_kind m))) -> Forall rust_identifier (inner_names g)
    | GEnum _ _ => Forall variant_source (member_names (members (c_kind m))) -> Forall variant_source (map fst (c_constants m)) -> Forall rust_identifier (inner_names g)
    end.
Proof.
  intros comments e pk t p g H I. apply code_items in H as (l & H & ->). apply at_tree in I as (I & _). apply (items_types _ _ _ _ g H) in I as (k & c & I & _ & (r & m & D & G)). pose proof (rust_type_keeps _ _ _ _ _ _ _ G) as (K1 & _ & K3 & _). rewrite K1, K3. exists c, m. split; [exact I|]. split; [exact D|].
  apply inner_from in G. destruct (g_kind g) as [fs|bits vs].
  - destruct G as (_ & ->). intro F. apply Forall_map. eapply Forall_impl; [|exact F]. intros n (A & B). apply make_identifier; assumption.
  - destruct G as (names & N & ->). intros F1 F2. assert (F : Forall variant_source names) by (destruct N as [->|(-> & _)]; assumption). apply Forall_map. eapply Forall_impl; [|exact F]. intros n (A & B & B'). rewrite (conventional_make n A). apply variant_identifier; [exact A|]. intro E. destruct A as [A|A].
    + apply B. apply camel_lowercase; [exact A| |exact E]. apply ww_one. exists 115, [101; 108; 102]. split; [reflexivity|]. split; [lia|repeat constructor; lia].
    + apply B'. apply camel_uppercase; [exact A| |exact E]. apply ww_one. exists 83, [69; 76; 70]. split; [reflexivity|]. split; [lia|repeat constructor; lia].
Qed.
Print Assumptions C112_members_partial.
Example C112_witness : rust_identifier (name_of "node_status_1_0") /\ variant_source (name_of "TURNED_ON") /\ version_module (Key [name_of "ns"] (name_of "HTTPRequest2") 1 12) = name_of "http_request2_1_12" /\ camel (name_of "TURNED_ON") = name_of "TurnedOn".
Proof.
  split; [|split; [|split; [vm_compute; reflexivity|vm_compute; reflexivity]] ].
  - split; [|split; [discriminate|] ]; [apply identb_right; vm_compute; reflexivity|]. intro I. apply keywords_no_digit in I. rewrite Forall_forall in I. apply (I 49); [vm_compute; tauto|unfold is_digit; lia].
  - split; [|split; discriminate]. right. change (name_of "TURNED_ON") with ([84; 85; 82; 78; 69; 68] ++ 95 :: [79; 78]). apply ww_more; [|apply ww_one]; (eexists; eexists; split; [reflexivity|]; split; [lia|repeat constructor; lia]).
Qed.
(** A type "_0" is in a module "0_1_0"; the keyword "match" is used as a module and for a field; the variant for "self" is "Self", and that for "__"
    has no name at all. *)
Theorem C112_refuted : (exists rs t, ex_compile [(key_in "_0", File (Some [sealed_directive]) None)] = Done rs /\ generate_code no_comments rs [] = Done t /\ names_at ["ns"; "0_1_0"]%string t = [name_of "_0"] /\ ~ rust_identifier (name_of "0_1_0")) /\
  (exists rs t, ex_compile [(key_at ["ns"; "match"]%string "T", File (Some [SField (uint 8) (name_of "match"); sealed_directive]) None)] = Done rs /\ generate_code no_comments rs [] = Done t /\ inner_at ["ns"; "match"; "t_1_0"]%string t = [ [name_of "match"] ] /\ ~ rust_identifier (name_of "match")) /\
  (exists rs t, ex_compile (one_file [union_directive; SField (uint 8) (name_of "self"); SField (uint 8) (name_of "__"); sealed_directive]) = Done rs /\ generate_code no_comments rs [] = Done t /\ inner_at ["ns"; "t_1_0"]%string t = [ [name_of "Self"; [] ] ] /\ ~ rust_identifier (name_of "Self") /\ ~ rust_identifier []).
Proof.
  split; [|split]; (eexists; eexists; split; [vm_compute; reflexivity|]; split; [vm_compute; reflexivity|]; split; [vm_compute; reflexivity|]).
  - intros ( (c & r & E & L & _) & _). injection E as <- _. unfold is_letter in L. lia.
  - intros (_ & _ & N). apply N. vm_compute. tauto.
  - split; [intros (_ & _ & N); apply N; vm_compute; tauto|]. intros ( (c & r & E & _) & _). discriminate E.
Qed.
Print Assumptions C112_refuted.

(** * C113: where types are, and what they are made of *)

(** Every type that is not external is in the module for its package, name and version, under its name. *)
Theorem C113_placed : forall comments e pk t k c r m, generate_code comments pk e = Done t -> In (k, c) pk -> proper k -> not_external e (key_path k) -> declared_in c r m ->
  exists p g, module_for k p /\ In (IType g) (items_at p t) /\ named_for k r (type_name (g_name g)) /\ g_key g = k /\ g_role g = r /\
    g_size g = c_length m /\ g_extent g = c_extent m /\ g_deprecated g = c_deprecated m.
Proof.
  intros comments e pk t k c r m H I P N D. apply code_items in H as (l & H & ->). apply external_none in N. destruct (items_done _ _ _ _ H k c I N) as (l' & G & L).
  pose proof (from_dsdl _ _ _ _ _ G) as F. assert (X : exists g, generate_rust_type k m (type_rust_name k r e) r (comments k r) e = Done g).
  { unfold declared_in in D. destruct (compiled_kind c); destruct r; try contradiction; subst m; [destruct F as (g & F & _)|destruct F as (g & g' & F & _)|destruct F as (g' & g & _ & F & _)]; exists g; exact F. }
  destruct X as (g & X). pose proof (rust_type_keeps _ _ _ _ _ _ _ X) as (K1 & K2 & K3 & K4 & K5 & K6). exists (module_path (g_name g)), g. rewrite K2, type_module at 1. split; [apply (module_for_right k e P N)|]. split.
  - apply at_tree. split; [|reflexivity]. apply L. apply (from_dsdl_types _ _ _ _ _ g G). exists r, m. split; assumption.
  - rewrite K2. split; [apply named_for_right|]. repeat split; assumption.
Qed.
Print Assumptions C113_placed.
(** No other types are generated; structs have the fields, and unions the variants, that the file declares, with corresponding types. *)
Theorem C113_shape : forall nfc powf sort_sets to_float files rs, compile nfc powf sort_sets to_float files = Done rs -> (forall k c, In (k, c) rs -> proper k) ->
  forall comments e t p g, is_map e -> generate_code comments rs e = Done t -> In (IType g) (items_at p t) ->
  exists c m, In (g_key g, c) rs /\ not_external e (key_path (g_key g)) /\ declared_in c (g_role g) m /\
    (~ marked_enum (comments (g_key g) (g_role g)) -> narrow m -> shaped_as e m g /\ g_constants g = c_constants m).
Proof.
  intros nfc powf ss tf files rs C P comments e t p g M H I. apply code_items in H as (l & H & ->). apply at_tree in I as (I & _). apply (items_types _ _ _ _ g H) in I as (k & c & I & X & (r & m & D & G)). pose proof (rust_type_keeps _ _ _ _ _ _ _ G) as (K1 & _ & K3 & _). rewrite K1, K3. exists c, m. split; [exact I|]. split; [apply external_none, X|]. split; [exact D|].
  intros N W. apply (shaped_right _ _ _ _ _ _ _ M) in G; [exact G| |exact N]. intros t name J. split.
  - specialize (W t name). unfold scalar_width. destruct (ftype_scalar t) as [k' m'|p'|b]; [exact Logic.I|apply (W p' J eq_refl)|exact Logic.I].
  - intros k' inner E. destruct (C96_embedded _ _ _ _ _ _ C k c m k' inner I (declared_message c r m D)) as (port & Y); [apply co_member; exists t, name; auto|]. apply (P _ _ Y).
Qed.
Print Assumptions C113_shape.
(** Where generated code refers to a type that is not external, that type has been generated. *)
Theorem C113_resolves : forall nfc powf sort_sets to_float files rs, compile nfc powf sort_sets to_float files = Done rs ->
  forall comments e t p g n, generate_code comments rs e = Done t -> In (IType g) (items_at p t) -> refers_to g n -> internal n = true ->
  exists g', In (IType g') (items_at (module_path n) t) /\ type_name (g_name g') = type_name n /\ g_role g' = RoleMessage.
Proof.
  intros nfc powf ss tf files rs C comments e t p g n H I R V. apply code_items in H as (l & H & ->). apply at_tree in I as (I & _). apply (items_types _ _ _ _ g H) in I as (k & c & I & _ & (r & m & D & G)).
  destruct (refers_from _ _ _ _ _ _ _ n G R) as (k' & inner & F & ->). destruct (C96_embedded _ _ _ _ _ _ C k c m k' inner I (declared_message c r m D) (co_member m k' inner F)) as (port & J).
  assert (X : external_module (key_path k') e = None) by (unfold for_message_type in V; destruct (external_module (key_path k') e); [discriminate V|reflexivity]).
  destruct (items_done _ _ _ _ H _ _ J X) as (l' & G' & L). pose proof (from_dsdl _ _ _ _ _ G') as Q. cbn [compiled_kind] in Q. destruct Q as (g' & Q & E). pose proof (rust_type_keeps _ _ _ _ _ _ _ Q) as (_ & K2 & K3 & _). exists g'. rewrite K2. split; [|split; [reflexivity|exact K3] ].
  apply at_tree. split; [|cbn [item_name]; rewrite K2; reflexivity]. apply L. rewrite E. apply in_or_app. right. left. reflexivity.
Qed.
Print Assumptions C113_resolves.
(** No module has two modules of the same name, and nothing is at the top level. *)
Theorem C113_modules : forall comments e pk t, generate_code comments pk e = Done t -> well_named t /\ items_at [] t = [].
Proof.
  intros comments e pk t H. apply code_items in H as (l & H & ->). split; [apply tree_well_named|]. destruct (items_at [] (tree_of l)) as [|i r] eqn:E; [reflexivity|]. assert (I : In i (items_at [] (tree_of l))) by (rewrite E; left; reflexivity). apply at_tree in I as (I & P). destruct (item_path _ _ _ _ i H I) as (k & c & _ & _ & Q). rewrite P in Q. destruct (path_not_empty k e (eq_sym Q)).
Qed.
Print Assumptions C113_modules.
Definition field_at (p : list string) (n : nat) (t : tree) : option (text * rust_type) :=
  match types (items_at (map name_of p) t) with g :: _ => match g_kind g with GStruct fs => match nth_error fs n with Some (GData name r _ _) => Some (name, r) | _ => None end | _ => None end | [] => None end.
Definition variants_at (p : list string) (t : tree) : list (N * text * option rust_type) :=
  match types (items_at (map name_of p) t) with g :: _ => match g_kind g with GEnum _ vs => map (fun v => (v_discriminant v, v_name v, option_map fst (v_type v))) vs | _ => [] end | [] => [] end.
Example C113_witness : (forall k c, In (k, c) code_result -> proper k) /\
  field_at ["ns"; "sub"; "message_1_0"]%string 1 code_tree = Some (name_of "modes", RustVec (RustNamed (RustName true [name_of "ns"; name_of "mode_1_0"] (name_of "Mode"))) 4) /\
  field_at ["ns"; "sub"; "message_1_0"]%string 2 code_tree = Some (name_of "x", RustUnsigned 8) /\ names_at ["ns"; "mode_1_0"]%string code_tree = [name_of "Mode"] /\
  variants_at ["ns"; "sub"; "get_1_0"]%string code_tree = [(0, name_of "FirstOne", Some (RustUnsigned 8)); (1, name_of "SecondOne", Some (RustBitArray 2))].
Proof.
  split; [|repeat split; vm_compute; reflexivity]. intros k c I. pose proof code_keys as K. rewrite Forall_forall in K. apply (K (k, c) I).
Qed.

(** * C114: port IDs *)

(** There is a constant for every type with a fixed port ID, in the module of the type, and there are no others. *)
Theorem C114_constants : forall comments e pk t, (forall k c, In (k, c) pk -> proper k) -> generate_code comments pk e = Done t ->
  (forall k c id, In (k, c) pk -> not_external e (key_path k) -> port_id c = Some id ->
     exists p name kind d, module_for k p /\ port_for c name kind /\ In (IConstant (RustName true p name) kind id d) (items_at p t)) /\
  (forall p n kind id d, In (IConstant n kind id d) (items_at p t) -> exists k c, In (k, c) pk /\ not_external e (key_path k) /\ port_id c = Some id /\ module_for k p /\ port_for c (type_name n) kind).
Proof.
  intros comments e pk t P H. apply code_items in H as (l & H & ->). split.
  - intros k c id I N Po. apply external_none in N. destruct (items_done _ _ _ _ H k c I N) as (l' & G & L). apply from_dsdl in G. exists (module_path (for_message_type k e)). unfold port_for. rewrite Po in G. destruct (compiled_kind c) as [m|a b].
    + destruct G as (g & _ & ->). eexists. eexists. eexists. split; [apply (module_for_right k e (P k c I) N)|]. split; [split; reflexivity|]. apply at_tree. split; [apply L; left; reflexivity|reflexivity].
    + destruct G as (g & g' & _ & _ & ->). eexists. eexists. eexists. split; [apply (module_for_right k e (P k c I) N)|]. split; [split; reflexivity|]. apply at_tree. split; [apply L; left; reflexivity|reflexivity].
  - intros p n kind id d I. apply at_tree in I as (I & E). destruct (items_from _ _ _ _ _ H I) as (k & c & l' & J & X & G & I'). exists k, c. split; [exact J|]. split; [apply external_none, X|]. apply from_dsdl in G. unfold port_for. destruct (compiled_kind c) as [m|a b].
    + destruct G as (g & _ & ->). apply in_app_or in I' as [I'|I']; [|destruct I' as [I'|[] ]; discriminate I']. destruct (port_id c) as [id'|]; [|destruct I']. destruct I' as [I'|[] ]. injection I' as <- <- <- <-. split; [reflexivity|]. split; [|split; reflexivity]. rewrite <- E. apply (module_for_right k e (P k c J) X).
    + destruct G as (g & g' & _ & _ & ->). apply in_app_or in I' as [I'|I']; [|destruct I' as [I'|[I'|[] ] ]; discriminate I']. destruct (port_id c) as [id'|]; [|destruct I']. destruct I' as [I'|[] ]. injection I' as <- <- <- <-. split; [reflexivity|]. split; [|split; reflexivity]. rewrite <- E. apply (module_for_right k e (P k c J) X).
Qed.
Print Assumptions C114_constants.
(** The constant has the value of the ID if that is valid.  Missing: IDs that are not. *)
Theorem C114_values_partial : forall kind id, id <= match kind with PortSubject => 8191 | PortService => 511 end -> port_value kind id = Some id.
Proof.
  intros kind id H. unfold port_value. destruct (N.ltb_spec id (2 ^ 16)) as [L|L]; [|exfalso; change (2 ^ 16) with 65536 in L; destruct kind; lia]. f_equal. destruct kind; [change 8191 with (N.ones 13)|change 511 with (N.ones 9)]; rewrite N.land_ones; apply N.mod_small; [change (2 ^ 13) with 8192|change (2 ^ 9) with 512]; lia.
Qed.
Print Assumptions C114_values_partial.
Example C114_witness : constants (items_at (map name_of ["ns"; "sub"; "message_1_0"]%string) code_tree) = [(RustName true (map name_of ["ns"; "sub"; "message_1_0"]%string) (name_of "SUBJECT"), PortSubject, 6144)] /\
  constants (items_at (map name_of ["ns"; "sub"; "get_1_0"]%string) code_tree) = [(RustName true (map name_of ["ns"; "sub"; "get_1_0"]%string) (name_of "SERVICE"), PortService, 99)].
Proof. split; [vm_compute; reflexivity|vm_compute; reflexivity]. Qed.
(** A file "9000.T.1.0.dsdl" is accepted, and its constant is another ID. *)
Theorem C114_refuted : exists rs t, ex_compile [(key_in "T", File (Some [sealed_directive]) (Some 9000))] = Done rs /\ generate_code no_comments rs [] = Done t /\
  map (fun x => port_value (snd (fst x)) (snd x)) (constants (items_at (map name_of ["ns"; "t_1_0"]%string) t)) = [Some 808].
Proof. eexists. eexists. split; [vm_compute; reflexivity|]. split; [vm_compute; reflexivity|vm_compute; reflexivity]. Qed.
Print Assumptions C114_refuted.

(** * C115: types that are generated as enums *)

(** If the comment of a type asks for an enum, and code is generated, then the type meets the requirements and there is an enum with a variant for each
    constant, and no constants beside them. *)
Theorem C115_accepted : forall nfc powf sort_sets to_float files rs, compile nfc powf sort_sets to_float files = Done rs -> (forall k c, In (k, c) rs -> proper k) ->
  forall comments e t k c r m, generate_code comments rs e = Done t -> In (k, c) rs -> not_external e (key_path k) -> declared_in c r m -> marked_enum (comments k r) ->
  exists bits p g vs, enum_ready m bits /\ module_for k p /\ In (IType g) (items_at p t) /\ g_key g = k /\ g_role g = r /\ g_kind g = GEnum (N.of_nat bits) vs /\ Forall2 variant_for (c_constants m) vs /\ g_constants g = [].
Proof.
  intros nfc powf ss tf files rs C P comments e t k c r m H I N D M. apply code_items in H as (l & H & ->). apply external_none in N. destruct (items_done _ _ _ _ H k c I N) as (l' & G & L).
  pose proof (from_dsdl _ _ _ _ _ G) as F. assert (X : exists g, generate_rust_type k m (type_rust_name k r e) r (comments k r) e = Done g).
  { unfold declared_in in D. destruct (compiled_kind c); destruct r; try contradiction; subst m; [destruct F as (g & F & _)|destruct F as (g & g' & F & _)|destruct F as (g' & g & _ & F & _)]; exists g; exact F. }
  destruct X as (g & X). pose proof (rust_type_keeps _ _ _ _ _ _ _ X) as (K1 & K2 & K3 & _). pose proof (enum_spec k m (type_rust_name k r e) r (comments k r) e M (compiled_typed _ _ _ _ _ _ k c m C I (declared_message c r m D))) as S. rewrite X in S. destruct S as (bits & vs & S1 & _ & S3 & S4 & S5).
  exists bits, (module_path (g_name g)), g, vs. split; [exact S1|]. split; [rewrite K2, type_module; apply (module_for_right k e (P k c I) N)|]. split; [|repeat split; assumption]. apply at_tree. split; [|reflexivity]. apply L. apply (from_dsdl_types _ _ _ _ _ g G). exists r, m. split; assumption.
Qed.
Print Assumptions C115_accepted.
(** The only error is that a type that asks for an enum does not meet the requirements.  Missing: large constants. *)
Theorem C115_errors_partial : forall nfc powf sort_sets to_float files rs, compile nfc powf sort_sets to_float files = Done rs -> (forall k c, In (k, c) rs -> proper k) ->
  (forall k c m, In (k, c) rs -> In m (messages c) -> small_enough m) ->
  forall comments e, (forall k c r m, In (k, c) rs -> declared_in c r m -> marked_enum (comments k r) -> constants_below (2 ^ 32) m) ->
  (generate_code comments rs e = Fail <-> exists k c r m, In (k, c) rs /\ not_external e (key_path k) /\ declared_in c r m /\ marked_enum (comments k r) /\ forall bits, ~ enum_ready m bits).
Proof.
  intros nfc powf ss tf files rs C P S comments e B. split.
  - intro H. unfold generate_code in H. destruct (generate_items comments e rs) as [l| |] eqn:G; cbn [obind] in H; try discriminate H. apply items_error in G as (k & c & I & X & G). apply from_dsdl_error in G as (r & m & n & D & G). exists k, c, r, m. split; [exact I|]. split; [apply external_none, X|]. split; [exact D|]. pose proof (type_error _ _ _ _ _ _ G) as M. split; [exact M|].
    pose proof (enum_spec k m n r (comments k r) e M (compiled_typed _ _ _ _ _ _ k c m C I (declared_message c r m D))) as Q. rewrite G in Q. exact Q.
  - intros (k & c & r & m & I & N & D & M & Q). destruct (generate_code comments rs e) as [t| |] eqn:H; [| reflexivity|].
    + destruct (C115_accepted _ _ _ _ _ _ C P comments e t k c r m H I N D M) as (bits & _ & _ & _ & R & _). destruct (Q bits R).
    + exfalso. unfold generate_code in H. assert (X : generate_items comments e rs <> Crash). { apply items_generated. intros k' c' I'. apply from_dsdl_generated. intros r' m' D' n'. apply type_generated; [apply (S k' c' m' I' (declared_message c' r' m' D'))|apply (compiled_typed _ _ _ _ _ _ k' c' m' C I' (declared_message c' r' m' D'))|apply (B k' c' r' m' I' D')]. }
      destruct (generate_items comments e rs); cbn [obind] in H; try discriminate H. apply X. reflexivity.
Qed.
Print Assumptions C115_errors_partial.
Definition mode_result (f : file) : out (list (key * compiled)) := ex_compile [(key_in "Mode", f)].
Example C115_witness : marked_enum (enum_comments (key_in "Mode") RoleMessage) /\ variants_at ["ns"; "mode_1_0"]%string code_tree = [(0, name_of "Off", None); (5, name_of "TurnedOn", None)] /\
  (exists rs, mode_result (mode_file 3 [("A", 1%Z); ("B", 1%Z)]%string) = Done rs /\ generate_code enum_comments rs [] = Fail) /\
  (exists rs, mode_result (File (Some [SField (uint 3) (name_of "a"); SField (uint 3) (name_of "b"); sealed_directive]) None) = Done rs /\ generate_code enum_comments rs [] = Fail) /\
  (exists rs, mode_result (File (Some [SConstant (PUInt 8) (name_of "A") (num 1); SField (uint 3) (name_of "a"); sealed_directive]) None) = Done rs /\ generate_code enum_comments rs [] = Fail) /\
  (exists rs, mode_result (File (Some [union_directive; SField (uint 3) (name_of "a"); SField (uint 3) (name_of "b"); sealed_directive]) None) = Done rs /\ generate_code enum_comments rs [] = Fail).
Proof.
  split; [apply marked_right; vm_compute; reflexivity|]. split; [vm_compute; reflexivity|]. do 3 (split; [eexists; split; [vm_compute; reflexivity|vm_compute; reflexivity]|]). eexists. split; [vm_compute; reflexivity|vm_compute; reflexivity].
Qed.
(** A type with a constant that does not fit into 32 bits meets the requirements, and the generator panics. *)
Theorem C115_refuted : exists rs m, mode_result (mode_file 64 [("SMALL", 1%Z); ("LARGE", 4294967296%Z)]%string) = Done rs /\ In (key_in "Mode", Compiled None (KMessage m)) rs /\ enum_ready m 64 /\ generate_code enum_comments rs [] = Crash.
Proof.
  eexists. eexists. split; [vm_compute; reflexivity|]. split; [left; vm_compute; reflexivity|]. split; [|vm_compute; reflexivity]. constructor; [exact (fun x => x)|eexists; reflexivity|repeat constructor|]. repeat constructor; cbn [In]; intuition discriminate.
Qed.
Print Assumptions C115_refuted.

(** * C116: the encoding of enums *)

(** A variant is encoded like the struct in the file whose field has the value of the constant, and decoded from that; a value without a constant is
    rejected.  Missing: constants from 2^31, and for the rejection, fields of more than 32 bits. *)
Theorem C116_round_trip_partial : forall nfc powf sort_sets to_float files rs, compile nfc powf sort_sets to_float files = Done rs ->
  forall comments e t p g, generate_code comments rs e = Done t -> In (IType g) (items_at p t) -> marked_enum (comments (g_key g) (g_role g)) ->
  exists c m bits vs, In (g_key g, c) rs /\ declared_in c (g_role g) m /\ g_kind g = GEnum (N.of_nat bits) vs /\ ((1 <= bits <= 64)%nat -> constants_below (2 ^ 31) m ->
    (forall i name x n buffer, nth_error (c_constants m) i = Some (name, x) -> constant_val x = CInt (Z.of_N n) -> (bits <= 8 * length buffer)%nat ->
       exists w, wrun (wc_new buffer) (write_enum (N.of_nat bits) vs i) = Ok w /\ bytes_hold (wc_bytes w) (enc (erase m) (VStruct [VUnsigned n])) /\
         exists rest, read_enum (N.of_nat bits) vs (rc_new (wc_bytes w)) = Ok (DOk i, rest)) /\
    ((bits <= 32)%nat -> forall bytes, bytes_ok bytes -> (forall name x, In (name, x) (c_constants m) -> constant_val x <> CInt (Z.of_N (EncSpec.field bytes 0 bits))) ->
       exists rest, read_enum (N.of_nat bits) vs (rc_new bytes) = Ok (DErr UnionTag, rest))).
Proof.
  intros nfc powf ss tf files rs C comments e t p g H I M. apply code_items in H as (l & H & ->). apply at_tree in I as (I & _). apply (items_types _ _ _ _ g H) in I as (k & c & I & X & (r & m & D & G)). pose proof (rust_type_keeps _ _ _ _ _ _ _ G) as (K1 & _ & K3 & _). rewrite K1, K3 in *.
  pose proof (compiled_typed _ _ _ _ _ _ k c m C I (declared_message c r m D)) as T. pose proof (enum_spec k m (type_rust_name k r e) r (comments k r) e M T) as S. rewrite G in S. destruct S as (bits & vs & R & _ & Kd & F & _). exists c, m, bits, vs. split; [exact I|]. split; [exact D|]. split; [exact Kd|]. intros B L.
  pose proof (variants_distinct _ _ F (er_values m bits R)) as Dv. pose proof (typed_uint bits _ T (er_types m bits R)) as U. split.
  - intros i name x n buffer E V Sp. destruct (Forall2_nth_error _ _ _ F i _ E) as (v & E' & (A & _)). cbn [snd] in A. assert (Vn : v_discriminant v = n) by (rewrite V in A; injection A as A; lia).
    destruct (write_enum_at buffer bits vs i v B E' Sp) as (w & W1 & _ & W3). exists w. split; [exact W1|]. split.
    + assert (En : enc (erase m) (VStruct [VUnsigned n]) = pad_to_byte (bits_of bits n)).
      { destruct (er_field m bits R) as (fname & Fm). pose proof (er_struct m bits R) as Su. destruct m as [d x' k' len cs]. cbn [c_kind] in *. destruct k' as [fs|]; [|exfalso; apply Su; exact Logic.I]. cbn [members] in Fm. destruct fs as [|f [|f' fs] ]; try discriminate Fm. cbn [map] in Fm. destruct f as [?|t' name' al]; cbn [member_of_field] in Fm; [discriminate Fm|]. injection Fm as -> ->.
        cbn [erase map erase_field erase_type erase_scalar enc enc_kind]. cbn. rewrite app_nil_r. reflexivity. }
      rewrite En. apply enc_pad_hold. rewrite <- Vn. exact W3.
    + exists (rc_at (wc_bytes w) bits). rewrite (read_enum_at _ bits vs (proj1 W3) B). rewrite (bytes_hold_field _ bits _ W3). rewrite Forall_forall in U. destruct (U _ (nth_error_In _ _ E)) as (z & Vz & Bz). cbn [snd] in Vz. rewrite V in Vz. injection Vz as <-. rewrite Vn in *.
      assert (n < 2 ^ N.of_nat bits) by (apply N2Z.inj_lt; rewrite N2Z.inj_pow, nat_N_Z; change (Z.of_N 2) with 2%Z; lia). rewrite N.mod_small by assumption. pose proof (L name x _ (nth_error_In _ _ E) V) as L'. change (2 ^ 31)%Z with 2147483648%Z in L'. rewrite as_i32_small by (change (2 ^ 31) with 2147483648; lia). rewrite <- Vn, (find_variant_nth vs i v Dv E'). reflexivity.
  - intros B32 bytes Bo Nn. exists (rc_at bytes bits). rewrite (read_enum_at _ bits vs Bo B). destruct (find_variant (as_i32 (EncSpec.field bytes 0 bits)) vs) as [i|] eqn:Fi; [|reflexivity]. exfalso. apply find_variant_some in Fi as (v & Fi & Ev).
    assert (Iv : In v vs) by (apply (nth_error_In _ _ Fi)). destruct (Forall2_in_r _ _ _ F v Iv) as ( (name & x) & Ix & (A & _)). cbn [snd] in A. apply (Nn name x Ix). rewrite A. f_equal. f_equal. pose proof (L name x _ Ix A) as L'. change (2 ^ 31)%Z with 2147483648%Z in L'.
    assert (Fb : EncSpec.field bytes 0 bits < 2 ^ 32). { apply N.lt_le_trans with (2 ^ N.of_nat bits); [apply field_bound|]. apply N.pow_le_mono_r; lia. } unfold as_i32 in Ev. rewrite N.mod_small in Ev by exact Fb. change (2 ^ 31) with 2147483648 in Ev. change (2 ^ 32)%Z with 4294967296%Z in Ev. change (2 ^ 32) with 4294967296 in Fb. destruct (N.ltb_spec (EncSpec.field bytes 0 bits) 2147483648); lia.
Qed.
Print Assumptions C116_round_trip_partial.
Definition enum_at (p : list string) (t : tree) : N * list gvariant := match types (items_at (map name_of p) t) with g :: _ => match g_kind g with GEnum b vs => (b, vs) | _ => (0, []) end | [] => (0, []) end.
Definition mode_enum : N * list gvariant := enum_at ["ns"; "mode_1_0"]%string code_tree.
Definition read_result (r : res (dres nat * rc)) : res (dres nat) := match r with Ok x => Ok (fst x) | Panic => Panic end.
Example C116_witness : (exists w, wrun (wc_new [255]) (write_enum (fst mode_enum) (snd mode_enum) 1) = Ok w /\ wc_bytes w = [5]) /\
  read_result (read_enum (fst mode_enum) (snd mode_enum) (rc_new [5])) = Ok (DOk 1%nat) /\ read_result (read_enum (fst mode_enum) (snd mode_enum) (rc_new [3])) = Ok (DErr UnionTag).
Proof. split; [eexists; split; [vm_compute; reflexivity|vm_compute; reflexivity]|]. split; [vm_compute; reflexivity|vm_compute; reflexivity]. Qed.
(** 2^32 + 1 in a field of 33 bits is taken for 1. *)
Theorem C116_wide_refuted : exists rs t, mode_result (mode_file 33 [("ONE", 1%Z)]%string) = Done rs /\ generate_code enum_comments rs [] = Done t /\
  let enum := enum_at ["ns"; "mode_1_0"]%string t in fst enum = 33 /\ EncSpec.field [1; 0; 0; 0; 1] 0 33 = 4294967297 /\ read_result (read_enum (fst enum) (snd enum) (rc_new [1; 0; 0; 0; 1])) = Ok (DOk 0%nat).
Proof. eexists. eexists. split; [vm_compute; reflexivity|]. split; [vm_compute; reflexivity|]. split; [vm_compute; reflexivity|]. split; [vm_compute; reflexivity|vm_compute; reflexivity]. Qed.
Print Assumptions C116_wide_refuted.
(** 2^31 is no [i32]: it would not be read back (with the default lints, the generated code does not compile). *)
Theorem C116_large_refuted : exists rs t, mode_result (mode_file 32 [("LARGE", 2147483648%Z)]%string) = Done rs /\ generate_code enum_comments rs [] = Done t /\
  let enum := enum_at ["ns"; "mode_1_0"]%string t in (exists w, wrun (wc_new [0; 0; 0; 0]) (write_enum (fst enum) (snd enum) 0) = Ok w /\ wc_bytes w = [0; 0; 0; 128]) /\ read_result (read_enum (fst enum) (snd enum) (rc_new [0; 0; 0; 128])) = Ok (DErr UnionTag).
Proof. eexists. eexists. split; [vm_compute; reflexivity|]. split; [vm_compute; reflexivity|]. split; [eexists; split; [vm_compute; reflexivity|vm_compute; reflexivity]|]. vm_compute. reflexivity. Qed.
Print Assumptions C116_large_refuted.

(** * C117: the generator does not panic *)

(** Neither generating code nor writing it panics.  Missing: lengths that overflow 64 bits, extents and numbers of variants that overflow 32 bits, large
    constants in enums. *)
Theorem C117_no_panic_partial : forall nfc powf sort_sets to_float files rs, compile nfc powf sort_sets to_float files = Done rs ->
  (forall k c m, In (k, c) rs -> In m (messages c) -> small_enough m) ->
  forall comments e, (forall k c r m, In (k, c) rs -> declared_in c r m -> marked_enum (comments k r) -> constants_below (2 ^ 32) m) ->
  generate_code comments rs e <> Crash /\ forall t, generate_code comments rs e = Done t -> write_code t = Ok tt.
Proof.
  intros nfc powf ss tf files rs C S comments e B. split.
  - assert (X : generate_items comments e rs <> Crash). { apply items_generated. intros k' c' I'. apply from_dsdl_generated. intros r' m' D' n'. apply type_generated; [apply (S k' c' m' I' (declared_message c' r' m' D'))|apply (compiled_typed _ _ _ _ _ _ k' c' m' C I' (declared_message c' r' m' D'))|apply (B k' c' r' m' I' D')]. }
    unfold generate_code. destruct (generate_items comments e rs); cbn [obind]; congruence.
  - intros t H. apply code_items in H as (l & H & ->). apply code_written. intros i I. split; [destruct (item_path _ _ _ _ i H I) as (k & c & _ & _ & ->); apply path_not_empty|]. destruct i as [g|n kd id d]; [|reflexivity]. cbn [write_item].
    apply (items_types _ _ _ _ g H) in I as (k & c & I & _ & (r & m & D & G)). pose proof (declared_message c r m D) as Dm. apply (type_written _ _ _ _ _ _ _ G (S k c m I Dm) (compiled_typed _ _ _ _ _ _ k c m C I Dm)).
Qed.
Print Assumptions C117_no_panic_partial.
Example C117_witness : (forall k c m, In (k, c) code_result -> In m (messages c) -> small_enough m) /\ write_code code_tree = Ok tt.
Proof.
  split; [|vm_compute; reflexivity]. assert (F : forallb (fun x => forallb small_b (messages (snd x))) code_result = true) by (vm_compute; reflexivity). intros k c m I J. rewrite forallb_forall in F. specialize (F _ I). rewrite forallb_forall in F. apply small_b_right, (F m J).
Qed.
(** An extent of 4 GiB *)
Theorem C117_refuted : exists rs t, ex_compile (one_file [SField (uint 8) (name_of "x"); extent_directive 34359738368]) = Done rs /\ generate_code no_comments rs [] = Done t /\ write_code t = Panic.
Proof. eexists. eexists. split; [vm_compute; reflexivity|]. split; [vm_compute; reflexivity|vm_compute; reflexivity]. Qed.
Print Assumptions C117_refuted.

(** * C118: zero-copy types *)

(** The traits for zero-copy types are derived only for structs whose fields are numbers, or types for which they are derived too.  Missing: types
    that refer to a type that is generated as an enum. *)
Theorem C118_derived_partial : forall nfc powf sort_sets to_float files rs, compile nfc powf sort_sets to_float files = Done rs ->
  forall comments e t p g, generate_code comments rs e = Done t -> In (IType g) (items_at p t) -> gtype_zero_copy g = true ->
  exists fs, g_kind g = GStruct fs /\ forall f, In f fs -> exists name rust ty aligned, f = GData name rust ty aligned /\
    ((forall k inner, ftype_scalar ty = RComposite k inner -> ~ marked_enum (comments k RoleMessage)) -> plain_type (fun n => internal n = false \/ exists g', In (IType g') (items_at (module_path n) t) /\ type_name (g_name g') = type_name n /\ gtype_zero_copy g' = true) rust).
Proof.
  intros nfc powf ss tf files rs C comments e t p g H I Z. apply code_items in H as (l & H & ->). apply at_tree in I as (I & _). apply (items_types _ _ _ _ g H) in I as (k & c & I & _ & (r & m & D & G)). unfold gtype_zero_copy in Z. destruct (g_kind g) as [fs|bits vs] eqn:K; [|discriminate Z]. exists fs. split; [reflexivity|].
  apply andb_true_iff in Z as (_ & Z). rewrite forallb_forall in Z. destruct (struct_from _ _ _ _ _ _ _ _ G K) as (fs' & Km & _ & F & _). intros f J. specialize (Z f J). destruct f as [bits|name rust ty al]; [discriminate Z|]. exists name, rust, ty, al. split; [reflexivity|]. intro M.
  rewrite F in J. destruct (data_member e m fs' name rust ty al Km J) as (-> & name' & J'). apply to_rust_plain; [exact Z|]. intros k' m' E Zm. destruct (external_module (key_path k') e) as [x|] eqn:X; [left; unfold for_message_type; rewrite X; reflexivity|]. right.
  destruct (C96_embedded _ _ _ _ _ _ C k c m k' m' I (declared_message c r m D)) as (port & Y); [apply co_member; exists ty, name'; auto|]. destruct (items_done _ _ _ _ H _ _ Y X) as (l' & G' & L). pose proof (from_dsdl _ _ _ _ _ G') as Q. cbn [compiled_kind] in Q. destruct Q as (g' & Q & El). pose proof (rust_type_keeps _ _ _ _ _ _ _ Q) as (_ & K2 & _). exists g'. rewrite K2. split; [|split; [reflexivity|] ].
  - apply at_tree. split; [|cbn [item_name]; rewrite K2; reflexivity]. apply L. rewrite El. apply in_or_app. right. left. reflexivity.
  - apply (message_type_zero_copy _ _ _ _ _ _ _ Q); [apply (M k' m' E)|exact Zm].
Qed.
Print Assumptions C118_derived_partial.
Definition zero_copy_at (p : list string) (t : tree) : list bool := map gtype_zero_copy (types (items_at (map name_of p) t)).
Definition outer_files (bits : nat) : list (key * file) := [(key_in "Mode", mode_file bits [("A", 1%Z)]%string); (key_in "Outer", File (Some [SField (TypeScalar (local "Mode")) (name_of "mode"); SField (uint 16) (name_of "x"); sealed_directive]) None)].
Example C118_witness : exists rs t, ex_compile (outer_files 8) = Done rs /\ generate_code no_comments rs [] = Done t /\ zero_copy_at ["ns"; "outer_1_0"]%string t = [true] /\ zero_copy_at ["ns"; "mode_1_0"]%string t = [true].
Proof. eexists. eexists. split; [vm_compute; reflexivity|]. split; [vm_compute; reflexivity|]. split; [vm_compute; reflexivity|vm_compute; reflexivity]. Qed.
(** A struct with an enum is taken for a zero-copy type although the enum is none. *)
Theorem C118_refuted : exists rs t, ex_compile (outer_files 8) = Done rs /\ generate_code enum_comments rs [] = Done t /\ zero_copy_at ["ns"; "outer_1_0"]%string t = [true] /\ zero_copy_at ["ns"; "mode_1_0"]%string t = [false] /\
  first_field ["ns"; "outer_1_0"]%string t = Some (RustNamed (RustName true [name_of "ns"; name_of "mode_1_0"] (name_of "Mode"))).
Proof. eexists. eexists. split; [vm_compute; reflexivity|]. split; [vm_compute; reflexivity|]. split; [vm_compute; reflexivity|]. split; [vm_compute; reflexivity|vm_compute; reflexivity]. Qed.
Print Assumptions C118_refuted.
