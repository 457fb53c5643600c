(** C136: the code generator's command line *)
From Verif Require Import Base GenerateToolModel GenerateToolSpec GenerateToolProofs.
Open Scope N_scope.

(** With folders, at most one output file and --rustfmt at most once, the tool writes the code generated from the folders, and formats it,
    if every step succeeds and there is room.  Missing: external packages, code that is not to be formatted. *)
Theorem C136_generates_partial : forall (P C : Type) (empty : P) (add_files : P -> text -> option P) (compile : P -> option C) (generate : C -> list (list text * list text) -> option (list (list N)))
    (creatable : text -> bool) (space : nat) (rustfmt : list N -> option (list N)) (os : list occurrence) p c code file,
  inputs os <> [] -> externals os = [] -> (length (outputs os) <= 1)%nat -> (flags os <= 1)%nat ->
  add_all P add_files empty (inputs os) = Some p -> compile p = Some c -> generate c [] = Some code ->
  creatable (hd lib_rs (outputs os)) = true -> (length (concat code ++ [10%N]) <= space)%nat -> rustfmt (concat code ++ [10]) = Some file ->
  run_tool P C empty add_files compile generate creatable space rustfmt os = Finish 0 (Some (hd lib_rs (outputs os), file)) true.
Proof.
  intros P C empty add_files compile generate creatable space rustfmt os p c code file Hi He Ho Hf Ea Ec Eg Hc Hs Hr. unfold run_tool. destruct (matches_ok os Hi He Ho Hf) as (m & Em). rewrite Em. destruct (args_right os m Em) as (_ & A). rewrite He in A. rewrite A. cbn [a_inputs a_externals a_output a_rustfmt]. rewrite Ea, Ec, Eg. unfold write_output. change default_output with lib_rs in *. rewrite Hc.
  destruct (file_right space (code ++ [[10] ])) as (_ & F & _). rewrite concat_app in F. cbn [concat] in F. rewrite app_nil_r in F. destruct (F Hs) as (F1 & F2). destruct (write_pieces (Writer [] (Device [] space)) (code ++ [[10] ])) as (w & ok). cbn [fst snd] in *. subst ok. cbn [negb]. rewrite F2, Hr. reflexivity.
Qed.
Print Assumptions C136_generates_partial.

(** An output file is created only if the folders were read and compiled and code was generated from them; otherwise there is an error.
    What is written is a prefix of the code (which rustfmt then formats). *)
Theorem C136_created : forall (P C : Type) (empty : P) (add_files : P -> text -> option P) (compile : P -> option C) (generate : C -> list (list text * list text) -> option (list (list N)))
    (creatable : text -> bool) (space : nat) (rustfmt : list N -> option (list N)) (os : list occurrence) r,
  run_tool P C empty add_files compile generate creatable space rustfmt os = r ->
  (status r = 0 -> created r <> None) /\
  (forall path file, created r = Some (path, file) -> exists p c code written rest,
     add_all P add_files empty (inputs os) = Some p /\ compile p = Some c /\ generate c [] = Some code /\ path = hd lib_rs (outputs os) /\
     concat code ++ [10] = written ++ rest /\ (if status r =? 0 then rustfmt written = Some file else file = written)).
Proof.
  intros P C empty add_files compile generate creatable space rustfmt os r E. unfold run_tool in E. destruct (get_matches os) as [m|] eqn:Em; [|subst r; split; [discriminate|intros ? ? X; discriminate X]]. destruct (args_right os m Em) as (_ & A). destruct (externals os) as [|x xs]; [|rewrite A in E; subst r; split; [discriminate|intros ? ? X; discriminate X]].
  rewrite A in E. cbn [a_inputs a_externals a_output a_rustfmt] in E. destruct (add_all P add_files empty (inputs os)) as [p|]; [|subst r; split; [discriminate|intros ? ? X; discriminate X]]. destruct (compile p) as [c|] eqn:Ec; [|subst r; split; [discriminate|intros ? ? X; discriminate X]]. destruct (generate c []) as [code|] eqn:Eg; [|subst r; split; [discriminate|intros ? ? X; discriminate X]].
  unfold write_output in E. change default_output with lib_rs in E. destruct (creatable _); [|subst r; split; [discriminate|intros ? ? X; discriminate X]].
  destruct (file_right space (code ++ [[10] ])) as ((rest & R) & _). rewrite concat_app in R. cbn [concat] in R. rewrite app_nil_r in R. destruct (write_pieces (Writer [] (Device [] space)) (code ++ [[10] ])) as (w & ok). cbn [fst snd] in *. destruct ok; cbn [negb] in E.
  - destruct (rustfmt (content (drop_writer w))) as [file'|] eqn:Er; subst r; cbn [status created]; (split; [discriminate|]); intros path file X; assert (path = hd lib_rs (outputs os)) by congruence.
    + exists p, c, code, (content (drop_writer w)), rest. assert (file = file') by congruence. subst file path. do 5 (split; [first [assumption|reflexivity]|]). exact Er.
    + exists p, c, code, (content (drop_writer w)), rest. assert (file = content (drop_writer w)) by congruence. subst file path. do 5 (split; [first [assumption|reflexivity]|]). reflexivity.
  - subst r. cbn [status created]. split; [discriminate|]. intros path file X. exists p, c, code, (content (drop_writer w)), rest. assert (path = hd lib_rs (outputs os)) by congruence. assert (file = content (drop_writer w)) by congruence. subst file path. do 5 (split; [first [assumption|reflexivity]|]). reflexivity.
Qed.
Print Assumptions C136_created.

(** Success does not mean that all was written: if the code is shorter than 8 KiB, it is written when the buffer is dropped, and an error
    then goes unnoticed.  (rustfmt notices only if it rejects what is there.) *)
Theorem C136_written_refuted : forall (P C : Type) (empty : P) (add_files : P -> text -> option P) (compile : P -> option C) (generate : C -> list (list text * list text) -> option (list (list N)))
    (creatable : text -> bool) (space : nat) (rustfmt : list N -> option (list N)) (os : list occurrence) p c code,
  inputs os <> [] -> externals os = [] -> (length (outputs os) <= 1)%nat -> (flags os <= 1)%nat ->
  add_all P add_files empty (inputs os) = Some p -> compile p = Some c -> generate c [] = Some code ->
  creatable (hd lib_rs (outputs os)) = true -> N.of_nat (length (concat code ++ [10])) < 8192 -> (forall x, rustfmt x = Some x) ->
  run_tool P C empty add_files compile generate creatable space rustfmt os = Finish 0 (Some (hd lib_rs (outputs os), firstn space (concat code ++ [10]))) true.
Proof.
  intros P C empty add_files compile generate creatable space rustfmt os p c code Hi He Ho Hf Ea Ec Eg Hc Hs Hr. unfold run_tool. destruct (matches_ok os Hi He Ho Hf) as (m & Em). rewrite Em. destruct (args_right os m Em) as (_ & A). rewrite He in A. rewrite A. cbn [a_inputs a_externals a_output a_rustfmt]. rewrite Ea, Ec, Eg. unfold write_output. change default_output with lib_rs in *. rewrite Hc.
  destruct (file_right space (code ++ [[10] ])) as (_ & _ & F). pose proof (small_right space (code ++ [[10] ])) as S. rewrite concat_app in F, S. cbn [concat] in F, S. rewrite app_nil_r in F, S. assert (Hs' : (length (concat code ++ [10%N]) < capacity)%nat) by (unfold capacity; lia). specialize (S Hs'). destruct (write_pieces (Writer [] (Device [] space)) (code ++ [[10] ])) as (w & ok). cbn [fst snd] in *. subst ok. cbn [negb]. rewrite (F eq_refl), Hr. reflexivity.
Qed.
Print Assumptions C136_written_refuted.

(** An external package is a DSDL package and a Rust module, separated by a comma.  Missing: a text with a second comma is accepted too, and
    the rest is ignored. *)
Theorem C136_syntax_partial : forall t p m, package_and_module t p m -> parse_external t = Some (External p m).
Proof. exact external_complete. Qed.
Print Assumptions C136_syntax_partial.
Theorem C136_syntax_only : forall t e, parse_external t = Some e -> exists u rest, package_and_module u (ext_package e) (ext_module e) /\ (t = u \/ t = u ++ [44] ++ rest).
Proof. exact external_sound. Qed.
Print Assumptions C136_syntax_only.

(** But no external package can be given: the tool panics, or clap rejects it *)
Theorem C136_external_refuted : forall (P C : Type) (empty : P) (add_files : P -> text -> option P) (compile : P -> option C) (generate : C -> list (list text * list text) -> option (list (list N)))
    (creatable : text -> bool) (space : nat) (rustfmt : list N -> option (list N)) (os : list occurrence),
  externals os <> [] -> let r := run_tool P C empty add_files compile generate creatable space rustfmt os in (status r = 101 \/ status r = 2) /\ created r = None.
Proof.
  intros P C empty add_files compile generate creatable space rustfmt os H. cbv zeta. unfold run_tool. destruct (get_matches os) as [m|] eqn:Em; [|cbn; auto]. destruct (args_right os m Em) as (_ & A). destruct (externals os); [destruct (H eq_refl)|]. rewrite A. cbn. auto.
Qed.
Print Assumptions C136_external_refuted.
(** rustfmt is run even if --rustfmt is not given: where there is none, the tool never succeeds *)
Theorem C136_format_refuted : forall (P C : Type) (empty : P) (add_files : P -> text -> option P) (compile : P -> option C) (generate : C -> list (list text * list text) -> option (list (list N)))
    (creatable : text -> bool) (space : nat) (rustfmt : list N -> option (list N)) (os : list occurrence),
  (forall x, rustfmt x = None) -> status (run_tool P C empty add_files compile generate creatable space rustfmt os) <> 0.
Proof.
  intros P C empty add_files compile generate creatable space rustfmt os H E. destruct (C136_created P C empty add_files compile generate creatable space rustfmt os _ eq_refl) as (A & B). specialize (A E). rewrite E in B. destruct (created _) as [(path & file)|]; [|destruct (A eq_refl)]. destruct (B path file eq_refl) as (p & c & code & w & rest & _ & _ & _ & _ & _ & R). cbn in R. rewrite H in R. discriminate R.
Qed.
Print Assumptions C136_format_refuted.

(** The package is the number of folders; each gives a piece of code, the output file is "a" *)
Definition ex_tool (space : nat) (os : list occurrence) : finish :=
  run_tool nat nat 0%nat (fun p _ => Some (S p)) (fun p => Some p) (fun c _ => Some (repeat [120] c)) (fun _ => true) space (fun x => Some x) os.
Example C136_witness :
  ex_tool 100 [Input [117]; OutputFile [97]; Input [118]] = Finish 0 (Some ([97], [120; 120; 10])) true /\
  ex_tool 1 [Input [117]; OutputFile [97]; Input [118]] = Finish 0 (Some ([97], [120])) true /\
  status (ex_tool 100 [Input [117]; ExternalPackage [[97; 44; 98] ] ]) = 101 /\
  package_and_module [97; 46; 98; 44; 99; 58; 58; 58; 100] [[97]; [98] ] [[99]; [58; 100] ] /\
  parse_external [97; 44; 98; 44; 99] = Some (External [[97] ] [[98] ]).
Proof.
  split; [vm_compute; reflexivity|]. split; [vm_compute; reflexivity|]. split; [vm_compute; reflexivity|]. split; [|vm_compute; reflexivity].
  destruct (external_sound [97; 46; 98; 44; 99; 58; 58; 58; 100] (External [[97]; [98] ] [[99]; [58; 100] ])) as (u & rest & H & [->|E]); [vm_compute; reflexivity|exact H|].
  exfalso. destruct H as (a & b & -> & Ha & _ & (_ & Hp & _) & (_ & Hm & _)). cbn in Hp, Hm. subst a b. cbn in E. discriminate E.
Qed.
