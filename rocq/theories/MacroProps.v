(** C131: [types_from_dsdl!] generates code from exactly what its statements ask for. *)
From Coq Require Import String.
From Verif Require Import Base GenModel ExprModel ExprProofs CompModel ParseModel PkgModel PkgSpec PkgProofs CodeModel MacroModel MacroSpec MacroProofs.
Open Scope list_scope.
Open Scope N_scope.

Definition generate_tokens (arguments : list token) : list token := [TIdent (name_of "generate"); TGroup Parenthesis arguments].

(** Code is generated exactly when the input consists of well-formed statements that ask for types that can be in one package, each once,
    and "generate" at the end; it is generated from these types and external packages. *)
Theorem C131_generates : forall env files_in ts types es, macro_input env files_in ts = Done (Some (types, es)) <->
  exists commands front arguments, all_written commands front /\ ts = front ++ generate_tokens arguments /\ means env files_in commands types es.
Proof.
  intros env files_in ts types es. unfold macro_input, means. split.
  - intro H. apply obind_done in H. destruct H as (l & H1 & H). apply parse_right in H1. destruct H1 as (ls & F & ->). apply eval_sound in H; [|constructor|constructor]. destruct H as (commands & front & types' & es' & Fs & A & Fa & D & N & [(_ & O)|(args & -> & O)]); [discriminate|]. injection O as -> ->. cbn [app] in *.
    apply Forall2_app_inv_l in F. destruct F as (l1 & l2 & F1 & F2 & ->). inversion F2 as [|? ts2 ? l3 S F3]; subst. inversion F3; subst. inversion S; subst. exists commands, (concat l1), args. split; [apply all_written_states; eauto|]. split; [rewrite concat_app; reflexivity|]. auto.
  - intros (commands & front & args & W & -> & (A & Fa & D & N)). apply all_written_states in W. destruct W as (fs & ls & Fs & Ft & ->). rewrite (proj2 (parse_right (concat ls ++ generate_tokens args) (fs ++ [MFunction (name_of "generate") args]))).
    + cbn [obind]. apply (eval_complete env files_in commands fs Fs types es [] []); [exact A|exact Fa|exact D|exact N|]. right. exists args. auto.
    + exists (ls ++ [generate_tokens args]). split; [apply Forall2_app; [exact Ft|constructor; [constructor|constructor] ]|]. rewrite concat_app. cbn [concat]. rewrite app_nil_r. reflexivity.
Qed.
Print Assumptions C131_generates.

(** Nothing is generated, without an error, exactly when only "generate" is missing. *)
Theorem C131_nothing : forall env files_in ts, macro_input env files_in ts = Done None <->
  exists commands types es, all_written commands ts /\ means env files_in commands types es.
Proof.
  intros env files_in ts. unfold macro_input, means. split.
  - intro H. apply obind_done in H. destruct H as (l & H1 & H). apply parse_right in H1. destruct H1 as (ls & F & ->). apply eval_sound in H; [|constructor|constructor]. destruct H as (commands & front & types' & es' & Fs & A & Fa & D & N & [(-> & _)|(args & _ & O)]); [|discriminate]. cbn [app] in *.
    exists commands, types', es'. split; [apply all_written_states; eauto|auto].
  - intros (commands & types & es & W & (A & Fa & D & N)). apply all_written_states in W. destruct W as (fs & ls & Fs & Ft & ->). rewrite (proj2 (parse_right (concat ls) fs)) by eauto. cbn [obind]. apply (eval_complete env files_in commands fs Fs types es [] []); [exact A|exact Fa|exact D|exact N|]. left. auto.
Qed.
Print Assumptions C131_nothing.

(** The macro itself never panics, whatever is written (the compiler of DSDL may, see C90 and C117). *)
Theorem C131_no_panic : forall env files_in ts, macro_input env files_in ts <> Crash.
Proof. intros. unfold macro_input. apply obind_not_crash; [apply parse_no_crash|]. intros l _. apply eval_no_crash. Qed.
Print Assumptions C131_no_panic.

(** So the macro becomes the code that the generator makes of the compiled types, or there is an error.  Missing: that something is
    generated at all (see below). *)
Theorem C131_code_partial : forall Code nfc powf sort_sets to_float comments (print : tree -> Code) nothing env files_in ts code,
  types_from_dsdl nfc powf sort_sets to_float comments print nothing env files_in ts = Done code <->
  (exists commands front arguments types es rs t, all_written commands front /\ ts = front ++ generate_tokens arguments /\ means env files_in commands types es /\
     compile_text nfc powf sort_sets to_float types = Done rs /\ generate_code comments rs es = Done t /\ code = print t) \/
  (code = nothing /\ exists commands types es, all_written commands ts /\ means env files_in commands types es).
Proof.
  intros. unfold types_from_dsdl. split.
  - intro H. apply obind_done in H. destruct H as ([(types & es)|] & H1 & H).
    + left. apply C131_generates in H1. destruct H1 as (commands & front & args & W & E & M). apply obind_done in H. destruct H as (rs & H2 & H). apply obind_done in H. destruct H as (t & H3 & H). injection H as <-. exists commands, front, args, types, es, rs, t. auto 7.
    + right. injection H as <-. apply C131_nothing in H1. auto.
  - intros [(commands & front & args & types & es & rs & t & W & E & M & H2 & H3 & ->)|(-> & H)].
    + rewrite (proj2 (C131_generates env files_in ts types es)) by (exists commands, front, args; auto). cbn [obind]. rewrite H2. cbn [obind]. rewrite H3. reflexivity.
    + rewrite (proj2 (C131_nothing env files_in ts) H). reflexivity.
Qed.
Print Assumptions C131_code_partial.

Definition sample_env (name : text) : option text := if text_eqb name (name_of "CARGO_MANIFEST_DIR") then Some (name_of "/home/me") else None.
Definition sample_files (path : text) : option (list (list text * text * option text)) :=
  if text_eqb path (name_of "/home/me/dsdl") then Some [([name_of "ns"], name_of "123.Point.1.0.dsdl", Some (name_of "@sealed"))] else None.
Definition sample_tokens (with_generate : bool) : list token :=
  [TIdent (name_of "package"); TGroup Parenthesis [TPunct 36; TIdent (name_of "CARGO_MANIFEST_DIR"); TPunct 44; TLiteral (Some (name_of "/dsdl"))];
   TIdent (name_of "make_external"); TGroup Parenthesis [TIdent (name_of "uavcan"); TPunct 46; TIdent (name_of "node"); TPunct 44; TIdent (name_of "crate"); TPunct 58; TPunct 58; TIdent (name_of "types")];
   TIdent (name_of "type"); TLiteral (Some (name_of "ns.Other.1.2")); TGroup Brace [TLiteral (Some (name_of "uint8 x"))] ] ++ (if with_generate then generate_tokens [] else []).
Definition sample_types : list (key * source) :=
  [(Key [name_of "ns"] (name_of "Point") 1 0, (Some (name_of "@sealed"), Some 123)); (Key [name_of "ns"] (name_of "Other") 1 2, (Some (name_of "uint8 x"), None))].
Definition sample_es : packages := [(map name_of ["uavcan"; "node"]%string, map name_of ["crate"; "types"]%string)].
Example C131_witness : macro_input sample_env sample_files (sample_tokens true) = Done (Some (sample_types, sample_es)) /\
  (exists commands types es, means sample_env sample_files commands types es /\ length types = 2%nat /\ length es = 1%nat) /\
  macro_input sample_env sample_files (sample_tokens true ++ [TIdent (name_of "package"); TGroup Parenthesis []]) = Fail /\
  macro_input (fun _ => None) sample_files (sample_tokens true) = Fail /\
  macro_input sample_env sample_files [TIdent (name_of "package"); TGroup Parenthesis [TPunct 36; TIdent (name_of "HOME")] ] = Fail.
Proof.
  assert (E : macro_input sample_env sample_files (sample_tokens true) = Done (Some (sample_types, sample_es))) by (vm_compute; reflexivity).
  split; [exact E|]. split; [|repeat split; vm_compute; reflexivity]. apply C131_generates in E. destruct E as (commands & _ & _ & _ & _ & M). exists commands, sample_types, sample_es. split; [exact M|]. split; reflexivity.
Qed.

(** The code violates what users expect.  If "generate" is forgotten, everything is read and nothing is generated, without an error, ... *)
Theorem C131_forgotten_refuted : exists env files_in commands ts types es, all_written commands ts /\ means env files_in commands types es /\ types <> [] /\
  forall Code nfc powf sort_sets to_float comments (print : tree -> Code) nothing, types_from_dsdl nfc powf sort_sets to_float comments print nothing env files_in ts = Done nothing.
Proof.
  assert (E' : macro_input sample_env sample_files (sample_tokens true) = Done (Some (sample_types, sample_es))) by (vm_compute; reflexivity).
  apply C131_generates in E'. destruct E' as (commands & front & args & W & Ets & M). exists sample_env, sample_files, commands, front, sample_types, sample_es. split; [exact W|]. split; [exact M|]. split; [discriminate|].
  intros. unfold types_from_dsdl. rewrite (proj2 (C131_nothing sample_env sample_files front)) by (exists commands, sample_types, sample_es; auto). reflexivity.
Qed.
Print Assumptions C131_forgotten_refuted.
(** ... and what is written between the parentheses of "generate" has no effect: options are ignored, and so are mistakes in them. *)
Theorem C131_options_refuted : forall Code nfc powf sort_sets to_float comments (print : tree -> Code) nothing env files_in front arguments arguments',
  types_from_dsdl nfc powf sort_sets to_float comments print nothing env files_in (front ++ generate_tokens arguments) =
  types_from_dsdl nfc powf sort_sets to_float comments print nothing env files_in (front ++ generate_tokens arguments').
Proof.
  assert (G : forall env files_in front a a' x, macro_input env files_in (front ++ generate_tokens a) = Done x -> macro_input env files_in (front ++ generate_tokens a') = Done x).
  { intros env files_in front a a' x H. destruct x as [(types & es)|].
    - apply C131_generates in H. apply C131_generates. destruct H as (commands & f & b & W & E & M). exists commands, f, a'. split; [exact W|]. split; [|exact M]. unfold generate_tokens in *. change [TIdent (name_of "generate"); TGroup Parenthesis a] with ([TIdent (name_of "generate")] ++ [TGroup Parenthesis a]) in E. change [TIdent (name_of "generate"); TGroup Parenthesis b] with ([TIdent (name_of "generate")] ++ [TGroup Parenthesis b]) in E. rewrite !app_assoc in E. apply app_inj_tail in E. destruct E as (E & _). apply app_inj_tail in E. destruct E as (-> & _). reflexivity.
    - exfalso. apply C131_nothing in H. destruct H as (commands & types & es & (l & F & E) & _). destruct (exists_last (l := l)) as (l0 & last & ->). { intros ->. destruct front; discriminate. }
      rewrite concat_app in E. cbn [concat] in E. rewrite app_nil_r in E. apply Forall2_app_inv_r in F. destruct F as (c1 & c2 & _ & F & ->). inversion F as [|c ? ? ? W F']; subst. unfold generate_tokens in E. change [TIdent (name_of "generate"); TGroup Parenthesis a] with ([TIdent (name_of "generate")] ++ [TGroup Parenthesis a]) in E. rewrite app_assoc in E.
      destruct W.
      + change [TIdent (name_of "package"); TGroup Parenthesis arguments] with ([TIdent (name_of "package")] ++ [TGroup Parenthesis arguments]) in E. rewrite app_assoc in E. apply app_inj_tail in E. destruct E as (E & _). apply app_inj_tail in E. destruct E as (_ & E). discriminate.
      + match type of E with _ = _ ++ [?u; ?v] => change [u; v] with ([u] ++ [v]) in E end. rewrite app_assoc in E. apply app_inj_tail in E. destruct E as (E & _). apply app_inj_tail in E. destruct E as (_ & E). discriminate.
      + match type of E with _ = _ ++ [?u; ?v; ?w] => change [u; v; w] with ([u; v] ++ [w]) in E end. rewrite app_assoc in E. apply app_inj_tail in E. destruct E as (_ & E). discriminate. }
  intros. unfold types_from_dsdl. destruct (macro_input env files_in (front ++ generate_tokens arguments)) as [x| |] eqn:E1.
  - rewrite (G _ _ _ _ arguments' _ E1). reflexivity.
  - destruct (macro_input env files_in (front ++ generate_tokens arguments')) as [y| |] eqn:E2; [|reflexivity|destruct (C131_no_panic _ _ _ E2)]. apply (G _ _ _ _ arguments) in E2. congruence.
  - destruct (C131_no_panic _ _ _ E1).
Qed.
Print Assumptions C131_options_refuted.
