(** Property C109: from the text of DSDL files to types. *)
From Coq Require Import String QArith Qcanon Lia Permutation.
From Verif Require Import Base EncModel BlsModel BlsSpec BlsProofs GenModel GenSpec GenProps ExprModel ExprSpec ExprProofs PkgModel PkgSpec PkgProofs CompModel CompSpec CompProofs CompFileProofs CompProps CompAcceptSpec CompAcceptProofs CompAcceptProps.
From Verif Require Import TextModel ParseModel ParseSpec ParseSoundProofs ParseFileProofs ParseProps.
Open Scope list_scope.
Open Scope N_scope.

(** * C109: from text to types *)

Lemma parsed_some content sts : parsed content = Some sts -> exists t items, content = Some t /\ parse t = Done items /\ sts = statements items.
Proof. destruct content as [t|]; [|intro E; discriminate E]. unfold parsed. remember (parse t) as r eqn:R. intro E. destruct r as [items| |]; [|discriminate E|discriminate E]. exists t, items. split; [reflexivity|]. split; [symmetry; exact R|]. injection E as E. symmetry. exact E. Qed.
Lemma parsed_done t items : parse t = Done items -> parsed (Some t) = Some (statements items).
Proof. unfold parsed. intros ->. reflexivity. Qed.

(** Every type in the result is that of one of the files: the text of the file is written for statements, and these declare the type. *)
Theorem C109_types : forall nfc powf sort_sets to_float files rs, compile_text nfc powf sort_sets to_float files = Done rs ->
  forall k c, In (k, c) rs -> exists k0 t items, In (k0, (Some t, port_id c)) files /\ same_key k0 k /\ file_text false items t /\ file_for to_float rs (key_path k) (statements items) (compiled_kind c).
Proof.
  intros nfc powf ss tf files rs H k c I. destruct (C98_declared nfc powf ss tf _ rs H k c I) as (k0 & f & sts & I0 & S & E & P & F). apply in_map_iff in I0. destruct I0 as ( (k1 & content & port) & X & I0). cbn [fst snd to_file] in X. injection X as <- <-.
  cbn [file_content file_port to_file fst snd] in E, P. apply parsed_some in E. destruct E as (t & items & -> & Ep & ->). exists k1, t, items. split; [rewrite P; exact I0|]. split; [exact S|]. split; [apply C105_accepted; exact Ep|exact F].
Qed.
Print Assumptions C109_types.
(** Every file of a package that is accepted has a text that is written for statements, whose assertions hold. *)
Theorem C109_files : forall nfc powf sort_sets to_float files rs, distinct (map (fun f => (fst f, to_file (snd f))) files) -> compile_text nfc powf sort_sets to_float files = Done rs ->
  forall k content port, In (k, (content, port)) files -> exists t items, content = Some t /\ file_text false items t /\ forall e, In (IStatement (SDirective DAssert (Some e))) items -> forall w, denotes e w -> w = VBool true.
Proof.
  intros nfc powf ss tf files rs D H k content port I. destruct (C100_order nfc powf ss tf _ rs D H k (to_file (content, port))) as (sts & E & _ & A); [apply in_map_iff; exists (k, (content, port)); auto|]. cbn [file_content to_file fst] in E. apply parsed_some in E. destruct E as (t & items & -> & Ep & ->).
  exists t, items. split; [reflexivity|]. split; [apply C105_accepted; exact Ep|]. intros e Ie. apply A. unfold statements. apply in_flat_map. eexists. split; [exact Ie|]. left. reflexivity.
Qed.
Print Assumptions C109_files.
(** A package whose files are written for statements that declare types is accepted, with these types. *)
Theorem C109_accepted : forall nfc powf sort_sets to_float files written types, Forall2 (fun f w => exists t items, snd f = (Some t, file_port (snd w)) /\ fst f = fst w /\ file_text true items t /\ file_content (snd w) = Some (statements items)) files written ->
  distinct written -> right_types to_float written types -> exists rs, compile_text nfc powf sort_sets to_float files = Done rs /\ Permutation rs types.
Proof.
  intros nfc powf ss tf files written types F D R. unfold compile_text. replace (map (fun f => (fst f, to_file (snd f))) files) with written; [apply (C102_accepted nfc powf ss tf written types D R)|].
  clear D R. induction F as [|f w files written (t & items & E1 & E2 & E3 & E4) F IH]; [reflexivity|]. cbn [map]. rewrite <- IH. f_equal. destruct f as (k & s), w as (k' & content & port). cbn [fst snd] in *. subst k' s. cbn [file_port file_content] in *. subst content. unfold to_file. cbn [fst snd]. rewrite (parsed_done _ _ (parse_complete _ _ E3)). reflexivity.
Qed.
Print Assumptions C109_accepted.

(** The text of uavcan.node.Heartbeat.1.0, with less comments, and the types it refers to *)
Definition lines (ls : list string) : text := flat_map (fun l => name_of l ++ [10]) ls.
Definition node_key (name : string) : key := Key [name_of "uavcan"; name_of "node"] (name_of name) 1 0.
Definition heartbeat : text := lines ["# Abstract node status information.";
  "uint16 MAX_PUBLICATION_PERIOD = 1   # [second]"; "# The publication period shall not exceed this limit."; "uint16 OFFLINE_TIMEOUT = 3          # [second]"; "";
  "uint32 uptime                       # [second]"; "Health.1.0 health"; "Mode.1.0 mode"; "uint8 vendor_specific_status_code"; "@assert _offset_ % 8 == {0}"; "@assert _offset_ == {56}"; "@extent 12 * 8"]%string.
Definition health : text := lines ["uint2 value"; "uint2 NOMINAL = 0"; "uint2 WARNING     = 3"; "@sealed"]%string.
Definition mode : text := lines ["uint3 value"; "uint3 OPERATIONAL = 0"; "@sealed"]%string.
Definition node_files : list (key * source) := [(node_key "Heartbeat", (Some heartbeat, Some 7509)); (node_key "Health", (Some health, None)); (node_key "Mode", (Some mode, None))].
Definition text_compile := compile_text (fun t => t) (fun _ _ => None) (fun l => l) (fun _ _ => None).
Definition heartbeat_of (r : out (list (key * compiled))) : option (cmessage * list key) :=
  match r with Done rs => match nth_error rs 2 with Some (_, Compiled (Some 7509) (KMessage m)) => Some (m, map fst rs) | _ => None end | _ => None end.
Example C109_witness : match heartbeat_of (text_compile node_files) with
  | Some (m, keys) => keys = [node_key "Health"; node_key "Mode"; node_key "Heartbeat"] /\ c_extent m = Delimited 96 /\ bls_expand (c_length m) = Ok [56] /\ map fst (c_constants m) = [name_of "MAX_PUBLICATION_PERIOD"; name_of "OFFLINE_TIMEOUT"]
  | None => False
  end.
Proof. vm_compute. repeat split. Qed.
Example C109_distinct : distinct (map (fun f => (fst f, to_file (snd f))) node_files).
Proof. assert (H : map fst node_files = [node_key "Heartbeat"; node_key "Health"; node_key "Mode"]) by reflexivity. unfold node_files. cbn [map fst snd]. unfold to_file. cbn [fst snd]. generalize (parsed (Some heartbeat)) (parsed (Some health)) (parsed (Some mode)). intros a b c. repeat constructor; (intros (_ & X & _); vm_compute in X; discriminate X). Qed.
(** A package of one file with the text @sealed *)
Example C109_accepted_witness : Forall2 (fun f w => exists t items, snd f = (Some t, file_port (snd w)) /\ fst f = fst w /\ file_text true items t /\ file_content (snd w) = Some (statements items))
    [(node_key "Mode", (Some (name_of "@sealed"), None))] [(node_key "Mode", File (Some [SDirective DSealed None]) None)].
Proof.
  constructor; [|constructor]. exists (name_of "@sealed"), [IStatement (SDirective DSealed None)]. repeat split. apply ft_last. apply (lt_line true [_] (name_of "@sealed") [] [] []); [|constructor|constructor]. apply sp_statement, (st_directive true DSealed (name_of "sealed")); [left; exists "sealed"%string; split; [cbn; tauto|reflexivity]|word].
Qed.
