(** Properties C92-C94: names, type keys and packages of DSDL files. *)
From Coq Require Import String Lia ZifyBool ZifyN ZifyNat.
From Verif Require Import Base GenModel ExprModel ExprProofs PkgModel PkgSpec PkgProofs.
Open Scope list_scope.
Open Scope N_scope.

(** ** C92: identifiers and reserved words are the ones of the specification, whatever their case. *)
Theorem C92_identifiers s : is_valid_identifier s = true <-> identifier s.
Proof. apply identifier_right. Qed.
Print Assumptions C92_identifiers.
Theorem C92_reserved s : is_reserved_keyword s = true <-> reserved s.
Proof. apply reserved_right. Qed.
Print Assumptions C92_reserved.
Theorem C92_case s t : lowercase s = lowercase t -> is_reserved_keyword s = is_reserved_keyword t.
Proof.
  intro H. destruct (is_reserved_keyword s) eqn:A; destruct (is_reserved_keyword t) eqn:B; try reflexivity.
  - apply reserved_right in A. unfold reserved in A. rewrite H in A. apply reserved_right in A. congruence.
  - apply reserved_right in B. unfold reserved in B. rewrite <- H in B. apply reserved_right in B. congruence.
Qed.
Print Assumptions C92_case.
Example C92_reserved_witness : map is_reserved_keyword (map name_of ["Int32"; "uQ8_16"; "_offset_"; "Com1"; "int_"; "com"; "q8"; "_x"]%string) = [true; true; true; true; false; false; false; false] /\
  identifier (name_of "_x9") /\ ~ identifier (name_of "9x").
Proof. split; [vm_compute; reflexivity|]. split; [apply C92_identifiers; vm_compute; reflexivity|]. intro H. apply C92_identifiers in H. vm_compute in H. discriminate H. Qed.

(** ** C93: type keys and file names are read as they are written. *)
Theorem C93_keys s k : parse_key s = Some k <-> key_text k s.
Proof. apply parse_key_right. Qed.
Print Assumptions C93_keys.
(** What is printed reads back *)
Theorem C93_round_trip k : key_path k <> [] -> Forall part (key_path k ++ [key_name k]) -> key_major k < 256 -> key_minor k < 256 -> parse_key (show_key k) = Some k.
Proof.
  intros Hp Hn Ha Hb. apply C93_keys. exists (show_u8 (key_major k)), (show_u8 (key_minor k)). split; [apply show_join|]. pose proof (show_u8_denotes _ Ha). pose proof (show_u8_denotes _ Hb). tauto.
Qed.
Print Assumptions C93_round_trip.
(** A key is printed as one text, so different keys have different texts *)
Theorem C93_injective k l :
  key_path k <> [] -> Forall part (key_path k ++ [key_name k]) -> key_major k < 256 -> key_minor k < 256 ->
  key_path l <> [] -> Forall part (key_path l ++ [key_name l]) -> key_major l < 256 -> key_minor l < 256 -> show_key k = show_key l -> k = l.
Proof.
  intros H1 H2 H3 H4 H5 H6 H7 H8 E. pose proof (C93_round_trip k H1 H2 H3 H4) as A. rewrite E, (C93_round_trip l H5 H6 H7 H8) in A. congruence.
Qed.
Print Assumptions C93_injective.
Definition heartbeat_key := Key (map name_of ["uavcan"; "node"]%string) (name_of "Heartbeat") 1 0.
Example C93_round_trip_witness : show_key heartbeat_key = name_of "uavcan.node.Heartbeat.1.0" /\ parse_key (name_of "uavcan.node.Heartbeat.01.255") = Some (Key (map name_of ["uavcan"; "node"]%string) (name_of "Heartbeat") 1 255) /\
  parse_key (name_of "Heartbeat.1.0") = None /\ parse_key (name_of "uavcan.node.Heartbeat.1.256") = None.
Proof. repeat split. Qed.
Theorem C93_file_names s port name major minor : parse_file_name s = Some (port, name, major, minor) <-> file_text port name major minor s.
Proof. apply parse_file_right. Qed.
Print Assumptions C93_file_names.
Example C93_file_names_witness : parse_file_name (name_of "7509.Heartbeat.1.0.dsdl") = Some (Some 7509, name_of "Heartbeat", 1, 0) /\
  parse_file_name (name_of "Heartbeat.1.0.uavcan") = Some (None, name_of "Heartbeat", 1, 0) /\ parse_file_name (name_of "Heartbeat.1.dsdl") = None.
Proof. repeat split. Qed.

(** ** C94: a package takes exactly the files with acceptable, new names; it never holds two with the same name but for case. *)
Theorem C94_accepted {File} (p : package File) k f : snd (add_string p k f) = true <-> acceptable k /\ forall k' f', In (k', f') p -> ~ same_key k k'.
Proof.
  destruct (insert_right p k f) as [ (A & N & E)|(H & E) ]; unfold add_string; rewrite E; cbn [snd]; split; auto; try discriminate.
  intros (A & N). destruct H as [H|(k' & f' & I & S)]; [contradiction|]. destruct (N k' f' I S).
Qed.
Print Assumptions C94_accepted.
Theorem C94_effect {File} (p : package File) k f : fst (add_string p k f) = if snd (add_string p k f) then p ++ [(k, f)] else p.
Proof. destruct (insert_right p k f) as [ (A & N & E)|(H & E) ]; unfold add_string; rewrite E; reflexivity. Qed.
Print Assumptions C94_effect.
Theorem C94_package {File} (additions : list (key * File)) :
  let p := fold_left (fun p a => fst (add_string p (fst a) (snd a))) additions [] in distinct p /\ Forall (fun e => acceptable (fst e) /\ In e additions) p.
Proof.
  cbv zeta. assert (G : forall all additions p, distinct p -> Forall (fun e => acceptable (fst e) /\ In e all) p -> incl additions all ->
    let q := fold_left (fun p a => fst (add_string p (fst a) (snd a))) additions p in distinct q /\ Forall (fun e : key * File => acceptable (fst e) /\ In e all) q).
  { intro all. clear additions. induction additions as [|(k & f) l IH]; intros p D F I; [split; assumption|]. cbn [fold_left fst snd]. destruct (insert_right p k f) as [ (A & N & E)|(H & E) ]; unfold add_string at 2 4; rewrite E; cbn [fst]; [|apply IH; [exact D|exact F|intros x Hx; apply I; right; exact Hx] ].
    apply IH; [| |intros x Hx; apply I; right; exact Hx].
    - clear - D N. unfold distinct in *. induction D as [|e p He Hd IHd]; [cbn [app]; repeat constructor|]. cbn [app]. constructor.
      + apply Forall_app. split; [exact He|]. repeat constructor. cbn [fst]. intro S. destruct e as (k' & f'). apply (N k' f'); [left; reflexivity|]. apply same_sym. exact S.
      + apply IHd. intros k' f' X. apply (N k' f'). right. exact X.
    - apply Forall_app. split; [exact F|]. constructor; [|constructor]. split; [exact A|]. apply I. left. reflexivity. }
  apply (G additions additions []); [constructor|constructor|apply incl_refl].
Qed.
Print Assumptions C94_package.
Theorem C94_directories {File} (p : package File) directories file_name f : snd (add_file_from_path p directories file_name f) = true <->
  exists port name major minor, file_text port name major minor file_name /\ acceptable (Key directories name major minor) /\
    (forall k' f', In (k', f') p -> ~ same_key (Key directories name major minor) k') /\
    fst (add_file_from_path p directories file_name f) = p ++ [(Key directories name major minor, f port)].
Proof.
  unfold add_file_from_path, info_from_path. split.
  - destruct (parse_file_name file_name) as [ [ [ [port name] major] minor]|] eqn:E; [|intro H; discriminate H]. intro H. apply parse_file_right in E. exists port, name, major, minor. split; [exact E|]. destruct (insert_right p (Key directories name major minor) (f port)) as [ (A & N & X)|(_ & X) ]; rewrite X in *; [auto|discriminate H].
  - intros (port & name & major & minor & E & A & N & _). apply parse_file_right in E. rewrite E. apply (C94_accepted p). split; assumption.
Qed.
Print Assumptions C94_directories.
Example C94_witness : acceptable heartbeat_key /\ snd (add_string [(heartbeat_key, tt)] (Key (map name_of ["UAVCAN"; "node"]%string) (name_of "heartbeat") 1 0) tt) = false /\
  snd (add_string [(heartbeat_key, tt)] (Key (map name_of ["uavcan"; "node"]%string) (name_of "Heartbeat") 1 1) tt) = true /\
  snd (add_string [] (Key [] (name_of "Heartbeat") 1 1) tt) = false /\ snd (add_string [] (Key [name_of "uavcan"] (name_of "Const") 1 1) tt) = false /\ snd (add_string [] (Key [name_of "uavcan"] (name_of "Heartbeat") 0 0) tt) = false.
Proof. split; [apply validate_right; vm_compute; reflexivity|]. repeat split; vm_compute; reflexivity. Qed.
