(** What the code generator's command line means (C136) *)
From Verif Require Import Base GenerateToolModel.
Open Scope N_scope.

(** Segments with a separator between them *)
Fixpoint join (sep : list N) (ss : list (list N)) : list N :=
  match ss with [] => [] | [s] => s | s :: r => s ++ sep ++ join sep r end.
(** [t] contains [s] somewhere *)
Definition contains (t s : list N) : Prop := exists a b, t = a ++ s ++ b.
(** A package "a.b.c" is its segments, none of which contains a dot *)
Definition package_name (t : list N) (ss : list (list N)) : Prop := ss <> [] /\ t = join [46] ss /\ forall s, In s ss -> ~ In 46 s.
(** A path "a::b::c" is its segments; none contains "::", and colons go to the separator on their left: a segment before another one does
    not end in a colon *)
Definition module_path (t : list N) (ss : list (list N)) : Prop :=
  ss <> [] /\ t = join [58; 58] ss /\ (forall s, In s ss -> ~ contains s [58; 58]) /\ forall before s after, ss = before ++ s :: after -> after <> [] -> forall s', s <> s' ++ [58].
(** "package,module", without commas inside *)
Definition package_and_module (t : list N) (package module : list (list N)) : Prop :=
  exists a b, t = a ++ [44] ++ b /\ ~ In 44 a /\ ~ In 44 b /\ package_name a package /\ module_path b module.

(** What is on the command line: folders, output files, values of --external-package, and how often --rustfmt *)
Definition inputs (os : list occurrence) : list text := flat_map (fun o => match o with Input p => [p] | _ => [] end) os.
Definition outputs (os : list occurrence) : list text := flat_map (fun o => match o with OutputFile p => [p] | _ => [] end) os.
Definition externals (os : list occurrence) : list (list text) := flat_map (fun o => match o with ExternalPackage ts => [ts] | _ => [] end) os.
Definition flags (os : list occurrence) : nat := length (filter (fun o => match o with Rustfmt => true | _ => false end) os).
(** "lib.rs", the output file unless another one is given *)
Definition lib_rs : text := [108; 105; 98; 46; 114; 115].
