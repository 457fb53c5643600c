(** Proofs about the macro [types_from_dsdl!]. *)
From Coq Require Import String.
From Verif Require Import Base GenModel ExprModel ExprProofs ParseModel PkgModel PkgSpec PkgProofs CodeModel CodeProofs MacroModel MacroSpec.
Open Scope list_scope.
Open Scope N_scope.

Lemma obind_done {A B} (x : out A) (f : A -> out B) b : obind x f = Done b <-> exists a, x = Done a /\ f a = Done b.
Proof. destruct x as [a| |]; cbn [obind]; split; intro H; try discriminate; try (destruct H as (a' & H & H'); try discriminate); [exists a; auto|]. injection H as ->. exact H'. Qed.
Lemma obind_not_crash {A B} (x : out A) (f : A -> out B) : x <> Crash -> (forall a, x = Done a -> f a <> Crash) -> obind x f <> Crash.
Proof. intros H1 H2. destruct x as [a| |]; cbn [obind]; [apply H2; reflexivity|discriminate|congruence]. Qed.

(** ** Statements *)
Inductive statement_tokens : mstatement -> list token -> Prop :=
| st_function name arguments : statement_tokens (MFunction name arguments) [TIdent name; TGroup Parenthesis arguments]
| st_inline name dsdl : statement_tokens (MInlineType name dsdl) [TIdent (name_of "type"); TLiteral (Some name); TGroup Brace [TLiteral (Some dsdl)] ].
Lemma from_literal_right l s : from_literal l = Done s <-> l = Some s.
Proof. destruct l as [x|]; cbn [from_literal]; split; intro H; try discriminate; injection H as ->; reflexivity. Qed.
Lemma string_in_group content s : parse_string_in_group content = Done s -> content = [TLiteral (Some s)].
Proof.
  unfold parse_string_in_group. destruct content as [|[ | |l| ] [|t r] ]; try discriminate. intro H. apply from_literal_right in H. subst l. reflexivity.
Qed.
Lemma statement_right before d content s : parse_mstatement before d content = Done s -> statement_tokens s (before ++ [TGroup d content]).
Proof.
  destruct d; cbn [parse_mstatement]; try discriminate.
  - unfold parse_function. destruct before as [|[name| | | ] [|t r] ]; try discriminate. intro H. injection H as <-. constructor.
  - unfold parse_inline_type. destruct before as [|[name| | | ] [|[ | |l| ] [|t r] ] ]; try discriminate. destruct (text_eqb name (name_of "type")) eqn:E; [|discriminate]. apply text_eqb_eq in E. subst name.
    intro H. apply obind_done in H. destruct H as (n & H1 & H). apply from_literal_right in H1. subst l. apply obind_done in H. destruct H as (q & H2 & H). apply string_in_group in H2. subst content. injection H as <-. constructor.
Qed.
Lemma parse_sound ts : forall before l, (before = [] -> parse_input before ts = Done l -> exists ls, Forall2 statement_tokens l ls /\ ts = concat ls) /\
  (before <> [] -> parse_input before ts = Done l -> exists s l' ls x, l = s :: l' /\ statement_tokens s (before ++ x) /\ Forall2 statement_tokens l' ls /\ ts = x ++ concat ls).
Proof.
  induction ts as [|t ts IH]; intros before l; split; intro Hb.
  - subst before. cbn [parse_input]. intro H. injection H as <-. exists []. split; [constructor|reflexivity].
  - destruct before; [contradiction|]. discriminate.
  - subst before. cbn [parse_input]. destruct t as [name| | | ]; try discriminate. intro H. destruct (proj2 (IH [TIdent name] l) ltac:(discriminate) H) as (s & l' & ls & x & -> & S & F & ->). exists ((TIdent name :: x) :: ls). split; [constructor; assumption|]. reflexivity.
  - destruct before as [|b before]; [contradiction|]. cbn [parse_input].
    assert (G : forall u, parse_input (((b :: before) ++ [u])) ts = Done l -> u = t -> exists s l' ls x, l = s :: l' /\ statement_tokens s ((b :: before) ++ x) /\ Forall2 statement_tokens l' ls /\ t :: ts = x ++ concat ls).
    { intros u H ->. destruct (proj2 (IH ((b :: before) ++ [t]) l) ltac:(discriminate) H) as (s & l' & ls & x & -> & S & F & ->). exists s, l', ls, (t :: x). rewrite <- app_assoc in S. repeat split; assumption. }
    destruct t as [name|c|lit|d content]; try (intro H; apply (G _ H); reflexivity).
    intro H. apply obind_done in H. destruct H as (s & H1 & H). apply obind_done in H. destruct H as (l' & H2 & H). injection H as <-. destruct (proj1 (IH [] l') eq_refl H2) as (ls & F & ->).
    exists s, l', ls, [TGroup d content]. split; [reflexivity|]. split; [apply statement_right; exact H1|]. split; [exact F|reflexivity].
Qed.
Lemma parse_complete l ls : Forall2 statement_tokens l ls -> parse_input [] (concat ls) = Done l.
Proof.
  induction 1 as [|s x l ls S _ IH]; [reflexivity|]. cbn [concat]. destruct S; cbn [app parse_input parse_mstatement parse_function parse_inline_type obind]; [rewrite IH; reflexivity|]. change (text_eqb (name_of "type") (name_of "type")) with true. cbn [from_literal obind parse_string_in_group]. rewrite IH. reflexivity.
Qed.
Lemma parse_right ts l : parse_input [] ts = Done l <-> exists ls, Forall2 statement_tokens l ls /\ ts = concat ls.
Proof. split; [apply (parse_sound ts [] l); reflexivity|]. intros (ls & F & ->). apply parse_complete. exact F. Qed.
Lemma parse_no_crash ts : forall before, parse_input before ts <> Crash.
Proof.
  induction ts as [|t ts IH]; intros before; cbn [parse_input]; [destruct before; discriminate|]. destruct before as [|b before]; [destruct t; try discriminate; apply IH|].
  destruct t as [name|c|lit|d content]; try apply IH. apply obind_not_crash.
  - destruct d; cbn [parse_mstatement]; try discriminate; [unfold parse_function; destruct b, before; discriminate|]. unfold parse_inline_type. destruct b as [name| | | ], before as [|[ | |l| ] [|u r] ]; try discriminate. destruct (text_eqb _ _); [|discriminate].
    apply obind_not_crash; [destruct l; discriminate|]. intros n _. apply obind_not_crash; [|discriminate]. unfold parse_string_in_group. destruct content as [|[ | |[q|]| ] [|u r] ]; discriminate.
  - intros s _. apply obind_not_crash; [apply IH|discriminate].
Qed.

(** ** Lists with separators *)
Lemma listed_nil sep ts : listed sep [] ts <-> ts = [].
Proof. unfold listed. cbn [between]. split; [intros [H|(H & _)]; [exact H|contradiction]|auto]. Qed.
Lemma listed_cons sep x r ts : listed sep (x :: r) ts <-> (r = [] /\ ts = x) \/ exists ts', ts = x ++ sep ++ ts' /\ listed sep r ts'.
Proof.
  unfold listed. destruct r as [|y r]; cbn [between].
  - split.
    + intros [->|(_ & ->)]; [left; auto|]. right. exists []. rewrite app_nil_r. auto.
    + intros [(_ & ->)|(ts' & -> & [->|(H & _)])]; [auto| |contradiction]. right. split; [discriminate|]. rewrite app_nil_r. reflexivity.
  - split.
    + intros [->|(_ & ->)]; right; eexists; (split; [try reflexivity; rewrite <- !app_assoc; reflexivity|]); [left; reflexivity|]. right. split; [discriminate|reflexivity].
    + intros [(H & _)|(ts' & -> & [->|(_ & ->)])]; [discriminate|left; reflexivity|]. right. split; [discriminate|]. rewrite <- !app_assoc. reflexivity.
Qed.

Section Eval.
  Context (env : text -> option text) (files_in : text -> option (list (list text * text * option text))).
  Notation dir := (name_of "CARGO_MANIFEST_DIR").
  Lemma env_right name v : eval_env_variable env name = Done v <-> name = dir /\ env dir = Some v.
  Proof.
    unfold eval_env_variable. destruct (text_eqb name dir) eqn:E.
    - apply text_eqb_eq in E. subst name. destruct (env dir) as [x|]; split; intro H; try discriminate; try (destruct H; discriminate); [injection H as ->; auto|destruct H as (_ & H); injection H as ->; reflexivity].
    - split; [discriminate|]. intros (-> & _). rewrite (proj2 (text_eqb_eq dir dir) eq_refl) in E. discriminate.
  Qed.
  Lemma path_sound n : forall ts path s, (length ts <= n)%nat -> eval_path env path ts = Done s -> exists parts q, listed [TPunct 44] (map part_tokens parts) ts /\ path_text env parts q /\ s = path ++ q.
  Proof.
    induction n as [|n IH]; intros ts path s L H.
    - destruct ts; [|cbn [length] in L; lia]. injection H as <-. exists [], []. split; [apply listed_nil; reflexivity|]. split; [constructor|rewrite app_nil_r; reflexivity].
    - destruct ts as [|[name|c|lit|d content] r]; try discriminate.
      + injection H as <-. exists [], []. split; [apply listed_nil; reflexivity|]. split; [constructor|rewrite app_nil_r; reflexivity].
      + cbn [eval_path] in H. destruct (N.eqb_spec c dollar) as [->|]; [|discriminate]. destruct r as [|[name|c|lit|d content] r]; try discriminate. apply obind_done in H. destruct H as (v & Hv & H). apply env_right in Hv. destruct Hv as (-> & Hv).
        destruct r as [|[name|c|lit|d content] r]; try discriminate.
        * injection H as <-. exists [ManifestDir], (v ++ []). split; [apply listed_cons; left; auto|]. split; [constructor; [exact Hv|constructor]|]. rewrite app_nil_r. reflexivity.
        * destruct (N.eqb_spec c comma) as [->|]; [|discriminate]. cbn [length] in L. destruct (IH r (path ++ v) s ltac:(lia) H) as (parts & q & Hl & Hp & ->). exists (ManifestDir :: parts), (v ++ q). split; [|split; [constructor; assumption|rewrite app_assoc; reflexivity] ].
          cbn [map]. apply listed_cons. right. exists r. auto.
      + cbn [eval_path] in H. apply obind_done in H. destruct H as (v & Hv & H). apply from_literal_right in Hv. subst lit. destruct r as [|[name|c|lit|d content] r]; try discriminate.
        * injection H as <-. exists [Quoted v], (v ++ []). split; [apply listed_cons; left; auto|]. split; [constructor; constructor|]. rewrite app_nil_r. reflexivity.
        * destruct (N.eqb_spec c comma) as [->|]; [|discriminate]. cbn [length] in L. destruct (IH r (path ++ v) s ltac:(lia) H) as (parts & q & Hl & Hp & ->). exists (Quoted v :: parts), (v ++ q). split; [|split; [constructor; assumption|rewrite app_assoc; reflexivity] ].
          cbn [map]. apply listed_cons. right. exists r. auto.
  Qed.
  Lemma path_complete parts q : path_text env parts q -> forall ts path, listed [TPunct 44] (map part_tokens parts) ts -> eval_path env path ts = Done (path ++ q).
  Proof.
    induction 1 as [|d parts q Hd _ IH|v parts q _ IH]; intros ts path H; cbn [map] in H.
    - apply listed_nil in H. subst ts. rewrite app_nil_r. reflexivity.
    - apply listed_cons in H. destruct H as [(N & ->)|(ts' & -> & H)].
      + specialize (IH [] (path ++ d)). apply map_eq_nil in N. subst parts. cbn [part_tokens eval_path]. change (36 =? dollar) with true. cbn iota. rewrite (proj2 (env_right dir d) (conj eq_refl Hd)). cbn [obind]. rewrite app_assoc. apply IH. apply listed_nil. reflexivity.
      + cbn [part_tokens app eval_path]. change (36 =? dollar) with true. cbn iota. rewrite (proj2 (env_right dir d) (conj eq_refl Hd)). cbn [obind]. change (44 =? comma) with true. cbn iota. rewrite app_assoc. apply IH. exact H.
    - apply listed_cons in H. destruct H as [(N & ->)|(ts' & -> & H)].
      + specialize (IH [] (path ++ v)). apply map_eq_nil in N. subst parts. cbn [part_tokens eval_path from_literal obind]. rewrite app_assoc. apply IH. apply listed_nil. reflexivity.
      + cbn [part_tokens app eval_path from_literal obind]. change (44 =? comma) with true. cbn iota. rewrite app_assoc. apply IH. exact H.
  Qed.
  Lemma path_no_crash n : forall ts path, (length ts <= n)%nat -> eval_path env path ts <> Crash.
  Proof.
    induction n as [|n IH]; intros ts path L; [destruct ts; [discriminate|cbn [length] in L; lia]|]. destruct ts as [|[name|c|lit|d content] r]; try discriminate; cbn [eval_path length] in *.
    - destruct (c =? dollar); [|discriminate]. destruct r as [|[name|c'|lit|d content] r]; try discriminate. cbn [length] in *. apply obind_not_crash; [unfold eval_env_variable; destruct (text_eqb _ _); [|discriminate]; destruct (env name); discriminate|]. intros v _. destruct r as [|[name'|c'|lit|d content] r]; try discriminate. cbn [length] in *. destruct (c' =? comma); [|discriminate]. apply IH. lia.
    - apply obind_not_crash; [destruct lit; discriminate|]. intros v _. destruct r as [|[name'|c'|lit'|d content] r]; try discriminate. cbn [length] in *. destruct (c' =? comma); [|discriminate]. apply IH. lia.
  Qed.

  (** ** Adding types *)
  Lemma same_key_sym a b : same_key a b -> same_key b a.
  Proof. unfold same_key. intuition congruence. Qed.
  Lemma distinct_snoc (p : package source) x : distinct (p ++ [x]) <-> distinct p /\ forall k f, In (k, f) p -> ~ same_key (fst x) k.
  Proof.
    unfold distinct. induction p as [|y p IH]; cbn [app].
    - split; [intros _; split; [constructor|intros k f []]|]. intros _. constructor; constructor.
    - split.
      + intro H. inversion H as [|? ? F D]; subst. apply IH in D. destruct D as (D & N). apply Forall_app in F. destruct F as (F & F'). split; [constructor; assumption|]. intros k f [->|I]; [|apply (N k f I)]. inversion F'; subst. intro S. apply H2. apply same_key_sym. exact S.
      + intros (H & N). inversion H as [|? ? F D]; subst. constructor; [|apply IH; split; [exact D|]; intros k f I; apply (N k f); right; exact I]. apply Forall_app. split; [exact F|]. constructor; [|constructor]. intro S. destruct y as (k & f). apply (N k f); [left; reflexivity|]. apply same_key_sym. exact S.
  Qed.
  Lemma distinct_app_l (p q : package source) : distinct (p ++ q) -> distinct p.
  Proof.
    unfold distinct. induction p as [|y p IH]; cbn [app]; intro H; [constructor|]. inversion H as [|? ? F D]; subst. apply Forall_app in F. constructor; [apply F|]. apply IH. exact D.
  Qed.
  Lemma insert_done (p : package source) k f : distinct p -> forall p', (let (p'', ok) := try_insert p k f in if ok then Done p'' else Fail) = Done p' <-> p' = p ++ [(k, f)] /\ acceptable k /\ distinct (p ++ [(k, f)]).
  Proof.
    intros D p'. destruct (PkgProofs.insert_right p k f) as [(A & N & ->)|(H & ->)].
    - split; [intro E; injection E as <-; split; [reflexivity|]; split; [exact A|apply distinct_snoc; auto]|intros (-> & _); reflexivity].
    - split; [discriminate|]. intros (_ & A & D'). apply distinct_snoc in D'. destruct D' as (_ & N). destruct H as [H|(k' & f' & I & S)]; [contradiction|]. destruct (N k' f' I S).
  Qed.
  Lemma add_all_right files : forall p p', distinct p -> add_all p files = Done p' <-> exists types, Forall2 file_type files types /\ p' = p ++ types /\ Forall (fun t => acceptable (fst t)) types /\ distinct (p ++ types).
  Proof.
    induction files as [|((directories & file_name) & content) files IH]; intros p p' D; cbn [add_all].
    - split.
      + intro H. injection H as <-. exists []. rewrite app_nil_r. auto.
      + intros (types & F & -> & _). inversion F; subst. rewrite app_nil_r. reflexivity.
    - unfold add_file_from_path, info_from_path. destruct (parse_file_name file_name) as [ [ [ [port name] major] minor]|] eqn:E.
      + apply parse_file_right in E. set (k := Key directories name major minor). pose proof (insert_done p k (content, port) D) as I. split.
        * intro H. destruct (try_insert p k (content, port)) as (p1 & ok) eqn:T. destruct ok; [|discriminate]. destruct (proj1 (I p1) eq_refl) as (-> & A & D'). apply (IH _ _ D') in H. destruct H as (types & F & -> & Fa & Dt). exists ((k, (content, port)) :: types).
          rewrite <- app_assoc in *. split; [constructor; [exists port, name, major, minor; auto|exact F]|]. split; [reflexivity|]. split; [constructor; assumption|]. exact Dt.
        * intros (types & F & -> & Fa & Dt). inversion F as [|? x ? types' Hx F']; subst. destruct Hx as (port' & name' & major' & minor' & Hx & ->). apply parse_file_right in Hx, E. rewrite E in Hx. injection Hx as <- <- <- <-. fold k in Fa, Dt |- *. inversion Fa as [|? ? A Fa']; subst. cbn [fst] in A.
          assert (Dt' : distinct ((p ++ [(k, (content, port))]) ++ types')) by (rewrite <- app_assoc; exact Dt). pose proof (distinct_app_l _ _ Dt') as D'. specialize (I (p ++ [(k, (content, port))])). pose proof (proj2 I (conj eq_refl (conj A D'))) as T. clear I. destruct (try_insert p k (content, port)) as (p1 & ok). destruct ok; [injection T as ->|discriminate T].
          apply (IH _ _ D'). exists types'. rewrite <- app_assoc. auto.
      + split; [discriminate|]. intros (types & F & _). inversion F as [|? x ? types' Hx F']; subst. destruct Hx as (port' & name' & major' & minor' & Hx & _). apply parse_file_right in Hx. rewrite E in Hx. discriminate.
  Qed.
  Lemma add_all_no_crash files : forall p, add_all p files <> Crash.
  Proof. induction files as [|((directories & file_name) & content) files IH]; intro p; cbn [add_all]; [discriminate|]. destruct (add_file_from_path _ _ _ _) as (p' & ok). destruct ok; [apply IH|discriminate]. Qed.
  Lemma package_right p args p' : distinct p -> eval_package env files_in p args = Done p' <->
    exists parts types, listed [TPunct 44] (map part_tokens parts) args /\ asks env files_in (Directory parts) types [] /\ p' = p ++ types /\ Forall (fun t => acceptable (fst t)) types /\ distinct (p ++ types).
  Proof.
    intro D. unfold eval_package. split.
    - intro H. apply obind_done in H. destruct H as (path & Hp & H). apply (path_sound (length args)) in Hp; [|lia]. destruct Hp as (parts & q & Hl & Hq & ->). cbn [app] in H. destruct (files_in q) as [files|] eqn:E; [|discriminate].
      apply (add_all_right files p p' D) in H. destruct H as (types & F & -> & A & D'). exists parts, types. split; [exact Hl|]. split; [econstructor; eassumption|]. auto.
    - intros (parts & types & Hl & Ha & -> & A & D'). inversion Ha as [? path files ? Hp Hf F|? ?|? ? ? ?]; subst. rewrite (path_complete parts path Hp args [] Hl). cbn [obind app]. rewrite Hf. apply add_all_right; [exact D|]. exists types. auto.
  Qed.

  (** ** External packages *)
  Lemma cyphal_sound n : forall ts p rest, (length ts <= n)%nat -> cyphal_package ts = Done (p, rest) -> rest <> [] -> p <> [] /\ ts = between [TPunct 46] (idents p) ++ [TPunct 44] ++ rest.
  Proof.
    induction n as [|n IH]; intros ts p rest L H R; (destruct ts as [|[name|c|lit|d content] [|[name'|c'|lit'|d' content'] r] ]; cbn [length] in L; try lia; try discriminate; cbn [cyphal_package] in H); try (injection H as <- <-; contradiction).
    destruct (N.eqb_spec c' dot) as [->|].
    - apply obind_done in H. destruct H as ((p' & rest') & H1 & H). cbn [fst snd] in H. injection H as <- <-. destruct (IH r p' rest' ltac:(lia) H1 R) as (N & ->). split; [discriminate|]. destruct p' as [|x p']; [contradiction|]. reflexivity.
    - destruct (N.eqb_spec c' comma) as [->|]; [|discriminate]. injection H as <- <-. split; [discriminate|reflexivity].
  Qed.
  Lemma cyphal_complete p rest : p <> [] -> cyphal_package (between [TPunct 46] (idents p) ++ [TPunct 44] ++ rest) = Done (p, rest).
  Proof.
    induction p as [|x p IH]; intro N; [contradiction|]. destruct p as [|y p]; [reflexivity|]. change (between [TPunct 46] (idents (x :: y :: p))) with ([TIdent x] ++ [TPunct 46] ++ between [TPunct 46] (idents (y :: p))). rewrite <- !app_assoc. cbn [app cyphal_package]. change (46 =? dot) with true. cbn iota. cbn [app] in IH. rewrite IH by discriminate. reflexivity.
  Qed.
  Lemma cyphal_no_crash n : forall ts, (length ts <= n)%nat -> cyphal_package ts <> Crash.
  Proof.
    induction n as [|n IH]; intros ts L; (destruct ts as [|[name|c|lit|d content] [|[name'|c'|lit'|d' content'] r] ]; cbn [length] in L; try lia; try discriminate; cbn [cyphal_package]).
    destruct (c' =? dot); [apply obind_not_crash; [apply IH; lia|discriminate]|]. destruct (c' =? comma); discriminate.
  Qed.
  Lemma module_sound n : forall ts m, (length ts <= n)%nat -> rust_module ts = Done m -> listed [TPunct 58; TPunct 58] (idents m) ts.
  Proof.
    induction n as [|n IH]; intros ts m L H; (destruct ts as [|[name|c|lit|d content] [|[name'|c'|lit'|d' content'] [|[name''|c''|lit''|d'' content''] r] ] ]; cbn [length] in L; try lia; try discriminate; cbn [rust_module] in H);
      try (injection H as <-; apply listed_nil; reflexivity); try (injection H as <-; apply listed_cons; left; auto; fail).
    destruct (N.eqb_spec c' colon) as [->|]; [|discriminate]. destruct (N.eqb_spec c'' colon) as [->|]; [|discriminate]. cbn [andb] in H. apply obind_done in H. destruct H as (m' & H1 & H). injection H as <-. apply IH in H1; [|lia]. apply listed_cons. right. exists r. auto.
  Qed.
  Lemma module_complete m : forall ts, listed [TPunct 58; TPunct 58] (idents m) ts -> rust_module ts = Done m.
  Proof.
    induction m as [|x m IH]; intros ts H; [apply listed_nil in H; subst ts; reflexivity|]. apply listed_cons in H. destruct H as [(N & ->)|(ts' & -> & H)].
    - apply map_eq_nil in N. subst m. reflexivity.
    - cbn [app rust_module]. change ((58 =? colon) && (58 =? colon)) with true. cbn iota. rewrite (IH ts' H). destruct ts'; reflexivity.
  Qed.
  Lemma module_no_crash n : forall ts, (length ts <= n)%nat -> rust_module ts <> Crash.
  Proof.
    induction n as [|n IH]; intros ts L; (destruct ts as [|[name|c|lit|d content] [|[name'|c'|lit'|d' content'] [|[name''|c''|lit''|d'' content''] r] ] ]; cbn [length] in L; try lia; try discriminate; cbn [rust_module]).
    destruct (_ && _); [|discriminate]. apply obind_not_crash; [apply IH; lia|discriminate].
  Qed.
  Lemma get_package_fresh e p : get_package e p = None <-> ~ In p (map fst e).
  Proof.
    split.
    - intros H I. apply in_map_iff in I. destruct I as ((p' & m) & <- & I). exact (get_package_none e _ H m I).
    - intro N. destruct (get_package e p) as [m|] eqn:E; [|reflexivity]. apply get_package_in in E. destruct N. apply in_map_iff. exists (p, m). auto.
  Qed.
  Lemma external_right e args e' : eval_make_external e args = Done e' <->
    exists p m ts, p <> [] /\ m <> [] /\ listed [TPunct 58; TPunct 58] (idents m) ts /\ args = between [TPunct 46] (idents p) ++ [TPunct 44] ++ ts /\ e' = e ++ [(p, m)] /\ ~ In p (map fst e).
  Proof.
    unfold eval_make_external. split.
    - intro H. apply obind_done in H. destruct H as ((p & rest) & H1 & H). cbn [fst snd] in H. destruct p as [|x p]; [discriminate|]. apply obind_done in H. destruct H as (m & H2 & H). destruct m as [|y m]; [discriminate|]. destruct (get_package e (x :: p)) eqn:E; [discriminate|]. injection H as <-.
      apply (module_sound (length rest)) in H2; [|lia]. assert (R : rest <> []) by (intros ->; apply listed_cons in H2; destruct H2 as [(_ & H2)|(t & H2 & _)]; discriminate). destruct (cyphal_sound (length args) args _ _ ltac:(lia) H1 R) as (N & Ha). exists (x :: p), (y :: m), rest. split; [exact N|]. split; [discriminate|]. split; [exact H2|]. split; [exact Ha|]. split; [reflexivity|]. apply get_package_fresh. exact E.
    - intros (p & m & ts & Np & Nm & Hl & -> & -> & Nf). rewrite (cyphal_complete p ts Np). cbn [obind fst snd]. destruct p as [|x p]; [contradiction|]. rewrite (module_complete m ts Hl). cbn [obind]. destruct m as [|y m]; [contradiction|]. rewrite (proj2 (get_package_fresh e (x :: p)) Nf). reflexivity.
  Qed.
  Lemma external_no_crash e args : eval_make_external e args <> Crash.
  Proof.
    unfold eval_make_external. apply obind_not_crash; [apply (cyphal_no_crash (length args)); lia|]. intros (p & rest) _. cbn [fst snd]. destruct p; [discriminate|]. apply obind_not_crash; [apply (module_no_crash (length rest)); lia|]. intros m _. destruct m; [discriminate|]. destruct (get_package _ _); discriminate.
  Qed.

  (** ** Everything *)
  Inductive states : command -> mstatement -> Prop :=
  | s_directory parts arguments : listed [TPunct 44] (map part_tokens parts) arguments -> states (Directory parts) (MFunction (name_of "package") arguments)
  | s_external p m ts : p <> [] -> m <> [] -> listed [TPunct 58; TPunct 58] (idents m) ts -> states (External p m) (MFunction (name_of "make_external") (between [TPunct 46] (idents p) ++ [TPunct 44] ++ ts))
  | s_inline name dsdl : states (Inline name dsdl) (MInlineType name dsdl).
  Definition outcome p e types es (front l : list mstatement) (r : option (package source * packages)) : Prop :=
    (l = front /\ r = None) \/ (exists args, l = front ++ [MFunction (name_of "generate") args] /\ r = Some (p ++ types, e ++ es)).
  Definition evaluated p e l r : Prop := exists commands front types es, Forall2 states commands front /\ asks_all env files_in commands types es /\
    Forall (fun t => acceptable (fst t)) types /\ distinct (p ++ types) /\ NoDup (map fst (e ++ es)) /\ outcome p e types es front l r.
  Lemma evaluated_cons p e c s l r types es : states c s -> asks env files_in c types es -> Forall (fun t => acceptable (fst t)) types -> evaluated (p ++ types) (e ++ es) l r -> evaluated p e (s :: l) r.
  Proof.
    intros S A Fa (commands & front & types' & es' & F & Aa & Fa' & D & N & O). exists (c :: commands), (s :: front), (types ++ types'), (es ++ es'). rewrite <- app_assoc in D, N. split; [constructor; assumption|]. split; [constructor; assumption|]. split; [apply Forall_app; auto|]. split; [exact D|]. split; [exact N|].
    destruct O as [(-> & ->)|(args & -> & ->)]; [left; auto|]. right. exists args. split; [reflexivity|]. rewrite !app_assoc. reflexivity.
  Qed.
  Lemma nodup_app_l {A} (a b : list A) : NoDup (a ++ b) -> NoDup a.
  Proof. induction a as [|x a IH]; cbn [app]; intro H; [constructor|]. inversion H; subst. constructor; [|auto]. intro I. apply H2. apply in_or_app. auto. Qed.
  Lemma nodup_snoc {A} (l : list A) x : NoDup (l ++ [x]) <-> NoDup l /\ ~ In x l.
  Proof.
    induction l as [|y l IH]; cbn [app].
    - split; [intros _; split; [constructor|intros []]|intros _; constructor; [intros []|constructor]].
    - split.
      + intro H. inversion H as [|? ? N D]; subst. apply IH in D. destruct D as (D & Nx). rewrite in_app_iff in N. split; [constructor; [|exact D]; tauto|]. intros [->|I]; [apply N; right; left; reflexivity|contradiction].
      + intros (H & N). inversion H as [|? ? N' D]; subst. constructor; [|apply IH; split; [exact D|]; intro I; apply N; right; exact I]. rewrite in_app_iff. intros [I|[->|[]]]; [contradiction|]. apply N. left. reflexivity.
  Qed.
  Lemma inline_right p name dsdl p' : distinct p -> eval_inline_type p name dsdl = Done p' <-> exists k, key_text k name /\ p' = p ++ [(k, (Some dsdl, None))] /\ acceptable k /\ distinct (p ++ [(k, (Some dsdl, None))]).
  Proof.
    intro D. unfold eval_inline_type. destruct (parse_key name) as [k|] eqn:E.
    - unfold add_string. rewrite (insert_done p k (Some dsdl, None) D p'). split.
      + intros (-> & A & D'). exists k. apply parse_key_right in E. auto.
      + intros (k' & K & -> & A & D'). apply parse_key_right in K. rewrite E in K. injection K as <-. auto.
    - split; [discriminate|]. intros (k & K & _). apply parse_key_right in K. rewrite E in K. discriminate.
  Qed.
  Lemma text_neq a b : text_eqb a b = false -> a <> b.
  Proof. intros E ->. rewrite (proj2 (text_eqb_eq b b) eq_refl) in E. discriminate. Qed.
  Lemma eval_sound l : forall p e r, distinct p -> NoDup (map fst e) -> eval_statements env files_in p e l = Done r -> evaluated p e l r.
  Proof.
    induction l as [|s l IH]; intros p e r D N H.
    - injection H as <-. exists [], [], [], []. rewrite !app_nil_r. split; [constructor|]. split; [constructor|]. split; [constructor|]. split; [exact D|]. split; [exact N|]. left. auto.
    - destruct s as [name args|name dsdl]; cbn [eval_statements] in H.
      + destruct (text_eqb name (name_of "package")) eqn:E1; [apply text_eqb_eq in E1; subst name|].
        { apply obind_done in H. destruct H as (p1 & H1 & H). apply (package_right p args p1 D) in H1. destruct H1 as (parts & types & Hl & A & -> & Fa & D'). eapply evaluated_cons; [constructor; exact Hl|exact A|exact Fa|]. rewrite app_nil_r. apply IH; assumption. }
        destruct (text_eqb name (name_of "make_external")) eqn:E2; [apply text_eqb_eq in E2; subst name|].
        { apply obind_done in H. destruct H as (e1 & H1 & H). apply external_right in H1. destruct H1 as (q & m & ts & Nq & Nm & Hl & -> & -> & Nf). eapply (evaluated_cons _ _ (External q m) _ _ _ [] [(q, m)]); [constructor; assumption|constructor|constructor|]. rewrite app_nil_r. apply IH; [exact D| |exact H]. rewrite map_app. apply nodup_snoc. auto. }
        destruct (text_eqb name (name_of "generate")) eqn:E3; [apply text_eqb_eq in E3; subst name|discriminate]. destruct l; [|discriminate]. injection H as <-. exists [], [], [], []. rewrite !app_nil_r. split; [constructor|]. split; [constructor|]. split; [constructor|]. split; [exact D|]. split; [exact N|]. right. exists args. rewrite !app_nil_r. auto.
      + apply obind_done in H. destruct H as (p1 & H1 & H). apply (inline_right p name dsdl p1 D) in H1. destruct H1 as (k & K & -> & A & D'). eapply (evaluated_cons _ _ (Inline name dsdl) _ _ _ [(k, (Some dsdl, None))] []); [constructor|constructor; exact K|constructor; [exact A|constructor]|]. rewrite app_nil_r. apply IH; assumption.
  Qed.
  Lemma eval_complete commands front : Forall2 states commands front -> forall types es p e l r, asks_all env files_in commands types es -> Forall (fun t => acceptable (fst t)) types -> distinct (p ++ types) -> NoDup (map fst (e ++ es)) ->
    outcome p e types es front l r -> eval_statements env files_in p e l = Done r.
  Proof.
    induction 1 as [|c s commands front S F IH]; intros types es p e l r A Fa D N O.
    - inversion A; subst. destruct O as [(-> & ->)|(args & -> & ->)]; [reflexivity|]. rewrite !app_nil_r. cbn [app eval_statements]. reflexivity.
    - inversion A as [|? ? types1 es1 types2 es2 A1 A2]; subst. apply Forall_app in Fa. destruct Fa as (Fa1 & Fa2). rewrite app_assoc in D, N. pose proof (distinct_app_l _ _ D) as D1. assert (N1 : NoDup (map fst (e ++ es1))) by (rewrite map_app in N; apply nodup_app_l in N; exact N).
      assert (G : exists l', l = s :: l' /\ outcome (p ++ types1) (e ++ es1) types2 es2 front l' r). { destruct O as [(-> & ->)|(args & -> & ->)]; eexists; (split; [reflexivity|]); [left; auto|]. right. exists args. split; [reflexivity|]. rewrite !app_assoc. reflexivity. }
      destruct G as (l' & -> & O'). pose proof (IH types2 es2 (p ++ types1) (e ++ es1) l' r A2 Fa2 D N O') as R. pose proof (distinct_app_l _ _ D1) as D0. assert (N0 : NoDup (map fst e)) by (rewrite map_app in N1; apply nodup_app_l in N1; exact N1). destruct S as [parts args Hl|q m ts Nq Nm Hl|name dsdl]; cbn [eval_statements].
      + change (text_eqb (name_of "package") (name_of "package")) with true. cbn iota. assert (es1 = []) as -> by (inversion A1; reflexivity). rewrite (proj2 (package_right p args (p ++ types1) D0)) by (exists parts, types1; auto). cbn [obind]. rewrite app_nil_r in R. exact R.
      + change (text_eqb (name_of "make_external") (name_of "package")) with false. change (text_eqb (name_of "make_external") (name_of "make_external")) with true. cbn iota. inversion A1; subst. rewrite (proj2 (external_right e _ (e ++ [(q, m)]))). { cbn [obind]. rewrite app_nil_r in R. exact R. }
        exists q, m, ts. rewrite map_app in N1. apply nodup_snoc in N1. destruct N1 as (_ & Nf). auto 6.
      + inversion A1 as [| |? ? k K]; subst. inversion Fa1; subst. rewrite (proj2 (inline_right p name dsdl (p ++ [(k, (Some dsdl, None))]) D0)) by (exists k; auto). cbn [obind]. rewrite app_nil_r in R. exact R.
  Qed.
  Lemma eval_no_crash l : forall p e, eval_statements env files_in p e l <> Crash.
  Proof.
    induction l as [|s l IH]; intros p e; [discriminate|]. destruct s as [name args|name dsdl]; cbn [eval_statements].
    - destruct (text_eqb name _); [|destruct (text_eqb name _); [|destruct (text_eqb name _); [destruct l; discriminate|discriminate] ] ].
      + apply obind_not_crash; [|intros; apply IH]. unfold eval_package. apply obind_not_crash; [apply (path_no_crash (length args)); lia|]. intros path _. destruct (files_in path); [apply add_all_no_crash|discriminate].
      + apply obind_not_crash; [apply external_no_crash|intros; apply IH].
    - apply obind_not_crash; [|intros; apply IH]. unfold eval_inline_type. destruct (parse_key name); [|discriminate]. destruct (add_string _ _ _) as (p' & ok). destruct ok; discriminate.
  Qed.
  Lemma written_states c ts : written c ts <-> exists s, states c s /\ statement_tokens s ts.
  Proof.
    split.
    - intro W. destruct W; eexists; (split; [constructor; eassumption || constructor|constructor]).
    - intros (s & S & T). destruct S; inversion T; subst; constructor; assumption.
  Qed.
  Lemma all_written_states commands ts : all_written commands ts <-> exists front ls, Forall2 states commands front /\ Forall2 statement_tokens front ls /\ ts = concat ls.
  Proof.
    unfold all_written. split.
    - intros (l & F & ->). enough (G : exists front, Forall2 states commands front /\ Forall2 statement_tokens front l) by (destruct G as (front & G1 & G2); exists front, l; auto). induction F as [|c ts commands l W _ (front & G1 & G2)]; [exists []; split; constructor|]. apply written_states in W. destruct W as (s & S & T). exists (s :: front). split; constructor; assumption.
    - intros (front & ls & F1 & F2 & ->). exists ls. split; [|reflexivity]. revert ls F2. induction F1 as [|c s commands front S _ IH]; intros ls F2; inversion F2; subst; constructor; [|auto]. apply written_states. eauto.
  Qed.
End Eval.
