(** Proofs about parsing: words are read as what they are written for. *)
From Coq Require Import QArith Qcanon String.
From Verif Require Import Base GenModel ExprModel TextModel TextSpec TextProofs PkgModel PkgSpec CompModel ExprProofs ParseModel ParseSpec PegProofs ParseWordProofs.
Open Scope list_scope.
Open Scope N_scope.
Ltac Zify.zify_post_hook ::= Z.div_mod_to_equations.

(** * With which characters a match can start *)
Fixpoint can (n : nat) (p : peg) (c : N) : bool :=
  let fix go (p : peg) : bool :=
    match p with
    | PStr t => match t with x :: _ => x =? c | [] => false end
    | PRange lo hi => (lo <=? c) && (c <=? hi)
    | PAny => true
    | PEnd => false
    | PSeq a b => go a || (empty a && go b)
    | PAlt a b => go a || go b
    | PStar a | POpt a => go a
    | PNot _ => false
    | PRef r => match n with O => true | S m => can m (grammar r) c end
    end in go p.
Lemma can_seq n a b c : can n (PSeq a b) c = can n a c || (empty a && can n b c).
Proof. destruct n; reflexivity. Qed.
Lemma can_alt n a b c : can n (PAlt a b) c = can n a c || can n b c.
Proof. destruct n; reflexivity. Qed.
Lemma can_star n a c : can n (PStar a) c = can n a c.
Proof. destruct n; reflexivity. Qed.
Lemma can_opt n a c : can n (POpt a) c = can n a c.
Proof. destruct n; reflexivity. Qed.
Lemma same_or_shorter f p s ts rest : run f p s = Match ts rest -> rest = s \/ (length rest < length s)%nat.
Proof. intro H. destruct (run_suffix _ _ _ _ _ H) as (t & ->). destruct t; [left; reflexivity|right; rewrite app_length; cbn [length]; lia]. Qed.
Lemma can_right f : forall n p c s ts rest, run f p (c :: s) = Match ts rest -> (length rest < length (c :: s))%nat -> can n p c = true.
Proof.
  induction f as [|f IH]; intros n p c s ts rest H L; [discriminate H|]. cbn [run] in H. destruct p as [t|lo hi| | |a b|a b|a|a|a|r].
  - destruct (strip t (c :: s)) as [x|] eqn:E; [|discriminate H]. injection H as _ <-. destruct t as [|y t]; [cbn in E; injection E as <-; lia|]. cbn [strip] in E. destruct (N.eqb_spec y c) as [->|]; [|discriminate E]. destruct n; cbn; apply N.eqb_refl.
  - destruct ((lo <=? c) && (c <=? hi)) eqn:E; [|discriminate H]. destruct n; exact E.
  - destruct n; reflexivity.
  - discriminate H.
  - rewrite can_seq. destruct (run f a (c :: s)) as [us x| |] eqn:A; try discriminate H. destruct (run f b x) as [vs y| |] eqn:B; try discriminate H. injection H as _ <-. destruct (same_or_shorter _ _ _ _ _ A) as [->|S].
    + rewrite (IH n b c s vs y B L). destruct (empty a) eqn:E; [cbn; apply orb_true_r|]. pose proof (run_shorter _ _ _ _ _ A E). lia.
    + rewrite (IH n a c s us x A S). reflexivity.
  - rewrite can_alt. destruct (run f a (c :: s)) as [us x| |] eqn:A; try discriminate H; [injection H as <- <-; rewrite (IH n a _ _ _ _ A L); reflexivity|]. rewrite (IH n b _ _ _ _ H L). apply orb_true_r.
  - rewrite can_star. destruct (run f a (c :: s)) as [us x| |] eqn:A; try discriminate H; [|injection H as _ <-; lia]. destruct (run f (PStar a) x) as [vs y| |] eqn:B; try discriminate H. injection H as _ <-. destruct (same_or_shorter _ _ _ _ _ A) as [->|S].
    + rewrite <- (can_star n a c). apply (IH n (PStar a) c s vs y B L).
    + apply (IH n a c s us x A S).
  - rewrite can_opt. destruct (run f a (c :: s)) as [us x| |] eqn:A; try discriminate H; injection H as _ <-; [apply (IH n a _ _ _ _ A L)|lia].
  - destruct (run f a (c :: s)); try discriminate H. injection H as _ <-. lia.
  - destruct (run f (grammar r) (c :: s)) as [us x| |] eqn:A; try discriminate H. injection H as _ <-. destruct n as [|n]; [reflexivity|]. cbn. apply (IH n (grammar r) _ _ _ _ A L).
Qed.
Lemma ev_ends p s : well_founded ranks p = true -> exists o, ev p s o.
Proof. intro W. eexists. split; [apply (run_ends _ ranks p s (le_n _) W (le_n _))|eexists; reflexivity]. Qed.
(** A match that does not start with this character, and is not empty *)
Definition never (p : peg) (c : N) : bool := well_founded ranks p && negb (empty p) && negb (can 40 p c).
Lemma no_start p c s : never p c = true -> ev p (c :: s) NoMatch.
Proof.
  intro H. apply andb_true_iff in H as (H & C). apply andb_true_iff in H as (W & E). apply negb_true_iff in E, C. destruct (ev_ends p (c :: s) W) as (o & N & f & R). destruct o as [ts rest| |]; [|exact (conj N (ex_intro _ f R))|congruence].
  pose proof (run_shorter _ _ _ _ _ R E) as S. rewrite (can_right f 40 p c s ts rest R S) in C. discriminate C.
Qed.
Lemma no_end p : well_founded ranks p && negb (empty p) = true -> ev p [] NoMatch.
Proof.
  intro H. apply andb_true_iff in H as (W & E). apply negb_true_iff in E. destruct (ev_ends p [] W) as (o & N & f & R). destruct o as [ts rest| |]; [|exact (conj N (ex_intro _ f R))|congruence].
  pose proof (run_shorter _ _ _ _ _ R E) as S. cbn [length] in S. lia.
Qed.
Lemma ev_str_no t s : strip t s = None -> ev (PStr t) s NoMatch.
Proof. intro H. apply (ev_run 1); [|discriminate]. cbn [run]. rewrite H. reflexivity. Qed.

(** * Blanks and names *)
Definition word_char (c : N) : Prop := PkgSpec.is_letter c \/ PkgSpec.is_digit c \/ c = 95.
(** What can follow a word *)
Definition no_glue (s : text) : Prop := match s with c :: _ => ~ word_char c | [] => True end.
Definition no_blank (s : text) : Prop := match s with c :: _ => c <> 32 /\ c <> 9 | [] => True end.
Lemma ev_ws_star w : forall s, blank w -> no_blank s -> ev (PStar (lit " " // PStr [9])) (w ++ s) (Match [] s).
Proof.
  induction w as [|c w IH]; intros s B N.
  - cbn [app]. apply ev_star_end. destruct s as [|c s]; [apply no_end; reflexivity|]. destruct N as (N1 & N2). apply ev_alt_r; apply ev_str_no; cbn [lit name_of]; [change (name_of " ") with [32]|]; cbn [strip]; [destruct (N.eqb_spec 32 c)|destruct (N.eqb_spec 9 c)]; congruence.
  - inversion B as [|? ? C B']; subst. change (Match [] s) with (Match ([] ++ []) s). cbn [app]. apply (ev_star _ (c :: w ++ s) [] (w ++ s) [] s); [|apply IH; assumption].
    destruct C as [->| ->]; [apply ev_alt_l; apply (ev_str (name_of " ") (w ++ s))|apply ev_alt_r; [apply ev_str_no; reflexivity|apply (ev_str [9] (w ++ s))] ].
Qed.
Lemma ev_ws w s : space w -> no_blank s -> ev (PRef ws) (w ++ s) (Match [] s).
Proof.
  intros (B & N) S. destruct w as [|c w]; [congruence|]. apply ev_silent; [reflexivity|]. cbn [grammar]. unfold PSome. inversion B as [|? ? C B']; subst. apply (ev_seq _ _ _ [] (w ++ s) []); [|apply ev_ws_star; assumption].
  cbn [app]. destruct C as [->| ->]; [apply ev_alt_l; apply (ev_str (name_of " ") (w ++ s))|apply ev_alt_r; [apply ev_str_no; reflexivity|apply (ev_str [9] (w ++ s))] ].
Qed.
Lemma ev_no_ws s : no_blank s -> ev (PRef ws) s NoMatch.
Proof.
  intro N. apply ev_ref_no. cbn [grammar]. unfold PSome. apply ev_seq_no. destruct s as [|c s]; [apply no_end; reflexivity|]. destruct N as (N1 & N2). apply ev_alt_r; apply ev_str_no; [change (name_of " ") with [32]|]; cbn [strip]; [destruct (N.eqb_spec 32 c)|destruct (N.eqb_spec 9 c)]; congruence.
Qed.
Lemma ev_ws_opt w s : blank w -> no_blank s -> ev ws_opt (w ++ s) (Match [] s).
Proof.
  intros B N. destruct w as [|c w]; [apply ev_opt_no, ev_no_ws, N|]. apply ev_opt, ev_ws; [split; [exact B|discriminate]|exact N].
Qed.
Ltac range_no := apply ev_range_no; cbn beta iota; unfold word_char, PkgSpec.is_letter, PkgSpec.is_digit in *; lia.
Lemma ev_word_star w : forall s, Forall word_char w -> no_glue s -> ev (PStar (PRange 97 122 // PRange 65 90 // digit09 // lit "_")) (w ++ s) (Match [] s).
Proof.
  induction w as [|c w IH]; intros s F G.
  - cbn [app]. apply ev_star_end. destruct s as [|c s]; [apply no_end; reflexivity|]. cbn [no_glue] in G. apply ev_alt_r; [range_no|]. apply ev_alt_r; [range_no|]. apply ev_alt_r; [unfold digit09; range_no|]. apply ev_str_no. change (name_of "_") with [95]. cbn [strip]. destruct (N.eqb_spec 95 c); [|reflexivity]. exfalso. apply G. right. right. congruence.
  - inversion F as [|? ? C F']; subst. cbn [app]. apply (ev_star _ (c :: w ++ s) [] (w ++ s) [] s); [|apply IH; assumption]. destruct C as [ [C|C]|[C| ->] ].
    + apply ev_alt_r; [range_no|]. apply ev_alt_l. apply ev_range. lia.
    + apply ev_alt_l. apply ev_range. lia.
    + apply ev_alt_r; [range_no|]. apply ev_alt_r; [range_no|]. apply ev_alt_l. apply ev_range. exact C.
    + apply ev_alt_r; [range_no|]. apply ev_alt_r; [range_no|]. apply ev_alt_r; [unfold digit09; range_no|]. apply (ev_str (name_of "_")).
Qed.
Lemma ev_identifier t s : identifier t -> no_glue s -> ev (PRef identifier_) (t ++ s) (Match [Node identifier_ t []] s).
Proof.
  intros (c & r & -> & C & F) G. apply ev_ref; [reflexivity|]. cbn [grammar]. apply (ev_seq _ _ _ [] (r ++ s) [] s); [|apply ev_word_star; assumption]. cbn [app]. destruct C as [ [C|C]| ->].
  - apply ev_alt_r; [range_no|]. apply ev_alt_l. apply ev_range. lia.
  - apply ev_alt_l. apply ev_range. lia.
  - apply ev_alt_r; [range_no|]. apply ev_alt_r; [range_no|]. apply (ev_str (name_of "_")).
Qed.
Lemma identifier_words t : identifier t -> Forall word_char t.
Proof. intros (c & r & -> & C & F). constructor; [|exact F]. unfold word_char. tauto. Qed.
(** A word that is matched at the start of a word is a part of it *)
Lemma strip_word w : forall t s x, Forall word_char w -> no_glue s -> strip w (t ++ s) = Some x -> exists r, t = w ++ r /\ x = r ++ s.
Proof.
  induction w as [|c w IH]; intros t s x F G H; [exists t; cbn in H; split; [reflexivity|congruence]|]. inversion F as [|? ? C F']; subst. destruct t as [|d t].
  - exfalso. cbn [app] in H. destruct s as [|d s]; [discriminate H|]. cbn [strip] in H. destruct (N.eqb_spec c d) as [->|]; [|discriminate H]. apply G, C.
  - cbn [app strip] in H. destruct (N.eqb_spec c d) as [->|]; [|discriminate H]. destruct (IH _ _ _ F' G H) as (r & -> & ->). exists r. split; reflexivity.
Qed.
