(** Proofs about parsing: what the parser takes for words is written by the rules. *)
From Coq Require Import QArith Qcanon String.
From Verif Require Import Base GenModel ExprModel TextModel TextSpec TextProofs PkgModel PkgSpec CompModel ParseModel ParseSpec PegProofs.
Open Scope list_scope.
Open Scope N_scope.
Ltac Zify.zify_post_hook ::= Z.div_mod_to_equations.

(** * What a parsing expression matches, forgetting the order of choices *)

Fixpoint excluded (p : peg) : list N := match p with PStr [c] => [c] | PAlt a b => excluded a ++ excluded b | _ => [] end.
Fixpoint single (p : peg) : bool := match p with PStr [_] => true | PAlt a b => single a && single b | _ => false end.
Fixpoint means (n : nat) (p : peg) (t : text) (ts : list tree) : Prop :=
  match n with
  | O => False
  | S m =>
      match p with
      | PStr x => t = x /\ ts = []
      | PRange lo hi => exists c, t = [c] /\ lo <= c <= hi /\ ts = []
      | PAny => exists c, t = [c] /\ ts = []
      | PEnd => t = [] /\ ts = []
      | PSeq (PNot a) PAny => exists c, t = [c] /\ ~ In c (excluded a) /\ ts = []
      | PSeq a b => exists t1 t2 us vs, t = t1 ++ t2 /\ ts = us ++ vs /\ means m a t1 us /\ means m b t2 vs
      | PAlt a b => means m a t ts \/ means m b t ts
      | PStar a => (t = [] /\ ts = []) \/ exists t1 t2 us vs, t = t1 ++ t2 /\ ts = us ++ vs /\ means m a t1 us /\ means m (PStar a) t2 vs
      | POpt a => (t = [] /\ ts = []) \/ means m a t ts
      | PNot _ => False
      | PRef r => exists us, means m (grammar r) t us /\ ts = if silent r then us else [Node r t us]
      end
  end.
(** A negation is only used for excluding some characters *)
Fixpoint nots (p : peg) : bool :=
  match p with
  | PSeq (PNot a) PAny => single a
  | PSeq a b => nots a && nots b
  | PAlt a b => nots a && nots b
  | PStar a | POpt a => nots a
  | PNot _ => false
  | _ => true
  end.
Lemma nots_rules r : nots (grammar r) = true.
Proof. destruct r; vm_compute; reflexivity. Qed.
Lemma excluded_right a : forall f c s, single a = true -> run f a (c :: s) = NoMatch -> ~ In c (excluded a).
Proof.
  induction a as [t|lo hi| | |a IHa b IHb|a IHa b IHb|a IHa|a IHa|a IHa|r]; cbn [single excluded]; try discriminate; intros f c s.
  - destruct t as [|x [|y t] ]; try discriminate. intros _ R [->|[] ]. destruct f; [discriminate R|]. cbn [run strip] in R. rewrite N.eqb_refl in R. discriminate R.
  - intros (S1 & S2)%andb_true_iff R I. destruct f as [|f]; [discriminate R|]. cbn [run] in R. destruct (run f a (c :: s)) eqn:A; try discriminate R. apply in_app_or in I as [I|I]; [apply (IHa _ _ _ S1 A I)|apply (IHb _ _ _ S2 R I)].
Qed.
Definition special (p : peg) : bool := match p with PSeq (PNot _) PAny => true | _ => false end.
Lemma means_seq m a b t ts : special (PSeq a b) = false -> (means (S m) (PSeq a b) t ts <-> exists t1 t2 us vs, t = t1 ++ t2 /\ ts = us ++ vs /\ means m a t1 us /\ means m b t2 vs).
Proof. intro H. destruct a; try reflexivity. destruct b; try reflexivity. discriminate H. Qed.
Lemma nots_seq a b : special (PSeq a b) = false -> nots (PSeq a b) = nots a && nots b.
Proof. intro H. destruct a; try reflexivity. destruct b; try reflexivity. discriminate H. Qed.
Lemma run_means f : forall p s ts rest, nots p = true -> run f p s = Match ts rest -> exists t, s = t ++ rest /\ means f p t ts.
Proof.
  induction f as [|f IH]; intros p s ts rest N H; [discriminate H|]. destruct p as [t|lo hi| | |a b|a b|a|a|a|r].
  - cbn [run] in H. destruct (strip t s) as [x|] eqn:E; [|discriminate H]. injection H as <- <-. exists t. split; [apply strip_right, E|split; reflexivity].
  - cbn [run] in H. destruct s as [|c s]; [discriminate H|]. destruct (N.leb_spec lo c); [|discriminate H]. destruct (N.leb_spec c hi); [|discriminate H]. injection H as <- <-. exists [c]. split; [reflexivity|]. exists c. auto.
  - cbn [run] in H. destruct s as [|c s]; [discriminate H|]. injection H as <- <-. exists [c]. split; [reflexivity|]. exists c. auto.
  - cbn [run] in H. destruct s; [|discriminate H]. injection H as <- <-. exists []. split; [reflexivity|split; reflexivity].
  - destruct (special (PSeq a b)) eqn:X.
    + destruct a as [| | | | | | | |a|]; try discriminate X. destruct b; try discriminate X. destruct f as [|f]; [discriminate H|]. cbn [run] in H. destruct (run f a s) eqn:A; try discriminate H. destruct s as [|c s]; [discriminate H|]. injection H as <- <-.
      exists [c]. split; [reflexivity|]. cbn [means]. exists c. split; [reflexivity|]. split; [|reflexivity]. apply (excluded_right _ _ _ _ N A).
    + rewrite (nots_seq _ _ X) in N. apply andb_true_iff in N as (N1 & N2). cbn [run] in H. destruct (run f a s) as [us x| |] eqn:A; try discriminate H. destruct (run f b x) as [vs y| |] eqn:B; try discriminate H. injection H as <- <-.
      destruct (IH _ _ _ _ N1 A) as (t1 & -> & M1). destruct (IH _ _ _ _ N2 B) as (t2 & -> & M2). exists (t1 ++ t2). split; [apply app_assoc|]. apply (means_seq f a b _ _ X). exists t1, t2, us, vs. auto.
  - cbn [nots] in N. apply andb_true_iff in N as (N1 & N2). cbn [run] in H. cbn [means]. destruct (run f a s) as [us x| |] eqn:A; try discriminate H.
    + injection H as <- <-. destruct (IH _ _ _ _ N1 A) as (t & -> & M). exists t. auto.
    + destruct (IH _ _ _ _ N2 H) as (t & -> & M). exists t. auto.
  - cbn [run] in H. cbn [means]. destruct (run f a s) as [us x| |] eqn:A; try discriminate H; [|injection H as <- <-; exists []; auto]. destruct (run f (PStar a) x) as [vs y| |] eqn:B; try discriminate H. injection H as <- <-.
    destruct (IH a _ _ _ N A) as (t1 & -> & M1). destruct (IH (PStar a) _ _ _ N B) as (t2 & -> & M2). exists (t1 ++ t2). split; [apply app_assoc|]. right. exists t1, t2, us, vs. auto.
  - cbn [run] in H. cbn [means]. destruct (run f a s) as [us x| |] eqn:A; try discriminate H; injection H as <- <-; [destruct (IH a _ _ _ N A) as (t & -> & M); exists t; auto|exists []; auto].
  - discriminate N.
  - cbn [run] in H. cbn [means]. destruct (run f (grammar r) s) as [us x| |] eqn:A; try discriminate H. injection H as <- <-. destruct (IH _ _ _ _ (nots_rules r) A) as (t & -> & M). exists t. split; [reflexivity|]. exists us. split; [exact M|]. rewrite consumed_app. reflexivity.
Qed.

(** ** Taking a match apart *)
Lemma m_str n x t ts : means n (PStr x) t ts -> t = x /\ ts = [].
Proof. destruct n; [intros []|exact (fun H => H)]. Qed.
Lemma m_range n lo hi t ts : means n (PRange lo hi) t ts -> exists c, t = [c] /\ lo <= c <= hi /\ ts = [].
Proof. destruct n; [intros []|exact (fun H => H)]. Qed.
Lemma m_end n t ts : means n PEnd t ts -> t = [] /\ ts = [].
Proof. destruct n; [intros []|exact (fun H => H)]. Qed.
Lemma m_except n a t ts : means n (PSeq (PNot a) PAny) t ts -> exists c, t = [c] /\ ~ In c (excluded a) /\ ts = [].
Proof. destruct n; [intros []|exact (fun H => H)]. Qed.
Lemma m_seq n a b t ts : special (PSeq a b) = false -> means n (PSeq a b) t ts -> exists m, (m < n)%nat /\ exists t1 t2 us vs, t = t1 ++ t2 /\ ts = us ++ vs /\ means m a t1 us /\ means m b t2 vs.
Proof. intros X. destruct n as [|n]; [intros []|]. intro H. apply (means_seq n a b t ts X) in H. exists n. split; [lia|exact H]. Qed.
Lemma m_alt n a b t ts : means n (PAlt a b) t ts -> exists m, (m < n)%nat /\ (means m a t ts \/ means m b t ts).
Proof. destruct n as [|n]; [intros []|]. intro H. exists n. split; [lia|exact H]. Qed.
Lemma m_opt n a t ts : means n (POpt a) t ts -> exists m, (m < n)%nat /\ ((t = [] /\ ts = []) \/ means m a t ts).
Proof. destruct n as [|n]; [intros []|]. intro H. exists n. split; [lia|exact H]. Qed.
Lemma m_ref n r t ts : means n (PRef r) t ts -> exists m, (m < n)%nat /\ exists us, means m (grammar r) t us /\ ts = if silent r then us else [Node r t us].
Proof. destruct n as [|n]; [intros []|]. intro H. exists n. split; [lia|exact H]. Qed.
Lemma m_star (R : text -> list tree -> Prop) n a : forall t ts, means n (PStar a) t ts -> R [] [] ->
  (forall m t1 us t2 vs, (m < n)%nat -> means m a t1 us -> R t2 vs -> R (t1 ++ t2) (us ++ vs)) -> R t ts.
Proof.
  induction n as [|n IH]; intros t ts H E C; [destruct H|]. cbn [means] in H. destruct H as [(-> & ->)|(t1 & t2 & us & vs & -> & -> & A & B)]; [exact E|].
  apply (C n); [lia|exact A|]. apply IH; [exact B|exact E|]. intros m u1 ws u2 xs L. apply C. lia.
Qed.

(** Takes a match of parsing expressions apart down to rules and repetitions *)
Ltac take H :=
  lazymatch type of H with
  | means _ (lit _) _ _ => unfold lit in H; take H
  | means _ ws_opt _ _ => idtac
  | means _ letter _ _ => unfold letter in H; take H
  | means _ digit09 _ _ => unfold digit09 in H; take H
  | means _ (PSome _) _ _ => unfold PSome in H; take H
  | means _ (quoted _) _ _ => idtac
  | means _ (PStr _) _ _ => apply m_str in H as (-> & ->)
  | means _ (PRange _ _) _ _ => let c := fresh "c" in let B := fresh "B" in apply m_range in H as (c & -> & B & ->)
  | means _ PEnd _ _ => apply m_end in H as (-> & ->)
  | means _ (PSeq (PNot _) PAny) _ _ => let c := fresh "c" in let B := fresh "B" in apply m_except in H as (c & -> & B & ->)
  | means _ (PSeq _ _) _ _ =>
      let m := fresh "m" in let L := fresh "L" in let t1 := fresh "t" in let t2 := fresh "t" in let us := fresh "us" in let vs := fresh "vs" in let A := fresh "H" in let B := fresh "H" in
      apply m_seq in H as (m & L & t1 & t2 & us & vs & -> & -> & A & B); [|reflexivity]; take A; take B
  | means _ (PAlt _ _) _ _ => let m := fresh "m" in let L := fresh "L" in apply m_alt in H as (m & L & [H|H]); take H
  | means _ (POpt _) _ _ => let m := fresh "m" in let L := fresh "L" in apply m_opt in H as (m & L & [(-> & ->)|H]); [|take H]
  | _ => idtac
  end.
Ltac take_ref H :=
  let m := fresh "m" in let L := fresh "L" in let us := fresh "us" in apply m_ref in H as (m & L & us & H & ->); cbn [silent]; cbn [grammar] in H; take H.

(** A repetition: nothing, one more, and then what is left to prove *)
Ltac star H R :=
  let X := fresh "X" in
  match type of H with means _ _ ?t ?ts => assert (X : R t ts); [refine (m_star R _ _ _ _ H _ _)|clear H; rename X into H]; cbv beta in * end.

(** * Words *)

Lemma m_ws n t ts : means n (PRef ws) t ts -> space t /\ ts = [].
Proof.
  intro H. take_ref H; (star H1 (fun t (ts : list tree) => blank t /\ ts = []);
    [split; [constructor|reflexivity]|intros k t u t2 v _ X (B & ->); take X; (split; [constructor; [auto|exact B]|reflexivity])|]);
    destruct H1 as (B & ->); (split; [split; [constructor; [auto|exact B]|discriminate]|reflexivity]).
Qed.
Lemma m_ws_opt n t ts : means n ws_opt t ts -> blank t /\ ts = [].
Proof. intro H. apply m_opt in H as (m & L & [(-> & ->)|H]); [split; [constructor|reflexivity]|]. apply m_ws in H as ((B & _) & ->). auto. Qed.
Lemma m_identifier n t ts : means n (PRef identifier_) t ts -> identifier t /\ ts = [Node identifier_ t []].
Proof.
  intro H. take_ref H; (star H1 (fun t (ts : list tree) => Forall (fun c => PkgSpec.is_letter c \/ PkgSpec.is_digit c \/ c = 95) t /\ ts = []);
    [split; [constructor|reflexivity]|intros k t u t2 v _ X (F & ->); take X; (split; [constructor; [|exact F]|reflexivity])|]);
    try (destruct H1 as (B' & ->); split; [eexists; eexists; split; [reflexivity|split; [|exact B'] ]|reflexivity]); unfold PkgSpec.is_letter, PkgSpec.is_digit; auto.
Qed.
Definition good {A} (P : A -> Prop) (o : out A) : Prop := match o with Done a => P a | Fail => True | Crash => False end.
Lemma good_bind {A B} (P : A -> Prop) (Q : B -> Prop) o (f : A -> out B) : good P o -> (forall a, P a -> good Q (f a)) -> good Q (obind o f).
Proof. destruct o; cbn; auto. Qed.
Lemma good_imp {A} (P Q : A -> Prop) o : (forall a, P a -> Q a) -> good P o -> good Q o.
Proof. destruct o; cbn; auto. Qed.

(** ** Operators *)
Definition op_spec (op : rule -> option binary) (l : level) (t : text) (ts : list tree) : Prop := exists o b s, ts = [o] /\ op (deepest o) = Some b /\ In (b, s) (operators l) /\ t = name_of s.
Ltac pick_op := eexists; eexists; eexists; split; [reflexivity|split; [reflexivity|split; [cbn [operators In]; tauto|reflexivity] ] ].
Lemma m_log n t ts : means n (PRef op2_log) t ts -> op_spec log_op Logical t ts.
Proof. intro H. take_ref H; take_ref H; pick_op. Qed.
Lemma m_cmp n t ts : means n (PRef op2_cmp) t ts -> op_spec cmp_op Comparison t ts.
Proof. intro H. take_ref H; take_ref H; pick_op. Qed.
Lemma m_bit n t ts : means n (PRef op2_bit) t ts -> op_spec bit_op Bitwise t ts.
Proof. intro H. take_ref H; take_ref H; pick_op. Qed.
Lemma m_add n t ts : means n (PRef op2_add) t ts -> op_spec add_op Sum t ts.
Proof. intro H. take_ref H; take_ref H; pick_op. Qed.
Lemma m_mul n t ts : means n (PRef op2_mul) t ts -> op_spec mul_op Product t ts.
Proof. intro H. take_ref H; take_ref H; pick_op. Qed.

(** ** Numbers *)
Lemma decimal_digit b c : 48 <= c <= 57 -> c < 48 + b -> TextSpec.is_digit b c (c - 48).
Proof. intros B C. replace c with (48 + (c - 48)) at 1 by lia. constructor; lia. Qed.
Lemma lower_digit c : 97 <= c <= 102 -> TextSpec.is_digit 16 c (c - 87).
Proof. intro B. replace c with (97 + (c - 87 - 10)) at 1 by lia. constructor; lia. Qed.
Lemma upper_digit c : 65 <= c <= 70 -> TextSpec.is_digit 16 c (c - 55).
Proof. intro B. replace c with (65 + (c - 55 - 10)) at 1 by lia. constructor; lia. Qed.
(** More digits *)
Definition more (b : N) (t : text) (ts : list tree) : Prop := ts = [] /\ forall t0 ds0, numeral b t0 ds0 -> exists ds, numeral b (t0 ++ t) ds.
Lemma more_nil b : more b [] [].
Proof. split; [reflexivity|]. intros t0 ds0 H. rewrite app_nil_r. eauto. Qed.
Lemma more_digit b c d t ts : TextSpec.is_digit b c d -> more b t ts -> more b (c :: t) ts.
Proof. intros D (-> & M). split; [reflexivity|]. intros t0 ds0 H. change (c :: t) with ([c] ++ t). rewrite app_assoc. apply (M _ (ds0 ++ [d])). apply nu_more; assumption. Qed.
Lemma more_underscore b c d t ts : TextSpec.is_digit b c d -> more b t ts -> more b (95 :: c :: t) ts.
Proof. intros D (-> & M). split; [reflexivity|]. intros t0 ds0 H. change (95 :: c :: t) with ([95; c] ++ t). rewrite app_assoc. apply (M _ (ds0 ++ [d])). apply nu_underscore; assumption. Qed.
Ltac some_digit := first [eapply decimal_digit; lia | eapply lower_digit; lia | eapply upper_digit; lia | apply (di_decimal _ 0); lia | apply (di_decimal _ 1); lia].
Ltac digits_star H b := star H (more b); [apply more_nil|let X := fresh "X" in intros ? ? ? ? ? _ X M; take X; cbn [name_of lit app] in *; first [eapply more_underscore; [some_digit|exact M] | eapply more_digit; [some_digit|exact M] ]|].
Lemma m_digits n t ts : means n (PRef literal_real_digits) t ts -> (exists ds, numeral 10 t ds) /\ ts = [Node literal_real_digits t []].
Proof. intro H. take_ref H. digits_star H1 10. destruct H1 as (-> & M). split; [|reflexivity]. apply (M [c] [c - 48]). apply nu_digit. some_digit. Qed.
Definition zeros (t : text) : Prop := (exists ds, numeral 10 t ds) /\ Forall (fun c => c = 48 \/ c = 95) t.
Definition more_zeros (t : text) (ts : list tree) : Prop := ts = [] /\ forall t0, zeros t0 -> zeros (t0 ++ t).
Lemma more_zeros_nil : more_zeros [] [].
Proof. split; [reflexivity|]. intros t0 H. rewrite app_nil_r. exact H. Qed.
Lemma zeros_zero t : zeros t -> zeros (t ++ [48]).
Proof. intros ((ds & D) & F). split; [exists (ds ++ [0]); apply nu_more; [exact D|apply (di_decimal 10 0); lia]|]. apply Forall_app. auto. Qed.
Lemma zeros_underscore t : zeros t -> zeros (t ++ [95; 48]).
Proof. intros ((ds & D) & F). split; [exists (ds ++ [0]); apply nu_underscore; [exact D|apply (di_decimal 10 0); lia]|]. apply Forall_app. auto. Qed.
Lemma more_zeros_app t1 us t2 vs : more_zeros t1 us -> more_zeros t2 vs -> more_zeros (t1 ++ t2) (us ++ vs).
Proof. intros (-> & A) (-> & B). split; [reflexivity|]. intros t0 Z. rewrite app_assoc. apply B, A, Z. Qed.
Lemma m_zeros n t ts : means n (PStar ((lit "_")^? ~~ lit "0")%peg) t ts -> more_zeros t ts.
Proof.
  intro H. star H more_zeros; [apply more_zeros_nil| |exact H]. intros m t1 us t2 vs _ X M. apply more_zeros_app; [|exact M]. take X; (split; [reflexivity|]); intros t0 Z; cbn [app].
  - apply zeros_zero, Z.
  - apply zeros_underscore, Z.
Qed.
Lemma m_decimal n t ts : means n (PRef literal_integer_decimal) t ts -> (exists ds, numeral 10 t ds) /\ no_leading_zero t /\ ts = [Node literal_integer_decimal t []].
Proof.
  assert (O : zeros [48]) by (split; [exists [0]; apply nu_digit, (di_decimal 10 0); lia|repeat constructor]).
  intro H. take_ref H.
  - apply m_zeros in H2 as (-> & Z1). star H1 more_zeros.
    + apply more_zeros_nil.
    + intros k x1 xs x2 ys _ X M. apply more_zeros_app; [|exact M]. take X. apply m_zeros in H0 as (-> & Z2). split; [reflexivity|]. intros x0 Z. match goal with |- zeros (_ ++ name_of "0" ++ ?y) => change (name_of "0" ++ y) with ([48] ++ y) end. rewrite app_assoc. apply Z2, zeros_zero, Z.
    + destruct H1 as (-> & Z). destruct (Z _ (Z1 _ O)) as (D & F). split; [exact D|]. split; [right; exact F|reflexivity].
  - digits_star H1 10. destruct H1 as (-> & M). split; [apply (M [c] [c - 48]); apply nu_digit; some_digit|]. split; [|reflexivity]. left. exists c, t1. split; [reflexivity|lia].
Qed.
(** Behind a prefix *)
Lemma behind_digit b c d t ts : TextSpec.is_digit b c d -> more b t ts -> exists ds, behind_prefix b ([c] ++ t) ds.
Proof. intros D (_ & M). destruct (M [c] [d] (nu_digit _ _ _ D)) as (ds & X). exists ds. left. exact X. Qed.
Lemma behind_underscore b c d t ts : TextSpec.is_digit b c d -> more b t ts -> exists ds, behind_prefix b ([95; c] ++ t) ds.
Proof. intros D (_ & M). destruct (M [c] [d] (nu_digit _ _ _ D)) as (ds & X). exists ds. right. exists (c :: t). split; [reflexivity|exact X]. Qed.
Lemma m_integer n t ts : means n (PRef literal_integer) t ts ->
  exists r k v, ts = [Node literal_integer t [Node r t [] ] ] /\ integer_rule r = Some k /\ integer_literal k t v /\ (k = Decimal -> no_leading_zero t).
Proof.
  intro H. take_ref H.
  - take_ref H; match goal with H : means _ (PStar _) _ _ |- _ => digits_star H 2; destruct H as (-> & M) end; exists literal_integer_binary, Binary;
      match goal with M : forall t0 ds0, _ -> exists ds, numeral _ (_ ++ ?t) ds |- _ => assert (MM : more 2 t []) by (split; [reflexivity|exact M]) end;
      (match goal with |- exists v, _ /\ _ /\ integer_literal Binary (_ ++ _ ++ (([] ++ ?x) ++ ?y)) v /\ _ => assert (B : exists ds, behind_prefix 2 (x ++ y) ds) by (eapply behind_digit; [some_digit|exact MM])
       | |- exists v, _ /\ _ /\ integer_literal Binary (_ ++ _ ++ ((name_of "_" ++ ?x) ++ ?y)) v /\ _ => assert (B : exists ds, behind_prefix 2 ((name_of "_" ++ x) ++ y) ds) by (eapply behind_underscore; [some_digit|exact MM]) end);
      destruct B as (ds & B); exists (number 2 ds); (split; [reflexivity|split; [reflexivity|split; [|discriminate] ] ]); first [apply (il_binary 98) | apply (il_binary 66)]; auto.
  - take_ref H; match goal with H : means _ (PStar _) _ _ |- _ => digits_star H 8; destruct H as (-> & M) end; exists literal_integer_octal, Octal;
      match goal with M : forall t0 ds0, _ -> exists ds, numeral _ (_ ++ ?t) ds |- _ => assert (MM : more 8 t []) by (split; [reflexivity|exact M]) end;
      (match goal with |- exists v, _ /\ _ /\ integer_literal Octal (_ ++ _ ++ (([] ++ ?x) ++ ?y)) v /\ _ => assert (B' : exists ds, behind_prefix 8 (x ++ y) ds) by (eapply behind_digit; [some_digit|exact MM])
       | |- exists v, _ /\ _ /\ integer_literal Octal (_ ++ _ ++ ((name_of "_" ++ ?x) ++ ?y)) v /\ _ => assert (B' : exists ds, behind_prefix 8 ((name_of "_" ++ x) ++ y) ds) by (eapply behind_underscore; [some_digit|exact MM]) end);
      destruct B' as (ds & B'); exists (number 8 ds); (split; [reflexivity|split; [reflexivity|split; [|discriminate] ] ]); first [apply (il_octal 111) | apply (il_octal 79)]; auto.
  - take_ref H; match goal with H : means _ (PStar _) _ _ |- _ => digits_star H 16; destruct H as (-> & M) end; exists literal_integer_hexadecimal, Hexadecimal;
      match goal with M : forall t0 ds0, _ -> exists ds, numeral _ (_ ++ ?t) ds |- _ => assert (MM : more 16 t []) by (split; [reflexivity|exact M]) end;
      (match goal with |- exists v, _ /\ _ /\ integer_literal Hexadecimal (_ ++ _ ++ (([] ++ ?x) ++ ?y)) v /\ _ => assert (B' : exists ds, behind_prefix 16 (x ++ y) ds) by (eapply behind_digit; [some_digit|exact MM])
       | |- exists v, _ /\ _ /\ integer_literal Hexadecimal (_ ++ _ ++ ((name_of "_" ++ ?x) ++ ?y)) v /\ _ => assert (B' : exists ds, behind_prefix 16 ((name_of "_" ++ x) ++ y) ds) by (eapply behind_underscore; [some_digit|exact MM]) end);
      destruct B' as (ds & B'); exists (number 16 ds); (split; [reflexivity|split; [reflexivity|split; [|discriminate] ] ]); first [apply (il_hexadecimal 120) | apply (il_hexadecimal 88)]; auto.
  - apply m_decimal in H as ((ds & D) & Z & ->). exists literal_integer_decimal, Decimal, (number 10 ds). split; [reflexivity|]. split; [reflexivity|]. split; [constructor; exact D|auto].
Qed.
Lemma integer_sound n t ts : means n (PRef literal_integer) t ts -> exists tree, ts = [tree] /\ tree_rule tree = literal_integer /\ good (fun q => number_text false t q) (parse_integer tree).
Proof.
  intro H. apply m_integer in H as (r & k & v & -> & R & I & Z). eexists. split; [reflexivity|]. split; [reflexivity|]. unfold parse_integer. cbn [children]. rewrite R.
  assert (E : parse_integer_literal k t = Ok v) by (destruct I as [x u ds _ H|x u ds _ H|x u ds _ H|u ds H]; cbn [parse_integer_literal skipn]; [apply behind_value|apply behind_value|apply behind_value|apply numeral_value]; (exact H || lia)).
  rewrite E. cbn. apply (nt_integer _ k); assumption.
Qed.
(** Reals *)
Lemma m_point n t ts : means n (PRef literal_real_point_notation) t ts -> exists cs p v, ts = [Node literal_real_point_notation t cs] /\ point_literal p v /\ t = point_text p /\
  (point_of cs = Done p \/ exists f, p = Fraction f /\ point_of cs = Done (Point (46 :: f))).
Proof.
  intro H. take_ref H; repeat match goal with H : means _ (PRef literal_real_fraction) _ _ |- _ => take_ref H end;
    repeat match goal with H : means _ (PRef literal_real_digits) _ _ |- _ => let ds := fresh "ds" in let D := fresh "D" in apply m_digits in H as ((ds & D) & ->) end.
  - match goal with D : numeral 10 ?t ?ds |- _ => eexists; exists (Fraction t), (decimal [] ds); split; [reflexivity|split; [constructor; exact D|split; [reflexivity|right; exists t; split; reflexivity] ] ] end.
  - match goal with D : numeral 10 ?t ?ds |- exists cs p v, _ = [Node _ (?t ++ _ ++ ?u) _] /\ _ =>
      match goal with E : numeral 10 u ?es |- _ => eexists; exists (PointFraction t u), (decimal ds es); split; [reflexivity|split; [constructor; assumption|split; [reflexivity|left; reflexivity] ] ] end end.
  - match goal with D : numeral 10 ?t ?ds |- _ => eexists; exists (Point t), (decimal ds []); split; [reflexivity|split; [constructor; exact D|split; [reflexivity|left; reflexivity] ] ] end.
Qed.

Lemma of_notation_none p : parse_real_point_notation p = None -> of_option (parse_real_point_notation p) = Fail.
Proof. intros ->. reflexivity. Qed.
Lemma point_no_crash p : good (fun _ => True) (of_option (parse_real_point_notation p)).
Proof. destruct (parse_real_point_notation p); exact Logic.I. Qed.
Lemma point_value p v : point_literal p v -> good (fun q => plain p -> q = Q2Qc v) (of_option (parse_real_point_notation p)).
Proof. intros P. destruct (parse_real_point_notation p) as [q|] eqn:E; [|exact Logic.I]. cbn. intro L. rewrite (point_right p v P L) in E. congruence. Qed.
Lemma leading_point f : parse_real_point_notation (Point (46 :: f)) = None.
Proof. cbn [parse_real_point_notation]. rewrite fraction_bigint. reflexivity. Qed.
Lemma m_exponent n t ts : means n (PRef literal_real_exponent) t ts -> exists e sign d ds c, t = e :: sign ++ d /\ In e [101; 69] /\ In sign [ []; [43]; [45] ] /\ numeral 10 d ds /\
  ts = [Node literal_real_exponent t [Node literal_real_digits d [] ] ] /\ nth_error t 1 = Some c /\ (c =? 45) = (if list_eq_dec N.eq_dec sign [45] then true else false).
Proof.
  intro H. take_ref H; match goal with H : means _ (PRef literal_real_digits) _ _ |- _ => apply m_digits in H as ((ds & D) & ->) end; destruct (numeral_first _ _ _ D) as (c & r & d & -> & I).
  all: pose proof (digit_not _ _ _ I) as (_ & _ & _ & _); assert (X : (c =? 45) = false) by (apply N.eqb_neq; destruct I; lia).
  all: first [exists 101, [], (c :: r), ds, c; split; [reflexivity|]; split; [cbn; auto|]; split; [cbn; auto|]; split; [exact D|]; split; [reflexivity|]; split; [reflexivity|exact X]
    | exists 69, [], (c :: r), ds, c; split; [reflexivity|]; split; [cbn; auto|]; split; [cbn; auto|]; split; [exact D|]; split; [reflexivity|]; split; [reflexivity|exact X]
    | exists 101, [43], (c :: r), ds, 43; split; [reflexivity|]; split; [cbn; auto|]; split; [cbn; auto|]; split; [exact D|]; split; [reflexivity|]; split; [reflexivity|reflexivity]
    | exists 101, [45], (c :: r), ds, 45; split; [reflexivity|]; split; [cbn; auto|]; split; [cbn; auto|]; split; [exact D|]; split; [reflexivity|]; split; [reflexivity|reflexivity]
    | exists 69, [43], (c :: r), ds, 43; split; [reflexivity|]; split; [cbn; auto|]; split; [cbn; auto|]; split; [exact D|]; split; [reflexivity|]; split; [reflexivity|reflexivity]
    | exists 69, [45], (c :: r), ds, 45; split; [reflexivity|]; split; [cbn; auto|]; split; [cbn; auto|]; split; [exact D|]; split; [reflexivity|]; split; [reflexivity|reflexivity] ].
Qed.
Lemma exponent_good m v e sign d ds c : mantissa m v -> In e [101; 69] -> In sign [ []; [43]; [45] ] -> numeral 10 d ds -> (c =? 45) = (if list_eq_dec N.eq_dec sign [45] then true else false) ->
  good (number_text false (mantissa_text m ++ e :: sign ++ d)) (of_notation (parse_real_exponent_notation m c d)).
Proof.
  intros M E S D C. destruct (parse_real_exponent_notation m c d) as [ [q|]|] eqn:X; cbn [of_notation good]; [|exact Logic.I|].
  - apply (nt_exponent false m v e sign d ds q M E S D); [discriminate|]. intro P. rewrite (mantissa_right m v c d ds M P D), C in X. injection X as <-. destruct (list_eq_dec N.eq_dec sign [45]); reflexivity.
  - unfold parse_real_exponent_notation in X. rewrite (numeral_value 10 d ds) in X by (lia || exact D). destruct m as [p|x].
    + destruct (parse_real_point_notation p); discriminate X.
    + destruct M as (xs & N & _). rewrite (numeral_value 10 x xs) in X by (lia || exact N). discriminate X.
Qed.
Lemma real_sound n t ts : means n (PRef literal_real) t ts -> exists tree, ts = [tree] /\ tree_rule tree = literal_real /\ good (fun q => number_text false t q) (parse_real_literal tree).
Proof.
  intro H. take_ref H.
  - take_ref H; match goal with H : means _ (PRef literal_real_exponent) _ _ |- _ => apply m_exponent in H as (e & sign & d & ds & c & -> & E & S & D & -> & N & C) end.
    + match goal with H : means _ (PRef literal_real_point_notation) _ _ |- _ => apply m_point in H as (cs & p & v & -> & P & -> & O) end.
      eexists. split; [reflexivity|]. split; [reflexivity|]. unfold parse_real_literal. cbn [children app tree_text]. rewrite N. destruct O as [O|(f & -> & O)]; rewrite O; cbn [obind].
      * apply (exponent_good (inl p) v e sign d ds c); assumption.
      * unfold parse_real_exponent_notation. rewrite leading_point. exact Logic.I.
    + match goal with H : means _ (PRef literal_real_digits) _ _ |- _ => apply m_digits in H as ((xs & X) & ->) end.
      eexists. split; [reflexivity|]. split; [reflexivity|]. unfold parse_real_literal. cbn [children app tree_text]. rewrite N.
      match goal with X : numeral 10 ?y xs |- _ => apply (exponent_good (inr y) (Z.of_N (number 10 xs) # 1) e sign d ds c); try assumption; exists xs; split; [exact X|reflexivity] end.
  - apply m_point in H as (cs & p & v & -> & P & -> & O). eexists. split; [reflexivity|]. split; [reflexivity|]. unfold parse_real_literal. cbn [children]. destruct O as [O|(f & -> & O)]; rewrite O; cbn [obind].
    + apply (good_imp (fun q => plain p -> q = Q2Qc v)); [|apply point_value, P]. intros q X. apply (nt_point _ p v); [exact P|discriminate|exact X].
    + rewrite leading_point. exact Logic.I.
Qed.

(** ** Strings *)
Lemma quotable_plain q t1 t2 : Forall (fun c => c <> q /\ c <> 92) t1 -> quotable q t2 -> quotable q (t1 ++ t2).
Proof. intros F Q. induction F as [|c t (A & B) F IH]; [exact Q|]. cbn [app]. constructor; assumption. Qed.
Lemma m_plain q n t ts : means n (PStar (PNot (PStr [q] // PStr [92]) ~~ PAny)%peg) t ts -> Forall (fun c => c <> q /\ c <> 92) t /\ ts = [].
Proof.
  intro H. star H (fun t (ts : list tree) => Forall (fun c => c <> q /\ c <> 92) t /\ ts = []); [split; [constructor|reflexivity]| |exact H].
  intros m t1 us t2 vs _ X (F & ->). take X. cbn [excluded app In] in B. split; [|reflexivity]. constructor; [|exact F]. intuition congruence.
Qed.
Lemma m_quoted q n t ts : means n (quoted q) t ts -> exists x, t = q :: x ++ [q] /\ quotable q x /\ ts = [].
Proof.
  intro H. unfold quoted in H. take H. apply m_plain in H as (F & ->).
  star H1 (fun t (ts : list tree) => quotable q t /\ ts = []); [split; [constructor|reflexivity]| |].
  - intros k x1 xs x2 ys _ X (Q & ->). take X. match goal with H : means _ (PStar _) _ _ |- _ => apply m_plain in H as (G & ->) end. split; [|reflexivity]. cbn [excluded app In] in B. cbn [app].
    apply qu_escape; [intuition congruence|intuition congruence|]. apply quotable_plain; assumption.
  - destruct H1 as (Q & ->). exists (t ++ t1). split; [cbn [app]; rewrite <- app_assoc; reflexivity|]. split; [|reflexivity]. apply quotable_plain; assumption.
Qed.
Lemma string_sound n t ts : means n (PRef literal_string) t ts -> exists tree, ts = [tree] /\ tree_rule tree = literal_string /\ good (fun s => spelled false Atom (EString s) t) (parse_string tree).
Proof.
  assert (A : forall q x r, In q [34; 39] -> quotable q x -> good (fun s => spelled false Atom (EString s) (q :: x ++ [q])) (parse_string (Node literal_string (q :: x ++ [q]) [Node r (q :: x ++ [q]) [] ]))).
  { intros q x r Q C. unfold parse_string. cbn [children]. rewrite rev_app_distr. cbn [rev app]. replace (is_quote q) with true by (destruct Q as [<-|[<-|[] ] ]; reflexivity). cbn [andb]. rewrite rev_involutive.
    destruct (unescape_string x) as [s|] eqn:U; cbn [of_option good]; [|exact Logic.I]. apply sp_string; [exact Q|exact C|]. intros [H|H]; [discriminate H|]. apply (unescape_sound (length x)); [lia|exact H|exact U]. }
  intro H. take_ref H; take_ref H; apply m_quoted in H as (x & -> & Q & ->); eexists; (split; [reflexivity|]); (split; [reflexivity|]); apply A; cbn; auto.
Qed.

(** ** Names of types *)
Lemma parse_u8_eq c r : PkgSpec.is_digit c -> parse_u8 (c :: r) =
  if forallb digit (c :: r) then (let n := fold_left (fun n c => 10 * n + (c - 48)) (c :: r) 0 in if n <? 256 then Some n else None) else None.
Proof. intros (A & B). assert (N : c <> 43) by lia. unfold parse_u8. destruct c as [|p]; [reflexivity|]. do 6 (destruct p as [p|p|]; try reflexivity). congruence. Qed.
Lemma denotes_fold d : forall t n, denotes_number t n -> Forall PkgSpec.is_digit d -> denotes_number (t ++ d) (fold_left (fun n c => 10 * n + (c - 48)) d n).
Proof.
  induction d as [|c d IH]; intros t n H F; [rewrite app_nil_r; exact H|]. inversion F as [|? ? C G]; subst. cbn [fold_left]. change (c :: d) with ([c] ++ d). rewrite app_assoc. apply IH; [|exact G]. constructor; assumption.
Qed.
Lemma digit_spec c : digit c = true <-> PkgSpec.is_digit c.
Proof. unfold digit, PkgSpec.is_digit. rewrite andb_true_iff, !N.leb_le. reflexivity. Qed.
Lemma parse_u8_right c r n : PkgSpec.is_digit c -> parse_u8 (c :: r) = Some n -> denotes_number (c :: r) n /\ n < 256.
Proof.
  intros D H. rewrite (parse_u8_eq c r D) in H. cbv zeta in H. destruct (forallb digit (c :: r)) eqn:F; [|discriminate H].
  destruct (N.ltb_spec (fold_left (fun n c => 10 * n + (c - 48)) (c :: r) 0) 256) as [L|]; [|discriminate H]. injection H as <-. split; [|exact L].
  cbn [fold_left]. replace (10 * 0 + (c - 48)) with (c - 48) by lia. change (c :: r) with ([c] ++ r) at 1. apply denotes_fold; [constructor; exact D|]. apply Forall_forall. intros x I. apply digit_spec. rewrite forallb_forall in F. apply F. right. exact I.
Qed.
Lemma m_suffix n t ts : means n (PRef type_bit_length_suffix) t ts -> ts = [Node type_bit_length_suffix t [] ] /\ exists c r, t = c :: r /\ c <> 48 /\ PkgSpec.is_digit c.
Proof.
  intro H. take_ref H. star H1 (fun (t : text) (ts : list tree) => ts = []); [reflexivity| |].
  - intros k x1 xs x2 ys _ X ->. take X. reflexivity.
  - subst. split; [reflexivity|]. exists c, t1. split; [reflexivity|]. unfold PkgSpec.is_digit. lia.
Qed.
Lemma suffix_good c r : PkgSpec.is_digit c -> c <> 48 -> good (fun n => between_1_and_64 n = true -> width (c :: r) n) (parse_suffix (Node type_bit_length_suffix (c :: r) [])).
Proof.
  intros D Z. unfold parse_suffix. cbn [tree_text]. destruct (parse_u8 (c :: r)) as [n|] eqn:E; cbn [of_option good]; [|exact Logic.I]. intro B. apply (parse_u8_right c r n D) in E as (E & _). split; [exact E|].
  split; [exists c, r; split; [reflexivity|exact Z]|]. unfold between_1_and_64 in B. lia.
Qed.
Lemma name_good n t ts truncated c : means n (PRef type_primitive_name) t ts -> cast_word c truncated ->
  exists tree, ts = [tree] /\ good (fun p => primitive_name p (c ++ t)) (parse_primitive_type_name truncated tree).
Proof.
  intros H C. take_ref H; take_ref H; match goal with H : means _ (PRef type_bit_length_suffix) _ _ |- _ => apply m_suffix in H as (-> & d & r & -> & Z & D) end; eexists; (split; [reflexivity|]); unfold parse_primitive_type_name; cbn [app];
    (eapply good_bind; [apply (suffix_good d r D Z)|]); intros w W; cbv beta in W.
  - destruct (between_1_and_64 w) eqn:B; [|exact Logic.I]. apply (pn_uint _ truncated); [exact C|apply W; reflexivity].
  - destruct (between_1_and_64 w) eqn:B; [|exact Logic.I]. destruct truncated; [exact Logic.I|]. apply pn_int; [exact C|apply W; reflexivity].
  - destruct (N.eqb_spec w 16) as [->|]; [apply (pn_float _ truncated _ 16); [exact C|apply W; reflexivity|cbn; auto]|]. destruct (N.eqb_spec w 32) as [->|]; [apply (pn_float _ truncated _ 32); [exact C|apply W; reflexivity|cbn; auto]|].
    destruct (N.eqb_spec w 64) as [->|]; [apply (pn_float _ truncated _ 64); [exact C|apply W; reflexivity|cbn; auto]|exact Logic.I].
Qed.
Lemma primitive_sound n t ts : means n (PRef type_primitive) t ts -> exists tree, ts = [tree] /\ tree_rule tree = type_primitive /\ good (fun p => primitive_name p t) (parse_primitive_type tree).
Proof.
  intro H. take_ref H.
  - take_ref H. match goal with H : means _ (PRef ws) _ _ |- _ => apply m_ws in H as (W & ->) end. match goal with H : means _ (PRef type_primitive_name) ?x _ |- context[name_of "truncated" ++ ?w ++ _] => destruct (name_good _ _ _ true (name_of "truncated" ++ w) H (cw_truncated w W)) as (tree & -> & G) end.
    eexists. split; [reflexivity|]. split; [reflexivity|]. cbn [parse_primitive_type app rev]. rewrite <- app_assoc in G. exact G.
  - take_ref H.
    + match goal with H : means _ (PRef type_primitive_name) ?x _ |- _ => destruct (name_good _ _ _ false [] H cw_default) as (tree & -> & G) end. eexists. split; [reflexivity|]. split; [reflexivity|]. exact G.
    + match goal with H : means _ (PRef ws) _ _ |- _ => apply m_ws in H as (W & ->) end. match goal with H : means _ (PRef type_primitive_name) ?x _ |- context[(name_of "saturated" ++ ?w) ++ _] => destruct (name_good _ _ _ false (name_of "saturated" ++ w) H (cw_saturated w W)) as (tree & -> & G) end.
      eexists. split; [reflexivity|]. split; [reflexivity|]. exact G.
  - take_ref H. take_ref H. eexists. split; [reflexivity|]. split; [reflexivity|]. constructor.
  - take_ref H. eexists. split; [reflexivity|]. split; [reflexivity|]. constructor.
  - take_ref H. eexists. split; [reflexivity|]. split; [reflexivity|]. constructor.
Qed.
Lemma version_good n t ts : means n (PRef literal_integer_decimal) t ts -> ts = [Node literal_integer_decimal t []] /\ good (version_number t) (of_option (parse_u8 t)).
Proof.
  intro H. apply m_decimal in H as ((ds & D) & Z & ->). split; [reflexivity|]. destruct (parse_u8 t) as [k|] eqn:E; [|exact Logic.I]. cbn. destruct (numeral_first _ _ _ D) as (c & r & d & -> & I).
  destruct (parse_u8_right c r k) as (A & B); [unfold PkgSpec.is_digit; destruct I; lia|exact E|]. split; [exact A|split; [exact Z|exact B] ].
Qed.
Lemma dotted_snoc names n : names <> [] -> dotted (names ++ [n]) = dotted names ++ [46] ++ n.
Proof.
  induction names as [|x r IH]; intro H; [congruence|]. destruct r as [|y r]; [reflexivity|]. change (dotted ((x :: y :: r) ++ [n])) with (x ++ [46] ++ dotted ((y :: r) ++ [n])). rewrite IH by discriminate.
  change (dotted (x :: y :: r)) with (x ++ [46] ++ dotted (y :: r)). rewrite <- !app_assoc. reflexivity.
Qed.
(** More names of a versioned type *)
Definition more_names (t : text) (ts : list tree) : Prop :=
  exists names, t = flat_map (fun n => 46 :: n) names /\ ts = map (fun n => Node identifier_ n []) names /\ Forall identifier names.
Lemma dotted_flat n names : dotted (n :: names) = n ++ flat_map (fun n => 46 :: n) names.
Proof. revert n. induction names as [|x r IH]; intro n; [cbn; rewrite app_nil_r; reflexivity|]. change (dotted (n :: x :: r)) with (n ++ [46] ++ dotted (x :: r)). rewrite IH. reflexivity. Qed.
Lemma parse_names names : forall before rest, parse_versioned before (map (fun n => Node identifier_ n []) names ++ rest) = parse_versioned (before ++ names) rest.
Proof. induction names as [|n r IH]; intros before rest; [cbn; rewrite app_nil_r; reflexivity|]. cbn [map app parse_versioned]. rewrite IH, <- app_assoc. reflexivity. Qed.
Lemma scalar_sound n t ts : means n (PRef type_scalar) t ts -> exists tree, ts = [tree] /\ tree_rule tree = type_scalar /\ good (fun s => scalar_name s t) (parse_scalar_type tree).
Proof.
  intro H. take_ref H.
  - take_ref H. match goal with H : means _ (PRef identifier_) _ _ |- _ => apply m_identifier in H as (I & ->) end.
    match goal with H : means _ (PStar _) _ _ |- _ => star H more_names; [exists []; repeat split; constructor| |] end.
    { intros k x1 xs x2 ys _ X (names & -> & -> & F). take X. match goal with H : means _ (PRef identifier_) _ _ |- _ => apply m_identifier in H as (J & ->) end. match goal with J : identifier ?y, F : Forall _ names |- _ => exists (y :: names); repeat split; constructor; assumption end. }
    match goal with H : more_names _ _ |- _ => destruct H as (names & -> & -> & F) end. match goal with H : means _ (PRef type_version_specifier) _ _ |- _ => take_ref H end.
    repeat match goal with H : means _ (PRef literal_integer_decimal) _ _ |- _ => let G := fresh "G" in apply version_good in H as (-> & G) end.
    eexists. split; [reflexivity|]. split; [reflexivity|]. unfold parse_scalar_type. cbn [app]. 

    cbn [parse_versioned]. rewrite parse_names. cbn [parse_versioned tree_text app]. change (good (fun s => scalar_name s (t0 ++ flat_map (fun n0 => 46 :: n0) names ++ [46] ++ t ++ [46] ++ t3))
      (obind (of_option (parse_u8 t)) (fun a => obind (of_option (parse_u8 t3)) (fun b => match rev (t0 :: names) with name :: path => Done (Versioned (Key (rev path) name a b)) | [] => Crash end)))).
    eapply good_bind; [exact G0|]. intros a A. eapply good_bind; [exact G|]. intros b B. destruct (rev (t0 :: names)) as [|name path] eqn:R; [destruct names; cbn in R; [discriminate R|apply app_eq_nil in R as (_ & R); discriminate R]|].
    assert (E : t0 :: names = rev path ++ [name]) by (apply (f_equal (@rev _)) in R; rewrite rev_involutive in R; exact R). assert (DE : dotted (rev path ++ [name]) = t0 ++ flat_map (fun n0 => 46 :: n0) names) by (transitivity (dotted (t0 :: names)); [f_equal; symmetry; exact E|apply dotted_flat]).
    cbn [good]. rewrite app_assoc, <- DE. apply sn_versioned; [apply (eq_ind _ (Forall identifier) (Forall_cons _ I F) _ E)|exact A|exact B].
  - apply primitive_sound in H as (tree & -> & R & G). eexists. split; [reflexivity|]. split; [reflexivity|]. destruct tree as [r x cs]. cbn in R. subst r. cbn [parse_scalar_type]. eapply good_bind; [exact G|]. intros p P. cbn. constructor. exact P.
  - take_ref H. match goal with H : means _ (PRef type_bit_length_suffix) _ _ |- _ => apply m_suffix in H as (-> & d & r & -> & Z & D) end. eexists. split; [reflexivity|]. split; [reflexivity|]. cbn [parse_scalar_type app].
    eapply good_bind; [apply (suffix_good d r D Z)|]. intros w W. destruct (between_1_and_64 w) eqn:B; [|exact Logic.I]. cbn [good]. apply sn_void, W. exact B.
Qed.
