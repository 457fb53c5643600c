(** Proofs about matching: it ends, and how a match is put together. *)
From Verif Require Import Base GenModel ExprModel PkgModel CompModel ParseModel.
Open Scope list_scope.
Open Scope nat_scope.

(** * More fuel does not change an outcome *)
Lemma run_S f : forall p s o, run f p s = o -> o <> Unfinished -> run (S f) p s = o.
Proof.
  induction f as [|f IH]; intros p s o H N; [cbn in H; congruence|]. change (run (S (S f)) p s) with
    (match p with
      | PStr t => match strip t s with Some rest => Match [] rest | None => NoMatch end
      | PRange lo hi => match s with c :: rest => if ((lo <=? c) && (c <=? hi))%N then Match [] rest else NoMatch | [] => NoMatch end
      | PAny => match s with _ :: rest => Match [] rest | [] => NoMatch end
      | PEnd => match s with [] => Match [] [] | _ :: _ => NoMatch end
      | PSeq a b => match run (S f) a s with
                    | Match ts rest => match run (S f) b rest with Match us rest' => Match (ts ++ us) rest' | x => x end
                    | x => x
                    end
      | PAlt a b => match run (S f) a s with NoMatch => run (S f) b s | x => x end
      | PStar a => match run (S f) a s with
                   | Match ts rest => match run (S f) (PStar a) rest with Match us rest' => Match (ts ++ us) rest' | x => x end
                   | NoMatch => Match [] s
                   | Unfinished => Unfinished
                   end
      | POpt a => match run (S f) a s with NoMatch => Match [] s | x => x end
      | PNot a => match run (S f) a s with NoMatch => Match [] s | Match _ _ => NoMatch | Unfinished => Unfinished end
      | PRef r => match run (S f) (grammar r) s with
                  | Match ts rest => Match (if silent r then ts else [Node r (consumed s rest) ts]) rest
                  | x => x
                  end
      end).
  cbn [run] in H. destruct p as [t|lo hi| | |a b|a b|a|a|a|r]; try exact H.
  - destruct (run f a s) as [ts rest| |] eqn:A; [|rewrite (IH a s _ A) by discriminate; exact H|congruence]. rewrite (IH a s _ A) by discriminate.
    destruct (run f b rest) as [us rest'| |] eqn:B; [| |congruence]; rewrite (IH b rest _ B) by discriminate; exact H.
  - destruct (run f a s) as [ts rest| |] eqn:A; [rewrite (IH a s _ A) by discriminate; exact H| |congruence]. rewrite (IH a s _ A) by discriminate. apply IH; assumption.
  - destruct (run f a s) as [ts rest| |] eqn:A; [|rewrite (IH a s _ A) by discriminate; exact H|congruence]. rewrite (IH a s _ A) by discriminate.
    destruct (run f (PStar a) rest) as [us rest'| |] eqn:B; [| |congruence]; rewrite (IH (PStar a) rest _ B) by discriminate; exact H.
  - destruct (run f a s) as [ts rest| |] eqn:A; [| |congruence]; rewrite (IH a s _ A) by discriminate; exact H.
  - destruct (run f a s) as [ts rest| |] eqn:A; [| |congruence]; rewrite (IH a s _ A) by discriminate; exact H.
  - destruct (run f (grammar r) s) as [ts rest| |] eqn:A; [| |congruence]; rewrite (IH (grammar r) s _ A) by discriminate; exact H.
Qed.
Lemma run_more f g p s o : run f p s = o -> o <> Unfinished -> f <= g -> run g p s = o.
Proof. intros H N L. induction L as [|g L IH]; [exact H|]. apply run_S; assumption. Qed.
Lemma run_same f g p s o o' : run f p s = o -> o <> Unfinished -> run g p s = o' -> o' <> Unfinished -> o = o'.
Proof. intros H N H' N'. rewrite <- (run_more f (f + g) p s o H N) by lia. apply (run_more g (f + g) p s o' H' N'). lia. Qed.

(** * Matching takes text from the front *)
Lemma strip_right t : forall s rest, strip t s = Some rest -> s = t ++ rest.
Proof.
  induction t as [|x t IH]; intros s rest H; [cbn in *; congruence|]. destruct s as [|y s]; [discriminate H|]. cbn [strip] in H. destruct (N.eqb_spec x y) as [->|]; [|discriminate H].
  cbn [app]. f_equal. apply IH, H.
Qed.
Lemma strip_app t rest : strip t (t ++ rest) = Some rest.
Proof. induction t as [|x t IH]; [reflexivity|]. cbn [app strip]. rewrite N.eqb_refl. exact IH. Qed.
Lemma run_suffix f : forall p s ts rest, run f p s = Match ts rest -> exists t, s = t ++ rest.
Proof.
  induction f as [|f IH]; intros p s ts rest H; [discriminate H|]. cbn [run] in H. destruct p as [t|lo hi| | |a b|a b|a|a|a|r].
  - destruct (strip t s) as [x|] eqn:E; [|discriminate H]. injection H as _ <-. exists t. apply strip_right, E.
  - destruct s as [|c s]; [discriminate H|]. destruct (_ && _); [|discriminate H]. injection H as _ <-. exists [c]. reflexivity.
  - destruct s as [|c s]; [discriminate H|]. injection H as _ <-. exists [c]. reflexivity.
  - destruct s; [|discriminate H]. injection H as _ <-. exists []. reflexivity.
  - destruct (run f a s) as [us x| |] eqn:A; try discriminate H. destruct (run f b x) as [vs y| |] eqn:B; try discriminate H. injection H as _ <-.
    destruct (IH _ _ _ _ A) as (t1 & ->). destruct (IH _ _ _ _ B) as (t2 & ->). exists (t1 ++ t2). apply app_assoc.
  - destruct (run f a s) as [us x| |] eqn:A; try discriminate H; [injection H as _ <-; apply (IH _ _ _ _ A)|apply (IH _ _ _ _ H)].
  - destruct (run f a s) as [us x| |] eqn:A; try discriminate H; [|injection H as _ <-; exists []; reflexivity]. destruct (run f (PStar a) x) as [vs y| |] eqn:B; try discriminate H. injection H as _ <-.
    destruct (IH _ _ _ _ A) as (t1 & ->). destruct (IH _ _ _ _ B) as (t2 & ->). exists (t1 ++ t2). apply app_assoc.
  - destruct (run f a s) as [us x| |] eqn:A; try discriminate H; injection H as _ <-; [apply (IH _ _ _ _ A)|exists []; reflexivity].
  - destruct (run f a s) as [us x| |] eqn:A; try discriminate H. injection H as _ <-. exists []. reflexivity.
  - destruct (run f (grammar r) s) as [us x| |] eqn:A; try discriminate H. injection H as _ <-. apply (IH _ _ _ _ A).
Qed.
Lemma consumed_app t rest : consumed (t ++ rest) rest = t.
Proof. unfold consumed. rewrite app_length. replace (length t + length rest - length rest) with (length t) by lia. rewrite firstn_app, firstn_all, Nat.sub_diag. cbn [firstn]. apply app_nil_r. Qed.

(** * Matching ends *)

Definition empty_rule (r : rule) : bool := match r with definition | line | comment_content | expression_list | EOI => true | _ => false end.
Fixpoint empty (p : peg) : bool :=
  match p with
  | PStr t => match t with [] => true | _ => false end
  | PRange _ _ | PAny => false
  | PEnd | PStar _ | POpt _ | PNot _ => true
  | PSeq a b => empty a && empty b
  | PAlt a b => empty a || empty b
  | PRef r => empty_rule r
  end.
Lemma empty_rules r : empty_rule r = false -> empty (grammar r) = false.
Proof. destruct r; intro H; try discriminate H; vm_compute; reflexivity. Qed.
Lemma run_shorter f : forall p s ts rest, run f p s = Match ts rest -> empty p = false -> length rest < length s.
Proof.
  induction f as [|f IH]; intros p s ts rest H E; [discriminate H|]. assert (SH : forall p s ts rest, run f p s = Match ts rest -> length rest <= length s) by (intros q u us v X; destruct (run_suffix _ _ _ _ _ X) as (t & ->); rewrite app_length; lia).
  cbn [run] in H. destruct p as [t|lo hi| | |a b|a b|a|a|a|r]; cbn [empty] in E; try discriminate E.
  - destruct (strip t s) as [x|] eqn:S; [|discriminate H]. injection H as _ <-. apply strip_right in S. subst s. rewrite app_length. destruct t; [discriminate E|cbn [length]; lia].
  - destruct s as [|c s]; [discriminate H|]. destruct (_ && _); [|discriminate H]. injection H as _ <-. cbn [length]. lia.
  - destruct s as [|c s]; [discriminate H|]. injection H as _ <-. cbn [length]. lia.
  - destruct (run f a s) as [us x| |] eqn:A; try discriminate H. destruct (run f b x) as [vs y| |] eqn:B; try discriminate H. injection H as _ <-.
    pose proof (SH _ _ _ _ A). pose proof (SH _ _ _ _ B). apply andb_false_iff in E as [E|E]; [pose proof (IH _ _ _ _ A E)|pose proof (IH _ _ _ _ B E)]; lia.
  - apply orb_false_iff in E as (E1 & E2). destruct (run f a s) as [us x| |] eqn:A; try discriminate H; [injection H as _ <-; apply (IH _ _ _ _ A E1)|apply (IH _ _ _ _ H E2)].
  - destruct (run f (grammar r) s) as [us x| |] eqn:A; try discriminate H. injection H as _ <-. apply (IH _ _ _ _ A). apply empty_rules, E.
Qed.

(** The longest chain of rules that start at the same place *)
Fixpoint left_height (n : nat) (p : peg) : nat :=
  let fix go (p : peg) : nat :=
    match p with
    | PSeq a b => Nat.max (go a) (if empty a then go b else 0)
    | PAlt a b => Nat.max (go a) (go b)
    | PStar a | POpt a | PNot a => go a
    | PRef r => match n with O => O | S m => S (left_height m (grammar r)) end
    | _ => O
    end in go p.
Definition rank (r : rule) : nat := left_height 40 (grammar r).
Definition ranks : nat := 40.
(** No rule below rank [k] is needed at the start, and no repetition is of nothing *)
Fixpoint well_founded (k : nat) (p : peg) : bool :=
  match p with
  | PSeq a b => well_founded k a && well_founded (if empty a then k else ranks) b
  | PAlt a b => well_founded k a && well_founded k b
  | PStar a => negb (empty a) && well_founded k a
  | POpt a | PNot a => well_founded k a
  | PRef r => (rank r <? k)
  | _ => true
  end.
Fixpoint size (p : peg) : nat :=
  match p with
  | PSeq a b | PAlt a b => S (size a + size b)
  | PStar a | POpt a | PNot a => S (size a)
  | _ => 1
  end.
Definition biggest : nat := 80.
Lemma rules_well_founded r : rank r < ranks /\ well_founded (rank r) (grammar r) = true /\ S (size (grammar r)) <= biggest.
Proof. destruct r; (split; [apply Nat.ltb_lt; vm_compute; reflexivity|split; [vm_compute; reflexivity|apply Nat.leb_le; vm_compute; reflexivity] ]). Qed.
Lemma run_ends f : forall k p s, k <= ranks -> well_founded k p = true -> size p + k * biggest + length s * (ranks * biggest) <= f -> run f p s <> Unfinished.
Proof.
  unfold biggest, ranks. induction f as [|f IH]; intros k p s K W L; [destruct p; cbn [size] in L; lia|].
  assert (SH : forall p ts rest, run f p s = Match ts rest -> length rest <= length s) by (intros q ts rest H; destruct (run_suffix _ _ _ _ _ H) as (t & ->); rewrite app_length; lia).
  cbn [run]. destruct p as [t|lo hi| | |a b|a b|a|a|a|r]; cbn [well_founded size] in W, L.
  - destruct (strip t s); discriminate.
  - destruct s; [discriminate|]. destruct (_ && _); discriminate.
  - destruct s; discriminate.
  - destruct s; discriminate.
  - apply andb_true_iff in W as (W1 & W2). pose proof (IH k a s K W1 ltac:(lia)) as A. destruct (run f a s) as [ts rest| |] eqn:E; [|discriminate|congruence].
    assert (B : run f b rest <> Unfinished). { destruct (empty a) eqn:Ea. - apply (IH k); [exact K|exact W2|]. pose proof (SH _ _ _ E). nia. - apply (IH ranks); [reflexivity|exact W2|]. pose proof (run_shorter _ _ _ _ _ E Ea). unfold ranks. nia. }
    destruct (run f b rest); congruence.
  - apply andb_true_iff in W as (W1 & W2). pose proof (IH k a s K W1 ltac:(lia)) as A. pose proof (IH k b s K W2 ltac:(lia)) as B. destruct (run f a s); congruence.
  - apply andb_true_iff in W as (W1 & W2). apply negb_true_iff in W1. pose proof (IH k a s K W2 ltac:(lia)) as A. destruct (run f a s) as [ts rest| |] eqn:E; [|discriminate|congruence].
    assert (B : run f (PStar a) rest <> Unfinished). { apply (IH k); [exact K|cbn [well_founded]; rewrite W1, W2; reflexivity|]. pose proof (run_shorter _ _ _ _ _ E W1). cbn [size]. nia. }
    destruct (run f (PStar a) rest); congruence.
  - pose proof (IH k a s K W ltac:(lia)) as A. destruct (run f a s); congruence.
  - pose proof (IH k a s K W ltac:(lia)) as A. destruct (run f a s); congruence.
  - apply Nat.ltb_lt in W. destruct (rules_well_founded r) as (R & X & Z). unfold biggest, ranks in *. assert (A : run f (grammar r) s <> Unfinished) by (apply (IH (rank r)); [lia|exact X|nia]). destruct (run f (grammar r) s); congruence.
Qed.
Lemma enough_right r s : run (enough s) (PRef r) s <> Unfinished.
Proof.
  apply (run_ends _ ranks); [reflexivity|apply Nat.ltb_lt, rules_well_founded|]. unfold enough, ranks, biggest. cbn [size]. lia.
Qed.

(** * What a match consists of *)

(** [ev p s o]: matching [p] with [s] ends with [o] *)
Definition ev (p : peg) (s : text) (o : outcome) : Prop := o <> Unfinished /\ exists f, run f p s = o.
Lemma ev_same p s o o' : ev p s o -> ev p s o' -> o = o'.
Proof. intros (N & f & H) (N' & g & H'). apply (run_same f g p s); assumption. Qed.
Lemma ev_run f p s o : run f p s = o -> o <> Unfinished -> ev p s o.
Proof. intros H N. split; [exact N|exists f; exact H]. Qed.
Lemma ev_enough r s o : ev (PRef r) s o -> run (enough s) (PRef r) s = o.
Proof. intros (N & f & H). apply (run_same (enough s) f (PRef r) s); [reflexivity|apply enough_right|exact H|exact N]. Qed.
Ltac step f := apply (ev_run (S f)); [|discriminate]; cbn [run].
Lemma ev_str t rest : ev (PStr t) (t ++ rest) (Match [] rest).
Proof. step 0. rewrite strip_app. reflexivity. Qed.
Lemma ev_range lo hi c s : (lo <= c <= hi)%N -> ev (PRange lo hi) (c :: s) (Match [] s).
Proof. intros (A & B). step 0. apply N.leb_le in A, B. rewrite A, B. reflexivity. Qed.
Lemma ev_range_no lo hi s : match s with c :: _ => ~ (lo <= c <= hi)%N | [] => True end -> ev (PRange lo hi) s NoMatch.
Proof. intro H. step 0. destruct s as [|c s]; [reflexivity|]. destruct (N.leb_spec lo c), (N.leb_spec c hi); try reflexivity. exfalso. apply H. split; assumption. Qed.
Lemma ev_any c s : ev PAny (c :: s) (Match [] s).
Proof. step 0. reflexivity. Qed.
Lemma ev_seq a b s ts rest us rest' : ev a s (Match ts rest) -> ev b rest (Match us rest') -> ev (PSeq a b) s (Match (ts ++ us) rest').
Proof.
  intros (N & f & H) (N' & g & H'). step (f + g). rewrite (run_more f (f + g) a s _ H N) by lia. rewrite (run_more g (f + g) b rest _ H' N') by lia. reflexivity.
Qed.
Lemma ev_seq_no a b s : ev a s NoMatch -> ev (PSeq a b) s NoMatch.
Proof. intros (N & f & H). step f. rewrite H. reflexivity. Qed.
Lemma ev_seq_no2 a b s ts rest : ev a s (Match ts rest) -> ev b rest NoMatch -> ev (PSeq a b) s NoMatch.
Proof. intros (N & f & H) (N' & g & H'). step (f + g). rewrite (run_more f (f + g) a s _ H N) by lia. rewrite (run_more g (f + g) b rest _ H' N') by lia. reflexivity. Qed.
Lemma ev_alt_l a b s ts rest : ev a s (Match ts rest) -> ev (PAlt a b) s (Match ts rest).
Proof. intros (N & f & H). step f. rewrite H. reflexivity. Qed.
Lemma ev_alt_r a b s o : ev a s NoMatch -> ev b s o -> ev (PAlt a b) s o.
Proof. intros (N & f & H) (N' & g & H'). apply (ev_run (S (f + g))); [|exact N']. cbn [run]. rewrite (run_more f (f + g) a s _ H N) by lia. apply (run_more g (f + g) b s _ H' N'). lia. Qed.
Lemma ev_star_end a s : ev a s NoMatch -> ev (PStar a) s (Match [] s).
Proof. intros (N & f & H). step f. rewrite H. reflexivity. Qed.
Lemma ev_star a s ts rest us rest' : ev a s (Match ts rest) -> ev (PStar a) rest (Match us rest') -> ev (PStar a) s (Match (ts ++ us) rest').
Proof. intros (N & f & H) (N' & g & H'). step (f + g). rewrite (run_more f (f + g) a s _ H N) by lia. rewrite (run_more g (f + g) (PStar a) rest _ H' N') by lia. reflexivity. Qed.
Lemma ev_opt a s ts rest : ev a s (Match ts rest) -> ev (POpt a) s (Match ts rest).
Proof. intros (N & f & H). step f. rewrite H. reflexivity. Qed.
Lemma ev_opt_no a s : ev a s NoMatch -> ev (POpt a) s (Match [] s).
Proof. intros (N & f & H). step f. rewrite H. reflexivity. Qed.
Lemma ev_not a s : ev a s NoMatch -> ev (PNot a) s (Match [] s).
Proof. intros (N & f & H). step f. rewrite H. reflexivity. Qed.
Lemma ev_not_no a s ts rest : ev a s (Match ts rest) -> ev (PNot a) s NoMatch.
Proof. intros (N & f & H). step f. rewrite H. reflexivity. Qed.
Lemma ev_silent r t rest ts : silent r = true -> ev (grammar r) (t ++ rest) (Match ts rest) -> ev (PRef r) (t ++ rest) (Match ts rest).
Proof. intros E (N & f & H). step f. rewrite H, E. reflexivity. Qed.
Lemma ev_ref r t rest ts : silent r = false -> ev (grammar r) (t ++ rest) (Match ts rest) -> ev (PRef r) (t ++ rest) (Match [Node r t ts] rest).
Proof. intros E (N & f & H). step f. rewrite H, E, consumed_app. reflexivity. Qed.
Lemma ev_ref_no r s : ev (grammar r) s NoMatch -> ev (PRef r) s NoMatch.
Proof. intros (N & f & H). step f. rewrite H. reflexivity. Qed.

(** ** Inversion *)
Lemma ev_Match p s ts rest : ev p s (Match ts rest) -> exists f, run (S f) p s = Match ts rest.
Proof. intros (N & f & H). exists f. apply run_S; assumption. Qed.
Lemma ev_seq_inv a b s ts rest : ev (PSeq a b) s (Match ts rest) -> exists us mid vs, ev a s (Match us mid) /\ ev b mid (Match vs rest) /\ ts = us ++ vs.
Proof.
  intros (f & H)%ev_Match. cbn [run] in H. destruct (run f a s) as [us mid| |] eqn:A; try discriminate H. destruct (run f b mid) as [vs x| |] eqn:B; try discriminate H. injection H as <- <-.
  exists us, mid, vs. split; [apply (ev_run f); [exact A|discriminate]|]. split; [apply (ev_run f); [exact B|discriminate]|reflexivity].
Qed.
Lemma ev_alt_inv a b s ts rest : ev (PAlt a b) s (Match ts rest) -> ev a s (Match ts rest) \/ (ev a s NoMatch /\ ev b s (Match ts rest)).
Proof.
  intros (f & H)%ev_Match. cbn [run] in H. destruct (run f a s) as [us mid| |] eqn:A; try discriminate H.
  - left. apply (ev_run f); [congruence|discriminate].
  - right. split; (apply (ev_run f); [assumption|discriminate]).
Qed.
Lemma ev_star_inv a s ts rest : ev (PStar a) s (Match ts rest) ->
  (ts = [] /\ rest = s /\ ev a s NoMatch) \/ exists us mid vs, ev a s (Match us mid) /\ ev (PStar a) mid (Match vs rest) /\ ts = us ++ vs.
Proof.
  intros (f & H)%ev_Match. cbn [run] in H. destruct (run f a s) as [us mid| |] eqn:A; try discriminate H.
  - right. destruct (run f (PStar a) mid) as [vs x| |] eqn:B; try discriminate H. injection H as <- <-. exists us, mid, vs. split; [apply (ev_run f); [exact A|discriminate]|]. split; [apply (ev_run f); [exact B|discriminate]|reflexivity].
  - left. injection H as <- <-. split; [reflexivity|]. split; [reflexivity|]. apply (ev_run f); [exact A|discriminate].
Qed.
Lemma ev_opt_inv a s ts rest : ev (POpt a) s (Match ts rest) -> ev a s (Match ts rest) \/ (ts = [] /\ rest = s /\ ev a s NoMatch).
Proof.
  intros (f & H)%ev_Match. cbn [run] in H. destruct (run f a s) as [us mid| |] eqn:A; try discriminate H.
  - left. apply (ev_run f); [congruence|discriminate].
  - right. injection H as <- <-. split; [reflexivity|]. split; [reflexivity|]. apply (ev_run f); [exact A|discriminate].
Qed.
Lemma ev_not_inv a s ts rest : ev (PNot a) s (Match ts rest) -> ts = [] /\ rest = s /\ ev a s NoMatch.
Proof.
  intros (f & H)%ev_Match. cbn [run] in H. destruct (run f a s) as [us mid| |] eqn:A; try discriminate H.
  injection H as <- <-. split; [reflexivity|]. split; [reflexivity|]. apply (ev_run f); [exact A|discriminate].
Qed.
Lemma ev_ref_inv r s ts rest : ev (PRef r) s (Match ts rest) -> exists t us, s = t ++ rest /\ ev (grammar r) s (Match us rest) /\ ts = if silent r then us else [Node r t us].
Proof.
  intros (f & H)%ev_Match. cbn [run] in H. destruct (run f (grammar r) s) as [us mid| |] eqn:A; try discriminate H. injection H as <- <-. destruct (run_suffix _ _ _ _ _ A) as (t & ->).
  exists t, us. split; [reflexivity|]. split; [apply (ev_run f); [exact A|discriminate]|]. rewrite consumed_app. reflexivity.
Qed.
Lemma ev_str_inv t s ts rest : ev (PStr t) s (Match ts rest) -> ts = [] /\ s = t ++ rest.
Proof. intros (f & H)%ev_Match. cbn [run] in H. destruct (strip t s) as [x|] eqn:E; [|discriminate H]. injection H as <- <-. split; [reflexivity|apply strip_right, E]. Qed.
Lemma ev_range_inv lo hi s ts rest : ev (PRange lo hi) s (Match ts rest) -> ts = [] /\ exists c, s = c :: rest /\ (lo <= c <= hi)%N.
Proof.
  intros (f & H)%ev_Match. cbn [run] in H. destruct s as [|c s]; [discriminate H|]. destruct (N.leb_spec lo c); [|discriminate H]. destruct (N.leb_spec c hi); [|discriminate H]. injection H as <- <-.
  split; [reflexivity|]. exists c. split; [reflexivity|split; assumption].
Qed.
Lemma ev_any_inv s ts rest : ev PAny s (Match ts rest) -> ts = [] /\ exists c, s = c :: rest.
Proof. intros (f & H)%ev_Match. cbn [run] in H. destruct s as [|c s]; [discriminate H|]. injection H as <- <-. split; [reflexivity|]. exists c. reflexivity. Qed.
Lemma ev_end_inv s ts rest : ev PEnd s (Match ts rest) -> ts = [] /\ s = [] /\ rest = [].
Proof. intros (f & H)%ev_Match. cbn [run] in H. destruct s; [|discriminate H]. injection H as <- <-. auto. Qed.
Lemma ev_suffix p s ts rest : ev p s (Match ts rest) -> exists t, s = t ++ rest.
Proof. intros (N & f & H). apply (run_suffix f p s ts rest H). Qed.
(** Every match of a rule ends *)
Lemma ev_total r s : exists o, ev (PRef r) s o.
Proof. exists (run (enough s) (PRef r) s). apply (ev_run (enough s)); [reflexivity|apply enough_right]. Qed.
