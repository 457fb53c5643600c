From Verif Require Import Base BitLemmas CobsModel CobsSpec.
Ltac Zify.zify_post_hook ::= Z.div_mod_to_equations.

(** The functional form of the encoder: [blk] is the current block without its code byte. *)
Fixpoint enc (blk src : list N) : list N :=
  match src with
  | [] => (1 + N.of_nat (length blk)) :: blk
  | b :: r =>
      if N.eqb b 0 then (1 + N.of_nat (length blk)) :: blk ++ enc [] r
      else if (length blk =? 254)%nat then 255 :: blk ++ enc [b] r
      else enc (blk ++ [b]) r
  end.

Lemma enc_length_ge blk src : (length (enc blk src) >= length blk + 1)%nat.
Proof.
  revert blk; induction src as [|b r IH]; intro blk; cbn [enc].
  - simpl; lia.
  - destruct (N.eqb_spec b 0); [simpl; rewrite app_length; lia|].
    destruct (Nat.eqb_spec (length blk) 254); [simpl; rewrite app_length; lia|].
    specialize (IH (blk ++ [b])). rewrite app_length in IH. simpl in IH. lia.
Qed.

(** * The loop with index writes computes [enc] *)

Lemma set_at_mid (p q : list N) x y : set_at (length p) y (p ++ x :: q) = Some (p ++ y :: q).
Proof.
  unfold set_at. rewrite app_length. cbn [length].
  destruct (Nat.ltb_spec (length p) (length p + S (length q))); [|lia].
  rewrite firstn_app, firstn_all, Nat.sub_diag, skipn_app. cbn [firstn].
  rewrite (skipn_all2 p) by lia. replace (S (length p) - length p)%nat with 1%nat by lia.
  rewrite app_nil_r. reflexivity.
Qed.

Lemma set_at_end (p : list N) y : set_at (length p) y p = None.
Proof. unfold set_at. destruct (Nat.ltb_spec (length p) (length p)); [lia|reflexivity]. Qed.

Lemma set_at_none (l : list N) i y : (length l <= i)%nat -> set_at i y l = None.
Proof. intro. unfold set_at. destruct (Nat.ltb_spec i (length l)); [lia|reflexivity]. Qed.

Lemma skipn_app_ge (a c : list N) n : (length a <= n)%nat -> skipn n (a ++ c) = skipn (n - length a) c.
Proof. intro. rewrite skipn_app, skipn_all2 by lia. reflexivity. Qed.

(** Invariant: destination = done ++ [slot] ++ blk ++ rest; when the destination is exhausted exactly at the code slot
    the block is empty. *)
Definition esc_inv (done blk : list N) (s : esc) : Prop :=
  e_codepos s = length done /\ e_cur s = (length done + 1 + length blk)%nat /\
  e_code s = 1 + N.of_nat (length blk) /\ (length blk <= 254)%nat /\
  ((exists slot rest, e_dest s = done ++ slot :: blk ++ rest) \/ (e_dest s = done /\ blk = [])).

Definition finish (s : esc) : option (nat * list N) :=
  match set_at (e_codepos s) (e_code s) (e_dest s) with
  | None => None
  | Some d => Some (e_cur s, d)
  end.

Definition run (s : esc) (src : list N) : option (nat * list N) :=
  match esc_loop s src with None => None | Some s' => finish s' end.

Definition expect (done out dest : list N) : option (nat * list N) :=
  if (length done + length out <=? length dest)%nat
  then Some ((length done + length out)%nat, done ++ out ++ skipn (length done + length out) dest)
  else None.

Lemma skipn_mid (a b c : list N) n : n = (length a + length b)%nat -> skipn n (a ++ b ++ c) = c.
Proof.
  intros ->. rewrite app_assoc, skipn_app, app_length.
  rewrite skipn_all2 by (rewrite app_length; lia).
  replace (length a + length b - (length a + length b))%nat with 0%nat by lia. reflexivity.
Qed.

Lemma finish_spec done blk s :
  esc_inv done blk s -> finish s = expect done ((1 + N.of_nat (length blk)) :: blk) (e_dest s).
Proof.
  intros (Hp & Hc & Hcode & Hb & [(slot & rest & Hd)|[Hd ->]]); unfold finish, expect; rewrite Hp, Hcode, Hd.
  - rewrite set_at_mid, Hc. cbn [length]. rewrite app_length. cbn [length]. rewrite app_length.
    destruct (Nat.leb_spec (length done + S (length blk)) (length done + S (length blk + length rest))); [|lia].
    f_equal. f_equal; [lia|]. f_equal. cbn [app]. f_equal. f_equal.
    change (slot :: blk ++ rest) with ((slot :: blk) ++ rest). rewrite skipn_mid; [reflexivity|].
    simpl; lia.
  - rewrite set_at_end. cbn [length].
    destruct (Nat.leb_spec (length done + 1) (length done)); [lia|reflexivity].
Qed.

Lemma expect_shift done x y dest dest' :
  length dest' = length dest ->
  (forall n, (length done + length x + length y <= n)%nat -> skipn n dest' = skipn n dest) ->
  expect (done ++ x) y dest' = expect done (x ++ y) dest.
Proof.
  intros Hl Hs. unfold expect. rewrite !app_length, Hl.
  replace (length done + (length x + length y))%nat with (length done + length x + length y)%nat by lia.
  destruct (Nat.leb _ _); [|reflexivity]. rewrite <- !app_assoc, Hs by lia. reflexivity.
Qed.

Lemma run_spec src : forall done blk s,
  esc_inv done blk s -> run s src = expect done (enc blk src) (e_dest s).
Proof.
  induction src as [|b r IH]; intros done blk s Hinv.
  - apply finish_spec. assumption.
  - unfold run. cbn [esc_loop enc]. unfold esc_step.
    pose proof Hinv as (Hp & Hc & Hcode & Hb & Hd).
    destruct (N.eqb_spec b 0) as [->|Hnz].
    + (* zero byte: close the block *)
      destruct Hd as [(slot & rest & Hd)|[Hd ->]].
      * rewrite Hp, Hd, set_at_mid.
        set (s' := Esc _ _ _ _). fold (run s' r).
        assert (Hinv' : esc_inv (done ++ e_code s :: blk) [] s').
        { unfold esc_inv, s'; cbn [e_dest e_cur e_codepos e_code]. rewrite !app_length. cbn [length].
          repeat split; try lia. destruct rest as [|sl rest'].
          - right. rewrite app_nil_r. split; reflexivity.
          - left. exists sl, rest'. rewrite <- app_assoc. reflexivity. }
        rewrite (IH _ _ _ Hinv'). rewrite Hcode.
        change ((1 + N.of_nat (length blk)) :: blk ++ enc [] r) with (((1 + N.of_nat (length blk)) :: blk) ++ enc [] r).
        apply expect_shift; unfold s'; cbn [e_dest]; rewrite ?Hcode.
        -- rewrite !app_length. reflexivity.
        -- intros n Hn.
           change (done ++ (1 + N.of_nat (length blk)) :: blk ++ rest) with (done ++ ((1 + N.of_nat (length blk)) :: blk) ++ rest).
           change (done ++ slot :: blk ++ rest) with (done ++ (slot :: blk) ++ rest).
           rewrite !app_assoc, !(skipn_app n (_ ++ _)).
           rewrite !(skipn_all2 (_ ++ _)) by (rewrite app_length; cbn [length] in *; lia).
           rewrite !app_length. reflexivity.
      * rewrite Hp, Hd, set_at_end. unfold expect. cbn [length app].
        pose proof (enc_length_ge [] r).
        destruct (Nat.leb_spec (length done + S (length (enc [] r))) (length done)); [lia|reflexivity].
    + assert (Hcode255 : N.eqb (e_code s) 255 = (length blk =? 254)%nat) by (rewrite Hcode; lia).
      rewrite Hcode255. destruct (Nat.eqb_spec (length blk) 254) as [Hfull|Hnf].
      * (* block full *)
        destruct Hd as [(slot & rest & Hd)|[Hd ->]]; [|simpl in Hfull; lia].
        rewrite Hp, Hd, set_at_mid. cbn [e_dest e_cur e_codepos e_code].
        rewrite Hc, Hcode. replace (1 + N.of_nat (length blk)) with 255 by lia.
        change (255 :: blk ++ enc [b] r) with ((255 :: blk) ++ enc [b] r).
        pose proof (enc_length_ge [b] r) as Hge. cbn [length] in Hge.
        destruct rest as [|sl [|nx rest']].
        -- rewrite set_at_none by (rewrite !app_length; cbn [length]; rewrite !app_length; cbn [length]; lia).
           unfold expect. rewrite !app_length. cbn [length]. rewrite app_length. cbn [length].
           destruct (Nat.leb_spec (length done + (S (length blk) + length (enc [b] r))) (length done + S (length blk + 0))); [lia|reflexivity].
        -- rewrite set_at_none by (rewrite !app_length; cbn [length]; rewrite !app_length; cbn [length]; lia).
           unfold expect. rewrite !app_length. cbn [length]. rewrite app_length. cbn [length].
           destruct (Nat.leb_spec (length done + (S (length blk) + length (enc [b] r))) (length done + S (length blk + 1))); [lia|reflexivity].
        -- assert (Hset : set_at (length done + 1 + length blk + 1) b (done ++ 255 :: blk ++ sl :: nx :: rest')
                   = Some ((done ++ 255 :: blk) ++ sl :: b :: rest')).
           { replace (done ++ 255 :: blk ++ sl :: nx :: rest') with ((done ++ 255 :: blk ++ [sl]) ++ nx :: rest')
               by (repeat (rewrite <- app_assoc; cbn [app]); reflexivity).
             replace ((done ++ 255 :: blk) ++ sl :: b :: rest') with ((done ++ 255 :: blk ++ [sl]) ++ b :: rest')
               by (repeat (rewrite <- app_assoc; cbn [app]); reflexivity).
             replace (length done + 1 + length blk + 1)%nat with (length (done ++ 255 :: blk ++ [sl]))
               by (rewrite !app_length; cbn [length]; rewrite app_length; cbn [length]; lia).
             apply set_at_mid. }
           rewrite Hset.
           set (s' := Esc _ _ _ _). fold (run s' r).
           assert (Hinv' : esc_inv (done ++ 255 :: blk) [b] s').
           { unfold esc_inv, s'; cbn [e_dest e_cur e_codepos e_code]. rewrite !app_length. cbn [length].
             repeat split; try lia. left. exists sl, rest'. reflexivity. }
           rewrite (IH _ _ _ Hinv').
           apply expect_shift; unfold s'; cbn [e_dest].
           ++ rewrite !app_length. cbn [length]. rewrite !app_length. cbn [length]. lia.
           ++ intros n Hn. cbn [length] in Hn.
              assert (Hd1 : (done ++ 255 :: blk) ++ sl :: b :: rest' = (done ++ 255 :: blk ++ [sl; b]) ++ rest')
                by (repeat (rewrite <- app_assoc; cbn [app]); reflexivity).
              assert (Hd2 : done ++ slot :: blk ++ sl :: nx :: rest' = (done ++ slot :: blk ++ [sl; nx]) ++ rest')
                by (repeat (rewrite <- app_assoc; cbn [app]); reflexivity).
              rewrite Hd1, Hd2, !skipn_app_ge by (rewrite app_length; cbn [length]; rewrite app_length; cbn [length]; lia).
              rewrite !app_length. cbn [length]. rewrite !app_length. reflexivity.
      * (* room in the block *)
        destruct Hd as [(slot & rest & Hd)|[Hd ->]].
        -- destruct rest as [|nx rest'].
           ++ rewrite Hc, Hd. rewrite set_at_none by (rewrite !app_length; cbn [length]; rewrite app_length; cbn [length]; lia).
              unfold expect. pose proof (enc_length_ge (blk ++ [b]) r) as Hge.
              rewrite app_length in Hge. cbn [length] in Hge.
              rewrite !app_length. cbn [length]. rewrite app_length. cbn [length].
              match goal with |- context [Nat.leb ?a ?b] => destruct (Nat.leb_spec a b) end; [lia|reflexivity].
           ++ assert (Hset : set_at (e_cur s) b (e_dest s) = Some (done ++ slot :: (blk ++ [b]) ++ rest')).
              { rewrite Hc, Hd.
                replace (done ++ slot :: blk ++ nx :: rest') with ((done ++ slot :: blk) ++ nx :: rest')
                  by (repeat (rewrite <- app_assoc; cbn [app]); reflexivity).
                replace (done ++ slot :: (blk ++ [b]) ++ rest') with ((done ++ slot :: blk) ++ b :: rest')
                  by (repeat (rewrite <- app_assoc; cbn [app]); reflexivity).
                replace (length done + 1 + length blk)%nat with (length (done ++ slot :: blk))
                  by (rewrite !app_length; cbn [length]; lia).
                apply set_at_mid. }
              rewrite Hset.
              set (s' := Esc _ _ _ _). fold (run s' r).
              assert (Hinv' : esc_inv done (blk ++ [b]) s').
              { unfold esc_inv, s'; cbn [e_dest e_cur e_codepos e_code]. rewrite !app_length. cbn [length].
                repeat split; try lia. left. exists slot, rest'. reflexivity. }
              rewrite (IH _ _ _ Hinv').
              rewrite <- (app_nil_r done) at 1.
              change (enc (blk ++ [b]) r) with ([] ++ enc (blk ++ [b]) r) at 2.
              apply expect_shift; unfold s'; cbn [e_dest]; rewrite Hd.
              ** rewrite !app_length. cbn [length]. rewrite !app_length. cbn [length]. lia.
              ** intros n Hn. pose proof (enc_length_ge (blk ++ [b]) r) as Hge.
                 rewrite app_length in Hge. cbn [length] in Hge, Hn.
                 assert (Hd1 : done ++ slot :: (blk ++ [b]) ++ rest' = (done ++ slot :: blk ++ [b]) ++ rest')
                   by (repeat (rewrite <- app_assoc; cbn [app]); reflexivity).
                 assert (Hd2 : done ++ slot :: blk ++ nx :: rest' = (done ++ slot :: blk ++ [nx]) ++ rest')
                   by (repeat (rewrite <- app_assoc; cbn [app]); reflexivity).
                 rewrite Hd1, Hd2, !skipn_app_ge by (rewrite app_length; cbn [length]; rewrite app_length; cbn [length]; lia).
                 rewrite !app_length. cbn [length]. rewrite !app_length. reflexivity.
        -- rewrite Hc, Hd. rewrite set_at_none by (cbn [length]; lia).
           unfold expect. pose proof (enc_length_ge ([] ++ [b]) r) as Hge.
           rewrite app_length in Hge. cbn [length] in Hge.
           match goal with |- context [Nat.leb ?a ?b] => destruct (Nat.leb_spec a b) end; [lia|reflexivity].
Qed.

Lemma escape_spec src dest :
  escape_from_iter src dest =
  if (length (enc [] src) <=? length dest)%nat
  then Some (length (enc [] src), enc [] src ++ skipn (length (enc [] src)) dest) else None.
Proof.
  change (escape_from_iter src dest) with (run (Esc dest 1 0 1) src).
  rewrite (run_spec src [] []).
  - reflexivity.
  - unfold esc_inv; cbn. repeat split; try lia. destruct dest as [|x r]; [right; auto|left; exists x, r; reflexivity].
Qed.

(** * Length and content of the encoding *)

Lemma enc_length_eq_aux src : forall blk, (length blk <= 254)%nat ->
  (length (enc blk src) <= 1 + length blk + length src + (length blk + length src - 1) / 254)%nat.
Proof.
  induction src as [|b r IH]; intros blk Hb; cbn [enc length].
  - lia.
  - destruct (N.eqb_spec b 0).
    + cbn [length]. rewrite app_length. specialize (IH [] ltac:(simpl; lia)). cbn [length] in IH. lia.
    + destruct (Nat.eqb_spec (length blk) 254).
      * cbn [length]. rewrite app_length. specialize (IH [b] ltac:(simpl; lia)). cbn [length] in IH. lia.
      * specialize (IH (blk ++ [b])). rewrite app_length in IH. cbn [length] in IH. lia.
Qed.

Lemma enc_le_escaped src : (length (enc [] src) <= escaped_size (length src))%nat.
Proof.
  pose proof (enc_length_eq_aux src [] ltac:(simpl; lia)) as H. cbn [length] in H.
  unfold escaped_size. destruct (Nat.eqb_spec (length src) 0); lia.
Qed.

Lemma enc_ge_len src : forall blk, (length (enc blk src) >= 1 + length blk + length src)%nat.
Proof.
  induction src as [|b r IH]; intro blk; cbn [enc length].
  - lia.
  - destruct (N.eqb_spec b 0).
    + cbn [length]. rewrite app_length. specialize (IH []). cbn [length] in IH. lia.
    + destruct (Nat.eqb_spec (length blk) 254).
      * cbn [length]. rewrite app_length. specialize (IH [b]). cbn [length] in IH. lia.
      * specialize (IH (blk ++ [b])). rewrite app_length in IH. cbn [length] in IH. lia.
Qed.

Lemma enc_nonzero_length src : Forall (fun b => b <> 0) src -> forall blk, (length blk <= 254)%nat -> (length blk + length src > 0)%nat ->
  length (enc blk src) = (1 + length blk + length src + (length blk + length src - 1) / 254)%nat.
Proof.
  intro Hf; induction Hf as [|b r Hbz _ IH]; intros blk Hb Hpos; cbn [enc length] in *.
  - lia.
  - destruct (N.eqb_spec b 0); [contradiction|].
    destruct (Nat.eqb_spec (length blk) 254).
    + cbn [length]. rewrite app_length. rewrite IH by (simpl; lia). cbn [length]. lia.
    + rewrite IH by (rewrite app_length; cbn [length]; lia). rewrite app_length. cbn [length]. lia.
Qed.

Lemma enc_bytes src : forall blk, (length blk <= 254)%nat ->
  Forall (fun b => 0 < b < 256) blk -> bytes_ok src -> Forall (fun b => 0 < b < 256) (enc blk src).
Proof.
  induction src as [|b r IH]; intros blk Hb Hblk Hsrc; cbn [enc].
  - constructor; [lia|assumption].
  - inversion Hsrc as [|? ? Hbb Hr]; subst. unfold is_byte in Hbb.
    destruct (N.eqb_spec b 0).
    + constructor; [lia|]. apply Forall_app; split; [assumption|]. apply IH; [simpl; lia|constructor|assumption].
    + destruct (Nat.eqb_spec (length blk) 254).
      * constructor; [lia|]. apply Forall_app; split; [assumption|]. apply IH; [simpl; lia| |assumption].
        repeat constructor; lia.
      * apply IH; [rewrite app_length; simpl; lia| |assumption].
        apply Forall_app; split; [assumption|]. repeat constructor; lia.
Qed.

(** * Decoding *)

(** What decoding the encoding yields: a zero that follows a full block is lost. *)
Fixpoint lossy (n : nat) (src : list N) : list N :=
  match src with
  | [] => []
  | b :: r =>
      if N.eqb b 0 then (if (n =? 254)%nat then [] else [0]) ++ lossy 0 r
      else b :: lossy (if (n =? 254)%nat then 1%nat else S n) r
  end.

Lemma unescape_from_app u a b :
  unescape_from u (a ++ b) =
  match unescape_from u a with
  | None => None
  | Some (u', o) => match unescape_from u' b with None => None | Some (u'', o') => Some (u'', o ++ o') end
  end.
Proof.
  revert u; induction a as [|x a IH]; intro u; cbn [app unescape_from].
  - destruct (unescape_from u b) as [[? ?]|]; reflexivity.
  - destruct (unesc_accept u x) as [|u' o]; [reflexivity|].
    rewrite IH. destruct (unescape_from u' a) as [[u1 o1]|]; [|reflexivity].
    destruct (unescape_from u1 b) as [[u2 o2]|]; [|reflexivity].
    destruct o; reflexivity.
Qed.

Lemma unescape_copy blk z : Forall (fun b => 0 < b < 256) blk ->
  unescape_from (Unesc (N.of_nat (length blk)) z) blk = Some (Unesc 0 z, blk).
Proof.
  induction 1 as [|b r Hb _ IH]; [reflexivity|].
  cbn [unescape_from length]. unfold unesc_accept. cbn [u_copy u_zero].
  destruct (N.eqb_spec b 0); [lia|]. destruct (N.eqb_spec (N.of_nat (S (length r))) 0); [lia|].
  replace (N.of_nat (S (length r)) - 1) with (N.of_nat (length r)) by lia. rewrite IH. reflexivity.
Qed.

Lemma unescape_block z blk rest : (length blk <= 254)%nat -> Forall (fun b => 0 < b < 256) blk ->
  unescape_from (Unesc 0 z) ((1 + N.of_nat (length blk)) :: blk ++ rest) =
  match unescape_from (Unesc 0 (negb (length blk =? 254)%nat)) rest with
  | None => None
  | Some (u, o) => Some (u, (if z then [0] else []) ++ blk ++ o)
  end.
Proof.
  intros Hl Hb. cbn [unescape_from]. unfold unesc_accept. cbn [u_copy u_zero].
  destruct (N.eqb_spec (1 + N.of_nat (length blk)) 0); [lia|]. cbn [N.eqb].
  replace (1 + N.of_nat (length blk) - 1) with (N.of_nat (length blk)) by lia.
  replace (1 + N.of_nat (length blk) <? 255) with (negb (length blk =? 254)%nat) by lia.
  rewrite unescape_from_app, unescape_copy by assumption.
  destruct (unescape_from _ rest) as [[u o]|]; [|reflexivity].
  destruct z; reflexivity.
Qed.

Lemma unescape_enc src : forall blk z, (length blk <= 254)%nat ->
  Forall (fun b => 0 < b < 256) blk -> bytes_ok src ->
  exists u, unescape_from (Unesc 0 z) (enc blk src) =
            Some (u, (if z then [0] else []) ++ blk ++ lossy (length blk) src).
Proof.
  induction src as [|b r IH]; intros blk z Hl Hb Hs.
  - cbn [enc lossy].
    replace ((1 + N.of_nat (length blk)) :: blk) with ((1 + N.of_nat (length blk)) :: blk ++ []) by (rewrite app_nil_r; reflexivity).
    rewrite unescape_block by assumption.
    cbn [unescape_from]. eexists; reflexivity.
  - inversion Hs as [|? ? Hbb Hr]; subst. unfold is_byte in Hbb. cbn [enc lossy].
    destruct (N.eqb_spec b 0) as [->|Hnz].
    + rewrite unescape_block by assumption.
      destruct (IH [] (negb (length blk =? 254)%nat) ltac:(simpl; lia) ltac:(constructor) Hr) as [u Hu].
      rewrite Hu. exists u. f_equal. f_equal. f_equal. f_equal.
      destruct (length blk =? 254)%nat; reflexivity.
    + destruct (Nat.eqb_spec (length blk) 254) as [Hf|Hf].
      * replace 255 with (1 + N.of_nat (length blk)) by lia. rewrite unescape_block by assumption.
        destruct (IH [b] (negb (length blk =? 254)%nat) ltac:(simpl; lia)) as [u Hu]; [repeat constructor; lia|assumption|].
        rewrite Hu. exists u. destruct (Nat.eqb_spec (length blk) 254); [|contradiction]. reflexivity.
      * destruct (IH (blk ++ [b]) z) as [u Hu]; [rewrite app_length; simpl; lia| |assumption|].
        -- apply Forall_app; split; [assumption|]; repeat constructor; lia.
        -- rewrite Hu. exists u. rewrite app_length. cbn [length].
           replace (length blk + 1)%nat with (S (length blk)) by lia.
           rewrite <- app_assoc. reflexivity.
Qed.

Lemma unescape_enc_nil src : bytes_ok src -> unescape (enc [] src) = Some (lossy 0 src).
Proof.
  intro H. unfold unescape, unesc_new. destruct (unescape_enc src [] false) as [u Hu]; [simpl; lia|constructor|assumption|].
  rewrite Hu. reflexivity.
Qed.

(** * When the round trip is exact *)

Lemma lossy_length n src : (length (lossy n src) <= length src)%nat.
Proof.
  revert n; induction src as [|b r IH]; intro n; cbn [lossy length]; [lia|].
  destruct (N.eqb b 0).
  - rewrite app_length. specialize (IH 0%nat). destruct (n =? 254)%nat; cbn [length]; lia.
  - cbn [length]. specialize (IH (if (n =? 254)%nat then 1%nat else S n)). lia.
Qed.

(** the block counter after a run of nonzero bytes *)
Definition blkn (n : nat) : nat := if (n =? 0)%nat then 0%nat else ((n - 1) mod 254 + 1)%nat.

Lemma blkn_S n : (if (blkn n =? 254)%nat then 1%nat else S (blkn n)) = blkn (S n).
Proof.
  unfold blkn. destruct (Nat.eqb_spec n 0); [subst; reflexivity|]. cbn [Nat.eqb].
  replace (S n - 1)%nat with n by lia.
  destruct (Nat.eqb_spec ((n - 1) mod 254 + 1) 254) as [E|E]; lia.
Qed.

Lemma blkn_254 n : blkn n = 254%nat <-> exists k, n = (254 * S k)%nat.
Proof.
  unfold blkn. destruct (Nat.eqb_spec n 0); [subst; split; [lia|intros [k ?]; lia]|].
  split.
  - intro H. exists ((n - 1) / 254)%nat. lia.
  - intros [k ->]. lia.
Qed.

Lemma lossy_exact src : forall m,
  lossy (blkn m) src = src <->
  ~ (exists run post k, src = run ++ 0 :: post /\ Forall (fun b => b <> 0) run /\ (m + length run)%nat = (254 * S k)%nat) /\ ~ (exists pre run post k, src = (pre ++ [0]) ++ run ++ 0 :: post /\ Forall (fun b => b <> 0) run /\ length run = (254 * S k)%nat).
Proof.
  induction src as [|b r IH]; intro m; cbn [lossy].
  - split; [intros _; split|reflexivity].
    + intros (run & post & k & H & _). destruct run; discriminate.
    + intros (pre & run & post & k & H & _). destruct pre; discriminate.
  - destruct (N.eqb_spec b 0) as [->|Hnz].
    + destruct (Nat.eqb_spec (blkn m) 254) as [E|E].
      * split.
        -- intro H. exfalso. pose proof (lossy_length 0 r) as Hl. cbn [app] in H. rewrite H in Hl. simpl in Hl. lia.
        -- intros [H _]. exfalso. apply H. apply blkn_254 in E as [k ->].
           exists [], r, k. cbn [app length]. repeat split; [constructor|lia].
      * cbn [app]. change 0%nat with (blkn 0) at 1. split.
        -- intro H. injection H as H. apply (IH 0%nat) in H as [H1 H2]. split.
           ++ intros (run & post & k & Hs & Hf & Hk). destruct run as [|x run].
              ** apply E, blkn_254. exists k. simpl in Hk. lia.
              ** injection Hs as <- Hs. inversion Hf; congruence.
           ++ intros (pre & run & post & k & Hs & Hf & Hk). destruct pre as [|x pre].
              ** cbn [app] in Hs. injection Hs as Hs. apply H1. exists run, post, k. repeat split; auto.
              ** cbn [app] in Hs. injection Hs as <- Hs. apply H2. exists pre, run, post, k. repeat split; auto.
        -- intros [H1 H2]. f_equal. apply IH. split.
           ++ intros (run & post & k & Hs & Hf & Hk). apply H2. exists [], run, post, k. subst r. repeat split; auto.
           ++ intros (pre & run & post & k & Hs & Hf & Hk). apply H2. exists (0 :: pre), run, post, k. subst r. repeat split; auto.
    + rewrite blkn_S. split.
      * intro H. injection H as H. apply IH in H as [H1 H2]. split.
        -- intros (run & post & k & Hs & Hf & Hk). destruct run as [|x run].
           ++ injection Hs as ? ?. congruence.
           ++ injection Hs as <- Hs. inversion Hf; subst. apply H1. exists run, post, k. repeat split; auto. simpl in Hk. lia.
        -- intros (pre & run & post & k & Hs & Hf & Hk). destruct pre as [|x pre].
           ++ cbn [app] in Hs. injection Hs as ? ?. congruence.
           ++ cbn [app] in Hs. injection Hs as <- Hs. apply H2. exists pre, run, post, k. repeat split; auto.
      * intros [H1 H2]. f_equal. apply IH. split.
        -- intros (run & post & k & Hs & Hf & Hk). apply H1. exists (b :: run), post, k. subst r. repeat split; auto. simpl. lia.
        -- intros (pre & run & post & k & Hs & Hf & Hk). apply H2. exists (b :: pre), run, post, k. subst r. repeat split; auto.
Qed.

Lemma lossy_iff src : lossy 0 src = src <-> ~ swallows_zero src.
Proof.
  change 0%nat with (blkn 0). rewrite lossy_exact. unfold swallows_zero. split.
  - intros [H1 H2] (pre & run & post & k & Hs & [->|[p ->]] & Hf & Hk).
    + apply H1. exists run, post, k. repeat split; auto.
    + apply H2. exists p, run, post, k. repeat split; auto.
  - intro H. split.
    + intros (run & post & k & Hs & Hf & Hk). apply H. exists [], run, post, k. repeat split; auto.
    + intros (pre & run & post & k & Hs & Hf & Hk). apply H. exists (pre ++ [0]), run, post, k. repeat split; auto. right. eauto.
Qed.

Lemma escape_inv src dest n out : escape_from_iter src dest = Some (n, out) ->
  n = length (enc [] src) /\ (n <= length dest)%nat /\ out = enc [] src ++ skipn n dest.
Proof.
  rewrite escape_spec. destruct (Nat.leb_spec (length (enc [] src)) (length dest)); [|discriminate].
  intro E. injection E as <- <-. repeat split; assumption.
Qed.

Lemma firstn_exact (a b : list N) : firstn (length a) (a ++ b) = a.
Proof. rewrite firstn_app, firstn_all, Nat.sub_diag. cbn. apply app_nil_r. Qed.

Lemma cobs_round_trip : forall src dest n out,
  bytes_ok src -> escape_from_iter src dest = Some (n, out) ->
  (unescape (firstn n out) = Some src <-> ~ swallows_zero src).
Proof.
  intros src dest n out Hb H. apply escape_inv in H as (-> & _ & ->).
  rewrite firstn_exact, unescape_enc_nil by assumption. rewrite <- lossy_iff. split; congruence.
Qed.

Lemma cobs_short_round_trip : forall src dest n out,
  bytes_ok src -> (length src <= 254)%nat -> escape_from_iter src dest = Some (n, out) ->
  unescape (firstn n out) = Some src.
Proof.
  intros src dest n out Hb Hl H. apply (cobs_round_trip src dest); try assumption.
  intros (pre & run & post & k & -> & _ & _ & Hk). rewrite !app_length in Hl. cbn [length] in Hl. lia.
Qed.

Lemma cobs_output : forall src dest n out,
  bytes_ok src -> escape_from_iter src dest = Some (n, out) ->
  (n <= escaped_size (length src))%nat /\
  Forall (fun b => 0 < b < 256) (firstn n out) /\
  length out = length dest /\ skipn n out = skipn n dest /\ (n <= length dest)%nat.
Proof.
  intros src dest n out Hb H. apply escape_inv in H as (-> & Hl & ->).
  rewrite firstn_exact. repeat split.
  - apply enc_le_escaped.
  - apply enc_bytes; [simpl; lia|constructor|assumption].
  - rewrite app_length, skipn_length. lia.
  - rewrite skipn_app_ge, Nat.sub_diag by lia. reflexivity.
  - assumption.
Qed.

Lemma cobs_never_fails : forall src dest,
  (escaped_size (length src) <= length dest)%nat -> escape_from_iter src dest <> None.
Proof.
  intros src dest H. rewrite escape_spec. pose proof (enc_le_escaped src).
  destruct (Nat.leb_spec (length (enc [] src)) (length dest)); [discriminate|lia].
Qed.

Lemma cobs_tight : forall src dest,
  Forall (fun b => b <> 0) src ->
  option_map fst (escape_from_iter src dest) =
  if (escaped_size (length src) <=? length dest)%nat then Some (escaped_size (length src)) else None.
Proof.
  intros src dest H. rewrite escape_spec.
  assert (E : length (enc [] src) = escaped_size (length src)).
  { destruct src as [|b r]; [reflexivity|].
    rewrite enc_nonzero_length by (assumption || simpl; lia). unfold escaped_size.
    cbn [length Nat.eqb]. lia. }
  rewrite E. destruct (Nat.leb _ _); reflexivity.
Qed.

Lemma unescape_from_total bs : forall u, unescape_from u bs <> None <-> Forall (fun b => b <> 0) bs.
Proof.
  induction bs as [|b r IH]; intro u; cbn [unescape_from].
  - split; [constructor|discriminate].
  - unfold unesc_accept. destruct (N.eqb_spec b 0) as [->|Hb].
    + split; [congruence|]. intro H; inversion H; congruence.
    + assert (Forall (fun b => b <> 0) (b :: r) <-> Forall (fun b => b <> 0) r) as ->
        by (split; [intro H; inversion H; assumption|constructor; assumption]).
      destruct (N.eqb (u_copy u) 0).
      * rewrite <- (IH (Unesc (b - 1) (b <? 255))).
        destruct (unescape_from _ r) as [[? ?]|]; split; congruence.
      * rewrite <- (IH (Unesc (u_copy u - 1) (u_zero u))).
        destruct (unescape_from _ r) as [[? ?]|]; split; congruence.
Qed.

Lemma unescape_total : forall bs, unescape bs <> None <-> Forall (fun b => b <> 0) bs.
Proof.
  intro bs. rewrite <- (unescape_from_total bs unesc_new). unfold unescape.
  destruct (unescape_from unesc_new bs) as [[? ?]|]; cbn; split; congruence.
Qed.
