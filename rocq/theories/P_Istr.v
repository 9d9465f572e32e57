(** * P_Istr: reading text (C53, C74, C75, C76). *)
From Verif Require Import Base UtilModel StringFindModel StreamModel FileModel FmtSpec IstrModel IstrSpec IstrProg IstrProofs IstrRun IstrNum.
From Coq Require Import ZArith ZifyBool ZifyNat Lia.
Local Open Scope Z_scope.

(** ** C53: lines, words and characters *)
(** For every text and every line end character, reading lines gives the pieces
    of the text between the line ends, and then the end is reported. *)
Theorem C53_lines : forall d txt after fuel, Z.of_nat (length txt) < 2 ^ 61 -> (length txt < fuel)%nat ->
  exists s', times (length (pieces d txt)) (getline iss_underflow fuel d) (iss_new txt after) = Ok (s', Val (pieces d txt)) /\ t_state s' = Z.lor eofbit failbit.
Proof.
  intros d txt after fuel H Hf. destruct (i_getlines fuel d txt _ (IInv_new txt after H) Hf) as (s' & E & _ & S & _). eauto.
Qed.
Print Assumptions C53_lines.
Example C53_lines_case : exists s', times 3 (getline iss_underflow 9 10) (iss_new [97; 98; 10; 10; 99] []) = Ok (s', Val [[97; 98]; []; [99]]).
Proof. eexists. vm_compute. reflexivity. Qed.

(** One line: what is returned and how many characters gcount() reports. *)
Theorem C53_gcount : forall d txt after fuel, Z.of_nat (length txt) < 2 ^ 32 -> (length txt < fuel)%nat ->
  exists s' line rest, getline iss_underflow fuel d (iss_new txt after) = Ok (s', Val line) /\ ~ In d line /\
    (txt = line ++ d :: rest /\ t_gcount s' = Z.of_nat (length line) + 1 /\ t_state s' = 0 \/
     txt = line /\ rest = [] /\ t_gcount s' = Z.of_nat (length line)) /\
    t_pos s' = Z.of_nat (length txt - length rest).
Proof.
  intros d txt after fuel H Hf. destruct (i_getline fuel d _ txt (IInv_new txt after ltac:(lia)) Hf) as (s' & E & I & K & G & S).
  pose proof (until_spec d txt) as US. destruct (until d txt) as (a, b). cbn [fst snd] in *. destruct US as (Et & N & B).
  exists s', a, (tl b). split; [exact E|]. split; [exact N|].
  assert (Sz : t_size s' = Z.of_nat (length txt)).
  { assert (Q : t_size s' = t_size (iss_new txt after)); [|exact Q]. apply (f_equal (fun o => match o with Ok (s, _) => t_size s | _ => t_size (iss_new txt after) end)) in E. cbn beta iota in E. rewrite <- E.
    pose proof (getline_size fuel d (iss_new txt after)) as Q. destruct (getline iss_underflow fuel d (iss_new txt after)) as [[s r]| | |]; auto. }
  split.
  - destruct B as [->|(t & ->)]; cbn [tl] in *.
    + right. rewrite app_nil_r in Et. subst a. split; [reflexivity|]. split; [reflexivity|]. rewrite G. unfold u32, two32. rewrite Nat.sub_0_r. apply Z.mod_small. lia.
    + left. split; [exact Et|]. rewrite G, Et. rewrite Et, app_length in H. cbn [length] in H. rewrite app_length. cbn [length]. unfold u32, two32. rewrite Z.mod_small by lia. split; [lia|exact S].
  - destruct I as ((pre & post & _ & P & Z1 & _) & _). destruct B as [->|(t & ->)]; cbn [tl length] in *; rewrite Et, app_length in *; cbn [length] in *; lia.
Qed.
Print Assumptions C53_gcount.

(** For every text, every set of at most 14 delimiters and every sequence of
    requests for lines, words and characters into arrays, each gets what the
    specification says; words, if requested, are of characters other than quotes
    and the backslash.  The character 0 is always a delimiter. *)
Theorem C53_reads_partial : forall dl txt after fuel ops,
  Z.of_nat (length txt) < 2 ^ 61 -> (length txt + 1 < fuel)%nat -> (length dl < 15)%nat ->
  (In RWord ops -> Forall plain txt) -> Forall reasonable ops ->
  exists s', read_all iss_underflow fuel ops (set_delimiters dl (iss_new txt after)) =
    Ok (s', Val (answers_to (fun c => existsb (Z.eqb c) (0 :: dl)) ops txt)).
Proof.
  intros dl txt after fuel ops H Hf Hd HW HR.
  destruct (i_reads fuel ops _ txt (IInv_set dl _ _ (IInv_new txt after H)) Hf HW HR) as (s' & E & _).
  { rewrite is_delim_set by exact Hd. reflexivity. } { apply first_delim, Hd. }
  exists s'. rewrite E. do 3 f_equal. apply answers_ext. intros c. apply is_delim_set, Hd.
Qed.
Print Assumptions C53_reads_partial.
Example C53_reads_case : exists s',
  read_all iss_underflow 20 [RWord; RGet 3 10; RLine 10; RWord] (set_delimiters [32; 44] (iss_new [44; 97; 98; 32; 99; 100; 101; 10; 102] [])) =
    Ok (s', Val [[97; 98]; [99; 100; 0]; [101]; [102]]) /\ Forall plain [44; 97; 98; 32; 99; 100; 101; 10; 102].
Proof. eexists. split; [vm_compute; reflexivity|]. repeat constructor; discriminate. Qed.

(** As many words are read as there are, and they are the words of the text. *)
Theorem C53_words_partial : forall dl txt after fuel (isd := fun c => existsb (Z.eqb c) (0 :: dl)),
  Z.of_nat (length txt) < 2 ^ 61 -> (length txt + 1 < fuel)%nat -> (length dl < 15)%nat -> Forall plain txt ->
  exists s', times (length (words isd txt)) (iread_string iss_underflow fuel) (set_delimiters dl (iss_new txt after)) = Ok (s', Val (words isd txt)).
Proof.
  intros dl txt after fuel isd H Hf Hd HW. set (s := set_delimiters dl (iss_new txt after)).
  assert (D : forall c, isd c = is_delim s c) by (intros c; symmetry; apply is_delim_set, Hd).
  rewrite (words_ext isd (is_delim s) txt D).
  destruct (i_words fuel (length (words (is_delim s) txt)) s txt (IInv_set dl _ _ (IInv_new txt after H)) Hf HW) as (s' & r & E & _).
  { unfold s. rewrite is_delim_set by exact Hd. reflexivity. } { apply first_delim, Hd. } { reflexivity. }
  eauto.
Qed.
Print Assumptions C53_words_partial.

(** A quoted string is read as what it means, with every escape but that of the
    backslash itself. *)
Theorem C53_quoted_partial : forall dl seps q items rest after fuel (txt := seps ++ q :: concat (map q_written items) ++ q :: rest),
  Z.of_nat (length txt) < 2 ^ 61 -> (length txt + 1 < fuel)%nat -> (length dl < 15)%nat ->
  q = 34 \/ q = 39 -> ~ In q dl -> Forall (fun c => In c dl) seps -> Forall (q_valid q) items -> ~ In (Esc 92) items ->
  exists s', iread_string iss_underflow fuel (set_delimiters dl (iss_new txt after)) = Ok (s', Val (map q_meaning items)) /\
    t_state s' = 0 /\ t_remaining s' = Z.of_nat (length rest).
Proof.
  intros dl seps q items rest after fuel txt H Hf Hd Hq Hn HS HF HE.
  destruct (i_quoted fuel (set_delimiters dl (iss_new txt after)) seps q items rest (IInv_set dl _ _ (IInv_new txt after H)) Hf Hq) as (s' & E & I & _ & _ & S).
  - eapply Forall_impl; [|exact HS]. intros c Hc. cbn beta. rewrite is_delim_set by exact Hd. apply existsb_exists. exists c. split; [right; exact Hc|apply Z.eqb_refl].
  - rewrite is_delim_set by exact Hd. apply Bool.not_true_iff_false. intros X. apply existsb_exists in X. destruct X as (x & I & X). apply Z.eqb_eq in X. subst x.
    destruct I as [I|I]; [lia|auto].
  - apply first_delim, Hd.
  - exact HF.
  - exact HE.
  - exists s'. split; [exact E|]. split; [exact S|]. apply view_rem, I.
Qed.
Print Assumptions C53_quoted_partial.
Example C53_quoted_case : exists s',
  iread_string iss_underflow 20 (iss_new [32; 34; 97; 32; 92; 34; 92; 110; 34; 98] []) = Ok (s', Val [97; 32; 34; 10]).   
Proof. eexists. vm_compute. reflexivity. Qed.
(** Every sequence of words and quoted strings, with escapes other than that of
    the backslash itself, separated by any delimiters, is read as what it means.
    A quote that does not begin a word is a character like any other. *)
Theorem C53_tokens_partial : forall dl seps l after fuel (isd := fun c => existsb (Z.eqb c) (0 :: dl)) (txt := seps ++ sentence l),
  Z.of_nat (length txt) < 2 ^ 61 -> (length txt + 1 < fuel)%nat -> (length dl < 15)%nat -> ~ In 92 dl ->
  Forall (fun c => isd c = true) seps -> Forall (fun x => t_valid isd (fst x)) l -> separated isd l ->
  exists s', times (length l) (iread_string iss_underflow fuel) (set_delimiters dl (iss_new txt after)) = Ok (s', Val (map (fun x => t_meaning (fst x)) l)).
Proof.
  intros dl seps l after fuel isd txt H Hf Hd H92 HS HV HP. set (s := set_delimiters dl (iss_new txt after)).
  assert (D : forall c, is_delim s c = isd c) by (intros c; apply is_delim_set, Hd).
  destruct (i_sentence fuel l s seps (IInv_set dl _ _ (IInv_new txt after H)) Hf) as (s' & E & _); [| | | | | |eauto].
  - eapply Forall_impl; [|exact HS]. intros c Hc. cbn beta. rewrite D. exact Hc.
  - apply first_delim, Hd.
  - rewrite D. reflexivity.
  - rewrite D. apply Bool.not_true_iff_false. intros X. apply existsb_exists in X. destruct X as (x & I & X). apply Z.eqb_eq in X. subst x. destruct I as [I|I]; [discriminate|auto].
  - eapply Forall_impl; [|exact HV]. intros (t, d) V. cbn [fst] in *. destruct t as [x xs|q xs]; cbn [t_valid] in *.
    + destruct V as (F & V). split; [|exact V]. eapply Forall_impl; [|exact F]. intros [c|e]; cbn [w_valid]; rewrite D; auto.
    + rewrite D. exact V.
  - clearbody s. generalize (is_delim s) D. clear - HP. intros p D. induction l as [|(t, d) l IH]; cbn [separated] in *; [exact I|]. destruct HP as (A & B & C). split; [|split; [exact B|exact (IH C)]].
    eapply Forall_impl; [|exact A]. intros c Hc. cbn beta. rewrite D. exact Hc.
Qed.
Print Assumptions C53_tokens_partial.
Example C53_tokens_case :
  let l := [(TWord (Lit 105) [Lit 116; Lit 39; Lit 115], [32; 44]); (TQuoted 34 [Lit 97; Lit 32; Esc 110], []); (TWord (Esc 116) [Lit 99], [])] in
  sentence l = [105; 116; 39; 115; 32; 44; 34; 97; 32; 92; 110; 34; 92; 116; 99] /\
  (exists s', times 3 (iread_string iss_underflow 20) (iss_new (sentence l) []) = Ok (s', Val [[105; 116; 39; 115]; [97; 32; 10]; [9; 99]])) /\
  (let isd := fun c => existsb (Z.eqb c) [0; 32; 44] in Forall (fun x => t_valid isd (fst x)) l /\ separated isd l).
Proof.
  cbv zeta. split; [reflexivity|]. split; [eexists; vm_compute; reflexivity|]. split.
  - repeat constructor; try discriminate; cbn; intuition discriminate.
  - cbn [separated]. repeat split; try discriminate; repeat constructor.
Qed.
(** An escaped backslash makes the next character escaped, too: backslash,
    backslash, t in quotes is read as a tab rather than as a backslash and a t. *)
Theorem C53_escape_refuted : exists s',
  concat (map q_written [Esc 92; Lit 116]) = [92; 92; 116] /\ map q_meaning [Esc 92; Lit 116] = [92; 116] /\
  iread_string iss_underflow 20 (iss_new [34; 92; 92; 116; 34] []) = Ok (s', Val [9]).
Proof. eexists. split; [reflexivity|]. split; [reflexivity|]. vm_compute. reflexivity. Qed.
Print Assumptions C53_escape_refuted.
(** get (p, 0) writes to p. *)
Theorem C53_get_zero_refuted : forall s d fuel, get_chars iss_underflow (S fuel) 0 d s = UB.
Proof. intros s d fuel. reflexivity. Qed.
Print Assumptions C53_get_zero_refuted.
(** The last line of a text that does not end with a line end, and the last
    word of a text that does not end with a delimiter, are read with failbit set. *)
Theorem C53_last_refuted : forall c d after, plain c -> is_delim (iss_new [c] after) c = false -> c <> d ->
  (exists s', getline iss_underflow 3 d (iss_new [c] after) = Ok (s', Val [c]) /\ t_state s' = Z.lor eofbit failbit) /\
  (exists s', iread_string iss_underflow 3 (iss_new [c] after) = Ok (s', Val [c]) /\ t_state s' = Z.lor eofbit failbit).
Proof.
  intros c d after Hp Hc Hd. split.
  - destruct (i_getline 3 d _ [c] (IInv_new [c] after ltac:(cbn; lia)) ltac:(cbn; lia)) as (s' & E & _ & _ & _ & S). cbn [until] in E, S. replace (c =? d) with false in E, S by lia. eauto.
  - unfold iread_string, skip_delimiters. unfold iobind.
    destruct (skip_delimiters_loop_ok iss_underflow IInv IInv_view IInv_move IInv_gc IInv_state IInv_uf 3 _ [c] (nth 0 default_delimiters 0) (IInv_new [c] after ltac:(cbn; lia))) as (s1 & E & H1 & G1 & K1 & A1 & B1); [cbn; lia|reflexivity|].
    change (t_delims (iss_new [c] after)) with default_delimiters. rewrite E. cbn [bind]. cbn [skipd] in *. rewrite Hc in *. cbn [hd tl] in *.
    assert (c <> 0) by (intros ->; discriminate). destruct Hp as (P1 & P2 & P3). replace (c =? 0) with false by lia. replace (c =? 34) with false by lia. replace (c =? 39) with false by lia. cbn [orb].
    assert (Dl : is_delim s1 = is_delim (iss_new [c] after)) by (unfold is_delim; destruct K1 as (-> & _); reflexivity).
    destruct (word_loop_ok iss_underflow IInv IInv_view IInv_move IInv_gc IInv_state IInv_uf 3 s1 [] c [c] H1 ltac:(cbn; lia) ltac:(constructor) P3 ltac:(rewrite Dl; reflexivity)) as (s' & E' & _ & _ & _ & S).
    cbn [wordof fst snd app] in E', S. eauto.
Qed.
Print Assumptions C53_last_refuted.

(** ** C74: single characters, ignore, truth values *)
(** At every position before the end, get() returns the character there and
    moves on, ungetc() undoes that, and peek() only looks. *)
Theorem C74_peek_partial : forall txt after k c fuel, Z.of_nat (length txt) < 2 ^ 61 -> nth_error txt k = Some c ->
  exists s s1 s2, t_seek (Z.of_nat k) (iss_new txt after) = Ok (s, Val tt) /\
    t_get iss_underflow fuel s = Ok (s1, Val c) /\ t_pos s1 = Z.of_nat k + 1 /\
    t_ungetc s1 = Ok (s2, Val tt) /\ t_pos s2 = Z.of_nat k /\
    t_peek iss_underflow fuel s = Ok (s2, Val c) /\ t_state s2 = 0.
Proof.
  intros txt after k c fuel H Hk. assert (Lk : (k < length txt)%nat) by (apply nth_error_Some; congruence).
  pose proof (IInv_new txt after H) as I0. pose proof (view_rem _ _ (proj1 I0)) as R.
  pose proof (IInv_move _ _ k I0 ltac:(lia)) as I. rewrite (skipn_nth _ _ _ Hk) in I. change (t_pos (iss_new txt after)) with 0 in I. cbn [Z.add] in I.
  set (s := tput_pos (Z.of_nat k) (iss_new txt after)) in *.
  destruct (get_ok fuel s c _ I) as (s1 & E & Es & I1 & U). exists s, s1, (tput_gcount 1 s).
  split; [unfold t_seek; cbn [iss_new t_size]; replace (_ <? _) with false by lia; reflexivity|]. split; [exact E|].
  split; [rewrite Es; reflexivity|]. split; [exact U|]. split; [reflexivity|].
  split; [unfold t_peek, iobind; rewrite E; cbn [bind]; rewrite U; reflexivity|]. reflexivity.
Qed.
Print Assumptions C74_peek_partial.
Example C74_peek_case : exists s s1 s2, t_seek 1 (iss_new [97; 98] []) = Ok (s, Val tt) /\ t_peek iss_underflow 3 s = Ok (s1, Val 98) /\ t_get iss_underflow 3 s1 = Ok (s2, Val 98).
Proof. eexists _, _, _. split; [reflexivity|]. split; [vm_compute; reflexivity|]. vm_compute. reflexivity. Qed.
(** At the end of every text that is not empty, peek() goes back by one
    character, and returns 0 rather than EOF. *)
Theorem C74_peek_refuted : forall txt after fuel, txt <> [] -> Z.of_nat (length txt) < 2 ^ 61 ->
  exists s s', t_seek (Z.of_nat (length txt)) (iss_new txt after) = Ok (s, Val tt) /\
    t_peek iss_underflow (S fuel) s = Ok (s', Val 0) /\ t_pos s' = Z.of_nat (length txt) - 1.
Proof.
  intros txt after fuel Hn H. assert (L : (1 <= length txt)%nat) by (destruct txt; [congruence|cbn [length]; lia]).
  eexists _, _. split; [unfold t_seek; cbn [iss_new t_size]; rewrite Z.ltb_irrefl; reflexivity|].
  unfold t_peek, t_get, t_read. unfold iobind at 1. unfold iobind at 1. unfold iobind at 1.
  assert (R : t_remaining (tput_pos (Z.of_nat (length txt)) (iss_new txt after)) = 0) by (unfold t_remaining; cbn [tput_pos t_size t_pos iss_new]; rewrite Z.sub_diag; reflexivity).
  rewrite R. change (0 <? 1) with true. cbn iota. unfold iss_underflow at 1. unfold iobind at 1. unfold iobind at 1. unfold t_verify. rewrite R. change (1 <=? 0) with false. cbn iota.
  unfold iobind at 1, t_overrun. cbn [bind ret].
  set (s := tput_state _ _). assert (Rs : t_remaining s = 0) by exact R. rewrite Rs. change (0 <? 1) with true. cbn iota.
  unfold get_chars. unfold iobind at 1. unfold iobind at 1. cbn [bind get_loop]. change (Z.of_nat (length []) <? 1 - 1) with false. cbn iota.
  change (Z.of_nat (length []) + 1 <=? 1) with true. cbn [bind]. unfold iobind, t_ungetc, t_seek. unfold ret at 1. cbn [bind].
  change (Z.of_nat (length []) + 1 <=? 1) with true. cbn iota. unfold ret at 1. cbn [bind]. unfold ret at 1. cbn [bind app]. unfold ret at 1. cbn [bind].
  change (t_pos (tput_gcount 0 s)) with (Z.of_nat (length txt)). change (t_size (tput_gcount 0 s)) with (Z.of_nat (length txt)).
  rewrite u64_id by lia. replace (_ <? _) with false by lia. cbn [bind]. split; [reflexivity|]. reflexivity.
Qed.
Print Assumptions C74_peek_refuted.
(** ignore (n, d) takes the characters it should. *)
Theorem C74_ignore_partial : forall txt after n d fuel, Z.of_nat (length txt) < 2 ^ 61 -> 0 <= n < 2 ^ 62 -> (length txt + 1 < fuel)%nat ->
  exists s', ignore iss_underflow fuel n d (iss_new txt after) = Ok (s', Val tt) /\ t_pos s' = Z.of_nat (taken n d txt).
Proof.
  intros txt after n d fuel H Hn Hf. unfold ignore. unfold iobind at 1. cbn [bind]. unfold iobind.
  destruct (ignore_loop_ok d fuel (tput_gcount n (iss_new txt after)) txt n (IInv_gc _ _ n (IInv_new txt after H)) Hf Hn) as (s' & k & E & _ & P).
  rewrite E. cbn [bind]. eexists. split; [reflexivity|]. exact P.
Qed.
Print Assumptions C74_ignore_partial.
Example C74_ignore_case : taken 9 10 [97; 98; 10; 99] = 3%nat /\ taken 2 10 [97; 98; 10; 99] = 2%nat /\ taken 9 0 [97; 98; 10; 99] = 4%nat.
Proof. auto. Qed.
(** But gcount() is not their number. *)
Theorem C74_gcount_refuted : exists s', ignore iss_underflow 20 3 0 (iss_new [97; 98; 99; 100] []) = Ok (s', Val tt) /\ t_pos s' = 3 /\ t_gcount s' = 2.
Proof. eexists. split; [vm_compute; reflexivity|]. split; reflexivity. Qed.
Print Assumptions C74_gcount_refuted.
(** Truth values before a delimiter are read correctly; at the end of the text
    the last character is left. *)
Theorem C74_bool_partial : forall (v : bool) d rest after fuel (t := if v then [116; 114; 117; 101] else [102; 97; 108; 115; 101]),
  is_delim (iss_new [] []) d = true -> d <> 0 -> Z.of_nat (length rest) < 2 ^ 60 -> (8 + length rest < fuel)%nat ->
  exists s', iread_bool iss_underflow fuel (iss_new (t ++ d :: rest) after) = Ok (s', Val v) /\ t_state s' = 0 /\ t_remaining s' = Z.of_nat (length (d :: rest)).
Proof.
  intros v d rest after fuel t Hd H0 H Hf.
  assert (Lt : (length (t ++ d :: rest) = length t + S (length rest))%nat) by (rewrite app_length; reflexivity).
  assert (L5 : (length t <= 5)%nat) by (unfold t; destruct v; cbn; lia).
  pose proof (IInv_new (t ++ d :: rest) after ltac:(lia)) as I0.
  unfold iread_bool, skip_delimiters. unfold iobind at 1.
  change (t_delims (iss_new (t ++ d :: rest) after)) with default_delimiters.
  destruct (skip_delimiters_loop_ok iss_underflow IInv IInv_view IInv_move IInv_gc IInv_state IInv_uf fuel _ _ (nth 0 default_delimiters 0) I0 ltac:(lia) eq_refl) as (s1 & E & H1 & G1 & K1 & A1 & B1).
  rewrite E. cbn [bind].
  assert (Es : skipd (is_delim (iss_new (t ++ d :: rest) after)) (t ++ d :: rest) = t ++ d :: rest) by (unfold t; destruct v; reflexivity).
  rewrite Es in *.
  assert (Q : exists s' s2, bool_loop iss_underflow (tf v) (hd 0 t) s1 = Ok (s2, Val tt) /\ t_ungetc s2 = Ok (s', Val tt) /\ t_state s' = 0 /\ t_remaining s' = Z.of_nat (length (d :: rest))).
  { unfold t, tf in *. destruct v; cbn [app hd tl] in *.
    - exact (bool_loop_ok d rest [0; 0; 0] H0 [114; 117; 101] 116 s1 H1).
    - exact (bool_loop_ok d rest [0; 0] H0 [97; 108; 115; 101] 102 s1 H1). }
  destruct Q as (s' & s2 & E2 & U & St & R). replace (hd 0 (t ++ d :: rest)) with (hd 0 t) by (unfold t; destruct v; reflexivity).
  assert (Ev : ((hd 0 t =? 116) || (hd 0 t =? 49)) = v) by (unfold t; destruct v; reflexivity). rewrite Ev.
  assert (Eh : hd 0 t =? hd 0 (tf v) = true) by (unfold t; destruct v; reflexivity). rewrite Eh. unfold iobind at 1. rewrite E2. cbn [bind]. unfold iobind. rewrite U. cbn [bind].
  exists s'. auto.
Qed.
Print Assumptions C74_bool_partial.
Example C74_bool_case : is_delim (iss_new [] []) 32 = true /\ exists s', iread_bool iss_underflow 20 (iss_new [102; 97; 108; 115; 101; 32] []) = Ok (s', Val false).
Proof. split; [reflexivity|]. eexists. vm_compute. reflexivity. Qed.
Theorem C74_bool_refuted : exists s', iread_bool iss_underflow 20 (iss_new [116; 114; 117; 101] []) = Ok (s', Val true) /\ t_remaining s' = 1.
Proof. eexists. split; [vm_compute; reflexivity|]. reflexivity. Qed.
Print Assumptions C74_bool_refuted.

(** ** C75: integers *)
(** For every sequence of integers a long can hold, written in decimal and
    separated by one of the default delimiters, with a terminating 0 in memory
    after the text, reading gives them back, converted to the type of the variable. *)
Theorem C75_numbers_partial : forall cast ts ns d after fuel (txt := joined d ts),
  Forall2 integer_text ts ns -> Forall (fun n => - 2 ^ 63 <= n < 2 ^ 63) ns -> In d [32; 9; 10; 13; 59; 58; 44; 46; 63] ->
  Z.of_nat (length txt) < 2 ^ 61 -> (length txt + 1 < fuel)%nat ->
  exists s', times (length ts) (read_number iss_underflow cast fuel) (iss_new txt (Some 0 :: after)) = Ok (s', Val (map cast ns)).
Proof.
  intros cast ts ns d after fuel txt H2 HR Hd HL Hf. set (s := iss_new txt (Some 0 :: after)).
  destruct (read_numbers_ok cast (Some 0 :: after) fuel d ts ns s []) as (s' & E).
  - exact (NInv_new (Some 0 :: after) txt HL).
  - exact Hf.
  - exact H2.
  - constructor.
  - destruct Hd as [<-|[<-|[<-|[<-|[<-|[<-|[<-|[<-|[<-|[]]]]]]]]]]; reflexivity.
  - destruct Hd as [<-|[<-|[<-|[<-|[<-|[<-|[<-|[<-|[<-|[]]]]]]]]]]; reflexivity.
  - intros c Hc. assert (In c [45;48;49;50;51;52;53;54;55;56;57]) as [<-|[<-|[<-|[<-|[<-|[<-|[<-|[<-|[<-|[<-|[<-|[]]]]]]]]]]]] by (cbn; lia); reflexivity.
  - exists 0, after. auto.
  - reflexivity.
  - exists s'. rewrite E. do 3 f_equal. clear - HR. induction HR as [|n ns Hn HR IH]; cbn [map]; [reflexivity|]. rewrite IH. do 2 f_equal. unfold clamp_long. lia.
Qed.
Print Assumptions C75_numbers_partial.
Example C75_numbers_case : Forall2 integer_text [[45; 49; 50]; [48]; [55]] [-12; 0; 7] /\
  exists s', times 3 (read_number iss_underflow as_int 20) (iss_new [45; 49; 50; 44; 48; 44; 55] [Some 0]) = Ok (s', Val [-12; 0; 7]).
Proof.
  assert (D : forall l n, l <> [] -> Forall (fun c => is_digit c = true) l -> number l = n -> hd 0 l <> 48 -> decimal l n) by (intros l n; unfold decimal; intuition congruence).
  split; [|eexists; vm_compute; reflexivity].
  constructor; [exists [49; 50]; split; [apply D; [discriminate|repeat constructor|reflexivity|discriminate]|reflexivity]|].
  constructor; [exists [48]; split; [|reflexivity]|].
  { unfold decimal. split; [discriminate|]. split; [repeat constructor|]. split; [reflexivity|]. intros _. split; reflexivity. }
  constructor; [exists [55]; split; [apply D; [discriminate|repeat constructor|reflexivity|discriminate]|reflexivity]|constructor].
Qed.
(** The conversions keep every value of the type of the variable, except that an
    unsigned long of 2^63 or more is not a long to begin with. *)
Theorem C75_casts : forall n,
  (- 2 ^ 63 <= n < 2 ^ 63 -> as_long n = n) /\ (- 2 ^ 31 <= n < 2 ^ 31 -> as_int n = n) /\ (0 <= n < 2 ^ 32 -> as_uint n = n) /\
  (- 2 ^ 15 <= n < 2 ^ 15 -> as_short n = n) /\ (0 <= n < 2 ^ 16 -> as_ushort n = n) /\ (0 <= n < 2 ^ 63 -> as_ulong n = n).
Proof.
  intros n.
  assert (M : forall m x, 0 < m -> - m <= x < 0 -> x mod m = x + m) by (intros m x Hm Hx; symmetry; apply (Z.mod_unique _ _ (-1)); lia).
  assert (TI : forall x, - 2 ^ 31 <= x < 2 ^ 31 -> to_int x = x).
  { intros x Hx. unfold to_int, u32, two32. change 4294967296 with (2 ^ 32). cbn zeta. destruct (Z.ltb_spec x 0) as [L|L].
    - rewrite M by lia. replace (_ <? _) with false by lia. lia.
    - rewrite Z.mod_small by lia. replace (_ <? _) with true by lia. reflexivity. }
  unfold as_long, as_int, as_uint, as_short, as_ushort, as_ulong. cbn zeta.
  split; [reflexivity|]. split; [apply TI|split; [intros H|split; [intros H|split; [intros H|intros H]]]].
  - unfold to_int, u32, two32. cbn zeta. change 4294967296 with (2 ^ 32). rewrite (Z.mod_small n) by lia. destruct (Z.ltb_spec n (2 ^ 31)) as [L|L]; [apply Z.mod_small; lia|].
    rewrite M by lia. lia.
  - rewrite TI by lia. destruct (Z.ltb_spec n 0) as [L|L].
    + rewrite (M (2 ^ 16)) by lia. replace (_ <? _) with false by lia. lia.
    + rewrite Z.mod_small by lia. replace (_ <? _) with true by lia. reflexivity.
  - rewrite TI by lia. apply Z.mod_small. lia.
  - unfold u64, two64. apply Z.mod_small. lia.
Qed.
Print Assumptions C75_casts.
(** 18446744073709551615 = 2^64 - 1 is read as 2^63 - 1. *)
Theorem C75_unsigned_refuted : exists s',
  read_number iss_underflow as_ulong 40 (iss_new [49;56;52;52;54;55;52;52;48;55;51;55;48;57;53;53;49;54;49;53] [Some 0]) = Ok (s', Val (2 ^ 63 - 1)).
Proof. eexists. vm_compute. reflexivity. Qed.
Print Assumptions C75_unsigned_refuted.
(** 010 is read as 8. *)
Theorem C75_octal_refuted : exists s', read_number iss_underflow as_int 40 (iss_new [48; 49; 48; 32] [Some 0]) = Ok (s', Val 8).
Proof. eexists. vm_compute. reflexivity. Qed.
Print Assumptions C75_octal_refuted.
(** Text that is no number is read as 0, without an error and without moving,
    so a loop that reads numbers while the stream is good never ends. *)
Theorem C75_malformed_refuted : exists s, t_remaining s = 3 /\ t_state s = 0 /\
  read_number iss_underflow as_int 40 s = Ok (s, Val 0).
Proof. exists (iss_new [97; 98; 99] [Some 0]). split; [reflexivity|]. split; [reflexivity|]. vm_compute. reflexivity. Qed.
Print Assumptions C75_malformed_refuted.
(** A stream over the two bytes 12 of a longer text reads on after its end; if
    nothing follows, it reads memory that is not there. *)
Theorem C75_overread_refuted :
  (exists s', read_number iss_underflow as_int 40 (iss_new [49; 50] [Some 51; Some 0]) = Ok (s', Val 123)) /\
  read_number iss_underflow as_int 40 (iss_new [49; 50] []) = UB.
Proof. split; [eexists; vm_compute; reflexivity|]. vm_compute. reflexivity. Qed.
Print Assumptions C75_overread_refuted.

(** ** C76: reading from a file *)
(** For every content, buffer size and sequence of portions and interruptions
    in which the operating system delivers the content, the requests are
    answered as from the content itself. *)
Theorem C76_reads_partial : forall dl sz f fuel ops,
  readable f -> Z.of_nat sz < 2 ^ 60 -> (length (f_in f) + 1 < fuel)%nat -> (length dl < 15)%nat ->
  (In RWord ops -> Forall plain (f_in f)) -> Forall reasonable ops ->
  exists s', read_all ifs_underflow fuel ops (set_delimiters dl (ifs_new sz f)) =
    Ok (s', Val (answers_to (fun c => existsb (Z.eqb c) (0 :: dl)) ops (f_in f))).
Proof.
  intros dl sz f fuel ops HR Hs Hf Hd HW HO.
  destruct (f_reads fuel ops _ (f_in f) (FInv_set dl _ _ (FInv_new sz f HR Hs)) Hf HW HO) as (s' & E & _).
  { rewrite is_delim_set by exact Hd. reflexivity. } { apply first_delim, Hd. }
  exists s'. rewrite E. do 3 f_equal. apply answers_ext. intros c. apply is_delim_set, Hd.
Qed.
Print Assumptions C76_reads_partial.
Example C76_reads_case (f := mkf 0 0 [] [97; 98; 10; 99; 100; 101; 10; 102] [SOk 1; SIntr; SOk 0; SOk 9; SOk 9; SOk 0; SIntr; SOk 0; SOk 0; SOk 0; SOk 0; SOk 9]) :
  readable f /\ exists s', read_all ifs_underflow 20 [RLine 10; RGet 3 10; RWord; RWord] (ifs_new 4 f) = Ok (s', Val [[97; 98]; [99; 100; 0]; [101]; [102]]).
Proof. split; [repeat split; cbn; try lia; repeat constructor|]. eexists. vm_compute. reflexivity. Qed.
(** The lines of the file are the pieces of its content. *)
Theorem C76_lines : forall d sz f fuel, readable f -> Z.of_nat sz < 2 ^ 60 -> (length (f_in f) < fuel)%nat ->
  exists s', times (length (pieces d (f_in f))) (getline ifs_underflow fuel d) (ifs_new sz f) = Ok (s', Val (pieces d (f_in f))) /\ t_state s' = Z.lor eofbit failbit.
Proof.
  intros d sz f fuel HR Hs Hf. destruct (f_getlines fuel d (f_in f) _ (FInv_new sz f HR Hs) Hf) as (s' & E & _ & S & _). eauto.
Qed.
Print Assumptions C76_lines.
(** Reading six bytes when four are left in the buffer loses those four: the
    file contains abcdefghijkl; after abcd comes ijkl. *)
Theorem C76_read_refuted (f := mkf 0 0 [] [97; 98; 99; 100; 101; 102; 103; 104; 105; 106; 107; 108] (repeat (SOk 99) 13)) :
  readable f /\ exists s1 s2,
    t_read ifs_underflow 40 4 (ifs_new 8 f) = Ok (s1, Val (Some [97; 98; 99; 100])) /\
    t_read ifs_underflow 40 6 s1 = Ok (s2, Val (Some [105; 106; 107; 108; 0])).
Proof. split; [repeat split; cbn; try lia; repeat constructor|]. eexists _, _. split; [vm_compute; reflexivity|]. vm_compute. reflexivity. Qed.
Print Assumptions C76_read_refuted.
(** A number that is delivered in two portions is read as its second part, and a
    number that fills the buffer exactly is skipped: 123456 gives 56, and
    12345678 before 56 gives 56. *)
Theorem C76_number_refuted (f := mkf 0 0 [] [49; 50; 51; 52; 53; 54] (SOk 3 :: repeat (SOk 9) 6)) (g := mkf 0 0 [] [49; 50; 51; 52; 53; 54; 55; 56; 32; 53; 54] (repeat (SOk 9) 12)) :
  readable f /\ readable g /\
  (exists s', read_number ifs_underflow as_int 40 (ifs_new 8 f) = Ok (s', Val 56)) /\
  (exists s', read_number ifs_underflow as_int 40 (ifs_new 8 g) = Ok (s', Val 56)).
Proof.
  split; [repeat split; cbn; try lia; repeat constructor|]. split; [repeat split; cbn; try lia; repeat constructor|].
  split; (eexists; vm_compute; reflexivity).
Qed.
Print Assumptions C76_number_refuted.
