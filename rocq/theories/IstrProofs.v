(** * IstrProofs: reading lines and words. *)
From Verif Require Import Base UtilModel StringFindModel StreamModel FileModel FileProofs IstrModel IstrSpec IstrProg.
From Coq Require Import ZArith ZifyBool ZifyNat Lia.
Local Open Scope Z_scope.

Lemma u64_id x : 0 <= x < 2 ^ 62 -> u64 x = x.
Proof. intros H. unfold u64, two64. apply Z.mod_small. lia. Qed.

(** [w] is what is between the position and the end of the view. *)
Definition View (s : ist) (w : list Z) : Prop :=
  exists pre post, t_mem s = pre ++ map Some w ++ post /\ t_pos s = Z.of_nat (length pre) /\
    t_size s = t_pos s + Z.of_nat (length w) /\ t_size s < 2 ^ 61.

Lemma view_rem s w : View s w -> t_remaining s = Z.of_nat (length w).
Proof. intros (pre & post & _ & P & S & B). unfold t_remaining. rewrite u64_id; lia. Qed.

Lemma view_at s w k c : View s w -> nth_error w k = Some c -> t_at (t_pos s + Z.of_nat k) s = Ok c.
Proof.
  intros (pre & post & M & P & S & B) N. unfold t_at. replace (_ <? 0) with false by lia. rewrite M.
  replace (Z.to_nat (t_pos s + Z.of_nat k)) with (length pre + k)%nat by lia.
  rewrite nth_error_app2 by lia. replace (length pre + k - length pre)%nat with k by lia.
  assert (k < length w)%nat by (apply nth_error_Some; congruence).
  rewrite nth_error_app1 by (rewrite map_length; lia). rewrite nth_error_map, N. reflexivity.
Qed.

Lemma skipn_nth (w : list Z) k c : nth_error w k = Some c -> skipn k w = c :: skipn (S k) w.
Proof.
  revert k. induction w as [|x w IH]; intros [|k] E; cbn [nth_error] in E; try discriminate.
  - injection E as ->. reflexivity.
  - cbn [skipn]. apply IH. exact E.
Qed.
Lemma view_bytes s w : View s w -> forall n k, (k + n <= length w)%nat -> t_bytes (t_pos s + Z.of_nat k) n s = Ok (firstn n (skipn k w)).
Proof.
  intros V n. induction n as [|n IH]; intros k Hk; [reflexivity|]. cbn [t_bytes].
  destruct (nth_error w k) as [c|] eqn:E; [|apply nth_error_None in E; lia].
  rewrite (view_at s w k c V E). cbn [bind]. replace (t_pos s + Z.of_nat k + 1) with (t_pos s + Z.of_nat (k + 1)) by lia.
  rewrite IH by lia. cbn [bind]. f_equal.
  rewrite (skipn_nth _ _ _ E). cbn [firstn]. rewrite Nat.add_1_r. reflexivity.
Qed.

Lemma until_spec d l : let '(a, b) := until d l in l = a ++ b /\ ~ In d a /\ (b = [] \/ exists t, b = d :: t).
Proof.
  induction l as [|c l IH]; cbn [until]; [auto|]. destruct (Z.eqb_spec c d) as [->|H]; [split; [reflexivity|split; [intros []|right; eauto]]|].
  destruct (until d l) as (a, b). destruct IH as (-> & N & B). split; [reflexivity|]. split; [|exact B]. intros [E|E]; [congruence|auto].
Qed.
Lemma until_app d a b : ~ In d a -> until d (a ++ b) = let '(x, y) := until d b in (a ++ x, y).
Proof.
  induction a as [|c a IH]; intros H; cbn [app until]; [destruct (until d b); reflexivity|].
  destruct (Z.eqb_spec c d) as [->|N]; [exfalso; apply H; left; reflexivity|]. rewrite IH by (intros E; apply H; right; exact E). destruct (until d b); reflexivity.
Qed.
Lemma pieces_until d l : pieces d l = (let '(a, b) := until d l in match b with [] => [a] | _ :: t => a :: pieces d t end).
Proof.
  induction l as [|c l IH]; cbn [pieces until]; [reflexivity|]. destruct (Z.eqb_spec c d) as [->|N]; [reflexivity|].
  rewrite IH. destruct (until d l) as (a, [|x b]); reflexivity.
Qed.

Definition kept (s s' : ist) : Prop := t_delims s' = t_delims s /\ t_base s' = t_base s.
Lemma kept_refl s : kept s s. Proof. split; reflexivity. Qed.
Lemma kept_trans a b c : kept a b -> kept b c -> kept a c. Proof. unfold kept. intuition congruence. Qed.

Section Generic.
  Variable uf : Z -> io ist Z.
  Variable P : ist -> list Z -> Prop.
  Hypothesis P_view : forall s txt, P s txt -> exists w rest, txt = w ++ rest /\ View s w.
  Hypothesis P_move : forall s txt k, P s txt -> (Z.of_nat k <= t_remaining s) -> P (tput_pos (t_pos s + Z.of_nat k) s) (skipn k txt).
  Hypothesis P_gc : forall s txt g, P s txt -> P (tput_gcount g s) txt.
  Hypothesis P_state : forall s txt, P s txt -> t_state s = 0 \/ (t_state s = 6 /\ txt = []).
  Hypothesis uf_ok : forall s txt, P s txt -> t_remaining s = 0 ->
    exists s', uf 1 s = Ok (s', Val (t_remaining s')) /\ P s' txt /\ t_gcount s' = t_gcount s /\ kept s s' /\
      (txt = [] -> t_remaining s' = 0 /\ t_state s' = 6) /\ (txt <> [] -> 0 < t_remaining s').

  Lemma P_rem s txt : P s txt -> 0 <= t_remaining s < 2 ^ 61 /\ (0 < t_remaining s -> txt <> []).
  Proof.
    intros H. destruct (P_view s txt H) as (w & rest & -> & V). rewrite (view_rem s w V). destruct V as (pre & post & _ & A & B & C).
    split; [lia|]. intros L E. apply app_eq_nil in E. destruct E as (-> & _). cbn [length] in L. lia.
  Qed.

  Lemma more_ok s txt : P s txt ->
    exists s', t_more uf s = Ok (s', Val (match txt with [] => false | _ => true end)) /\ P s' txt /\ t_gcount s' = t_gcount s /\ kept s s' /\
      (txt = [] -> t_remaining s' = 0 /\ t_state s' = 6) /\ (txt <> [] -> 0 < t_remaining s' /\ t_state s' = 0).
  Proof.
    intros H. unfold t_more. destruct (P_rem s txt H) as (R1 & R2). destruct (Z.eqb_spec (t_remaining s) 0) as [E|E].
    - destruct (uf_ok s txt H E) as (s' & U & H' & G & K & A & B). unfold iobind. rewrite U. cbn [bind]. exists s'.
      assert (St : txt <> [] -> t_state s' = 0). { intros N. destruct (P_state s' txt H') as [S|(_ & S)]; [exact S|congruence]. }
      split. { unfold ret. do 2 f_equal. destruct txt as [|c txt]; [destruct (A eq_refl) as (-> & _); reflexivity|].
               specialize (B ltac:(discriminate)). replace (t_remaining s' =? 0) with false by lia. reflexivity. }
      split; [exact H'|]. split; [exact G|]. split; [exact K|]. split; [exact A|]. intros N. split; [exact (B N)|exact (St N)].
    - exists s. assert (N : txt <> []) by (apply R2; lia). split; [destruct txt; [congruence|reflexivity]|]. split; [exact H|]. split; [reflexivity|]. split; [apply kept_refl|].
      split; [congruence|]. intros _. split; [lia|]. destruct (P_state s txt H) as [S|(_ & S)]; [exact S|congruence].
  Qed.

  Lemma iread_ok s c txt : P s (c :: txt) -> 0 < t_remaining s ->
    exists s1, t_iread s = Ok (s1, Val (Some c)) /\ P s1 txt /\ s1 = tput_pos (t_pos s + 1) s /\ t_ungetc s1 = Ok (s, Val tt).
  Proof.
    intros H R. destruct (P_view _ _ H) as (w & rest & E & V). pose proof (view_rem s w V) as Rw.
    destruct w as [|c0 w]; [cbn [length] in Rw; lia|]. injection E as <- E.
    pose proof V as (pre & post & M & Ps & Sz & B). cbn [length] in *.
    unfold t_iread, iobind, t_verify. replace (1 <=? t_remaining s) with true by lia. cbn [bind].
    pose proof (view_at s (c :: w) 0 c V eq_refl) as A. rewrite Z.add_0_r in A. rewrite A.
    rewrite u64_id by lia. eexists. split; [reflexivity|]. split; [|split; [reflexivity|]].
    - exact (P_move s (c :: txt) 1 H ltac:(lia)).
    - unfold t_ungetc, t_seek. cbn [tput_pos t_pos t_size]. rewrite u64_id by lia. replace (t_size s <? t_pos s + 1 - 1) with false by lia.
      replace (t_pos s + 1 - 1) with (t_pos s) by lia. destruct s; reflexivity.
  Qed.

  Lemma skip_ok s txt k : P s txt -> Z.of_nat k <= t_remaining s ->
    t_skip (Z.of_nat k) s = Ok (tput_pos (t_pos s + Z.of_nat k) s, Val tt) /\ P (tput_pos (t_pos s + Z.of_nat k) s) (skipn k txt).
  Proof.
    intros H R. split; [|apply P_move; assumption]. destruct (P_view _ _ H) as (w & rest & E & V). pose proof (view_rem s w V) as Rw.
    destruct V as (pre & post & M & Ps & Sz & B). unfold t_skip, t_seek. rewrite u64_id by lia. replace (t_size s <? _) with false by lia. reflexivity.
  Qed.

  Lemma find_ok s w d : View s w -> forall n k, (k + n = length w)%nat ->
    t_find n (t_pos s + Z.of_nat k) d s = Ok (length (fst (until d (skipn k w)))).
  Proof.
    intros V. induction n as [|n IH]; intros k Hk; cbn [t_find].
    - rewrite skipn_all2 by lia. reflexivity.
    - destruct (nth_error w k) as [c|] eqn:E; [|apply nth_error_None in E; lia].
      rewrite (view_at s w k c V E). cbn [bind].
      pose proof (skipn_nth w k c E) as Es.
      rewrite Es. cbn [until]. destruct (c =? d); [reflexivity|].
      replace (t_pos s + Z.of_nat k + 1) with (t_pos s + Z.of_nat (S k)) by lia. rewrite IH by lia. cbn [bind].
      destruct (until d (skipn (S k) w)). reflexivity.
  Qed.

  Lemma u32_add a b : u32 (u32 a + b) = u32 (a + b).
  Proof. unfold u32. rewrite Zplus_mod_idemp_l. reflexivity. Qed.

  (** After reading up to the delimiter. *)
  Definition Stopped (s' : ist) (rest : list Z) : Prop :=
    P s' rest /\ (rest = [] -> t_remaining s' = 0 /\ t_state s' = 6) /\ (rest <> [] -> 0 < t_remaining s' /\ t_state s' = 0).

  Lemma get_string_loop_ok d : forall fuel s txt v, P s txt -> (length txt < fuel)%nat -> 
    exists s', get_string_loop uf fuel d v s = Ok (s', Val (v ++ fst (until d txt))) /\ Stopped s' (snd (until d txt)) /\
      t_gcount s' = (if fst (until d txt) then t_gcount s else u32 (t_gcount s + Z.of_nat (length (fst (until d txt))))) /\ kept s s'.
  Proof.
    induction fuel as [|fuel IH]; intros s txt v H Hf; [lia|]. cbn [get_string_loop]. unfold iobind at 1.
    destruct (more_ok s txt H) as (s1 & E & H1 & G1 & K1 & A1 & B1). rewrite E. cbn [bind].
    destruct txt as [|c txt].
    { exists s1. cbn [until fst snd]. rewrite app_nil_r. split; [reflexivity|]. split; [|auto]. split; [exact H1|]. split; [auto|congruence]. }
    destruct (B1 ltac:(discriminate)) as (R1 & S1). destruct (P_view _ _ H1) as (w & rest & Ew & V). pose proof (view_rem s1 w V) as Rw.
    destruct w as [|c0 w]; [cbn [length] in Rw; lia|]. injection Ew as <- Ew.
    pose proof (view_at s1 (c :: w) 0 c V eq_refl) as Ac. rewrite Z.add_0_r in Ac. rewrite Ac.
    destruct (Z.eqb_spec c d) as [->|Nc].
    { exists s1. cbn [until]. rewrite Z.eqb_refl. cbn [fst snd]. rewrite app_nil_r. split; [reflexivity|]. split; [|auto]. split; [exact H1|]. split; [discriminate|auto]. }
    assert (Fd : t_find (Z.to_nat (t_size s1 - t_pos s1)) (t_pos s1) d s1 = Ok (length (fst (until d (c :: w))))).
    { pose proof (find_ok s1 (c :: w) d V (length (c :: w)) 0 eq_refl) as Q. rewrite Z.add_0_r in Q. cbn [skipn] in Q. rewrite <- Q. f_equal.
      destruct V as (pre & post & _ & _ & Sz & _). lia. }
    rewrite Fd. cbn [bind]. set (wa := fst (until d (c :: w))) in *.
    pose proof (until_spec d (c :: w)) as US. fold wa in Fd.
    assert (Hwa : exists wb, c :: w = wa ++ wb /\ ~ In d wa). { unfold wa. destruct (until d (c :: w)) as (a, b). exists b. cbn [fst]. tauto. }
    destruct Hwa as (wb & Ewa & Nd).
    assert (Lwa : (1 <= length wa)%nat). { unfold wa. cbn [until]. destruct (Z.eqb_spec c d); [congruence|]. destruct (until d w). cbn [fst length]. lia. }
    pose proof (view_bytes s1 (c :: w) V (length wa) 0) as Vb. rewrite Z.add_0_r in Vb. cbn [skipn] in Vb.
    rewrite Vb by (rewrite Ewa, app_length; lia). cbn [bind].
    assert (Ef : firstn (length wa) (c :: w) = wa) by (rewrite Ewa, firstn_app, Nat.sub_diag, firstn_all; cbn [firstn]; apply app_nil_r).
    rewrite Ef. unfold iobind at 1.
    assert (Lw : (length wa <= length (c :: w))%nat) by (rewrite Ewa, app_length; lia).
    destruct (skip_ok s1 (c :: txt) (length wa) H1 ltac:(lia)) as (Es & H2). rewrite Es. cbn [bind]. unfold iobind at 1. cbn [bind].
    assert (Etx : c :: txt = wa ++ wb ++ rest) by (rewrite Ew, app_comm_cons, Ewa, <- app_assoc; reflexivity).
    set (s2 := tput_pos (t_pos s1 + Z.of_nat (length wa)) s1) in *.
    assert (Esk : skipn (length wa) (c :: txt) = wb ++ rest) by (rewrite Etx, skipn_app, Nat.sub_diag, skipn_all; reflexivity).
    rewrite Esk in H2.
    assert (Hlen : (length (wb ++ rest) < fuel)%nat). { assert (L : length (c :: txt) = (length wa + length (wb ++ rest))%nat) by (rewrite Etx, app_length; lia). cbn [length] in L, Hf. lia. }
    destruct (IH (tput_gcount (t_gcount s2 + Z.of_nat (length wa)) s2) (wb ++ rest) (v ++ wa) (P_gc _ _ _ H2) Hlen) as (s' & E' & St & G' & K').
    exists s'. rewrite E'. pose proof (until_app d wa (wb ++ rest) Nd) as Ua. rewrite <- Etx in Ua.
    destruct (until d (wb ++ rest)) as (x, y) eqn:Eu. rewrite Ua. cbn [fst snd] in *.
    split; [rewrite <- app_assoc; reflexivity|]. split; [exact St|]. split.
    - rewrite G'. cbn [tput_gcount t_gcount s2 tput_pos]. destruct (wa ++ x) as [|q r] eqn:Eq; [apply (f_equal (@length Z)) in Eq; rewrite app_length in Eq; cbn [length] in Eq; lia|].
      rewrite <- Eq, app_length. unfold s2. cbn [tput_pos t_gcount]. rewrite G1. destruct x as [|x1 x].
      + cbn [length]. f_equal. lia.
      + rewrite u32_add. f_equal. lia.
    - eapply kept_trans; [exact K1|]. exact K'.
  Qed.

  Lemma take_delim_ok d s rest : Stopped s rest -> (rest = [] \/ exists t, rest = d :: t) ->
    exists s', take_delim d s = Ok (s', Val tt) /\ P s' (tl rest) /\ kept s s' /\
      t_gcount s' = (match rest with [] => t_gcount s | _ => u32 (t_gcount s + 1) end) /\
      t_state s' = (match rest with [] => 6 | _ => 0 end).
  Proof.
    intros (H & A & B) Hr. unfold take_delim. destruct Hr as [->|(t & ->)].
    - destruct (A eq_refl) as (R & S). rewrite R. cbn [Z.eqb]. exists s. repeat split; auto.
    - destruct (B ltac:(discriminate)) as (R & S). replace (t_remaining s =? 0) with false by lia.
      destruct (P_view _ _ H) as (w & rest & Ew & V). pose proof (view_rem s w V) as Rw.
      destruct w as [|c0 w]; [cbn [length] in Rw; lia|]. injection Ew as <- Ew.
      pose proof (view_at s (d :: w) 0 d V eq_refl) as Ac. rewrite Z.add_0_r in Ac. rewrite Ac, Z.eqb_refl. unfold iobind.
      destruct (skip_ok s (d :: t) 1 H ltac:(lia)) as (Es & H2). change (Z.of_nat 1) with 1 in *. rewrite Es. cbn [bind].
      eexists. split; [reflexivity|]. split; [apply P_gc; exact H2|]. cbn [tput_gcount tput_pos t_gcount t_state]. repeat split; auto.
  Qed.

  Lemma getline_ok fuel d s txt : P s txt -> (length txt < fuel)%nat ->
    exists s', getline uf fuel d s = Ok (s', Val (fst (until d txt))) /\ P s' (tl (snd (until d txt))) /\ kept s s' /\
      t_gcount s' = u32 (Z.of_nat (length txt - length (tl (snd (until d txt))))) /\
      t_state s' = (match snd (until d txt) with [] => 6 | _ => 0 end).
  Proof.
    intros H Hf. unfold getline, get_string. unfold iobind at 1. unfold iobind at 1. cbn [bind].
    destruct (get_string_loop_ok d fuel (tput_gcount 0 s) txt [] (P_gc _ _ _ H) Hf) as (s1 & E & St & G & K). rewrite E. cbn [bind app].
    pose proof (until_spec d txt) as US. destruct (until d txt) as (a, b) eqn:Eu. cbn [fst snd] in *. destruct US as (Et & Nd & Hb).
    destruct (take_delim_ok d s1 b St Hb) as (s2 & E2 & H2 & K2 & G2 & S2). unfold iobind. rewrite E2. cbn [bind]. exists s2. split; [reflexivity|].
    split; [exact H2|]. split; [exact (kept_trans _ _ _ K K2)|]. split; [|exact S2].
    assert (G1 : t_gcount s1 = u32 (Z.of_nat (length a))). { rewrite G. destruct a; [reflexivity|]. cbn [tput_gcount t_gcount]. rewrite u32_add. reflexivity. }
    rewrite G2, G1, Et, app_length. destruct b as [|x b]; cbn [tl length].
    - f_equal. lia.
    - rewrite u32_add. f_equal. lia.
  Qed.

  Lemma getlines_ok fuel d : forall txt s, P s txt -> (length txt < fuel)%nat ->
    exists s', times (length (pieces d txt)) (getline uf fuel d) s = Ok (s', Val (pieces d txt)) /\ P s' [] /\ t_state s' = 6 /\ kept s s'.
  Proof.
    intros txt. remember (length txt) as n eqn:En. revert txt En. induction n as [n IH] using lt_wf_ind. intros txt -> s H Hf.
    destruct (getline_ok fuel d s txt H Hf) as (s1 & E & H1 & K1 & _ & S1). rewrite pieces_until. pose proof (until_spec d txt) as US.
    destruct (until d txt) as (a, b). cbn [fst snd] in *. destruct US as (Et & _ & Hb). destruct b as [|x b].
    - cbn [length times]. unfold iobind. rewrite E. cbn [bind]. exists s1. split; [reflexivity|]. auto.
    - cbn [length times tl] in *. unfold iobind at 1. rewrite E. cbn [bind]. unfold iobind.
      assert (Lb : (length b < length txt)%nat) by (rewrite Et, app_length; cbn [length]; lia).
      destruct (IH (length b) Lb b eq_refl s1 H1 ltac:(lia)) as (s' & E' & H' & S' & K').
      rewrite E'. cbn [bind]. exists s'. split; [reflexivity|]. split; [exact H'|]. split; [exact S'|]. exact (kept_trans _ _ _ K1 K').
  Qed.

  (** ** Words *)
  Lemma skip_delimiters_loop_ok : forall fuel s txt c, P s txt -> (length txt + 1 < fuel)%nat -> is_delim s c = true ->
    exists s', skip_delimiters_loop uf fuel c s = Ok (s', Val (hd 0 (skipd (is_delim s) txt))) /\ P s' (tl (skipd (is_delim s) txt)) /\ t_gcount s' = t_gcount s /\ kept s s' /\
      (skipd (is_delim s) txt = [] -> t_state s' = 6) /\
      (skipd (is_delim s) txt <> [] -> t_state s' = 0 /\ exists s0, t_ungetc s' = Ok (s0, Val tt) /\ P s0 (skipd (is_delim s) txt) /\ 0 < t_remaining s0 /\ t_gcount s0 = t_gcount s /\ kept s s0).
  Proof.
    induction fuel as [|fuel IH]; intros s txt c H Hf Hc; [lia|]. cbn [skip_delimiters_loop]. rewrite Hc. unfold iobind at 1.
    destruct (more_ok s txt H) as (s1 & E & H1 & G1 & K1 & A1 & B1). rewrite E. cbn [bind].
    destruct txt as [|c1 txt].
    { destruct (A1 eq_refl) as (R1 & S1). unfold iobind, t_verify. rewrite R1. change (1 <=? 0) with false. cbn iota. unfold iobind, t_overrun. cbn [bind].
      eexists. split; [reflexivity|]. cbn [skipd hd tl]. rewrite S1. change (Z.lor 6 (overrun_bits 0)) with 6.
      replace (tput_state 6 s1) with s1 by (destruct s1; cbn in *; rewrite S1; reflexivity). repeat split; auto; try apply K1; congruence. }
    destruct (B1 ltac:(discriminate)) as (R1 & S1). unfold iobind at 1. destruct (iread_ok s1 c1 txt H1 R1) as (s2 & E2 & H2 & Es2 & U2). rewrite E2. cbn [bind].
    assert (Dl : is_delim s2 = is_delim s). { rewrite Es2. unfold is_delim. cbn [tput_pos t_delims]. destruct K1 as (-> & _). reflexivity. }
    assert (K2 : kept s s2). { rewrite Es2. exact K1. }
    assert (G2 : t_gcount s2 = t_gcount s). { rewrite Es2. exact G1. }
    cbn [skipd]. destruct (is_delim s c1) eqn:Ec.
    - rewrite <- Dl in Ec. destruct (IH s2 txt c1 H2 ltac:(cbn [length] in Hf; lia) Ec) as (s' & E' & H' & G' & K' & A' & B'). rewrite Dl in *.
      exists s'. split; [exact E'|]. split; [exact H'|]. split; [congruence|]. split; [exact (kept_trans _ _ _ K2 K')|]. split; [exact A'|].
      intros N. destruct (B' N) as (S' & s0 & U & H0 & R0 & G0 & K0). split; [exact S'|]. exists s0. split; [exact U|]. split; [exact H0|]. split; [exact R0|]. split; [congruence|exact (kept_trans _ _ _ K2 K0)].
    - destruct fuel as [|fuel]; [lia|]. cbn [skip_delimiters_loop]. rewrite Dl, Ec. exists s2. cbn [hd tl].
      split; [reflexivity|]. split; [exact H2|]. split; [exact G2|]. split; [exact K2|]. split; [discriminate|]. intros _. split; [rewrite Es2; exact S1|].
      exists s1. auto 10.
  Qed.


  Lemma word_loop_ok : forall fuel s txt c v, P s txt -> (length txt < fuel)%nat -> Forall plain txt -> c <> 92 -> is_delim s 0 = true ->
    exists s', word_loop uf fuel 0 c v s = Ok (s', Val (v ++ fst (wordof (is_delim s) txt))) /\ P s' (tl (snd (wordof (is_delim s) txt))) /\ t_gcount s' = t_gcount s /\ kept s s' /\
      t_state s' = (match snd (wordof (is_delim s) txt) with [] => 6 | _ => 0 end).
  Proof.
    induction fuel as [|fuel IH]; intros s txt c v H Hf HF Hc H0; [lia|]. cbn [word_loop]. unfold iobind at 1.
    destruct (more_ok s txt H) as (s1 & E & H1 & G1 & K1 & A1 & B1). rewrite E. cbn [bind].
    destruct txt as [|c1 txt].
    { exists s1. cbn [wordof fst snd tl]. rewrite app_nil_r. split; [reflexivity|]. split; [exact H1|]. split; [exact G1|]. split; [exact K1|]. apply A1. reflexivity. }
    destruct (B1 ltac:(discriminate)) as (R1 & S1). unfold iobind at 1. destruct (iread_ok s1 c1 txt H1 R1) as (s2 & E2 & H2 & Es2 & U2). rewrite E2. cbn [bind].
    assert (Dl : is_delim s2 = is_delim s). { rewrite Es2. unfold is_delim. cbn [tput_pos t_delims]. destruct K1 as (-> & _). reflexivity. }
    assert (K2 : kept s s2). { rewrite Es2. exact K1. }
    assert (G2 : t_gcount s2 = t_gcount s). { rewrite Es2. exact G1. }
    inversion HF as [|? ? (P1 & P2 & P3) HF']; subst x l. change (0 =? 0) with true. cbn [andb]. rewrite Dl. cbn [wordof].
    destruct (is_delim s c1) eqn:Ec.
    - exists s2. cbn [fst snd tl]. rewrite app_nil_r. split; [reflexivity|]. split; [exact H2|]. split; [exact G2|]. split; [exact K2|]. rewrite Es2. exact S1.
    - replace (c =? 92) with false by lia. assert (c1 <> 0) by (intros ->; congruence). replace (c1 =? 0) with false by lia.
      destruct (IH s2 txt c1 (v ++ [c1]) H2 ltac:(cbn [length] in Hf; lia) HF' P3 ltac:(rewrite Dl; exact H0)) as (s' & E' & H' & G' & K' & St'). rewrite Dl in *.
      destruct (wordof (is_delim s) txt) as (a, b). cbn [fst snd] in *. exists s'. rewrite E', <- app_assoc. split; [reflexivity|]. split; [exact H'|]. split; [congruence|]. split; [exact (kept_trans _ _ _ K2 K')|exact St'].
  Qed.

  Lemma skipd_spec p l : skipd p l = [] \/ exists c t, skipd p l = c :: t /\ p c = false.
  Proof. induction l as [|c l IH]; cbn [skipd]; [auto|]. destruct (p c) eqn:E; [exact IH|right; eauto]. Qed.
  Lemma skipd_len p l : (length (skipd p l) <= length l)%nat.
  Proof. induction l as [|c l IH]; cbn [skipd length]; [lia|]. destruct (p c); cbn [length]; lia. Qed.
  Lemma skipd_forall (Q : Z -> Prop) p l : Forall Q l -> Forall Q (skipd p l).
  Proof. induction 1 as [|c l Hc Hl IH]; cbn [skipd]; [constructor|]. destruct (p c); [exact IH|constructor; auto]. Qed.
  Lemma wordof_spec p l : let '(a, b) := wordof p l in l = a ++ b /\ Forall (fun c => p c = false) a /\ (b = [] \/ exists c t, b = c :: t /\ p c = true).
  Proof.
    induction l as [|c l IH]; cbn [wordof]; [repeat split; auto|]. destruct (p c) eqn:E; [repeat split; auto; right; eauto|].
    destruct (wordof p l) as (a, b). destruct IH as (-> & F & B). repeat split; auto.
  Qed.
  Lemma words_skipd p l : words p (skipd p l) = words p l.
  Proof. induction l as [|c l IH]; cbn [skipd]; [reflexivity|]. destruct (p c) eqn:E; [|reflexivity]. rewrite IH. cbn [words]. rewrite E. reflexivity. Qed.
  Lemma words_wordof p c t : p c = false -> words p (c :: t) = (let '(a, b) := wordof p t in (c :: a) :: words p (tl b)).
  Proof.
    revert c. induction t as [|c2 t IH]; intros c Hc; [cbn; rewrite Hc; reflexivity|].
    cbn [wordof]. destruct (p c2) eqn:E2.
    - cbn [words tl]. rewrite Hc, E2. reflexivity.
    - specialize (IH c2 E2). destruct (wordof p t) as (a, b). cbn [words] in *. rewrite Hc, E2 in *. rewrite IH. reflexivity.
  Qed.

  (** A word stream: the delimiters contain 0 (fewer than 15 were set). *)
  Lemma iread_string_ok fuel s txt : P s txt -> (length txt + 1 < fuel)%nat -> Forall plain txt -> is_delim s 0 = true -> is_delim s (nth 0 (t_delims s) 0) = true ->
    exists s' rest, iread_string uf fuel s = Ok (s', Val (hd [] (words (is_delim s) txt))) /\ P s' rest /\ words (is_delim s) rest = tl (words (is_delim s) txt) /\
      (length rest <= length txt)%nat /\ Forall plain rest /\ kept s s'.
  Proof.
    intros H Hf HF H0 Hn. unfold iread_string, skip_delimiters. unfold iobind.
    destruct (skip_delimiters_loop_ok fuel s txt _ H Hf Hn) as (s1 & E & H1 & G1 & K1 & A1 & B1). rewrite E. cbn [bind].
    rewrite <- (words_skipd (is_delim s) txt). pose proof (skipd_len (is_delim s) txt) as Ln. pose proof (skipd_forall plain (is_delim s) txt HF) as HF2.
    destruct (skipd_spec (is_delim s) txt) as [Es|(c & t & Es & Hc)]; rewrite Es in *.
    - cbn [hd Z.eqb tl words]. exists s1, []. split; [reflexivity|]. split; [exact H1|]. split; [reflexivity|]. split; [cbn; lia|]. split; [constructor|exact K1].
    - cbn [hd tl] in *. inversion HF2 as [|? ? (P1 & P2 & P3) HF']; subst x l.
      assert (c <> 0) by (intros ->; congruence). replace (c =? 0) with false by lia. replace (c =? 34) with false by lia. replace (c =? 39) with false by lia. cbn [orb].
      assert (Dl : is_delim s1 = is_delim s) by (unfold is_delim; destruct K1 as (-> & _); reflexivity).
      cbn [length] in Ln.
      destruct (word_loop_ok fuel s1 t c [c] H1 ltac:(lia) HF' P3 ltac:(rewrite Dl; exact H0)) as (s' & E' & H' & G' & K' & St'). rewrite Dl in *.
      pose proof (wordof_spec (is_delim s) t) as WS. rewrite (words_wordof _ _ _ Hc). destruct (wordof (is_delim s) t) as (a, b). cbn [fst snd hd tl] in *. destruct WS as (-> & _ & _).
      exists s', (tl b). rewrite E'. split; [reflexivity|]. split; [exact H'|]. split; [reflexivity|].
      split; [rewrite app_length in Ln; destruct b; cbn [tl length] in *; lia|]. split; [apply Forall_app in HF'; destruct HF' as (_ & HF'); destruct b; [constructor|inversion HF'; assumption]|].
      exact (kept_trans _ _ _ K1 K').
  Qed.

  Lemma read_words_ok fuel : forall n s txt, P s txt -> (length txt + 1 < fuel)%nat -> Forall plain txt -> is_delim s 0 = true -> is_delim s (nth 0 (t_delims s) 0) = true ->
    length (words (is_delim s) txt) = n ->
    exists s' rest, times n (iread_string uf fuel) s = Ok (s', Val (words (is_delim s) txt)) /\ P s' rest /\ words (is_delim s) rest = [] /\ kept s s'.
  Proof.
    induction n as [|n IH]; intros s txt H Hf HF H0 Hn Hw.
    - cbn [times]. exists s, txt. destruct (words (is_delim s) txt) eqn:Ew; [|discriminate]. split; [reflexivity|]. split; [exact H|]. split; [try exact Ew; reflexivity|apply kept_refl].
    - cbn [times]. destruct (iread_string_ok fuel s txt H Hf HF H0 Hn) as (s1 & rest & E & H1 & W1 & L1 & F1 & K1). unfold iobind at 1. rewrite E. cbn [bind].
      destruct (words (is_delim s) txt) as [|w ws] eqn:Ew; [discriminate|]. cbn [hd tl length] in *.
      assert (Dl : is_delim s1 = is_delim s) by (unfold is_delim; destruct K1 as (-> & _); reflexivity).
      assert (Dn : t_delims s1 = t_delims s) by apply K1.
      destruct (IH s1 rest H1 ltac:(lia) F1) as (s' & r' & E' & H' & W' & K').
      { rewrite Dl; exact H0. } { rewrite Dl, Dn; exact Hn. } { rewrite Dl, W1. lia. }
      unfold iobind. rewrite E'. cbn [bind]. rewrite Dl in *. exists s', r'. rewrite W1. split; [reflexivity|]. split; [exact H'|]. split; [exact W'|exact (kept_trans _ _ _ K1 K')].
  Qed.
  (** ** Quoted strings *)
  Lemma unescape_ok e : unescape e = q_meaning (Esc e).
  Proof.
    unfold unescape, q_meaning.
    destruct (Z.eqb_spec e 116) as [->|N1]; [reflexivity|]. destruct (Z.eqb_spec e 110) as [->|N2]; [reflexivity|].
    destruct (Z.eqb_spec e 114) as [->|N3]; [reflexivity|]. destruct (Z.eqb_spec e 98) as [->|N4]; [reflexivity|].
    destruct (Z.eqb_spec e 69) as [->|N5]; [reflexivity|].
    repeat match goal with |- (match ?x with _ => _ end) = _ => destruct x; try reflexivity end; congruence.
  Qed.
  Lemma quoted_loop_ok q : q <> 0 -> q <> 92 -> forall items fuel s rest c v,
    P s (concat (map q_written items) ++ q :: rest) -> (length (concat (map q_written items) ++ q :: rest) < fuel)%nat ->
    Forall (q_valid q) items -> ~ In (Esc 92) items -> c <> 92 ->
    exists s', word_loop uf fuel q c v s = Ok (s', Val (v ++ map q_meaning items)) /\ P s' rest /\ t_gcount s' = t_gcount s /\ kept s s' /\ t_state s' = 0.
  Proof.
    intros Hq0 Hq. induction items as [|x items IH]; intros fuel s rest c v H Hf HF HE Hc.
    - cbn [map concat app] in *. destruct fuel as [|fuel]; [lia|]. cbn [word_loop]. unfold iobind at 1.
      destruct (more_ok s _ H) as (s1 & E & H1 & G1 & K1 & A1 & B1). rewrite E. cbn [bind].
      destruct (B1 ltac:(discriminate)) as (R1 & S1). unfold iobind at 1. destruct (iread_ok s1 q rest H1 R1) as (s2 & E2 & H2 & Es2 & U2). rewrite E2. cbn [bind].
      replace (q =? 0) with false by lia. cbn [andb]. replace (c =? 92) with false by lia. rewrite Z.eqb_refl.
      exists s2. rewrite app_nil_r. split; [reflexivity|]. split; [exact H2|]. rewrite Es2. split; [exact G1|]. split; [exact K1|exact S1].
    - inversion HF as [|? ? Hx HF']; subst x0 l. assert (HE' : ~ In (Esc 92) items) by (intros I; apply HE; right; exact I).
      destruct x as [a|e]; cbn [map concat q_written app] in *.
      + destruct Hx as (Ha & Hb). destruct fuel as [|fuel]; [lia|]. cbn [word_loop]. unfold iobind at 1.
        destruct (more_ok s _ H) as (s1 & E & H1 & G1 & K1 & A1 & B1). rewrite E. cbn [bind].
        destruct (B1 ltac:(discriminate)) as (R1 & S1). unfold iobind at 1. destruct (iread_ok s1 a _ H1 R1) as (s2 & E2 & H2 & Es2 & U2). rewrite E2. cbn [bind].
        replace (q =? 0) with false by lia. cbn [andb]. replace (c =? 92) with false by lia. replace (a =? q) with false by lia.
        destruct (IH fuel s2 rest a (v ++ [a]) H2 ltac:(cbn [length] in Hf; lia) HF' HE' Hb) as (s' & E' & H' & G' & K' & S'). exists s'. rewrite E', <- app_assoc.
        split; [reflexivity|]. split; [exact H'|]. split; [rewrite G', Es2; exact G1|]. split; [|exact S']. eapply kept_trans; [|exact K']. rewrite Es2. exact K1.
      + assert (He : e <> 92) by (intros ->; apply HE; left; reflexivity).
        destruct fuel as [|[|fuel]]; [lia|cbn [length] in Hf; lia|]. cbn [word_loop]. unfold iobind at 1.
        destruct (more_ok s _ H) as (s1 & E & H1 & G1 & K1 & A1 & B1). rewrite E. cbn [bind].
        destruct (B1 ltac:(discriminate)) as (R1 & S1). unfold iobind at 1. destruct (iread_ok s1 92 _ H1 R1) as (s2 & E2 & H2 & Es2 & U2). rewrite E2. cbn [bind].
        replace (q =? 0) with false by lia. cbn [andb]. replace (c =? 92) with false by lia. replace (92 =? q) with false by lia.
        unfold iobind at 1. destruct (more_ok s2 _ H2) as (s3 & E3 & H3 & G3 & K3 & A3 & B3). rewrite E3. cbn [bind].
        destruct (B3 ltac:(discriminate)) as (R3 & S3). unfold iobind at 1. destruct (iread_ok s3 e _ H3 R3) as (s4 & E4 & H4 & Es4 & U4). rewrite E4. cbn [bind].
        change (92 =? 92) with true. cbn iota. rewrite removelast_last, unescape_ok.
        assert (Hm : q_meaning (Esc e) <> 92). { cbn [q_meaning]. repeat match goal with |- context [if ?b then _ else _] => destruct b end; try lia. }
        destruct (IH fuel s4 rest (q_meaning (Esc e)) (v ++ [q_meaning (Esc e)]) H4 ltac:(cbn [length] in Hf; lia) HF' HE' Hm) as (s' & E' & H' & G' & K' & S').
        exists s'. rewrite E', <- app_assoc. split; [reflexivity|]. split; [exact H'|].
        split; [rewrite G', Es4; cbn [tput_pos t_gcount]; rewrite G3, Es2; exact G1|]. split; [|exact S'].
        eapply kept_trans; [|exact K']. rewrite Es4. eapply kept_trans; [|exact K3]. rewrite Es2. exact K1.
  Qed.
  Lemma quoted_ok fuel s seps q items rest :
    P s (seps ++ q :: concat (map q_written items) ++ q :: rest) -> (length (seps ++ q :: concat (map q_written items) ++ q :: rest) + 1 < fuel)%nat ->
    q = 34 \/ q = 39 -> Forall (fun c => is_delim s c = true) seps -> is_delim s q = false -> is_delim s (nth 0 (t_delims s) 0) = true ->
    Forall (q_valid q) items -> ~ In (Esc 92) items ->
    exists s', iread_string uf fuel s = Ok (s', Val (map q_meaning items)) /\ P s' rest /\ t_gcount s' = t_gcount s /\ kept s s' /\ t_state s' = 0.
  Proof.
    intros H Hf Hq HS Hd Hn HF HE. unfold iread_string, skip_delimiters. unfold iobind.
    destruct (skip_delimiters_loop_ok fuel s _ _ H Hf Hn) as (s1 & E & H1 & G1 & K1 & A1 & B1). rewrite E. cbn [bind].
    assert (Es : skipd (is_delim s) (seps ++ q :: concat (map q_written items) ++ q :: rest) = q :: concat (map q_written items) ++ q :: rest).
    { clear - HS Hd. induction HS as [|c l Hc HS IH]; cbn [app skipd]; [rewrite Hd|rewrite Hc]; auto. }
    rewrite Es in *. cbn [hd tl] in *. replace (q =? 0) with false by lia. replace ((q =? 34) || (q =? 39)) with true by lia.
    destruct (quoted_loop_ok q ltac:(lia) ltac:(lia) items fuel s1 rest q [] H1) as (s' & E' & H' & G' & K' & S'); [rewrite app_length in Hf; cbn [length] in Hf; lia|exact HF|exact HE|lia|].
    exists s'. split; [exact E'|]. split; [exact H'|]. split; [congruence|]. split; [exact (kept_trans _ _ _ K1 K')|exact S'].
  Qed.

  (** ** Words with escapes *)
  Lemma escaped_loop_ok : forall items fuel s rest c v,
    P s (concat (map q_written items) ++ rest) -> (length (concat (map q_written items) ++ rest) < fuel)%nat ->
    (rest = [] \/ exists d t, rest = d :: t /\ is_delim s d = true) -> is_delim s 0 = true -> is_delim s 92 = false ->
    Forall (w_valid (is_delim s)) items -> ~ In (Esc 92) items -> c <> 92 ->
    exists s', word_loop uf fuel 0 c v s = Ok (s', Val (v ++ map q_meaning items)) /\ P s' (tl rest) /\ t_gcount s' = t_gcount s /\ kept s s' /\
      t_state s' = (match rest with [] => 6 | _ => 0 end).
  Proof.
    induction items as [|x items IH]; intros fuel s rest c v H Hf HR H0 H92 HF HE Hc.
    - cbn [map concat app] in *. destruct fuel as [|fuel]; [lia|]. cbn [word_loop]. unfold iobind at 1.
      destruct (more_ok s _ H) as (s1 & E & H1 & G1 & K1 & A1 & B1). rewrite E. cbn [bind]. rewrite app_nil_r.
      destruct HR as [->|(d & t & -> & Hd)].
      { exists s1. split; [reflexivity|]. split; [exact H1|]. split; [exact G1|]. split; [exact K1|]. apply A1. reflexivity. }
      destruct (B1 ltac:(discriminate)) as (R1 & S1). unfold iobind at 1. destruct (iread_ok s1 d t H1 R1) as (s2 & E2 & H2 & Es2 & U2). rewrite E2. cbn [bind].
      change (0 =? 0) with true. cbn [andb].
      assert (Dl : is_delim s2 = is_delim s). { rewrite Es2. unfold is_delim. cbn [tput_pos t_delims]. destruct K1 as (-> & _). reflexivity. }
      rewrite Dl, Hd. exists s2. split; [reflexivity|]. split; [exact H2|]. rewrite Es2. split; [exact G1|]. split; [exact K1|exact S1].
    - inversion HF as [|? ? Hx HF']; subst x0 l. assert (HE' : ~ In (Esc 92) items) by (intros I; apply HE; right; exact I).
      destruct x as [a|e]; cbn [map concat q_written app] in *.
      + destruct Hx as (Ha & Hb). destruct fuel as [|fuel]; [lia|]. cbn [word_loop]. unfold iobind at 1.
        destruct (more_ok s _ H) as (s1 & E & H1 & G1 & K1 & A1 & B1). rewrite E. cbn [bind].
        destruct (B1 ltac:(discriminate)) as (R1 & S1). unfold iobind at 1. destruct (iread_ok s1 a _ H1 R1) as (s2 & E2 & H2 & Es2 & U2). rewrite E2. cbn [bind].
        assert (Dl : is_delim s2 = is_delim s). { rewrite Es2. unfold is_delim. cbn [tput_pos t_delims]. destruct K1 as (-> & _). reflexivity. }
        change (0 =? 0) with true. cbn [andb]. rewrite Dl, Ha. replace (c =? 92) with false by lia. assert (a <> 0) by (intros ->; congruence). replace (a =? 0) with false by lia.
        destruct (IH fuel s2 rest a (v ++ [a]) H2 ltac:(cbn [length] in Hf; lia)) as (s' & E' & H' & G' & K' & S'); try (rewrite Dl); auto.
        exists s'. rewrite E', <- app_assoc.
        split; [reflexivity|]. split; [exact H'|]. split; [rewrite G', Es2; exact G1|]. split; [|exact S']. eapply kept_trans; [|exact K']. rewrite Es2. exact K1.
      + cbn [w_valid] in Hx. assert (He : e <> 92) by (intros ->; apply HE; left; reflexivity).
        destruct fuel as [|[|fuel]]; [lia|cbn [length] in Hf; lia|]. cbn [word_loop]. unfold iobind at 1.
        destruct (more_ok s _ H) as (s1 & E & H1 & G1 & K1 & A1 & B1). rewrite E. cbn [bind].
        destruct (B1 ltac:(discriminate)) as (R1 & S1). unfold iobind at 1. destruct (iread_ok s1 92 _ H1 R1) as (s2 & E2 & H2 & Es2 & U2). rewrite E2. cbn [bind].
        assert (Dl : is_delim s2 = is_delim s). { rewrite Es2. unfold is_delim. cbn [tput_pos t_delims]. destruct K1 as (-> & _). reflexivity. }
        change (0 =? 0) with true. cbn [andb]. rewrite Dl, H92. replace (c =? 92) with false by lia. change (92 =? 0) with false. cbn iota.
        unfold iobind at 1. destruct (more_ok s2 _ H2) as (s3 & E3 & H3 & G3 & K3 & A3 & B3). rewrite E3. cbn [bind].
        destruct (B3 ltac:(discriminate)) as (R3 & S3). unfold iobind at 1. destruct (iread_ok s3 e _ H3 R3) as (s4 & E4 & H4 & Es4 & U4). rewrite E4. cbn [bind].
        assert (Dl4 : is_delim s4 = is_delim s). { rewrite <- Dl, Es4. unfold is_delim. cbn [tput_pos t_delims]. destruct K3 as (-> & _). reflexivity. }
        rewrite Dl4, Hx.
        change (92 =? 92) with true. cbn iota. rewrite removelast_last, unescape_ok.
        destruct (IH fuel s4 rest (q_meaning (Esc e)) (v ++ [q_meaning (Esc e)]) H4 ltac:(cbn [length] in Hf; lia)) as (s' & E' & H' & G' & K' & S'); try (rewrite Dl4); auto.
        { unfold q_meaning. repeat (destruct (_ =? _); try lia). }
        exists s'. rewrite E', <- app_assoc. split; [reflexivity|]. split; [exact H'|]. split; [rewrite G', Es4; cbn [tput_pos t_gcount]; rewrite G3, Es2; exact G1|]. split; [|exact S'].
        eapply kept_trans; [|exact K']. rewrite Es4. apply (kept_trans _ s2); [rewrite Es2; exact K1|exact K3].
  Qed.
  Lemma escaped_ok fuel s seps x items rest :
    P s (seps ++ concat (map q_written (x :: items)) ++ rest) -> (length (seps ++ concat (map q_written (x :: items)) ++ rest) + 1 < fuel)%nat ->
    Forall (fun c => is_delim s c = true) seps -> is_delim s (nth 0 (t_delims s) 0) = true ->
    (rest = [] \/ exists d t, rest = d :: t /\ is_delim s d = true) -> is_delim s 0 = true -> is_delim s 92 = false ->
    Forall (w_valid (is_delim s)) (x :: items) -> ~ In (Esc 92) (x :: items) -> x <> Lit 34 -> x <> Lit 39 ->
    exists s', iread_string uf fuel s = Ok (s', Val (map q_meaning (x :: items))) /\ P s' (tl rest) /\ t_gcount s' = t_gcount s /\ kept s s' /\
      t_state s' = (match rest with [] => 6 | _ => 0 end).
  Proof.
    intros H Hf HS Hn HR H0 H92 HF HE N1 N2. unfold iread_string, skip_delimiters. unfold iobind.
    destruct (skip_delimiters_loop_ok fuel s _ _ H Hf Hn) as (s1 & E & H1 & G1 & K1 & A1 & B1). rewrite E. cbn [bind].
    assert (Dl : is_delim s1 = is_delim s) by (unfold is_delim; destruct K1 as (-> & _); reflexivity).
    inversion HF as [|? ? Hx HF']; subst x0 l. assert (HE' : ~ In (Esc 92) items) by (intros I; apply HE; right; exact I).
    rewrite app_length in Hf.
    destruct x as [a|e]; cbn [map concat q_written app length w_valid] in *.
    - destruct Hx as (Ha & Hb).
      assert (Es : skipd (is_delim s) (seps ++ a :: concat (map q_written items) ++ rest) = a :: concat (map q_written items) ++ rest).
      { clear - HS Ha. induction HS as [|c l Hc HS IH]; cbn [app skipd]; [rewrite Ha|rewrite Hc]; auto. }
      rewrite Es in *. cbn [hd tl] in *. assert (a <> 0) by (intros ->; congruence).
      assert (a <> 34) by congruence. assert (a <> 39) by congruence.
      replace (a =? 0) with false by lia. replace ((a =? 34) || (a =? 39)) with false by lia.
      destruct (escaped_loop_ok items fuel s1 rest a [a] H1) as (s' & E' & H' & G' & K' & S'); try (rewrite Dl); auto; [lia|].
      exists s'. split; [exact E'|]. split; [exact H'|]. split; [congruence|]. split; [exact (kept_trans _ _ _ K1 K')|exact S'].
    - assert (He : e <> 92) by (intros ->; apply HE; left; reflexivity).
      assert (Es : skipd (is_delim s) (seps ++ 92 :: e :: concat (map q_written items) ++ rest) = 92 :: e :: concat (map q_written items) ++ rest).
      { clear - HS H92. induction HS as [|c l Hc HS IH]; cbn [app skipd]; [rewrite H92|rewrite Hc]; auto. }
      rewrite Es in *. cbn [hd tl] in *. change (92 =? 0) with false. change ((92 =? 34) || (92 =? 39)) with false. cbn iota.
      destruct fuel as [|fuel]; [lia|]. cbn [word_loop].
      unfold iobind at 1. destruct (more_ok s1 _ H1) as (s3 & E3 & H3 & G3 & K3 & A3 & B3). rewrite E3. cbn [bind].
      destruct (B3 ltac:(discriminate)) as (R3 & S3). unfold iobind at 1. destruct (iread_ok s3 e _ H3 R3) as (s4 & E4 & H4 & Es4 & U4). rewrite E4. cbn [bind].
      assert (Dl4 : is_delim s4 = is_delim s). { rewrite <- Dl, Es4. unfold is_delim. cbn [tput_pos t_delims]. destruct K3 as (-> & _). reflexivity. }
      rewrite Dl4, Hx. change (0 =? 0) with true. change (92 =? 92) with true. cbn [andb removelast app]. rewrite unescape_ok.
      destruct (escaped_loop_ok items fuel s4 rest (q_meaning (Esc e)) [q_meaning (Esc e)] H4) as (s' & E' & H' & G' & K' & S'); try (rewrite Dl4); auto; [lia| |].
      { unfold q_meaning. repeat (destruct (_ =? _); try lia). }
      exists s'. split; [exact E'|]. split; [exact H'|]. split; [rewrite G', Es4; cbn [tput_pos t_gcount]; congruence|]. split; [|exact S'].
      eapply kept_trans; [exact K1|]. eapply kept_trans; [|exact K']. rewrite Es4. exact K3.
  Qed.

  Lemma sentence_ok fuel : forall l s seps,
    P s (seps ++ sentence l) -> (length (seps ++ sentence l) + 1 < fuel)%nat ->
    Forall (fun c => is_delim s c = true) seps -> is_delim s (nth 0 (t_delims s) 0) = true -> is_delim s 0 = true -> is_delim s 92 = false ->
    Forall (fun x => t_valid (is_delim s) (fst x)) l -> separated (is_delim s) l ->
    exists s', times (length l) (iread_string uf fuel) s = Ok (s', Val (map (fun x => t_meaning (fst x)) l)) /\ kept s s'.
  Proof.
    induction l as [|(t, d) l IH]; intros s seps H Hf HS Hn H0 H92 HV HP.
    - exists s. split; [reflexivity|apply kept_refl].
    - cbn [sentence separated length times map fst] in *. destruct HP as (HD & HT & HP). inversion HV as [|? ? Ht HV']; subst x l0. cbn [fst] in Ht.
      destruct t as [x xs|q xs].
      + destruct Ht as (F & N & N1 & N2). cbn [t_written t_meaning] in *.
        destruct (escaped_ok fuel s seps x xs (d ++ sentence l) H Hf HS Hn) as (s1 & E & H1 & _ & K1 & _); auto.
        { destruct d as [|c d]; [left; rewrite (HT eq_refl); reflexivity|right]. exists c, (d ++ sentence l). split; [reflexivity|]. inversion HD; assumption. }
        unfold iobind at 1. rewrite E. cbn [bind]. unfold iobind.
        assert (Dl : is_delim s1 = is_delim s) by (unfold is_delim; destruct K1 as (-> & _); reflexivity).
        assert (Dn : t_delims s1 = t_delims s) by apply K1.
        assert (H1' : P s1 (tl d ++ sentence l)). { destruct d as [|c d]; [|exact H1]. rewrite (HT eq_refl) in *. exact H1. }
        destruct (IH s1 (tl d) H1') as (s' & E' & K'); try (rewrite Dl); try (rewrite Dn); auto.
        { rewrite !app_length in Hf. rewrite app_length. destruct d; cbn [tl length] in *; lia. }
        { destruct d; [constructor|]. inversion HD; assumption. }
        rewrite E'. cbn [bind]. exists s'. split; [reflexivity|exact (kept_trans _ _ _ K1 K')].
      + destruct Ht as (Hq & Hd & F & N). cbn [t_written t_meaning app] in *. rewrite <- app_assoc in H, Hf. cbn [app] in H, Hf.
        destruct (quoted_ok fuel s seps q xs (d ++ sentence l) H Hf Hq HS Hd Hn F N) as (s1 & E & H1 & _ & K1 & _).
        unfold iobind at 1. rewrite E. cbn [bind]. unfold iobind.
        assert (Dl : is_delim s1 = is_delim s) by (unfold is_delim; destruct K1 as (-> & _); reflexivity).
        assert (Dn : t_delims s1 = t_delims s) by apply K1.
        destruct (IH s1 d H1) as (s' & E' & K'); try (rewrite Dl); try (rewrite Dn); auto.
        { rewrite !app_length in Hf. cbn [length] in Hf. rewrite !app_length in Hf. cbn [length] in Hf. rewrite !app_length in *. lia. }
        rewrite E'. cbn [bind]. exists s'. split; [reflexivity|exact (kept_trans _ _ _ K1 K')].
  Qed.

  (** ** get into an array *)
  Lemma get_loop_ok d n : forall fuel s txt v, P s txt -> (length txt < fuel)%nat -> Z.of_nat (length v) <= n - 1 ->
    let got := firstn (Z.to_nat (n - 1) - length v) (fst (until d txt)) in
    exists s', get_loop uf fuel n d v s = Ok (s', Val (v ++ got)) /\ P s' (skipn (length got) txt) /\ kept s s' /\
      t_gcount s' = (match got with [] => t_gcount s | _ => u32 (t_gcount s + Z.of_nat (length got)) end) /\
      (skipn (length got) txt = [] -> got = firstn (Z.to_nat (n - 1) - length v) txt) .
  Proof.
    induction fuel as [|fuel IH]; intros s txt v H Hf Hv got; [lia|]. cbn [get_loop].
    destruct (Z.ltb_spec (Z.of_nat (length v)) (n - 1)) as [L|L].
    2:{ assert (got = []) as Eg by (unfold got; replace (Z.to_nat (n - 1) - length v)%nat with 0%nat by lia; reflexivity). rewrite Eg. cbn [length skipn].
        exists s. rewrite app_nil_r. split; [reflexivity|]. split; [exact H|]. split; [apply kept_refl|]. split; [reflexivity|].
        intros _. replace (Z.to_nat (n - 1) - length v)%nat with 0%nat by lia. reflexivity. }
    unfold iobind at 1. destruct (more_ok s txt H) as (s1 & E & H1 & G1 & K1 & A1 & B1). rewrite E. cbn [bind].
    assert (En : (Z.to_nat (n - 1) - length v = S (Z.to_nat (n - 1) - S (length v)))%nat) by lia. unfold got in *. rewrite En in *.
    destruct txt as [|c txt].
    { cbn [until fst firstn length skipn]. exists s1. rewrite app_nil_r. split; [reflexivity|]. split; [exact H1|]. split; [exact K1|]. split; [exact G1|reflexivity]. }
    destruct (B1 ltac:(discriminate)) as (R1 & S1). unfold iobind at 1. destruct (iread_ok s1 c txt H1 R1) as (s2 & E2 & H2 & Es2 & U2). rewrite E2. cbn [bind until].
    destruct (Z.eqb_spec c d) as [->|N].
    { unfold iobind at 1. rewrite U2. cbn [bind fst firstn length skipn]. exists s1. rewrite app_nil_r. split; [reflexivity|]. split; [exact H1|]. split; [exact K1|]. split; [exact G1|discriminate]. }
    unfold iobind at 1. cbn [bind]. cbn [length] in Hf.
    destruct (IH (tput_gcount (t_gcount s2 + 1) s2) txt (v ++ [c]) (P_gc _ _ _ H2) ltac:(lia)) as (s' & E' & H' & K' & G' & F').
    { rewrite app_length. cbn [length]. lia. }
    rewrite app_length in E', H', G', F'. cbn [length] in E', H', G', F'. rewrite Nat.add_1_r in E', H', G', F'.
    destruct (until d txt) as (a, b). cbn [fst firstn length skipn] in *. exists s'. rewrite E', <- app_assoc. split; [reflexivity|]. split; [exact H'|].
    split; [eapply kept_trans; [|exact K']; rewrite Es2; exact K1|]. split.
    - rewrite G'. rewrite Es2. cbn [tput_gcount tput_pos t_gcount]. rewrite G1. destruct (firstn _ a); [reflexivity|]. rewrite u32_add. f_equal. cbn [length]. lia.
    - intros Q. rewrite (F' Q). reflexivity.
  Qed.
  Lemma get_chars_ok d n fuel s txt : P s txt -> (length txt < fuel)%nat -> 1 <= n ->
    let got := firstn (Z.to_nat (n - 1)) (fst (until d txt)) in
    exists s', get_chars uf fuel n d s = Ok (s', Val (got ++ [0])) /\ P s' (skipn (length got) txt) /\ kept s s' /\ t_gcount s' = u32 (Z.of_nat (length got)).
  Proof.
    intros H Hf Hn got. unfold get_chars. unfold iobind at 1. cbn [bind].
    destruct (get_loop_ok d n fuel (tput_gcount 0 s) txt [] (P_gc _ _ _ H) Hf ltac:(cbn; lia)) as (s' & E & H' & K & G & _).
    change (length []) with 0%nat in *. rewrite Nat.sub_0_r in E, H', G. fold got in E, H', G. cbn [app] in E. unfold iobind. rewrite E. cbn [bind].
    assert (Lg : (length got <= Z.to_nat (n - 1))%nat) by (unfold got; rewrite firstn_length; lia).
    replace (Z.of_nat (length got) + 1 <=? n) with true by lia. exists s'. split; [reflexivity|]. split; [exact H'|]. split; [exact K|].
    rewrite G. destruct got; [reflexivity|]. cbn [tput_gcount t_gcount]. rewrite u32_add. reflexivity.
  Qed.

  (** ** Any sequence of reads *)
  Definition wordable (ops : list treq) (txt : list Z) : Prop := In RWord ops -> Forall plain txt.
  Lemma read_one_ok fuel s txt r : P s txt -> (length txt + 1 < fuel)%nat -> (r = RWord -> Forall plain txt) -> reasonable r ->
    is_delim s 0 = true -> is_delim s (nth 0 (t_delims s) 0) = true ->
    exists s', read_one uf fuel r s = Ok (s', Val (fst (answer (is_delim s) r txt))) /\ P s' (snd (answer (is_delim s) r txt)) /\ kept s s'.
  Proof.
    intros H Hf HF Hr H0 Hn. destruct r as [d| |n d]; cbn [read_one answer].
    - destruct (getline_ok fuel d s txt H ltac:(lia)) as (s' & E & H' & K & _). destruct (until d txt) as (a, b). cbn [fst snd] in *. exists s'. auto.
    - specialize (HF eq_refl). unfold iread_string, skip_delimiters. unfold iobind.
      destruct (skip_delimiters_loop_ok fuel s txt _ H Hf Hn) as (s1 & E & H1 & G1 & K1 & A1 & B1). rewrite E. cbn [bind].
      pose proof (skipd_len (is_delim s) txt) as Ln. pose proof (skipd_forall plain (is_delim s) txt HF) as HF2.
      destruct (skipd_spec (is_delim s) txt) as [Es|(c & t & Es & Hc)]; rewrite Es in *.
      + cbn [hd Z.eqb tl wordof fst snd]. exists s1. split; [reflexivity|]. split; [exact H1|exact K1].
      + cbn [hd tl] in *. inversion HF2 as [|? ? (P1 & P2 & P3) HF']; subst x l.
        assert (c <> 0) by (intros ->; congruence). replace (c =? 0) with false by lia. replace (c =? 34) with false by lia. replace (c =? 39) with false by lia. cbn [orb].
        assert (Dl : is_delim s1 = is_delim s) by (unfold is_delim; destruct K1 as (-> & _); reflexivity).
        cbn [length] in Ln.
        destruct (word_loop_ok fuel s1 t c [c] H1 ltac:(lia) HF' P3 ltac:(rewrite Dl; exact H0)) as (s' & E' & H' & G' & K' & St'). rewrite Dl in *.
        cbn [wordof]. rewrite Hc. destruct (wordof (is_delim s) t) as (a, b). cbn [fst snd hd tl] in *.
        exists s'. rewrite E'. split; [reflexivity|]. split; [exact H'|]. exact (kept_trans _ _ _ K1 K').
    - cbn [reasonable] in Hr. destruct (get_chars_ok d n fuel s txt H ltac:(lia) Hr) as (s' & E & H' & K & _). cbn [fst snd]. exists s'. auto.
  Qed.
  Lemma answer_len p r txt : (length (snd (answer p r txt)) <= length txt)%nat.
  Proof.
    destruct r as [d| |n d]; cbn [answer].
    - pose proof (until_spec d txt) as US. destruct (until d txt) as (a, b). destruct US as (-> & _). cbn [snd]. rewrite app_length. destruct b; cbn [tl length]; lia.
    - pose proof (skipd_len p txt). pose proof (wordof_spec p (skipd p txt)) as WS. destruct (wordof p (skipd p txt)) as (a, b). destruct WS as (E & _). rewrite E, app_length in H.
      cbn [snd]. destruct b; cbn [tl length] in *; lia.
    - cbn [snd]. rewrite skipn_length. lia.
  Qed.
  Lemma answer_plain p r txt : Forall plain txt -> Forall plain (snd (answer p r txt)).
  Proof.
    intros HF. destruct r as [d| |n d]; cbn [answer].
    - pose proof (until_spec d txt) as US. destruct (until d txt) as (a, b). destruct US as (-> & _). cbn [snd]. apply Forall_app in HF. destruct HF as (_ & HF).
      destruct b; [constructor|inversion HF; assumption].
    - pose proof (skipd_forall plain p txt HF) as HF2. pose proof (wordof_spec p (skipd p txt)) as WS. destruct (wordof p (skipd p txt)) as (a, b). destruct WS as (E & _).
      rewrite E in HF2. apply Forall_app in HF2. destruct HF2 as (_ & HF2). cbn [snd]. destruct b; [constructor|inversion HF2; assumption].
    - cbn [snd]. rewrite <- (firstn_skipn (length (firstn (Z.to_nat (n - 1)) (fst (until d txt)))) txt) in HF. apply Forall_app in HF. apply HF.
  Qed.
  Lemma read_all_ok fuel : forall ops s txt, P s txt -> (length txt + 1 < fuel)%nat -> wordable ops txt -> Forall reasonable ops ->
    is_delim s 0 = true -> is_delim s (nth 0 (t_delims s) 0) = true ->
    exists s', read_all uf fuel ops s = Ok (s', Val (answers_to (is_delim s) ops txt)) /\ kept s s'.
  Proof.
    induction ops as [|r ops IH]; intros s txt H Hf HW HR H0 Hn; cbn [read_all answers_to].
    - exists s. split; [reflexivity|apply kept_refl].
    - inversion HR as [|? ? Hr HR']; subst.
      destruct (read_one_ok fuel s txt r H Hf) as (s1 & E & H1 & K1); [intros ->; apply HW; left; reflexivity|exact Hr|exact H0|exact Hn|].
      unfold iobind. rewrite E. cbn [bind].
      assert (Dl : is_delim s1 = is_delim s) by (unfold is_delim; destruct K1 as (-> & _); reflexivity).
      assert (Dn : t_delims s1 = t_delims s) by apply K1.
      pose proof (answer_len (is_delim s) r txt) as La. pose proof (answer_plain (is_delim s) r txt) as Lp.
      destruct (answer (is_delim s) r txt) as (a, rest). cbn [fst snd] in *.
      destruct (IH s1 rest H1 ltac:(lia)) as (s' & E' & K').
      { intros I. apply Lp, HW. right. exact I. } { exact HR'. } { rewrite Dl; exact H0. } { rewrite Dl, Dn; exact Hn. }
      rewrite E'. cbn [bind]. rewrite Dl. exists s'. split; [reflexivity|exact (kept_trans _ _ _ K1 K')].
  Qed.
End Generic.
