(** * Properties C237, C238: histories of text streams over memory. *)
From Verif Require Import Base UtilModel StringFindModel StreamModel FileModel IstrModel IstrSpec IstrProg IstrProofs IstrRun IstrNum PosModel PosSpec PosIn IHistModel IHistSpec.
From Verif Require StoreModel MemModel MemProofs StrConvModel.
From Coq Require Import ZArith ZifyBool ZifyNat Lia.
Local Open Scope Z_scope.

(** The stream has the text [T], at its position [txt] is left. *)
Definition HP (T : list Z) (after : list (option Z)) (s : ist) (txt : list Z) : Prop :=
  t_mem s = map Some T ++ after /\ t_size s = size T /\ size T < 2 ^ 61 /\ 0 <= t_pos s <= size T /\
  txt = skipn (Z.to_nat (t_pos s)) T /\ (t_state s = 0 \/ (t_state s = 6 /\ txt = [])).
Section HP.
  Variable T : list Z.
  Variable after : list (option Z).
  Let P := HP T after.
  Lemma HP_IInv s txt : P s txt -> IInv s txt.
  Proof.
    intros (M & S & B & Q & E & St). split; [|exact St]. exists (map Some (firstn (Z.to_nat (t_pos s)) T)), after.
    unfold size in *. split; [rewrite M, E, app_assoc, <- map_app, firstn_skipn; reflexivity|].
    rewrite map_length, firstn_length, E, skipn_length. lia.
  Qed.
  Lemma HP_view s txt : P s txt -> exists w rest, txt = w ++ rest /\ View s w.
  Proof. intros H. exact (IInv_view s txt (HP_IInv s txt H)). Qed.
  Lemma HP_move s txt k : P s txt -> (Z.of_nat k <= t_remaining s) -> P (tput_pos (t_pos s + Z.of_nat k) s) (skipn k txt).
  Proof.
    intros H R. pose proof (HP_IInv s txt H) as (V & _). rewrite (view_rem s txt V) in R. destruct H as (M & S & B & Q & E & St).
    assert (L : Z.of_nat (length txt) = size T - t_pos s) by (rewrite E, skipn_length; unfold size in *; lia).
    split; [exact M|]. split; [exact S|]. split; [exact B|]. cbn [tput_pos t_pos t_state]. split; [lia|]. split.
    - rewrite E, skipn_skipn. f_equal. lia.
    - destruct St as [St|(St & ->)]; [now left|right]. split; [exact St|apply skipn_nil].
  Qed.
  Lemma HP_gc s txt g : P s txt -> P (tput_gcount g s) txt.
  Proof. intros H. exact H. Qed.
  Lemma HP_state s txt : P s txt -> t_state s = 0 \/ (t_state s = 6 /\ txt = []).
  Proof. intros H. apply H. Qed.
  Lemma HP_uf s txt : P s txt -> t_remaining s = 0 ->
    exists s', iss_underflow 1 s = Ok (s', Val (t_remaining s')) /\ P s' txt /\ t_gcount s' = t_gcount s /\ kept s s' /\
      (txt = [] -> t_remaining s' = 0 /\ t_state s' = 6) /\ (txt <> [] -> 0 < t_remaining s').
  Proof.
    intros H R. pose proof (HP_IInv s txt H) as (V & _). pose proof (view_rem s txt V) as Rw.
    assert (Et : txt = []) by (destruct txt; [reflexivity|cbn [length] in Rw; lia]). destruct H as (M & S & B & Q & E & St).
    unfold iss_underflow, iobind, t_verify. rewrite R. change (1 <=? 0) with false. cbn iota. unfold iobind, t_overrun. cbn [bind].
    eexists. split; [reflexivity|]. assert (Es : Z.lor (t_state s) (overrun_bits 0) = 6) by (destruct St as [->|(-> & _)]; reflexivity).
    rewrite Es. split; [split; [exact M|]; split; [exact S|]; split; [exact B|]; split; [exact Q|]; split; [exact E|right; split; [reflexivity|exact Et]]|].
    split; [reflexivity|]. split; [split; reflexivity|]. split; [intros _; split; [exact R|reflexivity]|congruence].
  Qed.
End HP.
Lemma t_bytes_pos p s n : forall i, t_bytes i n (tput_pos p s) = t_bytes i n s.
Proof. induction n as [|n IH]; intros i; cbn [t_bytes]; [reflexivity|]. change (t_at i (tput_pos p s)) with (t_at i s). destruct (t_at i s); cbn [bind]; [|reflexivity..]. now rewrite IH. Qed.

(** The stream stands at [q] of the text [d]. *)
Definition HInv (d : list Z) (fresh : bool) (q : Z) (s : ist) : Prop :=
  (exists after, HP d after s (skipn (Z.to_nat q) d)) /\ t_pos s = q /\ (fresh = true -> t_state s = 0).

Lemma HInv_good d fresh q s : HInv d fresh q s -> fresh = true \/ q < size d -> t_state s = 0.
Proof.
  intros ((after & M & S & B & Q & E & St) & Ep & F) [H|H]; [now apply F|]. destruct St as [St|(_ & N)]; [exact St|].
  exfalso. apply (f_equal (@length Z)) in N. rewrite skipn_length in N. cbn [length] in N. unfold size in *. lia.
Qed.
Lemma HInv_at d fresh q s p : HInv d fresh q s -> t_state s = 0 -> 0 <= p <= size d -> HInv d true p (tput_pos p s).
Proof.
  intros ((after & M & S & B & Q & E & St) & Ep & F) G H. split; [|split; [reflexivity|intros _; exact G]]. exists after.
  split; [exact M|]. split; [exact S|]. split; [exact B|]. cbn [tput_pos t_pos t_state]. split; [exact H|]. split; [reflexivity|now left].
Qed.

Lemma hstep_ok fuel m isd d fresh q s o : HInv d fresh q s -> (length d <= m)%nat -> (m + 1 < fuel)%nat -> Z.of_nat m < 2 ^ 61 ->
  (forall c, is_delim s c = isd c) -> isd 0 = true -> isd (nth 0 (t_delims s) 0) = true -> possible m d fresh q o ->
  let '(d', q', r) := moves isd d q o in
  exists s', hstep fuel o s = Ok (s', Val r) /\ HInv d' (still_fresh fresh o) q' s' /\ kept s s' /\ (length d' <= m)%nat.
Proof.
  intros H Hm Hf Hb HD H0 Hn HP0. pose proof H as ((after & HPs) & Ep & Fr). pose proof HPs as (M & S & B & Q & E & St).
  assert (Hq : 0 <= q <= size d) by (rewrite <- Ep; exact Q).
  destruct o as [r| | | | |n w| |t|]; cbn [moves possible still_fresh] in *; cbv zeta in *.
  - destruct HP0 as (HR & HW).
    destruct (read_one_ok iss_underflow (HP d after) (HP_view d after) (HP_move d after) (HP_gc d after) (HP_state d after) (HP_uf d after) fuel s _ r HPs) as (s' & Es & H' & K).
    + rewrite skipn_length. lia.
    + intros Er. apply HW in Er. rewrite <- (firstn_skipn (Z.to_nat q) d) in Er. apply Forall_app in Er. apply Er.
    + exact HR.
    + rewrite HD. exact H0.
    + rewrite HD. exact Hn.
    + assert (EA : forall txt, answer (is_delim s) r txt = answer isd r txt).
      { intros txt. destruct r as [dd| |nn dd]; cbn [answer]; [reflexivity| |reflexivity]. rewrite (skipd_ext _ isd) by exact HD. rewrite (wordof_ext _ isd) by exact HD. reflexivity. }
      rewrite EA in *. destruct (answer isd r (skipn (Z.to_nat q) d)) as (a, rest). cbn [fst snd] in *.
      exists s'. unfold hstep, iobind. rewrite Es. cbn [bind ret]. split; [reflexivity|]. split; [|split; [exact K|exact Hm]].
      pose proof H' as (M' & S' & B' & Q' & E' & St').
      assert (Pp : t_pos s' = size d - size rest) by (rewrite E'; unfold size in *; rewrite skipn_length; lia).
      split; [exists after; rewrite <- Pp, <- E'; exact H'|]. split; [exact Pp|discriminate].
  - assert (exists c t, skipn (Z.to_nat q) d = c :: t) as (c & t & Ec).
    { destruct (skipn (Z.to_nat q) d) as [|c t] eqn:Ec; [|eauto]. apply (f_equal (@length Z)) in Ec. rewrite skipn_length in Ec. cbn [length] in Ec. unfold size in *. lia. }
    rewrite Ec in *. destruct (get_ok fuel s c t (HP_IInv d after s _ HPs)) as (s' & Es & Ev & _ & _).
    exists s'. unfold hstep, iobind. rewrite Es. cbn [bind ret hd]. split; [reflexivity|].
    assert (G : t_state s = 0) by (apply (HInv_good d fresh q s H); now right).
    split; [|split; [rewrite Ev; split; reflexivity|exact Hm]]. rewrite Ev, Ep. apply (HInv_at d fresh q (tput_gcount 1 s)); [|exact G|lia].
    split; [exists after; rewrite Ec; exact HPs|]. split; [exact Ep|exact Fr].
  - assert (exists c t, skipn (Z.to_nat q) d = c :: t) as (c & t & Ec).
    { destruct (skipn (Z.to_nat q) d) as [|c t] eqn:Ec; [|eauto]. apply (f_equal (@length Z)) in Ec. rewrite skipn_length in Ec. cbn [length] in Ec. unfold size in *. lia. }
    rewrite Ec in *. destruct (get_ok fuel s c t (HP_IInv d after s _ HPs)) as (s' & Es & Ev & _ & Eu).
    exists (tput_gcount 1 s). unfold hstep, t_peek, iobind. rewrite Es. cbn [bind]. rewrite Eu. cbn [bind ret hd]. split; [reflexivity|].
    assert (G : t_state s = 0) by (apply (HInv_good d fresh q s H); now right).
    split; [|split; [split; reflexivity|exact Hm]]. split; [exists after; rewrite Ec; exact HPs|]. split; [exact Ep|intros _; exact G].
  - destruct HP0 as (H1 & Ht). pose proof (HInv_good d fresh q s H Ht) as G. exists (tput_pos (q - 1) s).
    unfold hstep, iobind, t_ungetc, t_seek. rewrite Ep, u64_id by lia. replace (t_size s <? q - 1) with false by lia. cbn [bind ret].
    split; [reflexivity|]. split; [apply (HInv_at d fresh q s _ H G); lia|]. split; [split; reflexivity|exact Hm].
  - exists s. unfold hstep. rewrite Ep. split; [reflexivity|]. split; [exact H|]. split; [apply kept_refl|exact Hm].
  - destruct HP0 as (H1 & Ht). pose proof (HInv_good d fresh q s H Ht) as G. exists (tput_pos (goes_to q n d w) s).
    unfold hstep, iobind, t_seekg, t_seek.
    assert (Eg : u64 (match w with Sbeg => n | Scur => t_pos s + n | Send => t_size s - n end) = goes_to q n d w).
    { rewrite Ep, S. fold (goes_to q n d w). rewrite u64_id; [destruct w; reflexivity|]. destruct w; cbn [goes_to] in *; lia. }
    rewrite Eg. replace (t_size s <? goes_to q n d w) with false by lia. cbn [bind ret].
    split; [reflexivity|]. split; [apply (HInv_at d fresh q s _ H G); lia|]. split; [split; reflexivity|exact Hm].
  - exists s. unfold hstep, iobind, t_str.
    assert (V0 : View (tput_pos 0 s) d).
    { exists [], after. cbn [app tput_pos t_mem t_pos t_size length]. unfold size in *. split; [exact M|]. lia. }
    pose proof (view_bytes (tput_pos 0 s) d V0 (length d) 0 ltac:(lia)) as Vb. rewrite t_bytes_pos in Vb. cbn [skipn] in Vb. rewrite firstn_all in Vb.
    change (t_pos (tput_pos 0 s) + Z.of_nat 0) with 0 in Vb. rewrite S. unfold size at 1. rewrite Nat2Z.id, Vb. cbn [bind ret].
    split; [reflexivity|]. split; [exact H|]. split; [apply kept_refl|exact Hm].
  - destruct HP0 as (Lt & Ht). pose proof (HInv_good d fresh q s H Ht) as G. eexists. unfold hstep, iobind, t_set_str. cbn [bind ret].
    split; [reflexivity|]. split; [|split; [split; reflexivity|exact Lt]].
    split; [|split; [reflexivity|intros _; exact G]]. exists [Some 0]. unfold HP. cbn [tput_view t_mem t_size t_pos t_state]. unfold size.
    split; [reflexivity|]. split; [reflexivity|]. split; [lia|]. split; [lia|]. split; [reflexivity|now left].
  - exists (tput_state 0 s). unfold hstep. split; [reflexivity|]. split; [|split; [split; reflexivity|exact Hm]].
    split; [|split; [exact Ep|reflexivity]]. exists after. split; [exact M|]. split; [exact S|]. split; [exact B|]. split; [exact Q|]. split; [exact E|now left].
Qed.
Lemma hrun_ok fuel m isd : (m + 1 < fuel)%nat -> Z.of_nat m < 2 ^ 61 -> isd 0 = true -> forall ops d fresh q s, HInv d fresh q s -> (length d <= m)%nat ->
  (forall c, is_delim s c = isd c) -> isd (nth 0 (t_delims s) 0) = true -> all_possible m isd d fresh q ops ->
  exists s', hrun fuel ops s = Ok (s', Val (gives isd d q ops)).
Proof.
  intros Hf Hb H0. induction ops as [|o ops IH]; intros d fresh q s H Hm HD Hn HA; cbn [hrun gives]; [exists s; reflexivity|].
  cbn [all_possible] in HA. destruct HA as (Hp & HA). pose proof (hstep_ok fuel m isd d fresh q s o H Hm Hf Hb HD H0 Hn Hp) as St.
  destruct (moves isd d q o) as [[d' q'] r]. destruct St as (s1 & E1 & H1 & K & Hm1). unfold iobind. rewrite E1. cbn [bind].
  destruct (IH d' _ q' s1 H1 Hm1) as (s' & E').
  - intros c. rewrite <- HD. unfold is_delim. destruct K as (-> & _). reflexivity.
  - destruct K as (-> & _). exact Hn.
  - exact HA.
  - rewrite E'. cbn [bind ret]. exists s'. reflexivity.
Qed.

(** Every history of requests, characters, seeks, str () and str (t) calls on a
    stream over memory gives what a text with a position in it gives. *)
Theorem C237_memory_text fuel m dl txt after ops (isd := fun c => existsb (Z.eqb c) (0 :: dl)) :
  (length dl < 15)%nat -> (length txt <= m)%nat -> (m + 1 < fuel)%nat -> Z.of_nat m < 2 ^ 61 -> all_possible m isd txt true 0 ops ->
  exists s', hrun fuel ops (set_delimiters dl (iss_new txt after)) = Ok (s', Val (gives isd txt 0 ops)).
Proof.
  intros Hd Hl Hf Hb HA. apply (hrun_ok fuel m isd Hf Hb eq_refl ops txt true 0); [|exact Hl| | |exact HA].
  - split; [|split; [reflexivity|reflexivity]]. exists after. unfold HP, size. split; [reflexivity|]. split; [reflexivity|]. split; [lia|].
    cbn [set_delimiters iss_new t_pos t_state]. split; [lia|]. split; [reflexivity|now left].
  - intros c. apply is_delim_set, Hd.
  - pose proof (first_delim dl (iss_new txt after) Hd) as F. rewrite is_delim_set in F by exact Hd. exact F.
Qed.
Print Assumptions C237_memory_text.
Definition ops237 : list hop := [HGet; HRead (RLine 10); HTell; HUnget; HPeek; HSeek 1 Scur; HRead RWord; HText; HClear; HSeek 3 Send; HRead (RGet 3 10); HClear; HStr [120; 121]; HGet; HTell].
Example C237_example : all_possible 8 (fun c => existsb (Z.eqb c) [0; 32]) [97; 98; 10; 99; 32; 100] true 0 ops237 /\
  gives (fun c => existsb (Z.eqb c) [0; 32]) [97; 98; 10; 99; 32; 100] 0 ops237 =
    [GotChar 97; GotText [98]; GotPos 3; GotNothing; GotChar 10; GotNothing; GotText [99]; GotText [97; 98; 10; 99; 32; 100]; GotNothing; GotNothing; GotText [99; 32; 0]; GotNothing; GotNothing; GotChar 120; GotPos 1].
Proof.
  split; [|reflexivity]. cbn. repeat split; try (right; reflexivity); try (left; reflexivity); try lia; try discriminate.
  repeat constructor; discriminate.
Qed.

(** ** C238: a seek away from the end makes the stream good again: false. *)
(** Once a read has met the end, the stream stays at eof, wherever it is made to
    seek, though characters can be read there. *)
Theorem C238_eof_stays_refuted d after s n w : HP d after s [] -> t_remaining s = 0 -> 0 <= goes_to (size d) n d w < size d ->
  exists s1 s2, iss_underflow 1 s = Ok (s1, Val 0) /\ t_seekg n w s1 = Ok (s2, Val tt) /\
    t_pos s2 = goes_to (size d) n d w /\ t_remaining s2 = size d - goes_to (size d) n d w /\ t_state s2 = 6 /\ t_good s2 = false.
Proof.
  intros H R Hg. destruct (HP_uf d after s [] H R) as (s1 & E1 & H1 & _ & _ & A & _). destruct (A eq_refl) as (R1 & S1). rewrite R1 in E1.
  pose proof H1 as (M & S & B & Q & E & _). exists s1.
  assert (Ep : t_pos s1 = size d).
  { symmetry in E. apply (f_equal (@length Z)) in E. rewrite skipn_length in E. cbn [length] in E. unfold size in *. lia. }
  exists (tput_pos (goes_to (size d) n d w) s1). split; [exact E1|]. unfold t_seekg, t_seek.
  assert (Eg : u64 (match w with Sbeg => n | Scur => t_pos s1 + n | Send => t_size s1 - n end) = goes_to (size d) n d w).
  { rewrite Ep, S. fold (goes_to (size d) n d w). rewrite u64_id; [destruct w; reflexivity|]. destruct w; cbn [goes_to] in *; lia. }
  rewrite Eg. replace (t_size s1 <? goes_to (size d) n d w) with false by lia. split; [reflexivity|]. split; [reflexivity|].
  split; [|split; [exact S1|unfold t_good; cbn [tput_pos t_state]; rewrite S1; reflexivity]].
  unfold t_remaining. cbn [tput_pos t_size t_pos]. rewrite S. apply u64_id. lia.
Qed.
Print Assumptions C238_eof_stays_refuted.
Example C238_example : exists s, hrun 9 [HRead (RLine 10); HSeek 0 Sbeg; HGet] (iss_new [97; 98] []) = Ok (s, Val [GotText [97; 98]; GotNothing; GotChar 97]) /\ t_state s = 6.
Proof. eexists. split; [vm_compute; reflexivity|reflexivity]. Qed.

(** ** C239: what str () gives can be used as a C string: false. *)
(** The string is linked to the stream's memory; the conversion looks at the
    byte after it, which has to be zero. *)
Theorem C239_str_partial (h : MemModel.heap) b base txt after : nth_error h b = Some (MemModel.mkblk (map Some txt ++ Some 0 :: after) base MemModel.Foreign) ->
  StrConvModel.to_const_chars h (MemModel.mkmb (Some (b, 0)) (size txt) 0) = Ok (Some (b, 0)).
Proof.
  intros N. unfold StrConvModel.to_const_chars. cbn [MemModel.mptr MemModel.msize MemModel.padd]. rewrite Z.add_0_l.
  rewrite (MemProofs.load_ok' h b _ (size txt) 1 (map Some txt) [Some 0] after N eq_refl); [reflexivity|reflexivity| |reflexivity].
  rewrite map_length. reflexivity.
Qed.
Print Assumptions C239_str_partial.
Theorem C239_str_refuted (h : MemModel.heap) b base txt c after : c <> 0 ->
  nth_error h b = Some (MemModel.mkblk (map Some txt ++ Some c :: after) base MemModel.Foreign) ->
  StrConvModel.to_const_chars h (MemModel.mkmb (Some (b, 0)) (size txt) 0) = UB.
Proof.
  intros Hc N. unfold StrConvModel.to_const_chars. cbn [MemModel.mptr MemModel.msize MemModel.padd]. rewrite Z.add_0_l.
  rewrite (MemProofs.load_ok' h b _ (size txt) 1 (map Some txt) [Some c] after N eq_refl); [|reflexivity| |reflexivity].
  - cbn [bind]. destruct c; [congruence|reflexivity|reflexivity].
  - rewrite map_length. reflexivity.
Qed.
Print Assumptions C239_str_refuted.
Theorem C239_end_refuted (h : MemModel.heap) b base txt :
  nth_error h b = Some (MemModel.mkblk (map Some txt) base MemModel.Foreign) ->
  StrConvModel.to_const_chars h (MemModel.mkmb (Some (b, 0)) (size txt) 0) = UB.
Proof.
  intros N. unfold StrConvModel.to_const_chars. cbn [MemModel.mptr MemModel.msize MemModel.padd]. rewrite Z.add_0_l.
  unfold MemModel.load_n. change (1 =? 0) with false. cbn iota. unfold rd. rewrite N. cbn [bind MemModel.bkind MemModel.bcells MemModel.readable andb].
  match goal with |- context [if ?c then _ else _] => destruct c eqn:Q end; [|reflexivity]. exfalso.
  unfold size in Q. cbn in Q. apply andb_prop in Q. destruct Q as (_ & Q). rewrite map_length in Q. lia.
Qed.
Print Assumptions C239_end_refuted.
Example C239_example : StrConvModel.to_const_chars [MemModel.mkblk [Some 97; Some 98; Some 99] 4096 MemModel.Foreign] (MemModel.mkmb (Some (0%nat, 0)) 2 0) = UB.
Proof. reflexivity. Qed.
