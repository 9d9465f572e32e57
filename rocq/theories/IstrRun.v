(** * IstrRun: the text streams over memory and over files. *)
From Verif Require Import Base UtilModel UtilProofs StringFindModel StreamModel FileModel FileProofs IstrModel IstrSpec IstrProofs.
From Coq Require Import ZArith ZifyBool ZifyNat Lia.
Local Open Scope Z_scope.

Lemma view_move s w k : View s w -> (k <= length w)%nat -> View (tput_pos (t_pos s + Z.of_nat k) s) (skipn k w).
Proof.
  intros (pre & post & M & P & S & B) H. exists (pre ++ map Some (firstn k w)), post. cbn [tput_pos t_mem t_pos t_size].
  assert (L : length (firstn k w) = k) by (rewrite firstn_length; lia).
  split; [rewrite <- app_assoc, M; f_equal; rewrite app_assoc, <- map_app, firstn_skipn; reflexivity|].
  rewrite app_length, map_length, L, skipn_length. lia.
Qed.
Lemma view_gc s w g : View s w -> View (tput_gcount g s) w.
Proof. intros H. exact H. Qed.

(** ** istringstream *)
Definition IInv (s : ist) (txt : list Z) : Prop := View s txt /\ (t_state s = 0 \/ (t_state s = 6 /\ txt = [])).
Lemma IInv_view s txt : IInv s txt -> exists w rest, txt = w ++ rest /\ View s w.
Proof. intros (V & _). exists txt, []. rewrite app_nil_r. auto. Qed.
Lemma IInv_move s txt k : IInv s txt -> (Z.of_nat k <= t_remaining s) -> IInv (tput_pos (t_pos s + Z.of_nat k) s) (skipn k txt).
Proof.
  intros (V & S) R. rewrite (view_rem s txt V) in R. split; [apply view_move; [exact V|lia]|]. destruct S as [S|(S & ->)]; [left; exact S|]. right.
  split; [exact S|]. apply skipn_nil.
Qed.
Lemma IInv_gc s txt g : IInv s txt -> IInv (tput_gcount g s) txt.
Proof. intros H. exact H. Qed.
Lemma IInv_state s txt : IInv s txt -> t_state s = 0 \/ (t_state s = 6 /\ txt = []).
Proof. intros H. apply H. Qed.
Lemma IInv_uf s txt : IInv s txt -> t_remaining s = 0 ->
  exists s', iss_underflow 1 s = Ok (s', Val (t_remaining s')) /\ IInv s' txt /\ t_gcount s' = t_gcount s /\ kept s s' /\
    (txt = [] -> t_remaining s' = 0 /\ t_state s' = 6) /\ (txt <> [] -> 0 < t_remaining s').
Proof.
  intros (V & S) R. pose proof (view_rem s txt V) as Rw. assert (txt = []) as -> by (destruct txt; [reflexivity|cbn [length] in Rw; lia]).
  unfold iss_underflow, iobind, t_verify. rewrite R. change (1 <=? 0) with false. cbn iota. unfold iobind, t_overrun. cbn [bind].
  eexists. split; [reflexivity|]. assert (E : Z.lor (t_state s) (overrun_bits 0) = 6) by (destruct S as [->|(-> & _)]; reflexivity).
  rewrite E. split; [split; [exact V|right; split; reflexivity]|]. split; [reflexivity|]. split; [split; reflexivity|]. split; [intros _; split; [exact R|reflexivity]|congruence].
Qed.
Lemma IInv_new txt after : (Z.of_nat (length txt) < 2 ^ 61) -> IInv (iss_new txt after) txt.
Proof. intros H. split; [|left; reflexivity]. exists [], after. cbn. repeat split; try lia. Qed.

Definition i_getlines := getlines_ok iss_underflow IInv IInv_view IInv_move IInv_gc IInv_state IInv_uf.
Definition i_getline := getline_ok iss_underflow IInv IInv_view IInv_move IInv_gc IInv_state IInv_uf.
Definition i_words := read_words_ok iss_underflow IInv IInv_view IInv_move IInv_gc IInv_state IInv_uf.

(** A stream over memory never changes its view. *)
Lemma getline_size fuel d s : match getline iss_underflow fuel d s with Ok (s', _) => t_size s' = t_size s | _ => True end.
Proof.
  assert (U : forall n s, match iss_underflow n s with Ok (s', _) => t_size s' = t_size s | _ => True end).
  { intros n s0. unfold iss_underflow, iobind, t_verify, t_overrun. destruct (_ <=? _); reflexivity. }
  assert (Sk : forall n s, match t_skip n s with Ok (s', _) => t_size s' = t_size s | _ => True end).
  { intros n s0. unfold t_skip, t_seek, t_overrun. destruct (_ <? _); reflexivity. }
  assert (Mo : forall s, match t_more iss_underflow s with Ok (s', _) => t_size s' = t_size s | _ => True end).
  { intros s0. unfold t_more. destruct (_ =? 0); [|reflexivity]. unfold iobind. specialize (U 1 s0). destruct (iss_underflow 1 s0) as [[s1 [x|x]]| | |]; cbn [bind ret]; auto. }
  assert (Lo : forall fuel v s, match get_string_loop iss_underflow fuel d v s with Ok (s', _) => t_size s' = t_size s | _ => True end).
  { clear s fuel. induction fuel as [|fuel IH]; intros v s; cbn [get_string_loop]; [exact I|]. unfold iobind at 1. specialize (Mo s).
    destruct (t_more iss_underflow s) as [[s1 [[|]|x]]| | |]; cbn [bind ret]; auto.
    destruct (t_at (t_pos s1) s1); auto. destruct (_ =? d); auto. destruct (bind _ _) as [l| | |]; auto. unfold iobind at 1. specialize (Sk (Z.of_nat (length l)) s1).
    destruct (t_skip (Z.of_nat (length l)) s1) as [[s2 [q|q]]| | |]; cbn [bind]; auto; [|congruence]. unfold iobind at 1. cbn [bind].
    specialize (IH (v ++ l) (tput_gcount (t_gcount s2 + Z.of_nat (length l)) s2)). destruct (get_string_loop _ _ _ _ _) as [[s3 r]| | |]; auto. rewrite IH. cbn [tput_gcount t_size]. congruence. }
  unfold getline, get_string. unfold iobind at 1. unfold iobind at 1. cbn [bind]. specialize (Lo fuel [] (tput_gcount 0 s)).
  destruct (get_string_loop _ _ _ _ _) as [[s1 [v|x]]| | |]; cbn [bind]; auto. cbn [tput_gcount t_size] in Lo. unfold iobind at 1, take_delim. destruct (_ =? 0); [exact Lo|].
  destruct (t_at _ s1) as [c| | |]; auto. destruct (c =? d); cbn [bind]; auto. unfold iobind at 1. specialize (Sk 1 s1).
  destruct (t_skip 1 s1) as [[s2 [q|q]]| | |]; cbn [bind]; auto; try (cbn [tput_gcount t_size ret]; congruence). all: exact I.
Qed.

(** ** ifstream *)
Lemma retry_ok : forall fuel n f, (length (f_sched f) < fuel)%nat -> (1 <= n)%nat -> no_errors (f_sched f) -> (0 < answers (f_sched f))%nat ->
  exists c t, (1 <= c <= n)%nat /\ no_errors t /\ (answers (f_sched f) = S (answers t)) /\
    fread_retry fuel n f = Ok (mkf (f_state f) (f_exc f) (f_out f) (skipn c (f_in f)) t, Val (Got (firstn c (f_in f)))).
Proof.
  induction fuel as [|fuel IH]; intros n f Hf Hn HE HA; [lia|]. cbn [fread_retry]. unfold iobind, sys_read.
  destruct (f_sched f) as [|r t] eqn:Es; [cbn in HA; lia|]. inversion HE as [|? ? Hr HE']; subst. destruct r as [k| | |]; try contradiction.
  - cbn [bind]. exists (Nat.min (S k) n), t. split; [lia|]. split; [exact HE'|]. split; reflexivity.
  - cbn [bind]. destruct (IH n (mkf (f_state f) (f_exc f) (f_out f) (f_in f) t)) as (c & t' & Hc & Ht & Ha & E); cbn [f_sched f_state f_exc f_out f_in] in *;
      [cbn [length] in Hf; lia|exact Hn|exact HE'|exact HA|]. exists c, t'. auto.
Qed.
Lemma readsome_ok n f : (1 <= n)%nat -> f_exc f = 0 -> f_state f = 0 -> no_errors (f_sched f) -> (length (f_in f) < answers (f_sched f))%nat ->
  exists c t, (1 <= c <= n)%nat /\ no_errors t /\ (answers (f_sched f) = S (answers t)) /\
    freadsome n f = Ok (mkf (match f_in f with [] => 6 | _ => 0 end) 0 (f_out f) (skipn c (f_in f)) t, Val (firstn c (f_in f))).
Proof.
  intros Hn Hx Hs HE HA. unfold freadsome, iobind. destruct (retry_ok (S (length (f_sched f))) n f ltac:(lia) Hn HE ltac:(lia)) as (c & t & Hc & Ht & Ha & E).
  rewrite E. cbn [bind]. exists c, t. split; [exact Hc|]. split; [exact Ht|]. split; [exact Ha|].
  destruct (f_in f) as [|x l]; [rewrite firstn_nil, skipn_nil|destruct c as [|c]; [lia|]; cbn [firstn]].
  - unfold f_fail. cbn [f_exc f_state f_out f_in f_sched]. rewrite Hx, Hs. cbn. reflexivity.
  - rewrite Hs, Hx. reflexivity.
Qed.

(** [rsv]: answers of read(2) left over for what comes later. *)
Section Reserve.
Variable rsv : nat.
Definition FInvR (s : ist) (txt : list Z) : Prop :=
  exists w, View s w /\ txt = w ++ f_in (t_file s) /\
    ((t_state s = 0 /\ f_state (t_file s) = 0 /\ (length (f_in (t_file s)) + rsv < answers (f_sched (t_file s)))%nat) \/
     (t_state s = 6 /\ f_state (t_file s) = 6 /\ txt = [] /\ (rsv <= answers (f_sched (t_file s)))%nat)) /\
    f_exc (t_file s) = 0 /\ no_errors (f_sched (t_file s)) /\ t_size s <= b_size s < 2 ^ 60.

Lemma FInvR_view s txt : FInvR s txt -> exists w rest, txt = w ++ rest /\ View s w.
Proof. intros (w & V & E & _). exists w, (f_in (t_file s)). auto. Qed.
Lemma FInvR_move s txt k : FInvR s txt -> (Z.of_nat k <= t_remaining s) -> FInvR (tput_pos (t_pos s + Z.of_nat k) s) (skipn k txt).
Proof.
  intros (w & V & E & S & X & N & B) R. rewrite (view_rem s w V) in R. exists (skipn k w). split; [apply view_move; [exact V|lia]|].
  split; [rewrite E, skipn_app; replace (k - length w)%nat with 0%nat by lia; reflexivity|].
  split; [|auto]. destruct S as [S|(S1 & S2 & -> & S3)]; [left; exact S|right]. split; [exact S1|]. split; [exact S2|]. split; [apply skipn_nil|exact S3].
Qed.
Lemma FInvR_gc s txt g : FInvR s txt -> FInvR (tput_gcount g s) txt.
Proof. intros H. exact H. Qed.
Lemma FInvR_state s txt : FInvR s txt -> t_state s = 0 \/ (t_state s = 6 /\ txt = []).
Proof. intros (w & V & E & S & _). destruct S as [S|S]; [left|right]; tauto. Qed.

Lemma erase_front_length k n (m : list (option Z)) : (k <= n)%nat -> (n <= length m)%nat -> length (erase_front k n m) = length m.
Proof. intros H1 H2. unfold erase_front. rewrite !app_length, !firstn_length, !skipn_length. lia. Qed.
Lemma buf_resize_length n m : (1 <= length m)%nat -> length (buf_resize n m) = S n.
Proof. intros H. unfold buf_resize. rewrite !app_length, !firstn_length, repeat_length. cbn [length]. lia. Qed.
Lemma upd_some {A} (l : list A) i x : (i < length l)%nat -> upd l i x = Some (firstn i l ++ x :: skipn (S i) l).
Proof.
  revert i. induction l as [|a l IH]; intros [|i] H; cbn [length] in H; try lia; [reflexivity|].
  cbn [upd]. rewrite IH by lia. reflexivity.
Qed.

(** Reading into an empty view: the rest of [ifs_underflow]. *)
Lemma fill_ok s old fuel (K := fun br => fun s : ist =>
     let s := tput_state (f_state (t_file s)) s in
     match upd (t_mem s) (Z.to_nat br) (Some 0) with
     | Some m => t_seek old (tput_view m br s)
     | None => UB
     end) :
  0 <= old -> old + 1 <= b_size s < 2 ^ 60 -> (1 < fuel)%nat ->
  f_exc (t_file s) = 0 -> f_state (t_file s) = 0 -> no_errors (f_sched (t_file s)) -> (length (f_in (t_file s)) + rsv < answers (f_sched (t_file s)))%nat ->
  exists s', (br <~ fill_loop fuel old (old + 1) ;; K br) s = Ok (s', Val tt) /\ FInvR s' (f_in (t_file s)) /\
    t_gcount s' = t_gcount s /\ kept s s' /\ (f_in (t_file s) = [] -> t_remaining s' = 0 /\ f_state (t_file s') = 6) /\
    (f_in (t_file s) <> [] -> 0 < t_remaining s' /\ f_state (t_file s') = 0).
Proof.
  intros Ho Hb Hf Hx Hs HN HA. destruct fuel as [|[|fuel]]; [lia|lia|]. unfold iobind at 1. cbn [fill_loop].
  unfold f_good at 1. rewrite Hs. replace (old <? old + 1) with true by lia. cbn [andb Z.eqb].
  destruct (readsome_ok (Z.to_nat (b_size s - old)) (t_file s)) as (c & t & Hc & Ht & Ha & E); [lia|exact Hx|exact Hs|exact HN|lia|].
  rewrite E. clear E. remember (f_in (t_file s)) as l0 eqn:El0. set (m := t_mem s) in *.
  assert (Lm : Z.of_nat (length m) = b_size s + 1) by (unfold b_size, m in *; lia).
  assert (Lp : length (firstn (Z.to_nat old) m) = Z.to_nat old) by (rewrite firstn_length; lia).
  destruct l0 as [|x l].
  - rewrite firstn_nil, skipn_nil. cbn [length app map bind]. unfold K. cbn [tput_file tput_state t_mem t_file t_size t_pos t_state t_gcount t_delims t_base f_state].
    fold m. rewrite Nat.add_0_r, firstn_skipn, upd_some by lia. unfold t_seek. cbn [tput_view t_size]. rewrite Z.ltb_irrefl.
    eexists. split; [reflexivity|]. cbn [tput_view tput_pos tput_state t_gcount t_file f_state]. split; [|split; [reflexivity|split; [split; reflexivity|split; [|congruence]]]].
    + exists []. unfold View, b_size. cbn [tput_pos tput_view tput_state t_mem t_file t_size t_pos t_state t_gcount t_delims t_base f_state f_in f_exc f_sched app map length].
      split. { exists (firstn (Z.to_nat old) m), (Some 0 :: skipn (S (Z.to_nat old)) m). split; [reflexivity|]. rewrite Lp. lia. }
      split; [reflexivity|]. split; [right; cbn [length] in HA; repeat (split; [reflexivity|]); lia|]. split; [reflexivity|]. split; [exact Ht|]. rewrite app_length, Lp. cbn [length]. rewrite skipn_length. lia.
    + intros _. split; [|reflexivity]. unfold t_remaining. cbn [tput_pos tput_view tput_state t_size t_pos]. rewrite u64_id; lia.
  - destruct c as [|c]; [lia|]. cbn [firstn]. set (d := x :: firstn c l) in *.
    assert (Ld : (1 <= length d <= S c)%nat). { unfold d. cbn [length]. rewrite firstn_length. lia. }
    set (m2 := firstn (Z.to_nat old) m ++ map Some d ++ skipn (Z.to_nat old + length d) m).
    assert (Lm2 : length m2 = length m). { unfold m2. rewrite !app_length, map_length, Lp, skipn_length. lia. }
    assert (Hm2 : firstn (Z.to_nat (old + Z.of_nat (length d))) m2 = firstn (Z.to_nat old) m ++ map Some d).
    { unfold m2. rewrite app_assoc, firstn_app. rewrite firstn_all2 by (rewrite app_length, map_length; lia).
      rewrite app_length, map_length. replace (_ - _)%nat with 0%nat by lia. apply app_nil_r. }
    cbn [fill_loop]. replace (old + Z.of_nat (length d) <? old + 1) with false by lia. cbn [andb bind].
    unfold K. cbn [tput_file tput_state t_mem t_file t_size t_pos t_state t_gcount t_delims t_base f_state]. fold m. fold m2.
    rewrite upd_some by lia. unfold t_seek. cbn [tput_view t_size]. replace (old + Z.of_nat (length d) <? old) with false by lia.
    eexists. split; [reflexivity|]. cbn [tput_view tput_pos tput_state t_gcount t_file f_state]. split; [|split; [reflexivity|split; [split; reflexivity|split; [congruence|]]]].
    + exists d. unfold View, b_size. cbn [tput_pos tput_view tput_state t_mem t_file t_size t_pos t_state t_gcount t_delims t_base f_state f_in f_exc f_sched]. change (skipn (S c) (x :: l)) with (skipn c l).
      split. { exists (firstn (Z.to_nat old) m), (Some 0 :: skipn (S (Z.to_nat (old + Z.of_nat (length d)))) m2). split; [rewrite Hm2, <- app_assoc; reflexivity|]. rewrite Lp. lia. }
      split; [unfold d; rewrite <- app_comm_cons, firstn_skipn; reflexivity|]. split; [left; split; [reflexivity|split; [reflexivity|]]|].
      { cbn [length] in HA. rewrite skipn_length. lia. }
      split; [reflexivity|]. split; [exact Ht|]. rewrite app_length, Hm2, app_length, map_length, Lp. cbn [length]. rewrite skipn_length, Lm2. lia.
    + intros _. split; [|reflexivity]. unfold t_remaining. cbn [tput_pos tput_view tput_state t_size t_pos]. rewrite u64_id; lia.
Qed.

Lemma FInvR_uf s txt : FInvR s txt -> t_remaining s = 0 ->
  exists s', ifs_underflow 1 s = Ok (s', Val (t_remaining s')) /\ FInvR s' txt /\ t_gcount s' = t_gcount s /\ kept s s' /\
    (txt = [] -> t_remaining s' = 0 /\ t_state s' = 6) /\ (txt <> [] -> 0 < t_remaining s').
Proof.
  intros (w & V & E & S & X & N & B) R. pose proof (view_rem s w V) as Rw. assert (w = []) as -> by (destruct w; [reflexivity|cbn [length] in Rw; lia]).
  cbn [app] in E. destruct V as (pre & post & M & Ps & Sz & Bd). cbn [length map app] in *.
  destruct S as [(S1 & S2 & S3)|(S1 & S2 & S3 & S4)].
  - unfold ifs_underflow. unfold iobind at 1. rewrite S2. change (Z.land 0 eofbit =? 0) with true. cbn iota.
    set (needed := Z.max 1 (b_size s / 2)). set (free := b_size s - t_pos s).
    assert (Hhalf : 0 <= b_size s / 2 <= b_size s). { split; [apply Z.div_pos; lia|]. apply Z.div_le_upper_bound; lia. }
    destruct (align_ok (Z.max 0 (needed - free)) 8) as (ought & Ea & _ & Ha); [lia|lia|unfold two64, needed, free; lia|]. rewrite Ea.
    set (k := Z.min (t_pos s) ought). set (old := t_pos s - k).
    set (m := erase_front (Z.to_nat k) (Z.to_nat (b_size s)) (t_mem s)).
    assert (Lm0 : Z.of_nat (length (t_mem s)) = b_size s + 1) by (unfold b_size; lia).
    assert (Lm : length m = length (t_mem s)). { unfold m. apply erase_front_length; unfold k; lia. }
    cbn zeta. set (s1 := mkt m (t_size s) (t_pos s) (t_state s) (t_gcount s) (t_delims s) (t_base s) (t_file s)).
    assert (B1 : b_size s1 = b_size s). { unfold b_size at 1. cbn [s1 t_mem]. lia. }
    set (s2 := if b_size s1 - old <? 1 then tput_view (buf_resize (Z.to_nat (old + needed)) (t_mem s1)) 0 s1 else s1).
    assert (H2 : 0 <= old /\ old + 1 <= b_size s2 < 2 ^ 60 /\ t_file s2 = t_file s /\ t_gcount s2 = t_gcount s /\ kept s s2).
    { unfold s2. rewrite B1. destruct (Z.ltb_spec (b_size s - old) 1) as [L|L].
      - unfold b_size at 1 2. cbn [tput_view t_mem s1]. rewrite buf_resize_length by lia.
        assert (0 <= old /\ old = 0 /\ b_size s = 0) by (unfold old, k, needed, free in *; lia).
        split; [lia|]. split; [unfold needed; lia|]. split; [reflexivity|]. split; [reflexivity|split; reflexivity].
      - rewrite B1. unfold old, k. split; [lia|]. split; [unfold old, k in *; lia|]. split; [reflexivity|]. split; [reflexivity|split; reflexivity]. }
    clearbody s2. destruct H2 as (Ho & Hb & F2 & G2 & K2).
    assert (Fl : (1 < S (length (f_sched (t_file s2))))%nat). { rewrite F2. destruct (f_sched (t_file s)); [cbn in S3; lia|cbn [length]; lia]. }
    rewrite <- F2 in S2, S3, X, N, E.
    destruct (fill_ok s2 old _ Ho Hb Fl X S2 N S3) as (s' & Es & H' & G' & K' & A' & B').
    cbn zeta in Es. rewrite Es. cbn [bind]. rewrite <- E in *.
    assert (Kk : kept s s') by exact (kept_trans _ _ _ K2 K').
    destruct txt as [|c txt].
    + destruct (A' eq_refl) as (R' & St'). unfold iobind at 1. rewrite St'. change (Z.land 6 eofbit =? 0) with false. cbn iota.
      unfold iobind at 1, t_verify. rewrite R'. change (1 <=? 0) with false. cbn iota. unfold iobind, t_overrun. cbn [bind].
      destruct H' as (w' & V' & E' & S' & X' & N' & Bb').
      assert (Ts : t_state s' = 6). { destruct S' as [(_ & S' & _)|(S' & _)]; [congruence|exact S']. }
      exists s'. rewrite Ts. change (Z.lor 6 (overrun_bits 0)) with 6. replace (tput_state 6 s') with s' by (destruct s'; cbn in *; rewrite Ts; reflexivity).
      split; [reflexivity|]. split; [exists w'; auto 10|]. split; [congruence|]. split; [exact Kk|]. split; [auto|congruence].
    + destruct (B' ltac:(discriminate)) as (R' & St'). unfold iobind at 1. rewrite St'. change (Z.land 0 eofbit =? 0) with true. cbn [bind].
      exists s'. split; [reflexivity|]. split; [exact H'|]. split; [congruence|]. split; [exact Kk|]. split; [congruence|auto].
  - unfold ifs_underflow. unfold iobind at 1. rewrite S2. change (Z.land 6 eofbit =? 0) with false. cbn [bind]. unfold iobind at 1. rewrite S2. change (Z.land 6 eofbit =? 0) with false. cbn iota.
    unfold iobind at 1, t_verify. rewrite R. change (1 <=? 0) with false. cbn iota. unfold iobind, t_overrun. cbn [bind]. rewrite S1.
    change (Z.lor 6 (overrun_bits 0)) with 6. replace (tput_state 6 s) with s by (destruct s; cbn in *; rewrite S1; reflexivity).
    exists s. split; [reflexivity|]. split; [|split; [reflexivity|split; [apply kept_refl|split; [auto|congruence]]]].
    exists []. split; [exists pre, post; cbn [length map app]; auto|]. split; [exact E|]. split; [right; auto|]. auto.
Qed.
Lemma FInvR_new sz f : readable f -> (length (f_in f) + rsv < answers (f_sched f))%nat -> (Z.of_nat sz < 2 ^ 60) -> FInvR (ifs_new sz f) (f_in f).
Proof.
  intros (S & X & N & A) A' H. exists []. unfold View, b_size, ifs_new. cbn [t_mem t_size t_pos t_state t_file map app length]. rewrite S.
  split; [exists [], (repeat None sz ++ [Some 0]); cbn; auto with zarith|]. split; [reflexivity|]. split; [left; auto|]. rewrite app_length, repeat_length. cbn [length]. split; [exact X|]. split; [exact N|]. lia.
Qed.
End Reserve.
Definition FInv := FInvR 0.
Definition FInv_view := FInvR_view 0.
Definition FInv_move := FInvR_move 0.
Definition FInv_gc := FInvR_gc 0.
Definition FInv_state := FInvR_state 0.
Definition FInv_uf := FInvR_uf 0.
Lemma FInv_new sz f : readable f -> (Z.of_nat sz < 2 ^ 60) -> FInv (ifs_new sz f) (f_in f).
Proof. intros R. apply FInvR_new; [exact R|]. destruct R as (_ & _ & _ & R). rewrite Nat.add_0_r. exact R. Qed.
Definition f_getlines := getlines_ok ifs_underflow FInv FInv_view FInv_move FInv_gc FInv_state FInv_uf.
Definition f_getline := getline_ok ifs_underflow FInv FInv_view FInv_move FInv_gc FInv_state FInv_uf.
Definition f_words := read_words_ok ifs_underflow FInv FInv_view FInv_move FInv_gc FInv_state FInv_uf.

(** ** Delimiters *)
Lemma existsb_repeat0 c n : existsb (Z.eqb c) (repeat 0 n) = (match n with O => false | _ => c =? 0 end).
Proof. induction n as [|n IH]; [reflexivity|]. cbn [repeat existsb]. rewrite IH. destruct n; [apply orb_false_r|apply orb_diag]. Qed.
Lemma is_delim_set dl s c : (length dl < 15)%nat -> is_delim (set_delimiters dl s) c = existsb (Z.eqb c) (0 :: dl).
Proof.
  intros H. unfold is_delim, set_delimiters, delimiters. cbn [t_delims]. rewrite (firstn_all2 dl) by lia.
  rewrite firstn_app, (firstn_all2 dl) by lia. rewrite existsb_app.
  assert (E : firstn (15 - length dl) (repeat 0 (16 - length dl)) = repeat 0 (15 - length dl)).
  { replace (16 - length dl)%nat with ((15 - length dl) + 1)%nat by lia. rewrite repeat_app, firstn_app, repeat_length, Nat.sub_diag, app_nil_r. apply firstn_all2. rewrite repeat_length. lia. }
  rewrite E, existsb_repeat0. cbn [existsb]. replace (15 - length dl)%nat with (S (14 - length dl)) by lia. apply orb_comm.
Qed.
Lemma first_delim dl s : (length dl < 15)%nat -> is_delim (set_delimiters dl s) (nth 0 (t_delims (set_delimiters dl s)) 0) = true.
Proof.
  intros H. rewrite is_delim_set by exact H. unfold set_delimiters, delimiters. cbn [t_delims].
  destruct dl as [|x dl]; [reflexivity|]. cbn [firstn app nth existsb]. rewrite Z.eqb_refl. apply orb_true_iff. right. reflexivity.
Qed.
Lemma wordof_ext p q l : (forall c, p c = q c) -> wordof p l = wordof q l.
Proof. intros E. induction l as [|c l IH]; cbn [wordof]; [reflexivity|]. rewrite E, IH. reflexivity. Qed.
Lemma skipd_ext p q l : (forall c, p c = q c) -> skipd p l = skipd q l.
Proof. intros E. induction l as [|c l IH]; cbn [skipd]; [reflexivity|]. rewrite E, IH. reflexivity. Qed.
Lemma answers_ext p q : (forall c, p c = q c) -> forall ops l, answers_to p ops l = answers_to q ops l.
Proof.
  intros E. induction ops as [|r ops IH]; intros l; cbn [answers_to]; [reflexivity|].
  assert (A : answer p r l = answer q r l). { destruct r; cbn [answer]; [reflexivity| |reflexivity]. rewrite (skipd_ext p q) by exact E. rewrite (wordof_ext p q) by exact E. reflexivity. }
  rewrite A. destruct (answer q r l). rewrite IH. reflexivity.
Qed.
Lemma words_ext p q l : (forall c, p c = q c) -> words p l = words q l.
Proof. intros E. induction l as [|c l IH]; cbn [words]; [reflexivity|]. rewrite E, IH. destruct (q c); [reflexivity|]. destruct l; [reflexivity|]. rewrite E. reflexivity. Qed.
Lemma IInv_set dl s txt : IInv s txt -> IInv (set_delimiters dl s) txt.
Proof. intros H. exact H. Qed.
Lemma FInv_set dl s txt : FInv s txt -> FInv (set_delimiters dl s) txt.
Proof. intros H. exact H. Qed.
Definition i_reads := read_all_ok iss_underflow IInv IInv_view IInv_move IInv_gc IInv_state IInv_uf.
Definition f_reads := read_all_ok ifs_underflow FInv FInv_view FInv_move FInv_gc FInv_state FInv_uf.
Definition i_quoted := quoted_ok iss_underflow IInv IInv_view IInv_move IInv_gc IInv_state IInv_uf.
Definition i_sentence := sentence_ok iss_underflow IInv IInv_view IInv_move IInv_gc IInv_state IInv_uf.
Definition i_escaped := escaped_ok iss_underflow IInv IInv_view IInv_move IInv_gc IInv_state IInv_uf.
