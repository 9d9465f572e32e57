(** * Properties C234, C235: seekp and str() in text output streams. *)
From Verif Require Import Base UtilModel UtilProofs StoreModel StoreProofs VectorSpec MemModel MemSpec MemProofs StringModel StringProofs GrowProofs StreamModel FileModel VectorFacts
  OStrModel OStrSpec OStrProofs OStrRun OStrFile OStrExt OSeekModel OSeekSpec P_Text.
From Coq Require Import List ZArith ZifyBool ZifyNat Lia.
Import ListNotations.
Local Open Scope Z_scope.

Lemma seek_inv e nul s w p d : OInv e nul s w -> d <> End -> 0 <= target (length w) p d <= Z.of_nat (length w) ->
  exists s', s_seekp_dir p d s = Ok (s', Val tt) /\ OInv e nul s' (firstn (Z.to_nat (target (length w) p d)) w).
Proof.
  intros I Hd Ht. pose proof (OInv_bounds e nul s w I) as (B1 & B2 & _). destruct I as (Hn & P & St & B).
  assert (E : u64 (match d with Beg => p | Cur => s_pos s + p | End => s_vsize s - p end) = target (length w) p d).
  { destruct d; [| |destruct (Hd eq_refl)]; cbn [target] in *; rewrite u64_small; lia. }
  unfold s_seekp_dir. rewrite E. clear E. revert Ht. generalize (target (length w) p d). intros t Ht.
  unfold s_seekp. destruct (Z.ltb_spec (s_vsize s) t) as [Bad|_]; [exfalso; clear - Bad B1 Ht; lia|].
  eexists. split; [reflexivity|]. assert (L : length (firstn (Z.to_nat t) w) = Z.to_nat t) by (rewrite firstn_length; lia).
  split; [exact Hn|]. split; [rewrite L; cbn [sput_pos s_pos]; rewrite u64_small; lia|]. split; [exact St|].
  destruct B as [(C & Pm & Ms & V & ->)|(b & cells & Pm & Ho & C & Cb & F & V & Vp)].
  - left. cbn [sput_pos s_buf s_vsize]. rewrite firstn_nil. auto.
  - right. exists b, cells. cbn [sput_pos s_buf s_vsize s_heap s_vptr]. rewrite L.
    split; [exact Pm|]. split; [exact Ho|]. split; [exact C|]. split; [exact Cb|]. split; [|split; [lia|exact Vp]].
    rewrite <- firstn_map, <- F, firstn_firstn. f_equal. lia.
Qed.

Lemma xrun_inv e nul : enough_memory e -> forall ops s w, OInv e nul s w -> within w ops ->
  exists s', xrun e nul ops s = Ok (s', shows w ops) /\ OInv e nul s' (final_text w ops).
Proof.
  intros Hm. induction ops as [|o ops IH]; intros s w I Hw; [exists s; split; [reflexivity|exact I]|].
  destruct Hw as (Ho & Hw). cbn [xrun shows final_text].
  assert (exists s1, xstep e nul o s = Ok (s1, match o with XStr => Text (map Some w) | _ => Nothing end) /\ OInv e nul s1 (text_after w o)) as (s1 & E & I1).
  { destruct o as [o|p d|]; cbn [xstep text_after].
    - destruct (oss_step_ok e nul o s w I Ho) as (s1 & r & E & Q). rewrite E. cbn [bind].
      destruct Q as [(-> & I1)|(_ & (k & Hk & Hf) & _)]; [|rewrite Hm in Hf; [discriminate|lia]].
      exists s1. split; [reflexivity|exact I1].
    - destruct Ho as (Hd & Ht). destruct (seek_inv e nul s w p d I Hd Ht) as (s1 & E & I1). rewrite E. cbn [bind].
      exists s1. split; [reflexivity|exact I1].
    - destruct (oss_flush_ok e nul s w I) as (s1 & F & I1 & _ & _ & L). exists s1. split; [|exact I1].
      unfold oss_str, iobind. rewrite F. cbn [bind]. rewrite L. reflexivity. }
  rewrite E. cbn [bind]. destruct (IH s1 _ I1 Hw) as (s' & E' & I'). rewrite E'. cbn [bind]. exists s'. split; [reflexivity|exact I'].
Qed.

(** Any history of writes, flushes, clears, seeks to places before the position
    and str() calls, from a new stream: every str() gives the text before the
    position, and what is written after a seek replaces what was there. *)
Theorem C234_seek_and_str e nul h f ops s :
  has_nul h nul -> oss_default e nul h f = Ok s -> enough_memory e -> within [] ops ->
  exists s' s'', xrun e nul ops s = Ok (s', shows [] ops) /\ oss_str e nul s' = Ok (s'', Val (map Some (final_text [] ops))).
Proof.
  intros Hn E Hm Hw. destruct (oss_default_ok e nul h f Hn) as (s0 & E0 & I0 & _). rewrite E in E0. injection E0 as <-.
  destruct (xrun_inv e nul Hm ops s [] I0 Hw) as (s' & R & I').
  destruct (oss_flush_ok e nul s' _ I') as (s'' & F & _ & _ & _ & L).
  exists s', s''. split; [exact R|]. unfold oss_str, iobind. rewrite F. cbn [bind]. rewrite L. reflexivity.
Qed.
Print Assumptions C234_seek_and_str.
(** Not vacuous: "hello", back to 2, "LP!", the text, back one, the text. *)
Definition ops234 : list xop := [XOut (OWrite [104; 101; 108; 108; 111]); XSeek 2 Beg; XOut (OWrite [76; 80; 33]); XStr; XSeek (-1) Cur; XStr; XOut (OFormat [55; 55])].
Example C234_example : exists s s' s'', oss_default env0 lnul lit (mkf 0 0 [] [] []) = Ok s /\ within [] ops234 /\
  xrun env0 lnul ops234 s = Ok (s', [Nothing; Nothing; Nothing; Text (map Some [104; 101; 76; 80; 33]); Nothing; Text (map Some [104; 101; 76; 80]); Nothing]) /\
  oss_str env0 lnul s' = Ok (s'', Val (map Some [104; 101; 76; 80; 55; 55])).
Proof.
  eexists _, _, _. split; [reflexivity|]. split.
  { cbn. repeat split; try discriminate; try lia. }
  split; [vm_compute; reflexivity|]. vm_compute; reflexivity.
Qed.

(** ** C235: going back in a stream loses nothing: false. *)
(** str() after seekp (0) is empty, whatever was written. *)
Theorem C235_seek_back_refuted e nul h f t s :
  has_nul h nul -> oss_default e nul h f = Ok s -> enough_memory e -> Z.of_nat (length t) + 2 <= 2 ^ 31 ->
  exists s', xrun e nul [XOut (OWrite t); XStr; XSeek 0 Beg; XStr] s = Ok (s', [Nothing; Text (map Some t); Nothing; Text []]).
Proof.
  intros Hn E Hm Hl. destruct (C234_seek_and_str e nul h f [XOut (OWrite t); XStr; XSeek 0 Beg; XStr] s Hn E Hm) as (s' & s'' & R & _).
  - cbn [within text_after bytes_of app length target Nat.add]. split; [exact Hl|]. split; [exact Logic.I|]. split; [split; [discriminate|lia]|]. split; exact Logic.I.
  - exists s'. exact R.
Qed.
Print Assumptions C235_seek_back_refuted.
(** The str() in between has overwritten the first byte with a zero, which a
    seek to the end brings to light. *)
Theorem C235_str_changes_refuted : exists s s', oss_default env0 lnul lit (mkf 0 0 [] [] []) = Ok s /\
  xrun env0 lnul [XOut (OWrite [97; 98]); XSeek 0 Beg; XStr; XSeek 0 End; XStr] s =
    Ok (s', [Nothing; Nothing; Text []; Nothing; Text [Some 0; Some 98]]).
Proof. eexists _, _. split; [reflexivity|]. vm_compute. reflexivity. Qed.
Print Assumptions C235_str_changes_refuted.
(** After a number has been written the end is one place too far: a seek to the
    end adds a zero byte to the text. *)
Theorem C235_end_refuted : exists s s', oss_default env0 lnul lit (mkf 0 0 [] [] []) = Ok s /\
  xrun env0 lnul [XOut (OFormat [49; 50; 51]); XStr; XSeek 0 End; XOut (OWrite [33]); XStr] s =
    Ok (s', [Nothing; Text (map Some [49; 50; 51]); Nothing; Nothing; Text (map Some [49; 50; 51; 0; 33])]).
Proof. eexists _, _. split; [reflexivity|]. vm_compute. reflexivity. Qed.
Print Assumptions C235_end_refuted.

(** ** C236: str (s) sets the text, and writing goes on behind it. *)
Lemma resize_forgets e nul h p ms ms' c n : 0 < c -> str_resize e nul h (mkmb p ms c) n = str_resize e nul h (mkmb p ms' c) n.
Proof.
  intros H. unfold str_resize, resize, reserve, is_linked. cbn [mptr msize mcap]. replace (c =? 0) with false by lia.
  rewrite andb_false_r. destruct (Z.ltb_spec c (u64 (n + 1))) as [L|L]; [|reflexivity].
  replace (u64 (n + 1) <=? c) with false by lia. destruct p as [[b o]|].
  - unfold realloc. destruct (rd h b) as [k| | |]; try reflexivity. cbn [bind]. replace (u64 (n + 1) =? 0) with false by lia.
    destruct (malloc_ok e (u64 (n + 1))); [|reflexivity]. destruct (free h (Some (b, o))); reflexivity.
  - unfold realloc. destruct (malloc_ok e (u64 (n + 1))); reflexivity.
Qed.
Lemma set_str_inv e nul s w v t : enough_memory e -> OInv e nul s w -> another_string s v t -> Z.of_nat (length t) + 2 <= 2 ^ 31 ->
  exists s', oss_set_str e nul v s = Ok (s', Val tt) /\ OInv e nul s' t.
Proof.
  intros Hm I (Sv & El & Ne) Hl. destruct I as (Hn & P & St & B). rewrite Sv in El.
  assert (Lv : t = [] \/ exists b o, mptr v = Some (b, o) /\ (b < length (s_heap s))%nat).
  { destruct t as [|c t]; [now left|right]. unfold load_n in El. replace (Z.of_nat (length (c :: t)) =? 0) with false in El by (cbn [length]; lia).
    destruct (mptr v) as [[b o]|]; [|discriminate]. exists b, o. split; [reflexivity|]. unfold rd in El.
    destruct (nth_error (s_heap s) b) eqn:N; [|discriminate]. apply nth_error_Some. congruence. }
  (* the buffer as a block of MemProofs *)
  assert (exists m0 l0, (forall n, str_resize e nul (s_heap s) (s_buf s) n = str_resize e nul (s_heap s) m0 n) /\ Minv e (s_heap s) m0 l0 /\
    mcap m0 = mcap (s_buf s) /\ mptr m0 = mptr (s_buf s) /\ (mcap m0 = 0 \/ 2 <= mcap m0)) as (m0 & l0 & Er & Im & Cm & Pm & C2).
  { destruct B as [(C & Pm & Ms & V & ->)|(b & cells & Pm & Ho & C & Cb & F & V & Vp)].
    - exists (s_buf s), []. split; [reflexivity|]. split; [|split; [reflexivity|]; split; [reflexivity|]; now left].
      destruct (s_buf s) as [p0 n0 c0]. cbn [mptr msize mcap] in *. subst. exact (proj1 (nulstr_ok e nul (s_heap s) Hn)).
    - exists (mkmb (Some (b, 0)) (Z.of_nat (length w)) (mcap (s_buf s))), (map Some w). split; [|split; [|split; [reflexivity|]; split; [now rewrite Pm|]; right; exact (proj1 Cb)]].
      + intros n. destruct (s_buf s) as [p0 n0 c0]. cbn [mptr msize mcap] in *. subst p0. apply resize_forgets. lia.
      + split; [cbn [msize]; rewrite map_length; lia|]. right. split; [cbn [mcap]; lia|]. exists b, (skipn (length w) cells). cbn [mptr mcap].
        rewrite <- F, firstn_skipn. split; [reflexivity|]. split; [|lia]. unfold Own in Ho. rewrite C. exact Ho. }
  assert (Out : Outside (s_heap s) m0 (mptr v) (Z.of_nat (length t))).
  { destruct Lv as [->|(b & o & Ev & Lb)]; [now left|]. destruct Ne as [->|Ne]; [now left|]. right. exists b, o. split; [exact Ev|]. split; [|exact Lb].
    unfold owner. rewrite Pm. rewrite Ev in Ne. cbn [block_of] in Ne. destruct (mcap m0 =? 0); [discriminate|].
    destruct (mptr (s_buf s)) as [[b' o']|]; [|discriminate]. cbn [block_of] in Ne. congruence. }
  destruct (str_assign_ok e Hm nul (s_heap s) m0 l0 (mptr v) (Z.of_nat (length t)) (map Some t) Im Hn ltac:(lia) Out El) as (h' & m' & Ea & Step1 & Im' & _).
  assert (Ea' : str_assign_str e nul (s_heap s) (s_buf s) v = Ok (h', m')).
  { unfold str_assign_str. rewrite Sv. unfold str_assign in *. rewrite Er. exact Ea. }
  assert (Eh : exists hr, str_resize e nul (s_heap s) m0 (Z.of_nat (length t)) = Ok (hr, m')).
  { unfold str_assign in Ea. destruct (str_resize e nul (s_heap s) m0 (Z.of_nat (length t))) as [[hr mr]| | |]; try discriminate. cbn [bind] in Ea.
    exists hr. destruct (copy_n hr (mptr v) (Z.of_nat (length t)) (mptr mr)); try discriminate. cbn [bind] in Ea. injection Ea as _ <-. reflexivity. }
  destruct Eh as (hr & Eh). pose proof (str_resize_size _ _ _ _ _ _ _ Eh) as Sz.
  unfold oss_set_str, iobind, on_buf. rewrite Ea'. cbn [bind]. unfold link_buf. cbn [bind]. eexists. split; [reflexivity|].
  cbn [sput_mem sput_view sput_pos s_heap s_buf s_pos s_state s_vptr s_vsize].
  split; [exact (NulBlk_step e nul (s_heap s) m0 h' m' l0 Hn Im (Step_Step0 _ _ _ _ Step1))|].
  split; [cbn [sput_mem sput_view sput_pos s_heap s_buf s_pos s_state s_vptr s_vsize]; rewrite Sz, u64_small; lia|]. split; [exact St|].
  unfold Buf. cbn [sput_mem sput_view sput_pos s_heap s_buf s_pos s_state s_vptr s_vsize]. rewrite Sz.
  assert (Hc : 0 < Z.of_nat (length t) -> Z.of_nat (length t) + 1 <= mcap m').
  { intros Hp. destruct (str_resize_ok e Hm nul (s_heap s) m0 l0 (Z.of_nat (length t)) Im Hn ltac:(lia)) as (h2 & m2 & l2 & E2 & _ & _ & _ & _ & _ & C).
    rewrite Eh in E2. injection E2 as _ <-. exact (C Hp). }
  assert (Hz : t = [] -> mcap m0 = 0 -> m' = mkmb nul 0 0).
  { intros -> Z0. unfold str_resize in Eh. rewrite Z0 in Eh. cbn [length Z.of_nat Z.eqb andb] in Eh. now injection Eh as _ <-. }
  assert (Hk : t = [] -> 2 <= mcap m0 -> mcap m' = mcap m0).
  { intros -> G. rewrite (str_resize_kept e nul (s_heap s) m0 0 hr m' ltac:(lia) ltac:(lia) ltac:(lia) Eh). reflexivity. }
  destruct (list_eq_dec Z.eq_dec t []) as [Et|Et].
  - destruct C2 as [Z0|G].
    + rewrite (Hz Et Z0). left. rewrite Et. cbn. auto.
    + specialize (Hk Et G). right. destruct Im' as (_ & [(L0 & _)|(Cb & b & r & Pb & Nb & Lb)]); [lia|]. exists b, (map Some t ++ r).
      rewrite Et in *. cbn [map app length] in *. split; [exact Pb|]. split; [unfold Own; rewrite Lb; exact Nb|]. split; [lia|]. split; [lia|]. split; [reflexivity|].
      split; [lia|left; exact Pb].
  - assert (0 < Z.of_nat (length t)) by (destruct t; [congruence|cbn [length]; lia]). specialize (Hc H). right.
    destruct Im' as (_ & [(L0 & _)|(Cb & b & r & Pb & Nb & Lb)]); [lia|]. exists b, (map Some t ++ r).
    split; [exact Pb|]. split; [unfold Own; rewrite Lb; exact Nb|]. split; [lia|]. split; [lia|].
    split; [rewrite firstn_app, map_length, Nat.sub_diag, <- (map_length Some t), firstn_all; cbn [firstn]; apply app_nil_r|].
    split; [lia|left; exact Pb].
Qed.

(** Whatever was done with the stream before: str (v) makes its text that of
    the string v, and every history after that goes on from there. *)
Theorem C236_set_str e nul h f ops1 ops2 s s1 r1 v t :
  has_nul h nul -> oss_default e nul h f = Ok s -> enough_memory e -> within [] ops1 -> xrun e nul ops1 s = Ok (s1, r1) ->
  another_string s1 v t -> Z.of_nat (length t) + 2 <= 2 ^ 31 -> within t ops2 ->
  exists s2 s3 s4, oss_set_str e nul v s1 = Ok (s2, Val tt) /\ xrun e nul ops2 s2 = Ok (s3, shows t ops2) /\
    oss_str e nul s3 = Ok (s4, Val (map Some (final_text t ops2))).
Proof.
  intros Hn E Hm W1 R1 A Hl W2. destruct (oss_default_ok e nul h f Hn) as (s0 & E0 & I0 & _). rewrite E in E0. injection E0 as <-.
  destruct (xrun_inv e nul Hm ops1 s [] I0 W1) as (s1' & R & I1). rewrite R1 in R. injection R as <- _.
  destruct (set_str_inv e nul s1 _ v t Hm I1 A Hl) as (s2 & E2 & I2).
  destruct (xrun_inv e nul Hm ops2 s2 t I2 W2) as (s3 & R3 & I3).
  destruct (oss_flush_ok e nul s3 _ I3) as (s4 & F & _ & _ & _ & L).
  exists s2, s3, s4. split; [exact E2|]. split; [exact R3|]. unfold oss_str, iobind. rewrite F. cbn [bind]. rewrite L. reflexivity.
Qed.
Print Assumptions C236_set_str.
(** Not vacuous: "hi", then str ("abc") of a literal, then "!". *)
Example C236_example : exists s s1 r1 s2 s3,
  oss_default env0 lnul lit (mkf 0 0 [] [] []) = Ok s /\ xrun env0 lnul [XOut (OWrite [104; 105]); XStr] s = Ok (s1, r1) /\
  another_string s1 (mkmb (Some (1%nat, 0)) 3 0) [97; 98; 99] /\
  oss_set_str env0 lnul (mkmb (Some (1%nat, 0)) 3 0) s1 = Ok (s2, Val tt) /\
  xrun env0 lnul [XStr; XOut (OPut 33); XStr] s2 = Ok (s3, [Text (map Some [97; 98; 99]); Nothing; Text (map Some [97; 98; 99; 33])]).
Proof.
  eexists _, _, _, _, _. split; [reflexivity|]. split; [vm_compute; reflexivity|]. split.
  { split; [reflexivity|]. split; [reflexivity|]. right. cbn. discriminate. }
  split; [vm_compute; reflexivity|]. vm_compute; reflexivity.
Qed.
