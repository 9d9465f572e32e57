(** * P_Fill: fill and fill_n of 2- and 4-byte elements (C89, C90). *)
From Verif Require Import Base UtilModel ByteModel ByteSpec ByteProofs FillModel FillSpec FillProofs.
From Coq Require Import ZArith ZifyBool ZifyNat.
Local Open Scope Z_scope.

(** ** C89: the fill is right when the range is not larger than its address
    (half of it for shorts, three quarters for ints). *)
Theorem C89_fill_16_32 {A} (m : mem A) dest n v :
  length v = 2%nat \/ length v = 4%nat -> 0 <= dest < 2 ^ 64 - 15 -> 0 <= n ->
  let es := Z.of_nat (length v) in
  es * n <= (es - 1) * dest -> es * n < 2 ^ 64 -> mapped m dest (es * n) ->
  exists m', fill_n_fast m dest n v = Ok m' /\ filled_with m dest n v m'.
Proof.
  intros Hv Hd Hn es Hs Hb Hm. subst es.
  assert (He : 0 < Z.of_nat (length v)) by lia.
  assert (H8 : (8 / length v * length v = 8)%nat) by (destruct Hv as [-> | ->]; reflexivity).
  pose proof (written_small v He H8 dest n ltac:(lia) Hs) as W.
  destruct (fill_n_fast_ok v He H8 m dest n) as (m' & E & F); [exact Hd|exact Hn|exact Hb|rewrite W; exact Hm|].
  rewrite W in F. eauto.
Qed.
Print Assumptions C89_fill_16_32.

Example C89_example : exists m', fill_n_fast (fun a => if (4000 <=? a) && (a <? 5000) then Some 0 else None) 4098 100 [7; 8] = Ok m' /\
  m' 4098 = Some 7 /\ m' 4297 = Some 8 /\ m' 4298 = Some 0 /\ m' 4097 = Some 0.
Proof. eexists. split; [lazy; reflexivity|]. repeat split. Qed.

(** ** C90: for larger ranges it writes past the end. *)
Theorem C90_fill_refuted {A} (m : mem A) dest n v :
  length v = 2%nat \/ length v = 4%nat -> 0 <= dest < 2 ^ 64 - 15 -> 0 <= n ->
  let es := Z.of_nat (length v) in
  let h := (dest + 15) / 16 * 16 - dest / es in
  h < n -> 32 <= es * ((n - h) mod 32) -> es * n < 2 ^ 64 -> mapped m dest (es * (n + 32)) ->
  exists m', fill_n_fast m dest n v = Ok m' /\
    forall j, 0 <= j < es -> m' (dest + es * n + j) = nth_error v (Z.to_nat j).
Proof.
  intros Hv Hd Hn es h Hs Hr Hb Hm.
  assert (He : 0 < Z.of_nat (length v)) by lia.
  assert (H8 : (8 / length v * length v = 8)%nat) by (destruct Hv as [-> | ->]; reflexivity).
  pose proof (written_more v He H8 dest n Hs Hr) as W.
  assert (W2 : written v dest n <= n + 32).
  { unfold written. fold (head v dest) in h. change (head v dest) with h. destruct (n <=? h); [lia|].
    set (c := n - h) in *. assert (0 <= c) by (unfold c; lia). replace n with (h + c) by (unfold c; lia).
    pose proof (Z.mod_pos_bound c 32 ltac:(lia)). pose proof (Z.mul_div_le (c * Z.of_nat (length v)) 32 ltac:(lia)).
    assert (4 * Z.of_nat (8 / length v) * (c * Z.of_nat (length v) / 32) <= c); [|lia].
    clearbody c h. clear - He Hv H0 H1. destruct Hv as [E|E]; rewrite E in *.
    - change (8 / 2)%nat with 4%nat. change (Z.of_nat 4) with 4. change (Z.of_nat 2) with 2 in *. lia.
    - change (8 / 4)%nat with 2%nat. change (Z.of_nat 2) with 2. change (Z.of_nat 4) with 4 in *. lia. }
  destruct (fill_n_fast_ok v He H8 m dest n) as (m' & E & F); [exact Hd|exact Hn|exact Hb| |].
  { intros x Hx. apply Hm. fold es in Hx, Hm |- *. nia. }
  exists m'. split; [exact E|]. intros j Hj. rewrite F. fold es.
  assert (es * n + es <= es * written v dest n) by (fold es in W; nia).
  replace ((dest <=? dest + es * n + j) && (dest + es * n + j <? dest + es * written v dest n)) with true by (assert (0 <= es * n) by nia; lia).
  f_equal. f_equal. replace (dest + es * n + j - dest) with (j + n * es) by lia. rewrite Z_mod_plus_full. apply Z.mod_small. lia.
Qed.
Print Assumptions C90_fill_refuted.

(** A static array of 4194304 ints at an address where linkers put the data of
    a program that is not position independent. *)
Example C90_example :
  let dest := 4210752 in let n := 4194304 in
  let h := (dest + 15) / 16 * 16 - dest / 4 in h < n /\ 32 <= 4 * ((n - h) mod 32).
Proof. cbv zeta. split; [reflexivity|vm_compute; discriminate]. Qed.
Example C90_small : exists m', fill_n_fast (fun a => if (0 <? a) && (a <? 400) then Some 0 else None) 16 20 [1; 2; 3; 4] = Ok m' /\
  m' 96 = Some 1 /\ m' 127 = Some 4.
Proof. eexists. split; [lazy; reflexivity|]. repeat split. Qed.
