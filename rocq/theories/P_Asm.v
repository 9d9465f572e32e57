(** * Properties C203-C205: the SIMD statements and the program around them *)

From Verif Require Import AsmModel AsmSpec AsmProofs.
From Coq Require Import ZArith List Lia.
Import ListNotations.
Local Open Scope Z_scope.

(** C203.  From every state of the registers and for whatever the compiler's code
    does to the registers between two statements ([g]), the operations store
    exactly their result. *)
Theorem C203_results {E} (zero : E) (f : E -> E -> E) (cv : E -> E) (g : nat -> gap E) (a b : Z) (s : mach E) :
  (let s' := exec zero (tuple4_new b) s in
   cells (memo s') b 4 = repeat zero 4 /\ only [(b, 4%nat)] (memo s) (memo s')) /\
  (let s' := exec zero (tuple16_new b) s in
   cells (memo s') b 16 = repeat zero 16 /\ only [(b, 16%nat)] (memo s) (memo s')) /\
  (let s' := exec zero (packop4 f a b) s in
   cells (memo s') b 4 = map2 f (cells (memo s) b 4) (cells (memo s) a 4) /\ only [(b, 4%nat)] (memo s) (memo s')) /\
  (let s' := body zero g (mmx_packop f a b) s in
   cells (memo s') b 2 = map2 f (cells (memo s) b 2) (cells (memo s) a 2) /\ only [(b, 2%nat)] (memo s) (memo s') /\ mmx s' = false) /\
  (let s' := body zero g (mmx_dbl_packop f a b) s in
   cells (memo s') b 4 = map2 f (cells (memo s) b 4) (cells (memo s) a 4) /\ only [(b, 4%nat)] (memo s) (memo s') /\ mmx s' = false) /\
  (let s' := body zero g (round4 cv a b) s in
   cells (memo s') b 4 = map cv (cells (memo s) a 4) /\ only [(b, 4%nat)] (memo s) (memo s') /\ mmx s' = false) /\
  (let s' := exec zero (float4 cv a b) s in
   cells (memo s') b 4 = map cv (cells (memo s) a 4) /\ only [(b, 4%nat)] (memo s) (memo s')).
Proof.
  split; [apply e_tuple4_new|]. split; [apply e_tuple16_new|]. split; [apply e_packop4|]. split; [apply e_mmx_packop|].
  split; [apply e_mmx_dbl_packop|]. split; [apply e_round4|]. apply e_float4.
Qed.
Print Assumptions C203_results.

(** Copies; the tuples are the same object or have no byte in common. *)
Theorem C203_copies {E} (zero : E) (g : nat -> gap E) (a b : Z) (s : mach E) :
  (a = b \/ apart a 4 b 4 ->
   let s' := exec zero (passign4 a b) s in
   cells (memo s') b 4 = cells (memo s) a 4 /\ only [(b, 4%nat)] (memo s) (memo s')) /\
  (a = b \/ apart a 16 b 16 ->
   let s' := body zero g (passign16 a b) s in
   cells (memo s') b 16 = cells (memo s) a 16 /\ only [(b, 16%nat)] (memo s) (memo s')) /\
  (let s' := body zero g (mmx_passign a b) s in
   cells (memo s') b 2 = cells (memo s) a 2 /\ only [(b, 2%nat)] (memo s) (memo s') /\ mmx s' = false) /\
  (let s' := body zero g (mmx_dbl_passign a b) s in
   cells (memo s') b 4 = cells (memo s) a 4 /\ only [(b, 4%nat)] (memo s) (memo s') /\ mmx s' = false) /\
  (let s' := exec zero (block_copy a b) s in
   cells (memo s') b 8 = cells (memo s) a 8 /\ only [(b, 8%nat)] (memo s) (memo s')).
Proof.
  split; [|split; [|split; [|split]]].
  - intros H. apply e_passign4. exact H.
  - intros H. apply e_passign16. exact H.
  - apply e_mmx_passign.
  - apply e_mmx_dbl_passign.
  - apply e_block_copy.
Qed.
Print Assumptions C203_copies.

Theorem C203_swap {E} (zero : E) (a b : Z) (s : mach E) : a = b \/ apart a 4 b 4 ->
  let s' := exec zero (tuple4_swap a b) s in
  cells (memo s') a 4 = cells (memo s) b 4 /\ cells (memo s') b 4 = cells (memo s) a 4 /\
  only [(a, 4%nat); (b, 4%nat)] (memo s) (memo s').
Proof. apply e_tuple4_swap. Qed.
Print Assumptions C203_swap.

(** The statements change no register they do not name. *)
Theorem C203_registers {E} (zero : E) (f : E -> E -> E) (cv : E -> E) (a b : Z) (st : asm E) :
  In st ([tuple4_new b; tuple16_new b; tuple4_swap a b; passign4 a b; block_copy a b; float4 cv a b] ++
         passign16 a b ++ mmx_packop f a b ++ mmx_dbl_packop f a b ++ mmx_passign a b ++ mmx_dbl_passign a b ++ round4 cv a b) ->
  honest zero st.
Proof.
  intros H. repeat rewrite in_app_iff in H. cbn [In] in H.
  destruct H as [H|H].
  - destruct H as [<-|[<-|[<-|[<-|[<-|[<-|[]]]]]]];
      [apply honest_tuple4_new | apply honest_tuple16_new | apply honest_tuple4_swap | apply honest_passign4
      | apply honest_block_copy | apply honest_float4].
  - destruct H as [H|[H|[H|[H|[H|H]]]]]; revert H; apply honest_list;
      [apply honest_passign16 | apply honest_mmx_packop | apply honest_mmx_dbl_packop | apply honest_mmx_passign
      | apply honest_mmx_dbl_passign | apply honest_round4].
Qed.
Print Assumptions C203_registers.

(** A vector of four: (10 20 30 40) += (1 2 3 4), with all registers holding 7. *)
Definition ex_mem (x : Z) : Z := if (x <? 4) then x + 1 else (x - 3) * 10.
Definition ex_state : mach Z := mkm (fun _ _ => 7) ex_mem false.
Example C203_nonvacuous :
  cells (memo (exec 0 (packop4 Z.add 0 4) ex_state)) 4 4 = [11; 22; 33; 44] /\
  cells (memo (exec 0 (tuple4_swap 0 4) ex_state)) 0 4 = [10; 20; 30; 40] /\ apart 0 4 4 4 /\
  cells (memo (exec 0 (float4 (fun x => x * 100) 4 0) ex_state)) 0 4 = [1000; 2000; 3000; 4000].
Proof.
  split; [vm_compute; reflexivity|]. split; [vm_compute; reflexivity|].
  split; [left; cbn [Z.of_nat Pos.of_succ_nat Pos.succ]; lia | vm_compute; reflexivity].
Qed.

(** C204.  The packed operations on four floats change xmm1 without saying so: a
    value the program keeps there is lost. *)
Theorem C204_packop_refuted :
  ~ (forall (f : Z -> Z -> Z) (a b : Z), honest 0 (packop4 f a b)).
Proof.
  intros H. specialize (H Z.add 0 4 ex_state (X 1)).
  assert (N : ~ In (X 1) (clobbers (packop4 Z.add 0 4))) by (cbn; intros [Q|[]]; discriminate).
  specialize (H N 0%nat). vm_compute in H. discriminate H.
Qed.
Print Assumptions C204_packop_refuted.

(** And load_identity writes to the register that is only its input, and takes
    three lanes of it for granted. *)
Theorem C204_identity_refuted :
  ~ (forall (c : reg) (m : Z), c <> X 1 -> honest 0 (identity4 c m)).
Proof.
  intros H. specialize (H (X 2) 0 ltac:(discriminate) (mkm (fun _ l => match l with O => 1 | _ => 0 end) ex_mem false) (X 2)).
  assert (N : ~ In (X 2) (clobbers (identity4 (X 2) 0 : asm Z))) by (cbn; intros [Q|[]]; discriminate).
  specialize (H N 0%nat). vm_compute in H. discriminate H.
Qed.
Print Assumptions C204_identity_refuted.

Theorem C204_identity_lanes_refuted :
  ~ (forall (c : reg) (m : Z) (s : mach Z), c <> X 1 -> regs s c 0%nat = 1 ->
     cells (memo (exec 0 (identity4 c m) s)) m 16 = [1; 0; 0; 0;  0; 1; 0; 0;  0; 0; 1; 0;  0; 0; 0; 1]).
Proof.
  intros H. specialize (H (X 2) 0 (mkm (fun _ _ => 1) ex_mem false) ltac:(discriminate) eq_refl).
  vm_compute in H. discriminate H.
Qed.
Print Assumptions C204_identity_lanes_refuted.

(** With 1 0 0 0 in the register the matrix is the identity. *)
Theorem C204_identity_partial {E} (zero one : E) (c : reg) (m : Z) (s : mach E) : c <> X 1 ->
  regs s c 0%nat = one -> regs s c 1%nat = zero -> regs s c 2%nat = zero -> regs s c 3%nat = zero ->
  let s' := exec zero (identity4 c m) s in
  cells (memo s') m 16 = [one; zero; zero; zero;  zero; one; zero; zero;  zero; zero; one; zero;  zero; zero; zero; one] /\
  only [(m, 16%nat)] (memo s) (memo s').
Proof. apply e_identity4. Qed.
Print Assumptions C204_identity_partial.

(** C205.  Operations made of several statements hand values over in registers
    the later statement does not name as input: what the code in between does to
    those registers decides the result. *)
Definition wipe (r : reg) : nat -> gap Z := fun _ rs q => if reg_eqb q r then fun _ => 0 else rs q.
Definition nothing : nat -> gap Z := fun _ rs => rs.

Theorem C205_fill_refuted :
  ~ (forall (g : nat -> gap Z) (v d : Z) (n : nat) (s : mach Z),
       cells (memo (body 0 g (fill_blocks v d n) s)) d (8 * n) = repeat v (8 * n)).
Proof.
  intros H. specialize (H (wipe (M 0)) 5 0 1%nat ex_state). vm_compute in H. discriminate H.
Qed.
Print Assumptions C205_fill_refuted.

Theorem C205_product_refuted :
  ~ (forall (g g' : nat -> gap Z) (t m r : Z) (s : mach Z),
       cells (memo (body 0 g (vector_matrix Z.add Z.mul t m r) s)) r 4 =
       cells (memo (body 0 g' (vector_matrix Z.add Z.mul t m r) s)) r 4).
Proof.
  intros H. specialize (H (wipe (X 4)) nothing 0 4 20 ex_state). vm_compute in H. discriminate H.
Qed.
Print Assumptions C205_product_refuted.

(** If that code leaves mm0 alone, every block is filled and the x87 unit is free. *)
Theorem C205_fill_partial {E} (zero v : E) (d : Z) (n : nat) (g : nat -> gap E) (s : mach E) :
  (forall k rs l, g k rs (M 0) l = rs (M 0) l) ->
  let s' := body zero g (fill_blocks v d n) s in
  cells (memo s') d (8 * n) = repeat v (8 * n) /\ only [(d, (8 * n)%nat)] (memo s) (memo s') /\ mmx s' = false.
Proof. intros H. apply e_fill. exact H. Qed.
Print Assumptions C205_fill_partial.

Example C205_nonvacuous :
  cells (memo (body 0 nothing (fill_blocks 5 0 2) ex_state)) 0 17 = repeat 5 16 ++ [130] /\
  cells (memo (body 0 nothing (vector_matrix Z.add Z.mul 0 4 20) ex_state)) 20 2 = [950; 1000].
Proof. split; vm_compute; reflexivity. Qed.
