(** * Properties C100-C105: exceptions. *)
From Verif Require Import Base UtilModel StreamModel StreamSpec StreamProofs SerialModel SerialSpec SerialProofs ExcModel ExcSpec ExcProofs ExcSymProofs.
From Coq Require Import ZArith ZifyBool ZifyNat.
Local Open Scope Z_scope.

(** ** C100: any exception of any class of the library, showing any frames and
    any text, written at a position aligned to 8 where it fits: exactly
    stream_size bytes, a multiple of 8, of which bytes 4-7 are the size of the
    rest; an object of the same class reads them back. *)
Theorem C100_exception_round_trip (dbg : bool) (mal : Z -> bool) (x : exc) (addrs text : list Z) (s : ostream) :
  (forall n, mal n = true) ->
  shows (xbt x) addrs text -> data_ok (xd x) -> 0 <= xfmt x < 2 ^ 32 -> x_size x < 2 ^ 32 ->
  o_inside s -> oaddr s mod 8 = 0 -> opos s mod 8 = 0 -> opos s + x_size x <= Z.of_nat (length (odata s)) ->
  exists s', x_write dbg x s = Ok (s', Val tt) /\ only_wrote s s' (x_size x) /\ x_size x mod 8 = 0 /\
    of_bytes_le (slice (odata s') (Z.to_nat (opos s + 4)) (Z.to_nat (opos s + 8))) = x_size x - 8 /\
  forall old data st exc, same_class (xd x) (xd old) -> xfmt old = xfmt x -> length (baddr (xbt old)) = 64%nat ->
    same_bytes s' (opos s) (x_size x) data ->
    exists y, x_read dbg mal old (mkis data (opos s) st exc) = Ok (mkis data (opos s + x_size x) st exc, Val y) /\
      xfmt y = xfmt x /\ xd y = xd x /\ shows (xbt y) addrs text.
Proof. exact (exc_trip dbg mal x addrs text s). Qed.
Print Assumptions C100_exception_round_trip.

(** A file_exception with two frames. *)
Definition sample_bt : bt := mkbt ([4198400; 4198912] ++ repeat 0 62) (Some (map Some [109; 10; 102; 10] ++ [Some 0])) 2 4.
Definition sample_exc : exc := mkexc 13 sample_bt (XFile [110; 111] [111; 112; 101; 110] 2 [47; 120]).
Example C100_example : shows (xbt sample_exc) [4198400; 4198912] [109; 10; 102; 10] /\ data_ok (xd sample_exc) /\ x_size sample_exc = 72 /\
  exists s', x_write true sample_exc (os_open (repeat 255 80) 4096) = Ok (s', Val tt) /\
    firstn 40 (odata s') = [13; 0; 0; 0; 64; 0; 0; 0; 2; 0; 0; 0; 4; 0; 0; 0; 109; 10; 102; 10; 0; 0; 0; 0;
                            0; 16; 64; 0; 0; 0; 0; 0; 0; 18; 64; 0; 0; 0; 0; 0].
Proof.
  split.
  { unfold shows. cbn [xbt sample_exc sample_bt bn baddr bsz bsyms length]. split; [lia|]. split; [reflexivity|]. split; [reflexivity|]. split; [reflexivity|].
    split; [repeat constructor; lia|]. split; [repeat constructor; lia|]. split; [reflexivity|]. split; [lia|]. now left. }
  split. { cbn [xd sample_exc data_ok]. unfold text_ok, u32_ok. cbn [length]. repeat split; try lia. repeat constructor; lia. }
  split; [vm_compute; reflexivity|]. eexists. split; [vm_compute; reflexivity|]. reflexivity.
Qed.

(** ** C101: whatever is in the stream (less than 4 GB), if the number of
    frames in it is at most 64, reading it with exceptions on stays inside the
    object and the stream. *)
Theorem C101_damaged_partial (mal : Z -> bool) (old : bt) (s : istream) :
  (forall n, mal n = true) -> i_inside s -> Forall (fun b => 0 <= b < 256) (idata s) -> iexc s = allbadbits -> Z.of_nat (length (idata s)) < 2 ^ 32 ->
  word_at (idata s) (ipos s) <= 64 ->
  exists s' r, bt_read false mal old s = Ok (s', r) /\ i_inside s'.
Proof. exact (bt_read_safe mal old s). Qed.
Print Assumptions C101_damaged_partial.
(** More than 64 frames, all of them in the stream, overrun the array of the object. *)
Theorem C101_frames_refuted (dbg : bool) (mal : Z -> bool) (old : bt) (n : Z) (l post : list Z) (st exc : Z) :
  (forall k, mal k = true) -> 64 < n < 2 ^ 32 -> Z.of_nat (length l) = n * 8 -> 8 + Z.of_nat (length (l ++ post)) < 2 ^ 63 ->
  bt_read dbg mal old (mkis (bytes_le 4 n ++ bytes_le 4 0 ++ l ++ post) 0 st exc) = UB.
Proof. exact (bt_read_many dbg mal old n l post st exc). Qed.
Print Assumptions C101_frames_refuted.
(** With exceptions off, a stream that ends after a text size of 2^32-1: the
    size of the block wraps to 0 and the terminator is written behind it. *)
Theorem C101_size_refuted (dbg : bool) (mal : Z -> bool) (old : bt) (n st : Z) : 0 <= n < 2 ^ 32 ->
  bt_read dbg mal old (mkis (bytes_le 4 n ++ bytes_le 4 4294967295) 0 st 0) = UB.
Proof. exact (bt_read_wrap dbg mal old n st). Qed.
Print Assumptions C101_size_refuted.
Example C101_example : let s := is_open ([2; 0; 0; 0; 200; 0; 0; 0] ++ repeat 7 20) in
  i_inside s /\ word_at (idata s) 0 = 2 /\ exists s', bt_read false (fun _ => true) sample_bt s = Ok (s', Thrown stream_bounds).
Proof. cbv zeta. split; [unfold i_inside; cbn; lia|]. split; [reflexivity|]. eexists. vm_compute. reflexivity. Qed.

(** ** C102: the constructor of an exception, for any frames with descriptions
    "file(function+offset) [address]" without '(' and '+' in the file: the
    backtrace shows the frames and the names; printing it gives one line for
    each frame, its address and its name. *)
Theorem C102_backtrace_text (want : bool) (dem : list Z -> option (list Z)) (mal : Z -> bool) (fmtp : Z -> list Z)
    (addrs : list Z) (frames : list (list Z * list Z)) :
  let names := map (fun p => shown want dem (snd p)) frames in
  (forall n, mal n = true) -> (length addrs <= 64)%nat -> Forall (fun a => 0 <= a < 2 ^ 64) addrs -> length frames = length addrs ->
  Forall (frame_ok want dem) frames -> Forall (fun x => ~ In 0 x /\ ~ In 10 x) names ->
  Z.of_nat (length (joined names)) < 2 ^ 32 ->
  exists b, bt_make want dem mal addrs (Some (map fst frames)) = Ok b /\ shows b addrs (joined names) /\
    bt_text fmtp b = Ok (flat_map (fun p => fmtp (fst p) ++ snd p ++ [10]) (combine addrs names)).
Proof.
  intros names Hm La Va Lf Hf Hn Hl. subst names.
  destruct (make_ok want dem mal addrs frames Hm La Va Hf) as (b & E & S).
  - rewrite Forall_map in Hn. revert Hn. apply Forall_impl. tauto.
  - exact Hl.
  - exists b. split; [exact E|]. split; [exact S|]. apply (bt_text_ok dem); [exact S| |now rewrite map_length|].
    + unfold bt_make in E. rewrite (all_names_ok want dem frames Hf) in E. cbn [bind] in E. rewrite Hm in E.
      match type of E with context [fill_syms ?a ?b ?c ?d] => destruct (fill_syms a b c d) as [[blk k]| | |] end; try discriminate. cbn [bind] in E.
      injection E as <-. discriminate.
    + revert Hn. apply Forall_impl. tauto.
Qed.
Print Assumptions C102_backtrace_text.
(** "a(f+1)" and "a(_g+2)", the second demangled to "g()". *)
Definition dem_g (l : list Z) : option (list Z) := match l with [95; 103] => Some [103; 40; 41] | _ => None end.
Example C102_example : exists b,
  bt_make true dem_g (fun _ => true) [11; 12] (Some [[97; 40; 102; 43; 49; 41]; [97; 40; 95; 103; 43; 50; 41]]) = Ok b /\
  bt_text (fun a => [a]) b = Ok [11; 102; 10; 12; 103; 40; 41; 10] /\
  Forall (frame_ok true dem_g) [([97; 40; 102; 43; 49; 41], [102]); ([97; 40; 95; 103; 43; 50; 41], [95; 103])].
Proof.
  eexists. split; [vm_compute; reflexivity|]. split; [vm_compute; reflexivity|].
  assert (N : forall (c : Z) l, forallb (fun x => negb (x =? c)) l = true -> ~ In c l).
  { intros c l H Hc. rewrite forallb_forall in H. specialize (H c Hc). lia. }
  constructor; [|constructor; [|constructor]]; unfold frame_ok; cbn [fst snd length]; (split; [lia|]).
  - split; [intros _ d; discriminate|]. exists [97], [49; 41]. split; [split; [reflexivity|now apply N]|]. split; [now apply N|]. split; now apply N.
  - split; [intros _ d E; injection E as <-; cbn; lia|]. exists [97], [50; 41]. split; [split; [reflexivity|now apply N]|]. split; [now apply N|]. split; now apply N.
Qed.

(** ** C103 *)
(** A program in a directory with a '+' in its name: constructing any exception
    reads behind the descriptions. *)
Theorem C103_plus_refuted (want : bool) (dem : list Z -> option (list Z)) (mal : Z -> bool) (a : Z) (dir1 dir2 after : list Z) :
  ~ In 40 dir1 -> ~ In 40 dir2 -> ~ In 43 dir1 -> Z.of_nat (length dir1 + length dir2) < 2 ^ 62 -> (length after < 254)%nat ->
  bt_make want dem mal [a] (Some [dir1 ++ [43] ++ dir2 ++ [40] ++ after]) = UB.
Proof.
  intros H1 H2 H3 Hl Ha. unfold bt_make, all_names, block_of. cbn [flat_map].
  rewrite (extract_plus want dem _ dir1 dir2 after eq_refl H1 H2 H3); [reflexivity| |exact Ha].
  rewrite !app_length. cbn [length]. lia.
Qed.
Print Assumptions C103_plus_refuted.
Example C103_plus_example : (* "/g++/a(f+1) [2]" *)
  bt_make false (fun _ => None) (fun _ => true) [7] (Some [[47; 103; 43; 43; 47; 97; 40; 102; 43; 49; 41; 32; 91; 50; 93]]) = UB.
Proof. vm_compute. reflexivity. Qed.
(** A function whose demangled name has more than 255 characters: the local
    buffer is handed to realloc. *)
Theorem C103_long_name_refuted (dem : list Z -> option (list Z)) (mal : Z -> bool) (a : Z) (line file func tail d : list Z) :
  described line file func tail -> ~ In 40 file -> ~ In 43 file -> ~ In 43 func -> (length func <= 255)%nat -> Z.of_nat (length line) < 2 ^ 63 ->
  dem func = Some d -> (256 <= length d)%nat ->
  bt_make true dem mal [a] (Some [line]) = UB.
Proof.
  intros D H1 H2 H3 Hl Hb Hd Hn. unfold bt_make, all_names. now rewrite (extract_long true dem line file func tail _ d D H1 H2 H3 Hl Hb eq_refl Hd Hn).
Qed.
Print Assumptions C103_long_name_refuted.

(** ** C104: a copy shows the same; without assignments nothing is leaked: the
    blocks allocated are those that the variables own. *)
Theorem C104_copy (mal : Z -> bool) (v : bt) (addrs text : list Z) :
  shows v addrs text -> bsyms v <> None -> mal (Z.of_nat (length text) + 1) = true ->
  exists v', bt_copy mal v = Ok v' /\ shows v' addrs text /\ bsyms v' <> None.
Proof. exact (copy_ok mal v addrs text). Qed.
Print Assumptions C104_copy.
Example C104_example : exists v', bt_copy (fun _ => true) sample_bt = Ok v' /\ v' = sample_bt.
Proof. eexists. split; [vm_compute; reflexivity|reflexivity]. Qed.
Theorem C104_no_leak (want : bool) (dem : list Z -> option (list Z)) (mal : Z -> bool) (ops : list cop) (s : cstate) :
  Forall (fun o => match o with CAssign _ _ => False | _ => True end) ops ->
  crun want dem mal (mkcs [] 0) ops = Ok s -> Forall (fun v => v = None) (vars s) -> live s = 0.
Proof.
  intros Ha E Hd. rewrite (run_owned want dem mal ops (mkcs [] 0) s); [now apply destroyed_owned| |reflexivity|exact E].
  clear E. induction Ha as [|o t Ho Ht IH]; [reflexivity|]. cbn [existsb]. rewrite IH. now destruct o.
Qed.
Print Assumptions C104_no_leak.
(** At any time: the blocks allocated are as many as the variables own. *)
Theorem C104_blocks (want : bool) (dem : list Z -> option (list Z)) (mal : Z -> bool) (ops : list cop) (s : cstate) :
  Forall (fun o => match o with CAssign _ _ => False | _ => True end) ops ->
  crun want dem mal (mkcs [] 0) ops = Ok s -> live s = owned s.
Proof.
  intros Ha E. apply (run_owned want dem mal ops (mkcs [] 0) s); [|reflexivity|exact E].
  clear E. induction Ha as [|o t Ho Ht IH]; [reflexivity|]. cbn [existsb]. rewrite IH. now destruct o.
Qed.
Print Assumptions C104_blocks.
Example C104_run_example : exists s, crun false (fun _ => None) (fun _ => true) (mkcs [] 0)
    [CNew [5] (Some [[97; 40; 102; 43; 49; 41]]); CCopy 0; CDestroy 0; CCopy 1; CDestroy 1; CDestroy 2] = Ok s /\ live s = 0 /\ length (vars s) = 3%nat.
Proof. eexists. split; [vm_compute; reflexivity|]. split; reflexivity. Qed.

(** ** C105 *)
(** An exception made when there was no memory for its symbols cannot be
    copied, hence not thrown by value: the null pointer is passed to strdup. *)
Theorem C105_no_memory_refuted (want : bool) (dem : list Z -> option (list Z)) (addrs : list Z) (lines : list (list Z)) (mal mal' : Z -> bool) :
  (exists names, all_names want dem lines = Ok names) -> (forall n, mal n = false) ->
  exists b, bt_make want dem mal addrs (Some lines) = Ok b /\ bt_copy mal' b = UB.
Proof. intros (names & E) Hm. unfold bt_make. rewrite E. cbn [bind]. rewrite Hm. eexists. split; reflexivity. Qed.
Print Assumptions C105_no_memory_refuted.
Theorem C105_no_symbols_refuted (want : bool) (dem : list Z -> option (list Z)) (addrs : list Z) (mal mal' : Z -> bool) :
  exists b, bt_make want dem mal addrs None = Ok b /\ bt_copy mal' b = UB.
Proof. eexists. split; reflexivity. Qed.
Print Assumptions C105_no_symbols_refuted.
(** Assignment loses the block of the left side. *)
Theorem C105_leak_refuted : exists ops s, crun false (fun _ => None) (fun _ => true) (mkcs [] 0) ops = Ok s /\
  Forall (fun v => v = None) (vars s) /\ live s = 1.
Proof.
  exists [CNew [5] (Some [[97; 40; 102; 43; 49; 41]]); CNew [6] (Some [[97; 40; 103; 43; 49; 41]]); CAssign 0 1; CDestroy 0; CDestroy 1].
  eexists. split; [vm_compute; reflexivity|]. split; [repeat constructor|reflexivity].
Qed.
Print Assumptions C105_leak_refuted.
