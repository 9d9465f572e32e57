(** * PackTupleProofs *)
From Coq Require Import List ZArith Lia Bool.
From Verif Require Import MinMaxModel PackTupleModel PackTupleSpec.
Import ListNotations.
Local Open Scope Z_scope.

Lemma digit l : Forall (fun b => 0 <= b < 256) l -> forall k, (k < length l)%nat ->
  (le l / 256 ^ Z.of_nat k) mod 256 = nth k l 0.
Proof.
  induction 1 as [|b t Hb Ht IH]; intros k Hk; [cbn [length] in Hk; lia|].
  destruct k as [|k].
  - cbn [le nth]. change (256 ^ Z.of_nat 0) with 1. rewrite Z.div_1_r. rewrite Z.mul_comm, Z.mod_add by lia. apply Z.mod_small, Hb.
  - cbn [nth length] in *. rewrite <- (IH k) by lia. rewrite Nat2Z.inj_succ, Z.pow_succ_r by lia.
    rewrite <- Z.div_div by lia. f_equal. f_equal. cbn [le].
    rewrite Z.mul_comm, Z.div_add by lia. rewrite (Z.div_small b) by exact Hb. reflexivity.
Qed.
Lemma bytes_length m a n : length (bytes_of m a n) = n.
Proof. unfold bytes_of. rewrite map_length, seq_length. reflexivity. Qed.
Lemma bytes_nth m a n k : (k < n)%nat -> nth k (bytes_of m a n) 0 = m (a + Z.of_nat k).
Proof.
  intros H. unfold bytes_of. rewrite (nth_indep _ 0 (m (a + Z.of_nat 0))) by (rewrite map_length, seq_length; exact H).
  rewrite (map_nth (fun i => m (a + Z.of_nat i)) (seq 0 n) 0%nat k). rewrite seq_nth by exact H. reflexivity.
Qed.
Lemma digit_of m a n k : bytes_ok m -> (k < n)%nat -> (load n m a / 256 ^ Z.of_nat k) mod 256 = m (a + Z.of_nat k).
Proof.
  intros Hm Hk. unfold load. rewrite digit; [apply bytes_nth, Hk| |rewrite bytes_length; exact Hk].
  apply Forall_forall. intros b Hb. apply in_map_iff in Hb as (i & <- & _). apply Hm.
Qed.
(** What a store leaves where. *)
Lemma store_in n m a v x : a <= x < a + Z.of_nat n -> store n m a v x = (v / 256 ^ (x - a)) mod 256.
Proof. intros H. unfold store. rewrite (proj2 (Z.leb_le a x)), (proj2 (Z.ltb_lt x _)) by lia. reflexivity. Qed.
Lemma store_out n m a v x : outside a n x -> store n m a v x = m x.
Proof.
  intros H. unfold store. destruct (Z.leb_spec a x); [|reflexivity].
  destruct (Z.ltb_spec x (a + Z.of_nat n)); [|reflexivity]. destruct H. split; assumption.
Qed.
Lemma store_ok n m a v : bytes_ok m -> bytes_ok (store n m a v).
Proof. intros H x. unfold store. destruct (_ && _); [apply Z.mod_pos_bound; lia|apply H]. Qed.
(** Copying n bytes as an integer copies the bytes. *)
Lemma copied n m m' dst src x : bytes_ok m' -> dst <= x < dst + Z.of_nat n -> store n m dst (load n m' src) x = m' (src + (x - dst)).
Proof.
  intros Hm H. rewrite store_in by exact H. rewrite <- (Z2Nat.id (x - dst)) by lia. apply digit_of; [exact Hm|lia].
Qed.
Lemma load_ext w m m' a a' : (forall k, 0 <= k < Z.of_nat w -> m (a + k) = m' (a' + k)) -> load w m a = load w m' a'.
Proof. intros H. unfold load, bytes_of. f_equal. apply map_ext_in. intros i Hi. apply in_seq in Hi. apply H. lia. Qed.
Lemma elements_ext s w n m m' a a' : (forall k, 0 <= k < Z.of_nat (w * n) -> m (a + k) = m' (a' + k)) ->
  elements s w n m a = elements s w n m' a'.
Proof.
  intros H. unfold elements. apply map_ext_in. intros i Hi. apply in_seq in Hi. f_equal. apply load_ext. intros k Hk.
  rewrite <- !Z.add_assoc. apply H.
  assert (Z.of_nat (w * i) + Z.of_nat w <= Z.of_nat (w * n)); [|lia].
  rewrite <- Nat2Z.inj_add, <- Nat.mul_succ_r. apply inj_le, Nat.mul_le_mono_l. lia.
Qed.
Lemma new_elements s w n m a : (0 < w)%nat -> elements s w n (packed_new (w * n) m a) a = repeat 0 n.
Proof.
  intros Hw. transitivity (map (fun _ : nat => 0) (seq 0 n)).
  - unfold elements. apply map_ext_in. intros i Hi. apply in_seq in Hi.
    assert (B : Z.of_nat (w * i) + Z.of_nat w <= Z.of_nat (w * n)).
    { rewrite <- Nat2Z.inj_add, <- Nat.mul_succ_r. apply inj_le, Nat.mul_le_mono_l. lia. }
    assert (L : load w (packed_new (w * n) m a) (a + Z.of_nat (w * i)) = 0).
    { transitivity (load w (fun _ => 0) 0).
      - apply load_ext. intros k Hk. unfold packed_new. rewrite store_in by lia. rewrite Z.div_0_l by (apply Z.pow_nonzero; lia). reflexivity.
      - unfold load, bytes_of. generalize (seq 0 w). intros l. induction l as [|? ? IH]; [reflexivity|]. cbn [map le]. rewrite IH. reflexivity. }
    rewrite L. unfold conv. cbn [bits sgn]. rewrite Z.mod_0_l by (apply Z.pow_nonzero; lia).
    destruct (s && _) eqn:Q; [|reflexivity]. apply andb_true_iff in Q as (_ & Q). apply Z.leb_le in Q.
    pose proof (Z.pow_pos_nonneg 2 (8 * Z.of_nat w - 1)). lia.
  - generalize 0%nat. induction n as [|n IH]; intros k; [reflexivity|]. cbn [seq map repeat]. rewrite IH. reflexivity.
Qed.
Lemma assign_elements s w n m dst src : bytes_ok m ->
  elements s w n (packed_assign (w * n) m dst src) dst = elements s w n m src.
Proof.
  intros Hm. apply elements_ext. intros k Hk. unfold packed_assign. rewrite copied by (try exact Hm; lia). f_equal. lia.
Qed.
Lemma conv_conv w s s' v : (0 < w)%nat -> conv (Ity (8 * Z.of_nat w) s) (conv (Ity (8 * Z.of_nat w) s') v) = conv (Ity (8 * Z.of_nat w) s) v.
Proof.
  intros Hw. unfold conv. cbn [bits sgn].
  assert (P : 2 ^ (8 * Z.of_nat w) <> 0) by (apply Z.pow_nonzero; lia).
  destruct (s' && _).
  - replace ((v mod 2 ^ (8 * Z.of_nat w) - 2 ^ (8 * Z.of_nat w)) mod 2 ^ (8 * Z.of_nat w)) with (v mod 2 ^ (8 * Z.of_nat w)); [reflexivity|].
    replace (v mod 2 ^ (8 * Z.of_nat w) - 2 ^ (8 * Z.of_nat w)) with (v mod 2 ^ (8 * Z.of_nat w) + (-1) * 2 ^ (8 * Z.of_nat w)) by ring.
    rewrite Z.mod_add by exact P. symmetry. apply Z.mod_mod, P.
  - rewrite Z.mod_mod by exact P. reflexivity.
Qed.
Lemma elements_conv s s' w n m a : (0 < w)%nat -> map (conv (Ity (8 * Z.of_nat w) s)) (elements s' w n m a) = elements s w n m a.
Proof. intros Hw. unfold elements. rewrite map_map. apply map_ext. intros i. apply conv_conv, Hw. Qed.
Lemma swap_elements s w n m a b : bytes_ok m -> separate a b (w * n) ->
  elements s w n (packed_swap (w * n) m a b) a = elements s w n m b /\
  elements s w n (packed_swap (w * n) m a b) b = elements s w n m a.
Proof.
  intros Hm S. unfold packed_swap. cbv zeta. split; apply elements_ext; intros k Hk.
  - destruct S as [->|S].
    + rewrite copied by (try exact Hm; lia). f_equal. lia.
    + rewrite store_out by (unfold outside; lia). rewrite copied by (try exact Hm; lia). f_equal. lia.
  - rewrite copied by (try exact Hm; lia). f_equal. lia.
Qed.
