(** * Theorems about the format flags and manipulators of text streams. *)
From Verif Require Import Base FmtModel FmtSpec FmtProofs P_Fmt ManipModel ManipSpec.
From Coq Require Import ZArith List Lia Bool.
Import ListNotations.
Local Open Scope Z_scope.

Lemma put_spec fl x m : on (put_manip fl x) m = if same_group (group_of m) x then bit x =? bit m else on fl m.
Proof.
  unfold on, put_manip.
  destruct x; cbn [flag_of bit]; vm_compute Z.shiftl; cbn [has]; unfold setf2, setf, unsetf; cbn [fst];
    match goal with |- context [has ?a basefield] => let v := eval vm_compute in (has a basefield) in change (has a basefield) with v end;
    match goal with |- context [has ?a floatfield] => let v := eval vm_compute in (has a floatfield) in change (has a floatfield) with v | _ => idtac end;
    match goal with |- context [has ?a adjustfield] => let v := eval vm_compute in (has a adjustfield) in change (has a adjustfield) with v | _ => idtac end;
    cbv iota; rewrite !Z.lor_spec, ?Z.ldiff_spec; destruct m; cbn [bit group_of same_group Z.eqb Pos.eqb];
    match goal with |- context [Z.testbit fl ?n] => destruct (Z.testbit fl n) end; reflexivity.
Qed.

(** ** C177 *)
(** Whatever manipulators were inserted, in whatever order, the flag of one is on exactly if it is the last of its group. *)
Theorem C177_last_wins ms fl m : on (fold_left put_manip ms fl) m =
  match last_of (group_of m) ms with Some x => bit x =? bit m | None => on fl m end.
Proof.
  induction ms as [|x ms IH] using rev_ind; [reflexivity|]. rewrite fold_left_app. cbn [fold_left]. rewrite put_spec, IH.
  unfold last_of. rewrite rev_app_distr. cbn [rev app find]. destruct (same_group (group_of m) x); reflexivity.
Qed.
Print Assumptions C177_last_wins.
(** So there is never more than one base, one float notation and one alignment. *)
Theorem C177_exclusive ms m n : group_of m = group_of n -> on (fold_left put_manip ms 0) m = true -> on (fold_left put_manip ms 0) n = true -> m = n.
Proof.
  intros G. rewrite !C177_last_wins, G. destruct (last_of (group_of n) ms) as [x|].
  - rewrite !Z.eqb_eq. intros A B. rewrite A in B. destruct m, n; try discriminate B; reflexivity.
  - unfold on. rewrite Z.bits_0. discriminate.
Qed.
Print Assumptions C177_exclusive.
Lemma has_on fl m : has fl (Z.shiftl 1 (bit m)) = on fl m.
Proof.
  unfold has, on. assert (B : 0 <= bit m) by (destruct m; cbn; lia). rewrite Z.shiftl_1_l. destruct (Z.testbit fl (bit m)) eqn:T.
  - apply negb_true_iff, Z.eqb_neq. intros Q. assert (R : Z.testbit (Z.land fl (2 ^ bit m)) (bit m) = false) by (rewrite Q; apply Z.bits_0).
    rewrite Z.land_spec, T, Z.pow2_bits_true in R by assumption. discriminate.
  - apply negb_false_iff, Z.eqb_eq, Z.bits_inj_0. intros n. rewrite Z.land_spec.
    destruct (Z_lt_dec n 0); [now rewrite Z.testbit_neg_r|]. rewrite Z.pow2_bits_eqb by assumption. destruct (Z.eqb_spec (bit m) n) as [<-|]; [now rewrite T|apply andb_false_r].
Qed.
Lemma flags_run ms : forall s, w_flags (mrun s (map MFlag ms)) = fold_left put_manip ms (w_flags s) /\
  w_width (mrun s (map MFlag ms)) = w_width s /\ w_prec (mrun s (map MFlag ms)) = w_prec s.
Proof. induction ms as [|x ms IH]; intros s; [easy|]. cbn [map mrun fold_left]. exact (IH _). Qed.
(** The format of an integer or a floating point number after any manipulators, with no width set: its conversion is the
    one asked for last. *)
Theorem C177_conversion ms t : exists l c, fmtstring (mrun initial (map MFlag ms)) t = Ok l /\ parse l = Some c /\
  c_type c = match is_integer t, last_of Base_ ms, last_of Float_ ms with
             | true, Some Hex, _ => match last_of (Alone Uppercase) ms with Some _ => 88 | None => 120 end
             | true, Some Oct, _ => 111
             | true, _, _ => match t with TUShort | TUInt | TULong | TULLong => 117 | _ => 100 end
             | false, _, Some Scientific => 69
             | false, _, _ => 102
             end.
Proof.
  set (s := mrun initial (map MFlag ms)). destruct (flags_run ms initial) as (F & W & P). fold s in F, W, P. cbn [initial w_flags w_width w_prec] in F, W, P.
  assert (Pal : forall n, 0 <= n <= 9 -> palindrome n).
  { intros n H. exists [48 + n]. split; [|reflexivity]. split; [discriminate|]. split; [constructor; [unfold is_digit; lia|constructor]|].
    split; [unfold number; cbn [fold_left]; lia|]. cbn [hd]. intros Q. split; [lia|]. f_equal. lia. }
  destruct (C52_format_partial s t) as (l & E & Q).
  { unfold settings. rewrite W, P. lia. } { rewrite W. apply Pal. lia. } { rewrite P. apply Pal. lia. } { now left. }
  exists l, (intended s t). split; [exact E|]. split; [exact Q|]. unfold intended, conversion. cbn [c_type].
  change f_hex with (Z.shiftl 1 (bit Hex)). change f_oct with (Z.shiftl 1 (bit Oct)). change f_uppercase with (Z.shiftl 1 (bit Uppercase)).
  change f_scientific with (Z.shiftl 1 (bit Scientific)). rewrite !has_on, F, !C177_last_wins. cbn [group_of].
  unfold last_of. unfold on. rewrite !Z.bits_0.
  assert (B : forall g x, find (same_group g) (rev ms) = Some x -> same_group g x = true) by (intros g x H; now apply find_some in H).
  pose proof (B Base_) as B1. pose proof (B Float_) as B2. pose proof (B (Alone Uppercase)) as B3.
  destruct t; cbn [is_integer];
    try (destruct (find (same_group Float_) (rev ms)) as [[]|]; try (now specialize (B2 _ eq_refl)); reflexivity);
    (destruct (find (same_group Base_) (rev ms)) as [[]|]; try (now specialize (B1 _ eq_refl)); try reflexivity;
     destruct (find (same_group (Alone Uppercase)) (rev ms)) as [[]|]; try (now specialize (B3 _ eq_refl)); reflexivity).
Qed.
Print Assumptions C177_conversion.
(** The other settings are the last ones made, and touch no flag. *)
Theorem C177_settings ops s : let s' := mrun s ops in
  w_width s' = fold_left (fun a o => match o with MSetw w => w | _ => a end) ops (w_width s) /\
  w_prec s' = fold_left (fun a o => match o with MSetprecision p => p | _ => a end) ops (w_prec s) /\
  w_fill s' = fold_left (fun a o => match o with MSetfill c => c | _ => a end) ops (w_fill s) /\
  (forall n, 0 <= n -> Forall (fun o => match o with MSetw _ | MSetfill _ | MSetprecision _ => True
      | MSetFlags f | MResetFlags f => Z.testbit f n = false | MFlag _ => False end) ops -> Z.testbit (w_flags s') n = Z.testbit (w_flags s) n).
Proof.
  cbn zeta. revert s. induction ops as [|o ops IH]; intros s; [cbn; auto|].
  cbn [mrun fold_left]. destruct (IH (mstep s o)) as (A & B & C & D). fold (mrun (mstep s o) ops). rewrite A, B, C.
  split; [destruct o; reflexivity|]. split; [destruct o; reflexivity|]. split; [destruct o; reflexivity|].
  intros n Hn F. inversion F as [|? ? F1 F2]; subst. rewrite (D n Hn F2). destruct o; cbn [mstep w_flags setf unsetf fst] in *; try reflexivity; [easy| |].
  - now rewrite Z.lor_spec, F1, orb_false_r.
  - now rewrite Z.ldiff_spec, F1, andb_true_r.
Qed.
Print Assumptions C177_settings.
(** setf, unsetf and flags return the flags as they were, so putting the result back restores them; setf turns on the
    given flags and unsetf turns them off, and no others. *)
Theorem C177_old_flags fl f : snd (setf fl f) = fl /\ snd (unsetf fl f) = fl /\ snd (flags_set fl f) = fl /\
  fst (flags_set (fst (setf fl f)) (snd (setf fl f))) = fl /\ fst (flags_set (fst (unsetf fl f)) (snd (unsetf fl f))) = fl /\
  fst (flags_set (fst (flags_set fl f)) (snd (flags_set fl f))) = fl /\
  (forall n, 0 <= n -> Z.testbit (fst (setf fl f)) n = (Z.testbit f n || Z.testbit fl n)%bool /\
                       Z.testbit (fst (unsetf fl f)) n = (if Z.testbit f n then false else Z.testbit fl n) /\
                       Z.testbit (fst (flags_set fl f)) n = Z.testbit f n).
Proof.
  unfold setf, unsetf, flags_set. cbn [fst snd]. split; [reflexivity|]. split; [reflexivity|]. split; [reflexivity|].
  split; [reflexivity|]. split; [reflexivity|]. split; [reflexivity|]. intros n Hn. rewrite Z.lor_spec, Z.ldiff_spec.
  destruct (Z.testbit fl n), (Z.testbit f n); easy.
Qed.
Print Assumptions C177_old_flags.
Example C177_example : on (fold_left put_manip [Hex; Uppercase; Oct; Left; Hex; Right] 0) Hex = true /\
  fmtstring (mrun initial (map MFlag [Hex; Uppercase; Oct; Left; Hex; Right])) TLong = Ok [37; 108; 88].
Proof. split; reflexivity. Qed.

(** ** C178 *)
(** setf (f, mask) returns the flags without the masked ones, so putting its result back loses the old base. *)
Theorem C178_setf_result_refuted : exists fl f m, snd (setf2 fl f m) <> fl /\ fst (flags_set (fst (setf2 fl f m)) (snd (setf2 fl f m))) <> fl.
Proof. exists (flag_of Oct), (flag_of Hex), basefield. split; discriminate. Qed.
Print Assumptions C178_setf_result_refuted.
(** It also sets flags outside the mask. *)
Theorem C178_mask_refuted : exists fl f m n, Z.testbit m n = false /\ Z.testbit (fst (setf2 fl f m)) n <> Z.testbit fl n.
Proof. exists 0, (flag_of Left), basefield, 12. split; [reflexivity|discriminate]. Qed.
Print Assumptions C178_mask_refuted.
(** boolalpha, showpoint, skipws, unitbuf, fixed, right and internal have no effect on any format (other than to undo
    scientific and left). *)
Theorem C178_no_effect_refuted m s t : In m [Boolalpha; Showpoint; Skipws; Unitbuf; Fixed; Right; Internal] -> settings s ->
  on (w_flags s) Scientific = false -> on (w_flags s) Left = false -> fmtstring (mstep s (MFlag m)) t = fmtstring s t.
Proof.
  intros I S Sc Le. unfold fmtstring. cbn [mstep w_flags w_width w_prec w_fill].
  assert (H : forall x, In x [Hex; Oct; Uppercase; Scientific; Left; Showpos; Showbase] -> has (put_manip (w_flags s) m) (Z.shiftl 1 (bit x)) = has (w_flags s) (Z.shiftl 1 (bit x))).
  { intros x Hx. rewrite !has_on, put_spec.
    assert (C : same_group (group_of x) m = true -> (x = Scientific \/ x = Left) /\ (bit m =? bit x) = false).
    { cbn [In] in I, Hx. intuition (subst; cbn in *; try discriminate; auto). }
    destruct (same_group (group_of x) m) eqn:G; [|reflexivity]. destruct (C eq_refl) as [[-> | ->] ->]; congruence. }
  change f_hex with (Z.shiftl 1 (bit Hex)). change f_oct with (Z.shiftl 1 (bit Oct)). change f_uppercase with (Z.shiftl 1 (bit Uppercase)).
  change f_scientific with (Z.shiftl 1 (bit Scientific)). change f_left with (Z.shiftl 1 (bit Left)).
  change f_showpos with (Z.shiftl 1 (bit Showpos)). change f_showbase with (Z.shiftl 1 (bit Showbase)).
  rewrite (H Hex), (H Oct), (H Uppercase), (H Scientific), (H Left), (H Showpos), (H Showbase) by (cbn; auto 10). reflexivity.
Qed.
Print Assumptions C178_no_effect_refuted.
