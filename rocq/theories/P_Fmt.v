(** * P_Fmt: the format of numbers (C52). *)
From Verif Require Import Base FmtModel FmtSpec FmtProofs.
From Coq Require Import ZArith ZifyBool ZifyNat Lia.
Local Open Scope Z_scope.

(** For every width, precision, fill, set of flags and type the format fits the
    sixteen characters reserved for it. *)
Theorem C52_format_fits : forall s t, settings s -> exists l, fmtstring s t = Ok l /\ (length l < 16)%nat.
Proof.
  intros s t H. destruct (fmtstring_ok s t H) as (ws & ps & E & _ & _ & Lw & Lp). eexists. split; [exact E|].
  pose proof (flag_len (w_fill s =? 48) 48). pose proof (flag_len (has (w_flags s) f_left) 45).
  pose proof (flag_len (has (w_flags s) f_showpos) 43). pose proof (flag_len (has (w_flags s) f_showbase) 35).
  cbn [length]. rewrite !app_length.
  assert (length (if (w_width s =? 0)%Z then [] else flag (w_fill s =? 48)%Z 48 ++ ws) <= 6)%nat by (destruct (_ =? 0); [cbn; lia|rewrite app_length; lia]).
  destruct t; cbn [is_integer length_of length]; rewrite ?app_length; lia.
Qed.
Print Assumptions C52_format_fits.

(** The format means what was set, if the width and the precision read the same
    in both directions (as all one-digit numbers do) and, with a width set,
    none of left, showpos and showbase is. *)
Theorem C52_format_partial : forall s t,
  settings s -> palindrome (w_width s) -> palindrome (w_prec s) -> (w_width s = 0 \/ no_flags s t) ->
  exists l, fmtstring s t = Ok l /\ parse l = Some (intended s t).
Proof.
  intros s t H Pw Pp Hf. destruct (fmtstring_ok s t H) as (ws & ps & E & Dw & Dp & _ & _). eexists. split; [exact E|].
  pose proof (palindrome_digits _ _ Dw Pw) as Rw. pose proof (palindrome_digits _ _ Dp Pp) as Rp.
  pose proof (digits_rev _ _ Dw) as Fw. pose proof (digits_rev _ _ Dp) as Fp.
  assert (Np : number ps = w_prec s). { rewrite <- Rp. apply Dp. }
  assert (Nw : number ws = w_width s). { rewrite <- Rw. apply Dw. }
  pose proof (decimal_nonempty_rev _ _ Dw) as NEw.
  unfold intended. destruct (Z.eqb_spec (w_width s) 0) as [W0|W0].
  - cbn [negb andb].
    destruct (is_integer t) eqn:It; cbn [andb].
    + pose proof (parse_pieces (flag false 48 ++ flag (has (w_flags s) f_left) 45 ++ flag (has (w_flags s) f_showpos) 43 ++ flag (has (w_flags s) f_showbase) 35) [] None s t
        (flags_forall _ _ _ _) (Forall_nil _) ltac:(discriminate) I) as Q.
      cbn [app] in Q |- *. rewrite <- !app_assoc in Q. cbn [flag app] in Q. rewrite <- !app_assoc. rewrite Q. f_equal.
      destruct (has (w_flags s) f_left), (has (w_flags s) f_showpos), (has (w_flags s) f_showbase); reflexivity.
    + pose proof (parse_pieces (flag false 48 ++ flag (has (w_flags s) f_left) 45 ++ flag false 43 ++ flag false 35) [] (Some ps) s t
        (flags_forall _ _ _ _) (Forall_nil _) ltac:(discriminate) Fp) as Q.
      cbn [app flag] in Q |- *. rewrite !app_nil_r in Q. rewrite Q, Np. f_equal.
      destruct (has (w_flags s) f_left); reflexivity.
  - destruct Hf as [Hf|(Hl & Hi)]; [congruence|]. rewrite Hl. cbn [negb andb flag app].
    assert (Hh : hd 0 ws <> 48). { rewrite <- Rw. exact (decimal_hd _ _ Dw W0). }
    destruct (is_integer t) eqn:It; cbn [andb].
    + destruct (Hi eq_refl) as (-> & ->). cbn [flag app].
      pose proof (parse_pieces (flag (w_fill s =? 48) 48) ws None s t) as Q. cbn [app] in Q. rewrite <- app_assoc. rewrite Q; clear Q; [|destruct (_ =? 48); repeat constructor|exact Fw|exact Hh|exact I].
      f_equal. destruct ws; [congruence|]. rewrite Nw. destruct (_ =? 48); reflexivity.
    + pose proof (parse_pieces (flag (w_fill s =? 48) 48) ws (Some ps) s t) as Q. cbn [app] in Q |- *. rewrite <- app_assoc. rewrite Q; clear Q; [|destruct (_ =? 48); repeat constructor|exact Fw|exact Hh|exact Fp].
      f_equal. destruct ws; [congruence|]. rewrite Nw, Np. destruct (_ =? 48); reflexivity.
Qed.
Print Assumptions C52_format_partial.
Example C52_example : exists l,
  fmtstring (mkfs f_hex 8 2 48) TULong = Ok l /\ l = [37; 48; 56; 108; 120] /\               (* %08lx *)
  parse l = Some (intended (mkfs f_hex 8 2 48) TULong) /\ settings (mkfs f_hex 8 2 48) /\
  palindrome 8 /\ no_flags (mkfs f_hex 8 2 48) TULong.
Proof.
  eexists. split; [reflexivity|]. split; [reflexivity|]. split; [reflexivity|]. split; [split; cbn; lia|].
  split; [|split; [reflexivity|split; reflexivity]].
  exists [56]. split; [|reflexivity]. split; [discriminate|]. split; [repeat constructor|]. split; [reflexivity|discriminate].
Qed.

(** In general the width and precision the C library sees have their digits
    reversed. *)
Theorem C52_reversed_partial : forall s t dw dp,
  settings s -> no_flags s t -> decimal dw (w_width s) -> decimal dp (w_prec s) -> w_width s mod 10 <> 0 ->
  exists l c, fmtstring s t = Ok l /\ parse l = Some c /\
    c_width c = Some (number (rev dw)) /\ (is_integer t = false -> c_prec c = Some (number (rev dp))).
Proof.
  intros s t dw dp H (Hl & Hi) Hw Hp H10. destruct (fmtstring_ok s t H) as (ws & ps & E & Dw & Dp & _ & _).
  rewrite <- (decimal_unique _ _ _ Dw Hw), <- (decimal_unique _ _ _ Dp Hp), !rev_involutive.
  pose proof (digits_rev _ _ Dw) as Fw. pose proof (digits_rev _ _ Dp) as Fp. pose proof (decimal_nonempty_rev _ _ Dw) as NEw.
  assert (Hh : hd 0 ws <> 48). { rewrite (decimal_rev_hd _ _ Dw). lia. }
  assert (W0 : w_width s =? 0 = false). { destruct (Z.eqb_spec (w_width s) 0) as [W|W]; [rewrite W in H10; exfalso; apply H10; reflexivity|reflexivity]. }
  rewrite W0, Hl in E. cbn [flag app] in E. rewrite <- app_assoc in E.
  destruct (is_integer t) eqn:It; eexists _, _; (split; [exact E|]).
  - destruct (Hi eq_refl) as (-> & ->). cbn [flag app].
    pose proof (parse_pieces (flag (w_fill s =? 48) 48) ws None s t) as Q. cbn [app] in Q. rewrite Q; clear Q; [|destruct (_ =? 48); repeat constructor|exact Fw|exact Hh|exact I].
    split; [reflexivity|]. cbn [c_width c_prec]. split; [destruct ws; [congruence|reflexivity]|discriminate].
  - pose proof (parse_pieces (flag (w_fill s =? 48) 48) ws (Some ps) s t) as Q. cbn [app] in Q |- *. rewrite Q; clear Q; [|destruct (_ =? 48); repeat constructor|exact Fw|exact Hh|exact Fp].
    split; [reflexivity|]. cbn [c_width c_prec]. split; [destruct ws; [congruence|reflexivity]|reflexivity].
Qed.
Print Assumptions C52_reversed_partial.

(** setw (12) asks for a field of 21 characters. *)
Theorem C52_width_refuted : exists s t l c,
  settings s /\ w_width s = 12 /\ fmtstring s t = Ok l /\ parse l = Some c /\ c_width c = Some 21.
Proof. exists (mkfs 0 12 2 0), TInt. eexists _, _. split; [split; cbn; lia|]. repeat split. Qed.
Print Assumptions C52_width_refuted.
(** setw (10) becomes zero padding to one character. *)
Theorem C52_width_zero_refuted : exists s t l c,
  settings s /\ w_width s = 10 /\ w_fill s = 32 /\ fmtstring s t = Ok l /\ parse l = Some c /\ c_width c = Some 1 /\ c_zero c = true.
Proof. exists (mkfs 0 10 2 32), TInt. eexists _, _. split; [split; cbn; lia|]. repeat split. Qed.
Print Assumptions C52_width_zero_refuted.
(** setprecision (10) prints one digit. *)
Theorem C52_precision_refuted : exists s t l c,
  settings s /\ w_prec s = 10 /\ fmtstring s t = Ok l /\ parse l = Some c /\ c_prec c = Some 1.
Proof. exists (mkfs 0 0 10 0), TDouble. eexists _, _. split; [split; cbn; lia|]. repeat split. Qed.
Print Assumptions C52_precision_refuted.
(** A width together with left, showpos or showbase gives a format that is not
    a conversion specification at all, for every such setting. *)
Theorem C52_flags_refuted : forall s t,
  settings s -> w_width s <> 0 ->
  has (w_flags s) f_left = true \/ (is_integer t = true /\ (has (w_flags s) f_showpos = true \/ has (w_flags s) f_showbase = true)) ->
  exists l, fmtstring s t = Ok l /\ parse l = None.
Proof.
  intros s t H W0 Hf. destruct (fmtstring_ok s t H) as (ws & ps & E & Dw & _ & _ & _). eexists. split; [exact E|].
  replace (w_width s =? 0) with false by lia.
  assert (Fa : Forall (fun c => is_digit c = true) (flag (w_fill s =? 48) 48 ++ ws)).
  { apply Forall_app. split; [destruct (_ =? 48); repeat constructor|exact (digits_rev _ _ Dw)]. }
  assert (Sa : exists c, In c (flag (w_fill s =? 48) 48 ++ ws) /\ c <> 48).
  { destruct (decimal_some_digit _ _ Dw W0) as (c & Hc & Hn). exists c. split; [apply in_or_app; right; exact Hc|exact Hn]. }
  assert (NE : forall (a b : list Z) c, a ++ b ++ [c] <> []) by (intros [|] [|] c; discriminate).
  destruct (has (w_flags s) f_left) eqn:El; cbn [flag app].
  { apply parse_bad; [exact Sa|exact Fa|left; reflexivity|apply NE]. }
  destruct Hf as [Hf|(It & Hf)]; [discriminate|]. rewrite It.
  destruct (has (w_flags s) f_showpos) eqn:Ep; cbn [flag app].
  { apply parse_bad; [exact Sa|exact Fa|right; left; reflexivity|]. apply NE. }
  destruct Hf as [Hf|Hf]; [discriminate|]. rewrite Hf. cbn [flag app].
  apply parse_bad; [exact Sa|exact Fa|right; right; left; reflexivity|]. destruct (length_of t); discriminate.
Qed.
Print Assumptions C52_flags_refuted.
Example C52_flags_example : exists l, settings (mkfs (Z.lor f_showbase f_hex) 4 2 48) /\
  fmtstring (mkfs (Z.lor f_showbase f_hex) 4 2 48) TUInt = Ok l /\ l = [37; 48; 52; 35; 120] /\ parse l = None.   (* %04#x *)
Proof. eexists. split; [split; cbn; lia|]. repeat split. Qed.
