(** * StreamSpec: what a bounds-checked memory stream may do. *)
From Coq Require Import List ZArith Bool.
From Verif Require Import Base StreamModel.
Local Open Scope Z_scope.

(** The position is inside the buffer. *)
Definition i_inside (s : istream) : Prop := 0 <= ipos s <= Z.of_nat (length (idata s)) /\ Z.of_nat (length (idata s)) < 2 ^ 63.
Definition o_inside (s : ostream) : Prop :=
  0 <= opos s <= Z.of_nat (length (odata s)) /\ Z.of_nat (length (odata s)) < 2 ^ 63 /\
  0 <= oaddr s /\ oaddr s + Z.of_nat (length (odata s)) < 2 ^ 64.

(** The smallest multiple of [g] that is not below [p]. *)
Definition rounded_up (p g q : Z) : Prop := p <= q < p + g /\ exists k, q = k * g.

(** Arguments a caller can pass: sizes and positions below 2^63, offsets that
    fit off_t, integral types of 1, 2, 4 or 8 bytes, a positive grain. *)
Definition i_args (o : iop) : Prop :=
  match o with
  | IRead n | IReadsome n | ISeek n | ISkip n | IVerify n => 0 <= n < 2 ^ 63
  | IGet w => In w [1; 2; 4; 8]%nat
  | ISeekg p _ => - 2 ^ 63 < p < 2 ^ 63
  | IUngetc => True
  | IAlign g => 0 < g < 2 ^ 62
  end.
(** The position an operation asks for, from position [p] of [n] bytes. *)
Definition i_asks (p n : Z) (o : iop) (q : Z) : Prop :=
  match o with
  | IRead k | IReadsome k | ISkip k => q = p + k
  | IGet w => q = p + Z.of_nat w
  | ISeek k | ISeekg k Beg => q = k
  | ISeekg k Cur => q = p + k
  | ISeekg k End => q = n - k
  | IUngetc => q = p - 1
  | IAlign g => rounded_up p g q
  | IVerify k => q = p + k
  end.
Definition delivers (o : iop) : bool := match o with IRead _ | IReadsome _ | IGet _ => true | _ => false end.

(** The request does not fit: the position and the data stay, the fail bit is
    set, no other state bit is cleared, and an exception is thrown if the fail
    bit is in the exception mask, and none if the mask is empty. *)
Definition refused (st st' exc : Z) (thrown : bool) : Prop :=
  Z.testbit st' 2 = true /\ (forall i, Z.testbit st i = true -> Z.testbit st' i = true) /\
  (Z.testbit exc 2 = true -> thrown = true) /\ (exc = 0 -> thrown = false).
Definition threw {A} (r : res A) : bool := match r with Thrown stream_bounds => true | _ => false end.

Definition i_step_spec (s : istream) (o : iop) (s' : istream) (r : res (list Z)) : Prop :=
  idata s' = idata s /\ iexc s' = iexc s /\ i_inside s' /\
  exists q, i_asks (ipos s) (Z.of_nat (length (idata s))) o q /\
    if (0 <=? q) && (q <=? Z.of_nat (length (idata s))) then
      istate s' = istate s /\ ipos s' = (match o with IVerify _ => ipos s | _ => q end) /\
      r = Val (if delivers o then slice (idata s) (Z.to_nat (ipos s)) (Z.to_nat q) else [])
    else
      refused (istate s) (istate s') (iexc s) (threw r) /\
      match o, threw r with
      | IReadsome _, false =>                   (* the bytes there are *)
          ipos s' = Z.of_nat (length (idata s)) /\ r = Val (skipn (Z.to_nat (ipos s)) (idata s))
      | _, false => ipos s' = ipos s /\ r = Val []
      | _, true => ipos s' = ipos s
      end.

Definition o_args (o : oop) : Prop :=
  match o with
  | OWrite l | OWriteStrz l => Z.of_nat (length l) < 2 ^ 62
  | OSeek n | OSkip n | OVerify n => 0 <= n < 2 ^ 63
  | OPut w _ => In w [1; 2; 4; 8]%nat
  | OSeekp p _ => - 2 ^ 63 < p < 2 ^ 63
  | OAlign g => exists k, 0 <= k < 62 /\ g = 2 ^ k
  end.
(** The bytes an operation asks to write at the position, and where it asks to go. *)
Definition o_asks (a p n : Z) (o : oop) (l : list Z) (q : Z) : Prop :=
  match o with
  | OWrite x => l = x /\ q = p + Z.of_nat (length x)
  | OWriteStrz x => l = x ++ [0] /\ q = p + Z.of_nat (length x) + 1
  | OPut w v => l = UtilModel.bytes_le w v /\ q = p + Z.of_nat w
  | OSeek k | OSeekp k Beg => l = [] /\ q = k
  | OSeekp k Cur | OSkip k => l = [] /\ q = p + k
  | OSeekp k End => l = [] /\ q = n - k
  | OAlign g => l = repeat 0 (Z.to_nat (q - p)) /\ rounded_up (a + p) g (a + q)
  | OVerify k => l = [] /\ q = p + k
  end.
Definition o_step_spec (s : ostream) (o : oop) (s' : ostream) (r : res unit) : Prop :=
  oexc s' = oexc s /\ oaddr s' = oaddr s /\ length (odata s') = length (odata s) /\ o_inside s' /\
  exists l q, o_asks (oaddr s) (opos s) (Z.of_nat (length (odata s))) o l q /\
    if (0 <=? q) && (q <=? Z.of_nat (length (odata s))) then
      ostate s' = ostate s /\ opos s' = (match o with OVerify _ => opos s | _ => q end) /\ r = Val tt /\
      odata s' = firstn (Z.to_nat (opos s)) (odata s) ++ l ++ skipn (Z.to_nat (opos s) + length l) (odata s)
    else
      refused (ostate s) (ostate s') (oexc s) (threw r) /\ opos s' = opos s /\ odata s' = odata s /\
      (r = Val tt \/ threw r = true).

(** A history of states and results. *)
Fixpoint history {S O R} (spec : S -> O -> S -> res R -> Prop) (s : S) (ops : list O) (hist : list (S * res R)) : Prop :=
  match ops, hist with
  | [], [] => True
  | o :: t, (s', r) :: h => spec s o s' r /\ history spec s' t h
  | _, _ => False
  end.
