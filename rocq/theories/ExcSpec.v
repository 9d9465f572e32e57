(** * ExcSpec: what exceptions carry, and what their round trip means. *)
From Coq Require Import List ZArith Bool.
From Verif Require Import Base UtilModel StreamModel SerialModel SerialSpec ExcModel.
Import ListNotations.
Local Open Scope Z_scope.

(** Backtrace [b] shows the frames [addrs], at most 64, and the text [t]
    (nothing, or a C string in memory). *)
Definition shows (b : bt) (addrs t : list Z) : Prop :=
  (length addrs <= 64)%nat /\ bn b = Z.of_nat (length addrs) /\
  length (baddr b) = 64%nat /\ firstn (length addrs) (baddr b) = addrs /\
  Forall (fun a => 0 <= a < 2 ^ 64) addrs /\
  Forall (fun c => c <> 0) t /\ bsz b = Z.of_nat (length t) /\ Z.of_nat (length t) < 2 ^ 32 /\
  (bsyms b = Some (map Some t ++ [Some 0]) \/ (bsyms b = None /\ t = [])).

Definition text_ok (l : list Z) : Prop := Z.of_nat (length l) < 2 ^ 31.
Definition u32_ok (v : Z) : Prop := 0 <= v < 2 ^ 32.
Definition u64_ok (v : Z) : Prop := 0 <= v < 2 ^ 64.
(** The values a program can have in the data of an exception. *)
Definition data_ok (d : xdata) : Prop :=
  match d with
  | XNone => True
  | XAlloc n => u64_ok n
  | XMessage a => text_ok a
  | XSystem a o e => text_ok a /\ text_ok o /\ u32_ok e
  | XFile a o e n => text_ok a /\ text_ok o /\ u32_ok e /\ Forall (fun c => c <> 0) n /\ Z.of_nat (length n) <= 4095
  | XBounds a o e t f x r => text_ok a /\ text_ok o /\ u32_ok e /\ u64_ok t /\ u64_ok f /\ u64_ok x /\ u64_ok r
  end.
(** Objects of the same class. *)
Definition same_class (x y : xdata) : Prop :=
  match x, y with
  | XNone, XNone | XAlloc _, XAlloc _ | XMessage _, XMessage _ | XSystem _ _ _, XSystem _ _ _
  | XFile _ _ _ _, XFile _ _ _ _ | XBounds _ _ _ _ _ _ _, XBounds _ _ _ _ _ _ _ => True
  | _, _ => False
  end.

(** A description of a frame as backtrace_symbols (3) gives it:
    "file(function+0xoffset) [0xaddress]". *)
Definition described (line file func tail : list Z) : Prop :=
  line = file ++ [40] ++ func ++ [43] ++ tail /\ ~ In 0 line.

Section Names.
  Variable want : bool.
  Variable dem : list Z -> option (list Z).
  (** What is shown for a function: its name, demangled if that can be done, cut to 255 (254) bytes. *)
  Definition shown (f : list Z) : list Z :=
    let f := firstn 255 f in
    if want then match dem f with Some d => firstn 254 d | None => f end else f.
  Definition fits_demangler (f : list Z) : Prop :=
    want = true -> forall d, dem (firstn 255 f) = Some d -> (length d <= 255)%nat.
  (** A frame's description and its function; no '(' or '+' in the path of the file. *)
  Definition frame_ok (p : list Z * list Z) : Prop :=
    Z.of_nat (length (fst p)) < 2 ^ 63 /\ fits_demangler (snd p) /\
    exists file tail, described (fst p) file (snd p) tail /\ ~ In 40 file /\ ~ In 43 file /\ ~ In 43 (snd p).
End Names.
(** One name in each line. *)
Definition joined (names : list (list Z)) : list Z := flat_map (fun x => x ++ [10]) names.
(** The 32 bit number at [p]. *)
Definition word_at (data : list Z) (p : Z) : Z := of_bytes_le (slice data (Z.to_nat p) (Z.to_nat (p + 4))).

(** The blocks of symbols that the variables still own. *)
Definition owned (s : cstate) : Z := fold_right (fun v n => match v with Some b => match bsyms b with Some _ => 1 | None => 0 end | None => 0 end + n) 0 (vars s).
Definition all_destroyed (s : cstate) : Prop := Forall (fun v => v = None) (vars s).
Definition is_assign (o : cop) : bool := match o with CAssign _ _ => true | _ => false end.
