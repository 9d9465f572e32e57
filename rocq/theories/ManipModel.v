(** * ManipModel: the format flags of text streams and the manipulators. *)
From Verif Require Import Base FmtModel.
From Coq Require Import ZArith List.
Import ListNotations.
Local Open Scope Z_scope.

(** uios.h:17-36 [fmtflags_bits]: a manipulator is one of the fifteen bits. *)
Inductive manip := Boolalpha | Showbase | Showpoint | Showpos | Skipws | Unitbuf | Uppercase
  | Dec | Oct | Hex | Fixed | Scientific | Left | Right | Internal.
Definition bit (m : manip) : Z :=
  match m with
  | Boolalpha => 0 | Showbase => 1 | Showpoint => 2 | Showpos => 3 | Skipws => 4 | Unitbuf => 5 | Uppercase => 6
  | Dec => 7 | Oct => 8 | Hex => 9 | Fixed => 10 | Scientific => 11 | Left => 12 | Right => 13 | Internal => 14
  end.
Definition flag_of (m : manip) : Z := Z.shiftl 1 (bit m).
Definition basefield : Z := 896. Definition floatfield : Z := 3072. Definition adjustfield : Z := 28672.
(** sostream.h:23-27, sistream.h:27-31: each returns the flags and its result. *)
Definition flags_set (fl f : Z) : Z * Z := (f, fl).
Definition setf (fl f : Z) : Z * Z := (Z.lor fl f, fl).
Definition unsetf (fl f : Z) : Z * Z := (Z.ldiff fl f, fl).
Definition setf2 (fl f m : Z) : Z * Z := setf (fst (unsetf fl m)) f.
(** sostream.h:119-125, sistream.h:87-93 [iwrite (fmtflags_bits)], [iread (fmtflags_bits)]. *)
Definition put_manip (fl : Z) (m : manip) : Z :=
  let f := flag_of m in
  let fl :=
    if has f basefield then fst (setf2 fl f basefield)
    else if has f floatfield then fst (setf2 fl f floatfield)
    else if has f adjustfield then fst (setf2 fl f adjustfield)
    else fl in
  fst (setf fl f).
(** sostream.h:179-211: the manipulators with an argument; the settings are those of FmtModel. *)
Inductive mop := MFlag (m : manip) | MSetFlags (f : Z) | MResetFlags (f : Z) | MSetw (w : Z) | MSetfill (c : Z) | MSetprecision (p : Z).
Definition mstep (s : fmtst) (o : mop) : fmtst :=
  match o with
  | MFlag m => mkfs (put_manip (w_flags s) m) (w_width s) (w_prec s) (w_fill s)
  | MSetFlags f => mkfs (fst (setf (w_flags s) f)) (w_width s) (w_prec s) (w_fill s)
  | MResetFlags f => mkfs (fst (unsetf (w_flags s) f)) (w_width s) (w_prec s) (w_fill s)
  | MSetw w => mkfs (w_flags s) w (w_prec s) (w_fill s)
  | MSetfill c => mkfs (w_flags s) (w_width s) (w_prec s) c
  | MSetprecision p => mkfs (w_flags s) (w_width s) p (w_fill s)
  end.
Definition mrun (s : fmtst) (ops : list mop) : fmtst := fold_left mstep ops s.
(** sostream.cc:15-21, 29-35: a new stream; no flags, no width, precision 2, no fill. *)
Definition initial : fmtst := mkfs 0 0 2 0.
