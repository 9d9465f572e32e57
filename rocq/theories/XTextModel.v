(** * XTextModel: what exceptions say about themselves (uexception.h/.cc, ustdxept.h/.cc).

    [store] is the memory of the caller as the exception sees it: the
    NUL-terminated text at an address, or [None] when what was there is gone.
    A string of an exception either has a copy of its text, or is linked to an
    address (ustring.cc:31-36, relink: a string made from a C string keeps the
    pointer).  [ok]: the allocation of the constructor, if there is one,
    succeeds.  That string::format makes the text of its format is C168's and
    C38's; here only that text is made, with enough memory. *)
From Verif Require Import Base UtilModel StrOpsModel ExcModel.
From Coq Require Import ZArith List Ascii String.
Import ListNotations.
Local Open Scope string_scope.
Local Open Scope list_scope.
Local Open Scope Z_scope.

(** The bytes of a text of the source code. *)
Definition codes (s : string) : list Z := map (fun a => Z.of_nat (nat_of_ascii a)) (list_ascii_of_string s).

Definition store := nat -> option (list Z).
Inductive str := Copy (t : list Z) | Link (a : nat).
(** c_str() of a string, read up to the terminator. *)
Definition s_text (m : store) (s : str) : outcome (list Z) :=
  match s with Copy t => Ok t | Link a => match m a with Some t => Ok t | None => UB end end.
(** A pointer argument: null, or an address. *)
Definition c_arg (m : store) (p : option nat) : outcome (list Z) :=
  match p with None => Ok [] | Some a => match m a with Some t => Ok t | None => UB end end.
(** ustring.cc:31-36 [string (const_pointer)]. *)
Definition str_link (p : option nat) : str := match p with None => Copy [] | Some a => Link a end.
(** ustring.cc:18-28 [string (const string&)]: a linked string is linked again. *)
Definition str_copy (ok : bool) (s : str) : outcome str :=
  match s with
  | Link a => Ok (Link a)
  | Copy [] => Ok (Copy [])
  | Copy t => if ok then Ok (Copy t) else Exn bad_alloc
  end.

(** ** printf (3), the conversions %s, %d, %u, %X and %% without flags.
    An argument is a pointer to a text or a 64-bit register, of which %d, %u
    and %X use the lower half (x86-64). *)
Inductive parg := PText (t : list Z) | PLong (v : Z).
Definition low32 (v : Z) : Z := v mod 2 ^ 32.
Definition int32 (v : Z) : Z := if low32 v <? 2 ^ 31 then low32 v else low32 v - 2 ^ 32.
Definition hex_digit (d : Z) : Z := if d <? 10 then 48 + d else 55 + d.
Fixpoint hex_digits (fuel : nat) (n : Z) (acc : list Z) : list Z :=
  match fuel with
  | O => acc
  | S k => if n <? 16 then hex_digit n :: acc else hex_digits k (n / 16) (hex_digit (n mod 16) :: acc)
  end.
Fixpoint render (fmt : list Z) (args : list parg) : outcome (list Z) :=
  match fmt with
  | [] => Ok []
  | c :: f =>
      if negb (c =? 37) then r <- render f args ;; Ok (c :: r) else
      match f, args with
      | 37 :: f', _ => r <- render f' args ;; Ok (37 :: r)
      | 115 :: f', PText t :: a => r <- render f' a ;; Ok (t ++ r)
      | 100 :: f', PLong v :: a => r <- render f' a ;; Ok (dec_text (int32 v) ++ r)
      | 117 :: f', PLong v :: a => r <- render f' a ;; Ok (dec_text (low32 v) ++ r)
      | 88 :: f', PLong v :: a => r <- render f' a ;; Ok (hex_digits 8 (low32 v) [] ++ r)
      | _, _ => UB
      end
  end.

(** ** The classes *)
(** ustdxept.h:25-135. *)
Inductive mclass := ErrorMessage | LogicError | DomainError | InvalidArgument | LengthError | OutOfRange
  | RuntimeError | RangeError | OverflowError | UnderflowError.
Definition class_name (c : mclass) : list Z :=
  codes match c with
        | ErrorMessage => "error" | LogicError => "logic error" | DomainError => "domain error"
        | InvalidArgument => "invalid argument" | LengthError => "length error" | OutOfRange => "out of range"
        | RuntimeError => "runtime error" | RangeError => "range error" | OverflowError => "overflow error"
        | UnderflowError => "underflow error"
        end.
(** uexception.h:47-127, ustdxept.h:25-220: what an exception holds, and the
    format number (uexception.h:72).  The file name is the array of PATH_MAX
    bytes. *)
Inductive xkind :=
| KPlain | KCast | KTypeid
| KAlloc (n : Z)
| KMsg (c : mclass) (arg : str)
| KSys (arg op : str) (eno : Z)
| KFile (arg op : str) (eno : Z) (file : list Z)
| KBounds (arg op : str) (eno : Z) (tname : option nat) (off need have : Z).
Record xobj := mkx { x_format : Z; x_kind : xkind }.

Section Texts.
  (** strerror (3). *)
  Variable strerror : Z -> list Z.
  (** __cxa_demangle and WANT_NAME_DEMANGLING, see ExcModel. *)
  Variable want : bool.
  Variable dem : list Z -> option (list Z).

  (** ustdxept.cc:20-26 [error_message (arg)]; ustring.cc:57-71 [assign]. *)
  Definition msg_arg (ok : bool) (t : list Z) : str :=
    match t with [] => Copy [] | _ => if ok then Copy t else Copy [] end.
  Definition new_msg (ok : bool) (c : mclass) (arg : option nat) (m : store) : outcome xobj :=
    t <- c_arg m arg ;; Ok (mkx 2 (KMsg c (msg_arg ok t))).
  (** uexception.cc:95-100, uexception.h:55, 82, 88. *)
  Definition new_alloc (n : Z) : xobj := mkx 1 (KAlloc n).
  (** ustdxept.h:154-161 [system_error (ec, operation)] in its four forms. *)
  Definition new_sys_ec (ok : bool) (ec : Z) (op : option nat) (m : store) : outcome xobj :=
    _ <- c_arg m op ;; Ok (mkx 2 (KSys (msg_arg ok (strerror ec)) (str_link op) ec)).
  (** ustdxept.cc:61-71 [system_error (operation)], C++14. *)
  Definition new_sys (ok : bool) (errno : Z) (op : option nat) (m : store) : outcome xobj :=
    x <- new_sys_ec ok errno op m ;; Ok (mkx 3 (x_kind x)).
  (** strncpy (3). *)
  Definition strncpy (n : nat) (t : list Z) : list Z := firstn n t ++ repeat 0 (n - List.length t).
  (** a [i] = 0. *)
  Definition zero_at (i : nat) (l : list Z) : list Z := firstn i l ++ 0 :: skipn (S i) l.
  (** ustdxept.cc:98-107 [file_exception]. *)
  Definition file_array (t : list Z) : list Z := zero_at (Z.to_nat (path_max - 1)) (strncpy (Z.to_nat path_max) t).
  Definition new_file (ok : bool) (errno : Z) (op file : option nat) (m : store) : outcome xobj :=
    x <- new_sys ok errno op m ;;
    t <- c_arg m file ;;
    match x_kind x with
    | KSys a o e => Ok (mkx 13 (KFile a o e (file_array t)))
    | _ => UB
    end.
  (** ustdxept.cc:145-153 [stream_bounds_exception]. *)
  Definition new_bounds (ok : bool) (errno : Z) (op tname : option nat) (off need have : Z) (m : store) : outcome xobj :=
    x <- new_sys ok errno op m ;;
    match x_kind x with
    | KSys a o e => Ok (mkx 14 (KBounds a o e tname off need have))
    | _ => UB
    end.
  (** The implicit copy constructors: member by member. *)
  Definition copy_exc (ok : bool) (x : xobj) : outcome xobj :=
    k <- match x_kind x with
         | KMsg c a => a <- str_copy ok a ;; Ok (KMsg c a)
         | KSys a o e => a <- str_copy ok a ;; o <- str_copy ok o ;; Ok (KSys a o e)
         | KFile a o e f => a <- str_copy ok a ;; o <- str_copy ok o ;; Ok (KFile a o e f)
         | KBounds a o e t x y z => a <- str_copy ok a ;; o <- str_copy ok o ;; Ok (KBounds a o e t x y z)
         | k => Ok k
         end ;;
    Ok (mkx (x_format x) k).

  (** uexception.h:57, 83, 89, 112; ustdxept.h:29, 146, 184, 205 [what]. *)
  Definition what (m : store) (x : xobj) : outcome (list Z) :=
    match x_kind x with
    | KPlain => Ok (codes "error")
    | KCast => Ok (codes "bad cast")
    | KTypeid => Ok (codes "bad typeid")
    | KAlloc _ => Ok (codes "memory allocation failed")
    | KMsg _ a => s_text m a
    | KSys _ _ _ => Ok (codes "system error")
    | KFile _ _ _ _ => Ok (codes "file error")
    | KBounds _ _ _ _ _ _ _ => Ok (codes "stream bounds exception")
    end.
  (** ustdxept.h:185, 192: Filename (), the C string in the array. *)
  Definition file_text (f : list Z) : list Z := upto0 f.
  (** ustdxept.cc:158-160: the first bytes of the type name in a local array of 256. *)
  Definition type_buf (t : list Z) : list Z := upto0 (zero_at 255 (strncpy 256 t)).
  (** uexception.cc:26-29, 103-107; ustdxept.cc:33-37, 110-114, 156-162 [info];
      name () of system_error is the operation (ustdxept.h:147). *)
  Definition info (m : store) (x : xobj) (fmt : option (list Z)) : outcome (list Z) :=
    let f d := match fmt with Some f => f | None => codes d end in
    match x_kind x with
    | KPlain | KCast | KTypeid => w <- what m x ;; render (codes "%s") [PText w]
    | KAlloc n => render (f "failed to allocate %d bytes") [PLong n]
    | KMsg c a => t <- s_text m a ;; render (f "%s: %s") [PText (class_name c); PText t]
    | KSys a o _ => op <- s_text m o ;; t <- s_text m a ;; render (f "%s: %s") [PText op; PText t]
    | KFile a o _ file =>
        op <- s_text m o ;; t <- s_text m a ;; render (f "%s %s: %s") [PText op; PText (file_text file); PText t]
    | KBounds _ o _ tn off need have =>
        ty <- match tn with None => UB | Some a => match m a with Some t => Ok t | None => UB end end ;;
        d <- demangle_type_name want dem (type_buf ty) 256 ;;
        op <- s_text m o ;;
        render (f "%s stream %s: @0x%X: need %u bytes, have %u") [PText d; PText op; PLong off; PLong need; PLong have]
    end.
End Texts.
