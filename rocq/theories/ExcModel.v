(** * ExcModel: exceptions: the backtrace they carry, copying them, and writing
    them to binary streams.

    Pointers are 64 bits, c_DefaultAlignment is 8.  [mal n] says whether a
    malloc of [n] bytes succeeds.  [dbg]: see StreamModel. *)
From Verif Require Import Base UtilModel StreamModel SerialModel.
From Coq Require Import ZArith.
Local Open Scope Z_scope.

(** ** The backtrace *)
(** bktrace.h:39-42: the 64 addresses; the symbols, a malloced block of bytes
    ([None]: the null pointer; an undetermined byte is [None]); the counts. *)
Record bt := mkbt { baddr : list Z; bsyms : option (list (option Z)); bn : Z; bsz : Z }.
Definition max_frames : nat := 64.

(** The C string at the start of a block, without its terminator. *)
Fixpoint cstr (l : list (option Z)) : outcome (list Z) :=
  match l with
  | Some c :: t => if c =? 0 then Ok [] else r <- cstr t ;; Ok (c :: r)
  | _ => UB
  end.
(** strchr: the index of the first [c]. *)
Fixpoint index (c : Z) (l : list Z) : option nat :=
  match l with
  | [] => None
  | x :: t => if x =? c then Some O else match index c t with Some k => Some (S k) | None => None end
  end.

Section Symbols.
  (** __cxa_demangle of a name, if it is a mangled one; only used with
      WANT_NAME_DEMANGLING ([want]). *)
  Variable want : bool.
  Variable dem : list Z -> option (list Z).
  (** The bytes of [l] up to a zero: strlen. *)
  Fixpoint upto0 (l : list Z) : list Z :=
    match l with [] => [] | x :: t => if x =? 0 then [] else x :: upto0 t end.
  (** uexception.cc:69-88 [demangle_type_name]: [buf] is the C string in the
      buffer; the text after it.  A demangled name that needs more than the
      256 bytes of [dmname], a local array, makes __cxa_demangle reallocate it. *)
  Definition demangle_type_name (buf : list Z) (bufsize : Z) : outcome (list Z) :=
    if want then
      match dem buf with
      | Some d => if 256 <? Z.of_nat (length d) + 1 then UB
                  else Ok (firstn (Z.to_nat (Z.min (Z.of_nat (length d)) (bufsize - 1))) d)
      | None => Ok buf
      end
    else Ok (firstn (Z.to_nat (Z.min (Z.of_nat (length buf)) bufsize)) buf).
  (** bktrace.cc:48-68 [ExtractAbiName]: the description [line], a C string in
      a block of which [rest] follows the terminator; the name. *)
  Definition extract_name (line rest : list Z) : outcome (list Z) :=
    let start := match index 40 line with Some k => Z.of_nat k + 1 | None => 0 end in    (* '(' *)
    let stop := match index 43 line with Some k => Z.of_nat k | None => Z.of_nat (length line) end in  (* '+' *)
    let n := Z.min (u64 (stop - start)) 255 in
    let mem := line ++ 0 :: rest in
    if Z.of_nat (length mem) <? start + n then UB else
    demangle_type_name (upto0 (slice mem (Z.to_nat start) (Z.to_nat (start + n)))) 255.
  (** The block of backtrace_symbols (3): the strings one after another. *)
  Definition block_of (lines : list (list Z)) : list Z := flat_map (fun l => l ++ [0]) lines.
  (** bktrace.cc:77-79, the names. *)
  Fixpoint all_names (lines : list (list Z)) : outcome (list (list Z)) :=
    match lines with
    | [] => Ok []
    | l :: t => x <- extract_name l (block_of t) ;; r <- all_names t ;; Ok (x :: r)
    end.
  Definition sym_size (names : list (list Z)) : Z := fold_right (fun x n => Z.of_nat (length x) + 1 + n) 1 names.
  (** bktrace.cc:81-86: [blk] is the zeroed block, [k] is [_symbolsSize].  A name
      past the last description is undefined. *)
  Fixpoint fill_syms (total : Z) (names : list (list Z)) (blk : list (option Z)) (k : nat) : outcome (list (option Z) * nat) :=
    if Z.of_nat k <? total - 1 then
      match names with
      | [] => UB
      | x :: t =>
          let y := map Some x ++ [Some 10] in
          if (k + length y <=? length blk)%nat
          then fill_syms total t (firstn k blk ++ y ++ skipn (k + length y) blk) (k + length y)
          else UB
      end
    else Ok (blk, k).
  (** bktrace.cc:19-26 with 71-89: [addrs] are the frames that backtrace (3)
      found, at most 64; [lines] what backtrace_symbols (3) gave for them, or
      nothing if it had no memory.  The rest of the array is undetermined: zeros here. *)
  Definition bt_make (mal : Z -> bool) (addrs : list Z) (lines : option (list (list Z))) : outcome bt :=
    let a := firstn max_frames (addrs ++ repeat 0 max_frames) in
    let n := Z.of_nat (length addrs) in
    match lines with
    | None => Ok (mkbt a None n 0)
    | Some ls =>
        names <- all_names ls ;;
        let sz := sym_size names in
        if mal sz then
          ' (b, k) <- fill_syms sz names (repeat (Some 0) (Z.to_nat sz)) 0 ;;
          Ok (mkbt a (Some b) n (u32 (Z.of_nat k)))
        else Ok (mkbt a None n 0)
    end.
End Symbols.

(** bktrace.cc:29-45 [operator=] and the copy constructor: strdup of the
    symbols, also of a null pointer.  (What becomes of the block the left side
    had: see [cstep].) *)
Definition bt_copy (mal : Z -> bool) (v : bt) : outcome bt :=
  match bsyms v with
  | None => UB
  | Some b =>
      s <- cstr b ;;
      Ok (mkbt (baddr v) (if mal (Z.of_nat (length s) + 1) then Some (map Some s ++ [Some 0]) else None) (bn v) (bsz v))
  end.

(** bktrace.cc:98-107 [text_write].  [fmtp] is what the format of an address
    writes (a "%16p" and two spaces); [ss] is the text still to be shown. *)
Fixpoint bt_lines (fmtp : Z -> list Z) (addrs : list Z) (ss : list Z) : outcome (list Z) :=
  match addrs with
  | [] => Ok []
  | a :: t =>
      match index 10 ss with
      | None => UB
      | Some k => r <- bt_lines fmtp t (skipn (S k) ss) ;; Ok (fmtp a ++ firstn (S k) ss ++ r)
      end
  end.
Definition bt_text (fmtp : Z -> list Z) (v : bt) : outcome (list Z) :=
  if bn v =? 0 then Ok [] else
  if Z.of_nat max_frames <? bn v then UB else
  match bsyms v with
  | None => UB
  | Some b => s <- cstr b ;; bt_lines fmtp (firstn (Z.to_nat (bn v)) (baddr v)) s
  end.

(** ** Streams *)
(** [n] bytes at the start of a block. *)
Fixpoint determined (l : list (option Z)) : outcome (list Z) :=
  match l with
  | [] => Ok []
  | Some c :: t => r <- determined t ;; Ok (c :: r)
  | None :: _ => UB
  end.
Definition bytes_at (b : option (list (option Z))) (n : Z) : outcome (list Z) :=
  if n =? 0 then Ok [] else
  match b with
  | None => UB
  | Some l => if Z.of_nat (length l) <? n then UB else determined (firstn (Z.to_nat n) l)
  end.
(** mostream.h:193-203 [ostream::write] of [n] bytes at a pointer. *)
Definition o_write_at (b : option (list (option Z))) (n : Z) : io ostream unit :=
  ok <~ o_verify n ;;
  if ok then l <~ lift (bytes_at b n) ;; _ <~ o_write l ;; ret tt else ret tt.
Section Asserts.
  Variable dbg : bool.
  Variable mal : Z -> bool.
  (** The addresses as bytes, lowest first. *)
  Definition addr_bytes (a : list Z) : list (option Z) := map Some (flat_map (bytes_le 8) a).
  (** bktrace.cc:123-130. *)
  Definition bt_write (v : bt) : io ostream unit :=
    fun s =>
      if dbg && negb (opos s mod 8 =? 0) then UB else
      (_ <~ iwrite dbg 4 (bn v) ;;
       _ <~ iwrite dbg 4 (bsz v) ;;
       _ <~ o_write_at (bsyms v) (bsz v) ;;
       _ <~ o_align 8 ;;
       o_write_at (Some (addr_bytes (baddr v))) (bn v * 8)) s.
  (** bktrace.cc:133-139. *)
  Definition bt_size (v : bt) : Z := align_up (4 + 4 + bn v * 8 + bsz v) 8.
  (** Eight bytes each. *)
  Fixpoint addrs_of (k : nat) (l : list Z) : list Z :=
    match k with O => [] | S k => of_bytes_le (firstn 8 l) :: addrs_of k (skipn 8 l) end.
  (** bktrace.cc:110-120.  The size of the block is computed in 32 bits, the
      pointer is not checked, nor is the number of frames.  [old] are the counts before. *)
  Definition bt_read (old : bt) : io istream bt :=
    fun s =>
      if dbg && negb (ipos s mod 8 =? 0) then UB else
      (r <~ iread dbg 4 ;;
       let n := match r with Some n => n | None => bn old end in
       r <~ iread dbg 4 ;;
       let sz := match r with Some n => n | None => bsz old end in
       let cap := u32 (sz + 1) in
       l <~ i_read sz ;;
       blk <~ lift (if mal cap then
                      b <- match l with
                           | Some l => if cap <? sz then UB else Ok (map Some l ++ repeat None (Z.to_nat (cap - sz)))
                           | None => Ok (repeat None (Z.to_nat cap))
                           end ;;
                      if sz <? cap then wr b (Z.to_nat sz) (Some 0) else UB
                    else UB) ;;
       _ <~ i_align 8 ;;
       a <~ i_read (n * 8) ;;
       lift (match a with
             | None => Ok (mkbt (baddr old) (Some blk) n sz)
             | Some a => if Z.of_nat max_frames <? n then UB
                         else Ok (mkbt (addrs_of (Z.to_nat n) a ++ skipn (Z.to_nat n) (baddr old)) (Some blk) n sz)
             end)) s.

  (** ** Exceptions *)
  (** What the classes add to [exception].  uexception.h:117 (bad_alloc),
      ustdxept.h:38 (error_message and the classes derived from it that add
      nothing), 169-170 (system_error), 192 (file_exception: the C string in the
      array of PATH_MAX bytes), 216-219 (stream_bounds_exception; the name is
      a pointer).  Integers are their unsigned representation. *)
  Inductive xdata : Type :=
  | XNone
  | XAlloc (bytes : Z)
  | XMessage (arg : list Z)
  | XSystem (arg op : list Z) (eno : Z)
  | XFile (arg op : list Z) (eno : Z) (name : list Z)
  | XBounds (arg op : list Z) (eno : Z) (tname off expected remaining : Z).
  (** uexception.h:71-72. *)
  Record exc := mkexc { xfmt : Z; xbt : bt; xd : xdata }.
  Definition path_max : Z := 4096.

  (** uexception.h:62; uexception.cc:125-128; ustdxept.cc:53-56,88-93,136-140,180-187 [stream_size]. *)
  Definition base_size (x : exc) : Z := 4 + 4 + bt_size (xbt x).
  Definition msg_size (x : exc) (arg : list Z) : Z := base_size x + align_up (str_stream_size arg) 8.
  Definition sys_size (x : exc) (arg op : list Z) : Z := msg_size x arg + align_up 4 8 + align_up (str_stream_size op) 8.
  Definition x_size (x : exc) : Z :=
    match xd x with
    | XNone => base_size x
    | XAlloc _ => base_size x + 8
    | XMessage arg => msg_size x arg
    | XSystem arg op _ => sys_size x arg op
    | XFile arg op _ name => sys_size x arg op + align_up (str_stream_size name) 8
    | XBounds arg op _ _ _ _ _ => sys_size x arg op + 8 + 8 + 8 + 8
    end.

  Definition owr (w : nat) (v : Z) : io ostream unit := _ <~ iwrite dbg w v ;; ret tt.
  (** uexception.cc:43-46 [exception::write]; stream_size is virtual. *)
  Definition base_write (x : exc) : io ostream unit :=
    _ <~ owr 4 (xfmt x) ;; _ <~ owr 4 (u32 (u64 (x_size x - 8))) ;; bt_write (xbt x).
  (** ustdxept.cc:46-50. *)
  Definition msg_write (x : exc) (arg : list Z) : io ostream unit :=
    _ <~ base_write x ;; _ <~ str_write arg ;; o_align 8.
  (** ustdxept.cc:81-85. *)
  Definition sys_write (x : exc) (arg op : list Z) (eno : Z) : io ostream unit :=
    _ <~ msg_write x arg ;; _ <~ str_write op ;; _ <~ o_align 8 ;; _ <~ owr 4 eno ;; o_align 8.
  (** uexception.cc:118-122; ustdxept.cc:128-133,173-177. *)
  Definition x_write (x : exc) : io ostream unit :=
    match xd x with
    | XNone => base_write x
    | XAlloc n => _ <~ base_write x ;; owr 8 n
    | XMessage arg => msg_write x arg
    | XSystem arg op eno => sys_write x arg op eno
    | XFile arg op eno name => _ <~ sys_write x arg op eno ;; _ <~ str_write name ;; o_align 8
    | XBounds arg op eno tn off ex rm =>
        _ <~ sys_write x arg op eno ;; _ <~ owr 8 tn ;; _ <~ owr 8 off ;; _ <~ owr 8 ex ;; owr 8 rm
    end.

  Definition rdi (w : nat) (old : Z) : io istream Z :=
    r <~ iread dbg w ;; ret (match r with Some v => v | None => old end).
  (** uexception.cc:32-40 [exception::read] with its two asserts: the format and
      the backtrace read. *)
  Definition base_read (old : exc) : io istream (Z * bt) :=
    f <~ rdi 4 0 ;;
    sz <~ rdi 4 0 ;;
    b <~ bt_read (xbt old) ;;
    (fun s =>
       if dbg && (negb (f =? xfmt old) || (i_remaining s <? u64 (u32 (sz + 8) - (8 + bt_size b)))) then UB
       else Ok (s, Val (f, b))).
  (** ustdxept.cc:39-43. *)
  Definition msg_read (old : exc) (arg : list Z) : io istream (Z * bt * list Z) :=
    fb <~ base_read old ;; a <~ str_read dbg arg ;; _ <~ i_align 8 ;; ret (fb, a).
  (** ustdxept.cc:74-78. *)
  Definition sys_read (old : exc) (arg op : list Z) (eno : Z) : io istream (Z * bt * list Z * list Z * Z) :=
    fba <~ msg_read old arg ;; o <~ str_read dbg op ;; _ <~ i_align 8 ;; e <~ rdi 4 eno ;; _ <~ i_align 8 ;; ret (fba, o, e).
  (** uexception.cc:111-115; ustdxept.cc:117-125 (strncpy into the array),
      166-170.  An object reads into its own class. *)
  Definition x_read (old : exc) : io istream exc :=
    match xd old with
    | XNone => fb <~ base_read old ;; ret (mkexc (fst fb) (snd fb) XNone)
    | XAlloc n => fb <~ base_read old ;; n <~ rdi 8 n ;; ret (mkexc (fst fb) (snd fb) (XAlloc n))
    | XMessage arg =>
        r <~ msg_read old arg ;; let '(f, b, a) := r in ret (mkexc f b (XMessage a))
    | XSystem arg op eno =>
        r <~ sys_read old arg op eno ;; let '(f, b, a, o, e) := r in ret (mkexc f b (XSystem a o e))
    | XFile arg op eno name =>
        r <~ sys_read old arg op eno ;;
        n <~ str_read dbg [] ;;
        _ <~ i_align 8 ;;
        let '(f, b, a, o, e) := r in
        ret (mkexc f b (XFile a o e (upto0 (firstn (Z.to_nat (path_max - 1)) n))))
    | XBounds arg op eno tn off ex rm =>
        r <~ sys_read old arg op eno ;;
        tn <~ rdi 8 tn ;; off <~ rdi 8 off ;; ex <~ rdi 8 ex ;; rm <~ rdi 8 rm ;;
        let '(f, b, a, o, e) := r in
        ret (mkexc f b (XBounds a o e tn off ex rm))
    end.
End Asserts.

(** ** Backtraces in variables *)
(** Operations on the backtraces a program has: construction (with nothing to
    show), copy construction, assignment, destruction (bktrace.h:30,
    bktrace.cc:19-45).  [live] counts the blocks of symbols that are allocated. *)
Inductive cop : Type := CNew (addrs : list Z) (lines : option (list (list Z))) | CCopy (i : nat) | CAssign (i j : nat) | CDestroy (i : nat).
Record cstate := mkcs { vars : list (option bt); live : Z }.
Definition has_block (b : bt) : Z := match bsyms b with Some _ => 1 | None => 0 end.
Definition cstep (want : bool) (dem : list Z -> option (list Z)) (mal : Z -> bool) (s : cstate) (o : cop) : outcome cstate :=
  match o with
  | CNew a ls => b <- bt_make want dem mal a ls ;; Ok (mkcs (vars s ++ [Some b]) (live s + has_block b))
  | CCopy i =>
      match nth_error (vars s) i with
      | Some (Some v) => b <- bt_copy mal v ;; Ok (mkcs (vars s ++ [Some b]) (live s + has_block b))
      | _ => UB
      end
  | CAssign i j =>
      match nth_error (vars s) i, nth_error (vars s) j with
      | Some (Some _), Some (Some v) => b <- bt_copy mal v ;; vs <- wr (vars s) i (Some b) ;; Ok (mkcs vs (live s + has_block b))
      | _, _ => UB
      end
  | CDestroy i =>
      match nth_error (vars s) i with
      | Some (Some v) => vs <- wr (vars s) i None ;; Ok (mkcs vs (live s - has_block v))
      | _ => UB
      end
  end.
Fixpoint crun want dem mal (s : cstate) (ops : list cop) : outcome cstate :=
  match ops with [] => Ok s | o :: t => s' <- cstep want dem mal s o ;; crun want dem mal s' t end.
