(** * SerialModel: writing objects to binary streams and reading them back:
    strings, memory blocks, pairs and containers.

    [dbg]: see StreamModel.  The value a read delivers is the object's new
    content; when an exception leaves a read the object's content is not
    described. *)
From Verif Require Import Base UtilModel StoreModel MemModel StringModel VectorModel VectorSpec Utf8Model StreamModel.
From Coq Require Import ZArith.
Local Open Scope Z_scope.

(** What [operator<<], [operator>>], [stream_size_of], [stream_align_of] and
    the default constructor do for a type. *)
Record codec (T : Type) := mkcodec {
  cwrite : T -> io ostream unit;
  cread : T -> io istream T;            (* reads over an existing object *)
  csize : T -> Z;
  calign : Z;
  cdflt : T }.
Arguments mkcodec {T}.
Arguments cwrite {T}. Arguments cread {T}. Arguments csize {T}. Arguments calign {T}. Arguments cdflt {T}.

(** uutility.h [Align] for a positive grain, in 64 bits. *)
Definition align_up (n g : Z) : Z := let m := u64 (n + g - 1) in m - m mod g.

Section Asserts.
  Variable dbg : bool.

  (** Integral types: mistream.h:253-262, mostream.h:231-241 (the integral_object structs),
      strmsize.h:19-21,33-38.  A value is its unsigned representation. *)
  Definition c_int (w : nat) : codec Z :=
    mkcodec (fun v => _ <~ iwrite dbg w v ;; ret tt)
            (fun old => r <~ iread dbg w ;; ret (match r with Some v => v | None => old end))
            (fun _ => Z.of_nat w) (Z.of_nat w) 0.

  (** ustring.cc:370-383 [string::write]; the text [l]. *)
  Definition str_write (l : list Z) : io ostream unit :=
    let sz := u32 (Z.of_nat (length l)) in
    szbuf <~ lift (utf8_out (wchar sz)) ;;
    ok <~ o_verify (Z.of_nat (length szbuf) + sz) ;;
    if ok then _ <~ o_write szbuf ;; _ <~ o_write (firstn (Z.to_nat sz) l) ;; ret tt else ret tt.
  (** ustring.cc:356-367 [string::read].  [rsz n] resizes the string, [fill x l]
      stores the bytes read into it, [old] is the string before.  Without
      exceptions, a stream at its end leaves [szbuf] uninitialised. *)
  Definition str_read_gen {X} (rsz : Z -> outcome X) (fill : X -> list Z -> outcome X) (old : X) : io istream X :=
    c <~ iread dbg 1 ;;
    match c with
    | None => undefined
    | Some c =>
        k <~ lift (seq_bytes c) ;;
        let szsz := k - 1 in
        ok <~ i_verify szsz ;;
        if ok then
          rest <~ i_read szsz ;;
          it <~ lift (utf8_read (c :: given rest) 0) ;;
          let n := u64 (snd it) in
          ok <~ i_verify n ;;
          if ok then
            x <~ lift (rsz n) ;;
            l <~ i_read n ;;
            match l with Some l => lift (fill x l) | None => ret x end
          else ret old
        else ret old
    end.
  (** Strings as text. *)
  Definition str_read (old : list Z) : io istream (list Z) :=
    str_read_gen (fun n => Ok (seq_resize old (Z.to_nat n) 0)) (fun _ l => Ok l) old.
  (** ustring.cc:350-353 [stream_size]. *)
  Definition str_stream_size (l : list Z) : Z := utf8_bytes (Z.of_nat (length l)) + Z.of_nat (length l).
  (** As an element: uspecial.h:236 gives strings the alignment of their
      characters instead of the 4 of other objects (strmsize.h:33-38). *)
  Definition c_string : codec (list Z) := mkcodec str_write str_read str_stream_size 1 [].
  (** Strings in the heap. *)
  Definition str_read_heap (e : env) (nul : ptr) (h : heap) (m : mb) : io istream (heap * mb) :=
    str_read_gen (fun n => str_resize e nul h m n)
                 (fun hm l => h' <- store_n (fst hm) (mptr (snd hm)) (map Some l) ;; Ok (h', snd hm)) (h, m).

  (** cmemlink.cc:27-34 [cmemlink::write]; the bytes [l]. *)
  Definition mem_write (l : list Z) : io ostream unit :=
    let sz := u32 (Z.of_nat (length l)) in
    _ <~ iwrite dbg 4 sz ;;
    _ <~ o_write (firstn (Z.to_nat sz) l) ;;
    o_align 4.
  (** cmemlink.cc:43-47 [stream_size]. *)
  Definition mem_stream_size (l : list Z) : Z := align_up (4 + u32 (Z.of_nat (length l))) 4.
  (** memblock.cc:132-141 [memblock::read]. *)
  Definition memblock_read (e : env) (h : heap) (m : mb) : io istream (heap * mb) :=
    r <~ iread dbg 4 ;;
    let n := match r with Some n => n | None => 0 end in
    ok <~ i_verify n ;;
    if ok then
      hm <~ lift (MemModel.resize e 0 h m n true) ;;
      l <~ i_read n ;;
      hm <~ match l with
            | Some l => lift (h' <- store_n (fst hm) (mptr (snd hm)) (map Some l) ;; Ok (h', snd hm))
            | None => ret hm
            end ;;
      _ <~ i_align 4 ;; ret hm
    else ret (h, m).
  (** memlink.cc:12-23 [memlink::read]: the link is to [size] bytes of the
      caller's memory; resize only sets the size (cmemlink.h:73). *)
  Definition memlink_read (h : heap) (p : ptr) (size : Z) : io istream (heap * Z) :=
    r <~ iread dbg 4 ;;
    let n := match r with Some n => n | None => 0 end in
    ok <~ i_verify n ;;
    if ok then
      if size <? n then throw length_error else
      l <~ i_read n ;;
      h <~ match l with
           | Some l => lift (store_n h p (map Some l))
           | None => ret h
           end ;;
      _ <~ i_align 4 ;; ret (h, n)
    else ret (h, size).

  Section Containers.
    Context {T : Type}.
    Variable c : codec T.
    (** uctrstrm.h:36-41 [nr_container_write]. *)
    Fixpoint nr_write (l : list T) : io ostream unit :=
      match l with
      | [] => ret tt
      | x :: t => _ <~ cwrite c x ;; nr_write t
      end.
    (** uctrstrm.h:27-32 [nr_container_read]: over the existing elements. *)
    Fixpoint nr_read (l : list T) : io istream (list T) :=
      match l with
      | [] => ret []
      | x :: t => y <~ cread c x ;; r <~ nr_read t ;; ret (y :: r)
      end.
    (** uctrstrm.h:45-59 [nr_container_stream_size].  [const] is
        __builtin_constant_p (dvs), which the compiler may answer either way
        when all elements have the same size. *)
    Fixpoint sum_sizes (l : list T) : Z :=
      match l with [] => 0 | x :: t => csize c x + sum_sizes t end.
    Definition nr_stream_size (const : bool) (l : list T) : Z :=
      match l with
      | [] => 0
      | x :: _ => if const then u64 (csize c x * Z.of_nat (length l)) else u64 (sum_sizes l)
      end.
    (** uctrstrm.h:86-97 [container_write]; written_size_type is uint32_t. *)
    Definition container_write (l : list T) : io ostream unit :=
      _ <~ iwrite dbg 4 (u32 (Z.of_nat (length l))) ;;
      _ <~ (if 4 <? calign c then o_align (calign c) else ret tt) ;;
      _ <~ nr_write l ;;
      o_align 4.
    (** uctrstrm.h:67-82 [container_read].  [rsz n] is v.resize (n) and gives
        the container and its elements, [fill] stores the elements read. *)
    Definition container_read_gen {X} (rsz : Z -> outcome (X * list T)) (fill : X -> list T -> outcome X) (old : X)
      : io istream X :=
      r <~ iread dbg 4 ;;
      let n := match r with Some n => n | None => 0 end in
      ok <~ i_verify (u64 (n * csize c (cdflt c))) ;;
      if ok then
        _ <~ (if 4 <? calign c then i_align (calign c) else ret tt) ;;
        xl <~ lift (rsz n) ;;
        l <~ nr_read (snd xl) ;;
        x <~ lift (fill (fst xl) l) ;;
        _ <~ i_align 4 ;;
        ret x
      else ret old.
    (** Containers as sequences. *)
    Definition container_read (old : list T) : io istream (list T) :=
      container_read_gen (fun n => let l := seq_resize old (Z.to_nat n) (cdflt c) in Ok (l, l)) (fun _ l => Ok l) old.
    (** Vectors (uvector.h:105): resize is uvector.h [vector::resize], the
        elements are assigned in place. *)
    Definition vector_read (e : env) (es : Z) (v : vec T) : io istream (vec T) :=
      container_read_gen
        (fun n => v' <- VectorModel.resize e es (cdflt c) v (Z.to_nat n) ;; l <- contents v' ;; Ok (v', l))
        (fun v l => cells <- assign_cells (vcells v) 0 l ;; Ok (mkvec cells (vsize v) (vcap v))) v.
    (** uctrstrm.h:101-110 [container_stream_size]. *)
    Definition container_stream_size (const : bool) (l : list T) : Z :=
      let s := if 4 <? calign c then align_up 4 (calign c) else 4 in
      align_up (s + nr_stream_size const l) 4.
    (** A container as an element of another one: uspecial.h:107-112, strmsize.h:33-38. *)
    Definition c_container : codec (list T) :=
      mkcodec container_write container_read (container_stream_size false) 4 [].
  End Containers.

  (** uarray.h:66-69 [array], utuple.h:74-77 [tuple] (and umatrix.h [matrix], a
      tuple; ubitset.h:118-122 [bitset], an array of uint32_t words): uctrstrm.h:27-59
      over the [n] elements the object has ([old] stands for one with [n]
      elements).  A tuple is aligned like its elements (uspecial.h:139), the
      others to 4 (strmsize.h:33-38).  Simplified: a tuple of integral types is
      integral itself (uspecial.h:128-136), and so is copied in one piece after
      one bounds check: the same bytes, if there is room for all. *)
  Definition c_array {T} (tup : bool) (n : nat) (c : codec T) : codec (list T) :=
    mkcodec (nr_write c) (fun old => nr_read c (seq_resize old n (cdflt c))) (nr_stream_size c false)
      (if tup then calign c else 4) (repeat (cdflt c) n).

  (** uspecial.h:175-196 [_long4grain] on x86-64: an uint64_t at any multiple of 4. *)
  Definition c_long4 : codec Z :=
    mkcodec (fun v s => if dbg && negb (opos s mod 4 =? 0) then UB else
                        (ok <~ o_verify 8 ;; if ok then (_ <~ o_raw (bytes_le 8 v) ;; o_skip 8) else ret tt) s)
            (fun old s => if dbg && negb (ipos s mod 4 =? 0) then UB else
                          (ok <~ i_verify 8 ;;
                           if ok then (l <~ i_raw 8 ;; _ <~ i_skip 8 ;; ret (of_bytes_le l)) else ret old) s)
            (fun _ => 8) 4 0.

  (** uspecial.h:44-69 [pair]. *)
  Definition c_pair {A B} (a : codec A) (b : codec B) : codec (A * B) :=
    mkcodec
      (fun p => _ <~ cwrite a (fst p) ;; _ <~ o_align (calign b) ;; _ <~ cwrite b (snd p) ;; o_align (calign a))
      (fun old => x <~ cread a (fst old) ;; _ <~ i_align (calign b) ;;
                  y <~ cread b (snd old) ;; _ <~ i_align (calign a) ;; ret (x, y))
      (fun p => align_up (csize a (fst p)) (calign b) + align_up (csize b (snd p)) (calign a))
      4 (cdflt a, cdflt b).
End Asserts.
