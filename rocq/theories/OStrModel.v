(** * OStrModel: ostringstream and ofstream on the byte heap.

    A text stream is an ostream (a view of memory and a position) over a string
    buffer; ofstream adds a file.  The two share one record; an ostringstream
    leaves the file alone.  The virtual overflow() is the parameter [ov] of the
    operations.  The data written is the caller's and lies in none of the
    stream's blocks.  Simplified: format flags are in FmtModel; the text that
    vsnprintf produces is given. *)
From Verif Require Import Base UtilModel StoreModel MemModel StringModel StringFindModel StreamModel FileModel.
From Coq Require Import ZArith.
Local Open Scope Z_scope.

(** sostream.h:19-88: [_buffer]; mostream.h:51-96 (memlink, [_pos]); uios.h:95-96;
    ofstream.h:39 [_file]. *)
Record ost := mko { s_heap : heap; s_buf : mb; s_vptr : ptr; s_vsize : Z; s_pos : Z; s_state : Z; s_exc : Z; s_file : file }.
Definition sput_mem (h : heap) (b : mb) (s : ost) : ost :=
  mko h b (s_vptr s) (s_vsize s) (s_pos s) (s_state s) (s_exc s) (s_file s).
Definition sput_pos (p : Z) (s : ost) : ost :=
  mko (s_heap s) (s_buf s) (s_vptr s) (s_vsize s) (u64 p) (s_state s) (s_exc s) (s_file s).
Definition sput_state (x : Z) (s : ost) : ost :=
  mko (s_heap s) (s_buf s) (s_vptr s) (s_vsize s) (s_pos s) x (s_exc s) (s_file s).
Definition sput_file (f : file) (s : ost) : ost :=
  mko (s_heap s) (s_buf s) (s_vptr s) (s_vsize s) (s_pos s) (s_state s) (s_exc s) f.
(** ostream::link (mostream.h:86-87): the virtual unlink sets [_pos] to 0
    (mistream.cc:33). *)
Definition sput_view (p : ptr) (n : Z) (s : ost) : ost :=
  mko (s_heap s) (s_buf s) p n 0 (s_state s) (s_exc s) (s_file s).

Definition s_good (s : ost) : bool := s_state s =? 0.                       (* uios.h:81 *)
Definition s_remaining (s : ost) : Z := u64 (s_vsize s - s_pos s).          (* mostream.h:64 *)
Definition s_capacity (s : ost) : Z :=                                      (* sostream.h:75, ustring.h:72 *)
  if mcap (s_buf s) =? 0 then 0 else mcap (s_buf s) - 1.
(** A member function of the buffer string. *)
Definition on_buf (f : heap -> mb -> outcome (heap * mb)) : io ost unit :=
  fun s => match f (s_heap s) (s_buf s) with
           | Ok (h, b) => Ok (sput_mem h b s, Val tt)
           | UB => UB
           | Exn x => Ok (s, Thrown x)
           | NoFuel => NoFuel
           end.
(** ostream::link (_buffer): mostream.h:87, memlink.h:55. *)
Definition link_buf : io ost unit := fun s => Ok (sput_view (mptr (s_buf s)) (msize (s_buf s)) s, Val tt).
(** mistream.cc:17-21. *)
Definition s_overrun (rem : Z) : io ost unit :=
  fun s =>
    let b := overrun_bits rem in
    let s' := sput_state (Z.lor (s_state s) b) s in
    if Z.land (s_exc s) b =? 0 then Ok (s', Val tt) else Ok (s', Thrown stream_bounds).
(** mostream.h:150-156. *)
Definition s_verify (n : Z) : io ost bool :=
  fun s => let rem := s_remaining s in
           if n <=? rem then Ok (s, Val true) else (_ <~ s_overrun rem ;; ret false) s.
(** mostream.h:193-203 [ostream::write]; for one byte this is also
    ostream::iwrite (mostream.h:212-224). *)
Definition s_write (l : list Z) : io ost unit :=
  ok <~ s_verify (Z.of_nat (length l)) ;;
  if ok then
    fun s => match store_n (s_heap s) (padd (s_vptr s) (s_pos s)) (map Some l) with
             | Ok h => Ok (sput_pos (s_pos s + Z.of_nat (length l)) (sput_mem h (s_buf s) s), Val tt)
             | _ => UB
             end
  else ret tt.
(** mostream.h:159-168, 177-184 with beg. *)
Definition s_seekp (p : Z) : io ost unit :=
  fun s => if s_vsize s <? p then s_overrun (s_vsize s) s else Ok (sput_pos p s, Val tt).

Section Virtual.
  Variable ov : Z -> io ost Z.
  (** sostream.cc:49-53 [iwrite (unsigned char)], sostream.h:53 [put]. *)
  Definition os_put (c : Z) : io ost unit :=
    fun s =>
      if 1 <=? s_remaining s then s_write [c] s
      else (r <~ ov 1 ;; if 1 <=? r then s_write [c] else ret tt) s.
  (** sostream.cc:56-62 [write]. *)
  Fixpoint os_write_loop (fuel : nat) (l : list Z) : io ost unit :=
    match fuel with
    | O => fun _ => NoFuel
    | S fuel' =>
        r <~ (fun s => if s_remaining s =? 0 then ov (Z.of_nat (length l)) s else Ok (s, Val (s_remaining s))) ;;
        let bw := Z.min (Z.of_nat (length l)) r in
        if bw =? 0 then ret tt
        else _ <~ s_write (firstn (Z.to_nat bw) l) ;; os_write_loop fuel' (skipn (Z.to_nat bw) l)
    end.
  Definition os_write (l : list Z) : io ost unit := os_write_loop (S (length l)) l.
  (** vsnprintf (p, space, ...) producing the text [t]: at most [space] bytes
      with the terminator. *)
  Definition vsnprintf (t : list Z) (space : Z) : io ost unit :=
    fun s =>
      if space <=? 0 then Ok (s, Val tt)
      else match store_n (s_heap s) (padd (s_vptr s) (s_pos s))
                   (map Some (firstn (Z.to_nat (space - 1)) t) ++ [Some 0]) with
           | Ok h => Ok (sput_mem h (s_buf s) s, Val tt)
           | _ => UB
           end.
  (** sostream.cc:121-139 [vformat]: [space] is an int. *)
  Fixpoint os_format_loop (fuel : nat) (t : list Z) : io ost unit :=
    match fuel with
    | O => fun _ => NoFuel
    | S fuel' =>
        fun s =>
          let space := to_int (s_remaining s) in
          let rv := Z.of_nat (length t) in
          let fin := fun s => Ok (sput_pos (s_pos s + Z.min rv space) s, Val tt) in
          (_ <~ vsnprintf t space ;;
           if rv <? space then fin
           else r <~ ov (rv + 1) ;; if rv <? to_int r then os_format_loop fuel' t else fin) s
    end.
  Definition os_format (t : list Z) : io ost unit := os_format_loop 2 t.
End Virtual.

Section WithEnv.
  Variable e : env.
  Variable nul : ptr.

  (** sostream.cc:160-171 [ostringstream::overflow]. *)
  Definition oss_overflow (n : Z) : io ost Z :=
    _ <~ (fun s =>
            if (s_remaining s <? n) && (s_good s || (n <=? u64 (s_capacity s - s_pos s))) then
              let old := s_pos s in
              (_ <~ on_buf (fun h b => reserve e 1 h b (u64 (old + n)) false) ;;
               _ <~ on_buf (fun h b => str_resize e nul h b (u64 (old + n))) ;;
               _ <~ link_buf ;;
               fun s => Ok (sput_pos old s, Val tt)) s
            else Ok (s, Val tt)) ;;
    _ <~ s_verify n ;;
    fun s => Ok (s, Val (s_remaining s)).
  (** sostream.h:71 [ostringstream::flush]. *)
  Definition oss_flush : io ost unit := fun s => on_buf (fun h b => str_resize e nul h b (s_pos s)) s.
  (** sostream.h:66 [str()]: the text of the buffer. *)
  Definition oss_str : io ost (list (option Z)) :=
    _ <~ oss_flush ;;
    fun s => match load_n (s_heap s) (mptr (s_buf s)) (msize (s_buf s)) with
             | Ok l => Ok (s, Val l) | _ => UB end.
  (** sostream.cc:28-38 [ostringstream (v)]: the buffer is a copy of [v]. *)
  Definition oss_new (h : heap) (v : mb) (f : file) : outcome ost :=
    ' (h, b) <- str_copy e h v ;; Ok (mko h b (mptr b) (msize b) 0 0 0 f).
  (** sostream.h:21: the default argument "" becomes a temporary string. *)
  Definition oss_default (h : heap) (f : file) : outcome ost :=
    ' (h, v) <- str_of_c nul h nul ;; oss_new h v f.
  (** sostream.cc:15-25, 152-157 [ostringstream (p, n)], [link]. *)
  Definition oss_link (h : heap) (p : ptr) (n : Z) (f : file) : outcome ost :=
    b <- link p n ;; Ok (mko h b p n 0 0 0 f).
  (** sostream.cc:41-46 [str (s)]. *)
  Definition oss_set_str (v : mb) : io ost unit :=
    _ <~ on_buf (fun h b => str_assign_str e nul h b v) ;;
    _ <~ link_buf ;;
    fun s => Ok (sput_pos (msize (s_buf s)) s, Val tt).

  (** ** ofstream *)
  (** The bytes handed to write(2) have to be determined. *)
  Fixpoint determined (l : list (option Z)) : outcome (list Z) :=
    match l with
    | [] => Ok []
    | Some x :: t => r <- determined t ;; Ok (x :: r)
    | None :: _ => UB
    end.
  (** mistream.cc:119-124 [ostream::erase] at begin(), memlink.h:86-93. *)
  Definition s_erase_front (n : Z) : io ost unit :=
    fun s => match rotate e (s_heap s) (s_vptr s) 0 n (s_vsize s) with
             | Ok h => Ok (sput_pos (s_pos s - n) (sput_mem h (s_buf s) s), Val tt)
             | _ => UB
             end.
  (** ofstream.cc:79-86 [ofstream::overflow]. *)
  Definition of_overflow (n : Z) : io ost Z :=
    _ <~ (fun s =>
            if f_good (s_file s) && (u64 (s_capacity s - s_pos s) <? n) then
              match (l <- load_n (s_heap s) (s_vptr s) (s_pos s) ;; determined l) with
              | Ok l =>
                  match fwrite l (s_file s) with
                  | Ok (f, Val bw) => s_erase_front (Z.of_nat bw) (sput_file f s)
                  | Ok (f, Thrown x) => Ok (sput_file f s, Thrown x)
                  | UB => UB | Exn x => Exn x | NoFuel => NoFuel
                  end
              | _ => UB
              end
            else Ok (s, Val tt)) ;;
    oss_overflow n.
  (** ofstream.cc:63-67 [ofstream::flush]; [fuel] bounds the rounds of the loop. *)
  Fixpoint of_flush (fuel : nat) : io ost unit :=
    match fuel with
    | O => fun _ => NoFuel
    | S fuel' =>
        fun s =>
          if s_good s && negb (s_pos s =? 0) then
            (r <~ of_overflow (s_capacity s) ;; if r =? 0 then ret tt else of_flush fuel') s
          else Ok (s, Val tt)
    end.
  (** ofstream.h:27 [clear (v)]. *)
  Definition of_clear (v : Z) : io ost unit :=
    fun s => Ok (sput_state v (sput_file (mkf v (f_exc (s_file s)) (f_out (s_file s)) (f_in (s_file s)) (f_sched (s_file s))) s), Val tt).
  (** ofstream.cc:21-36: the constructors without a file name reserve a buffer;
      the one with a name (39-44) does not.  uios.h:70: 4095. *)
  Definition of_default (h : heap) (f : file) : outcome ost :=
    s <- oss_default h f ;;
    ' (h, b) <- reserve e 1 (s_heap s) (s_buf s) 4095 false ;; Ok (sput_mem h b s).
  Definition of_named (h : heap) (f : file) : outcome ost := oss_default h f.

  (** ** Histories: an exception ends one operation; the caller carries on. *)
  Inductive oop : Type :=
  | OWrite (l : list Z)       (* write, << of strings *)
  | OPut (c : Z)              (* put, << of a character *)
  | OFormat (t : list Z)      (* format, << of a number: its text is [t] *)
  | OFlush                    (* flush *)
  | OClear.                   (* clear() *)
  Definition oss_step (o : oop) : io ost unit :=
    match o with
    | OWrite l => os_write oss_overflow l
    | OPut c => os_put oss_overflow c
    | OFormat t => os_format oss_overflow t
    | OFlush => oss_flush
    | OClear => fun s => Ok (sput_state 0 s, Val tt)           (* uios.h:87 *)
    end.
  Definition of_step (fuel : nat) (o : oop) : io ost unit :=
    match o with
    | OWrite l => os_write of_overflow l
    | OPut c => os_put of_overflow c
    | OFormat t => os_format of_overflow t
    | OFlush => of_flush fuel
    | OClear => of_clear 0
    end.
  Fixpoint orun (step : oop -> io ost unit) (ops : list oop) (s : ost) : outcome (ost * list (res unit)) :=
    match ops with
    | [] => Ok (s, [])
    | o :: t => ' (s, r) <- step o s ;; ' (s, rs) <- orun step t s ;; Ok (s, r :: rs)
    end.
End WithEnv.
