(** * PosModel: seeking in files: fstream, ofstream and ifstream.

    The file is a regular one that nobody else uses and that was not opened
    with O_APPEND; transfers are those of FileModel, where a [file] has the
    bytes written ([f_out]) and those that reading would deliver ([f_in]).
    Here they get their place: what was written since the last call goes to
    the offset of the file, what was read is counted.
    Simplified: offsets do not overflow; lseek fails only for a negative
    target. *)
From Verif Require Import Base UtilModel StoreModel MemModel StringModel StreamModel FileModel OStrModel IstrModel.
From Coq Require Import ZArith.
Local Open Scope Z_scope.

(** write(2) of [l] at offset [p] of a file containing [d]: a gap is filled
    with zeros; writing nothing changes nothing. *)
Definition put_at (d : list Z) (p : Z) (l : list Z) : list Z :=
  match l with
  | [] => d
  | _ => firstn (Z.to_nat p) (d ++ repeat 0 (Z.to_nat p - length d)) ++ l ++ skipn (Z.to_nat p + length l) d
  end.
(** uios.h:53-57. *)
Inductive seekdir := Sbeg | Scur | Send.
(** lseek(2): where [n] from [d] is, if the offset is [p] and the size [size]. *)
Definition target (p size n : Z) (d : seekdir) : Z :=
  match d with Sbeg => n | Scur => p + n | Send => size + n end.

(** ** fstream *)
Record ra := mkra { ra_data : list Z; ra_pos : Z; ra_f : file }.
Definition at_offset (d : list Z) (p : Z) (f : file) : file :=
  mkf (f_state f) (f_exc f) [] (skipn (Z.to_nat p) d) (f_sched f).
(** After transfers that left the file as [f]. *)
Definition settle (r : ra) (f : file) : ra :=
  let d := put_at (ra_data r) (ra_pos r) (f_out f) in
  let p := ra_pos r + Z.of_nat (length (f_out f)) + (Z.of_nat (length (f_in (ra_f r))) - Z.of_nat (length (f_in f))) in
  mkra d p (at_offset d p f).
Definition on_file {A} (m : io file A) : io ra A :=
  fun r => match m (at_offset (ra_data r) (ra_pos r) (ra_f r)) with
           | Ok (f, x) => Ok (settle (mkra (ra_data r) (ra_pos r) (at_offset (ra_data r) (ra_pos r) (ra_f r))) f, x)
           | UB => UB | Exn x => Exn x | NoFuel => NoFuel
           end.
(** fstream.cc:131-137 [seek]; lseek returns the new offset or -1. *)
Definition ra_seek (n : Z) (d : seekdir) : io ra Z :=
  fun r =>
    let p := target (ra_pos r) (Z.of_nat (length (ra_data r))) n d in
    if p <? 0 then (_ <~ on_file (f_fail failbit file_exception) ;; ret (-1)) r
    else Ok (mkra (ra_data r) p (at_offset (ra_data r) p (ra_f r)), Val p).
(** fstream.cc:140-143 [pos], fstream.h:55-56. *)
Definition ra_tell : io ra Z := fun r => Ok (r, Val (ra_pos r)).
(** fstream.cc:191-197 [size], 207-211 [stat]. *)
Definition ra_size : io ra Z := fun r => Ok (r, Val (Z.of_nat (length (ra_data r)))).
(** fstream.cc:146-152 [read] into an array of [n]: its bytes. *)
Definition ra_read (n : nat) : io ra (list Z) :=
  on_file (fun f => match fread n (f, repeat 0 n) with
                    | Ok ((f', buf), Val br) => Ok (f', Val (firstn br buf))
                    | Ok ((f', _), Thrown x) => Ok (f', Thrown x)
                    | UB => UB | Exn x => Exn x | NoFuel => NoFuel
                    end).
(** fstream.cc:155-166, 169-188. *)
Definition ra_readsome (n : nat) : io ra (list Z) := on_file (freadsome n).
Definition ra_write (l : list Z) : io ra Z := on_file (c <~ fwrite l ;; ret (Z.of_nat c)).
(** uios.h:87 [clear]. *)
Definition ra_clear : io ra unit :=
  fun r => let f := ra_f r in Ok (mkra (ra_data r) (ra_pos r) (mkf 0 (f_exc f) (f_out f) (f_in f) (f_sched f)), Val tt).

Inductive rop := RaWrite (l : list Z) | RaRead (n : nat) | RaReadSome (n : nat) | RaSeek (n : Z) (d : seekdir) | RaTell | RaSize | RaClear.
(** What a call gave back. *)
Inductive rres := GotBytes (l : list Z) | GotNum (n : Z) | Failed.
Definition ra_step (o : rop) (r : ra) : outcome (ra * rres) :=
  let num m := match m r with Ok (r', Val n) => Ok (r', GotNum n) | Ok (r', Thrown _) => Ok (r', Failed) | UB => UB | Exn x => Exn x | NoFuel => NoFuel end in
  let bytes m := match m r with Ok (r', Val l) => Ok (r', GotBytes l) | Ok (r', Thrown _) => Ok (r', Failed) | UB => UB | Exn x => Exn x | NoFuel => NoFuel end in
  match o with
  | RaWrite l => num (ra_write l)
  | RaRead n => bytes (ra_read n)
  | RaReadSome n => bytes (ra_readsome n)
  | RaSeek n d => num (ra_seek n d)
  | RaTell => num ra_tell
  | RaSize => num ra_size
  | RaClear => num (_ <~ ra_clear ;; ret 0)
  end.
Fixpoint ra_run (ops : list rop) (r : ra) : outcome (ra * list rres) :=
  match ops with
  | [] => Ok (r, [])
  | o :: t => ' (r, x) <- ra_step o r ;; ' (r, xs) <- ra_run t r ;; Ok (r, x :: xs)
  end.
(** A file with content [d], opened at offset 0. *)
Definition ra_open (d : list Z) (exc : Z) (sched : list sysres) : ra := mkra d 0 (mkf 0 exc [] d sched).

(** ** ofstream: [po_data] and [po_pos] are the file and its offset at the last
    seek, what was handed over since is [f_out] of the stream's file. *)
Record pof := mkpo { po_data : list Z; po_pos : Z; po_s : ost }.
Definition po_written (p : pof) : list Z := f_out (s_file (po_s p)).
(** The file and its offset now. *)
Definition po_file (p : pof) : list Z := put_at (po_data p) (po_pos p) (po_written p).
Definition po_offset (p : pof) : Z := po_pos p + Z.of_nat (length (po_written p)).
Section Ofs.
  Variable e : env.
  Variable nul : ptr.
  Definition on_stream {A} (m : io ost A) : io pof A :=
    fun p => match m (po_s p) with
             | Ok (s, x) => Ok (mkpo (po_data p) (po_pos p) s, x)
             | UB => UB | Exn x => Exn x | NoFuel => NoFuel
             end.
  (** fstream.cc:131-137 for the file of the stream; fstream.h:58. *)
  Definition po_lseek (n : Z) (d : seekdir) : io pof unit :=
    fun p =>
      let t := target (po_offset p) (Z.of_nat (length (po_file p))) n d in
      let s := po_s p in let f := s_file s in
      if t <? 0 then
        let s' := sput_file (mkf (Z.lor (f_state f) failbit) (f_exc f) (f_out f) (f_in f) (f_sched f)) s in
        Ok (mkpo (po_data p) (po_pos p) s', if Z.land (f_exc f) failbit =? 0 then Val tt else Thrown file_exception)
      else Ok (mkpo (po_file p) t (sput_file (mkf (f_state f) (f_exc f) [] (f_in f) (f_sched f)) s), Val tt).
  (** ofstream.cc:70-76 [seekp]. *)
  Definition po_seekp (fuel : nat) (n : Z) (d : seekdir) : io pof unit :=
    _ <~ on_stream (of_flush e nul fuel) ;;
    _ <~ po_lseek n d ;;
    fun p => on_stream (of_clear (f_state (s_file (po_s p)))) p.
  (** ofstream.h:28 [tellp]. *)
  Definition po_tellp : io pof Z := fun p => Ok (p, Val (po_offset p + s_pos (po_s p))).

  Inductive pop := PoIo (o : oop) | PoSeek (n : Z) (d : seekdir) | PoTell.
  Definition po_step (fuel : nat) (o : pop) : io pof (option Z) :=
    match o with
    | PoIo o => _ <~ on_stream (of_step e nul fuel o) ;; ret None
    | PoSeek n d => _ <~ po_seekp fuel n d ;; ret None
    | PoTell => n <~ po_tellp ;; ret (Some n)
    end.
  (** The results, up to the first exception. *)
  Fixpoint po_run (fuel : nat) (ops : list pop) : io pof (list (option Z)) :=
    match ops with
    | [] => ret []
    | o :: t => x <~ po_step fuel o ;; xs <~ po_run fuel t ;; ret (x :: xs)
    end.
End Ofs.

(** ** ifstream: the file and its offset at the last seek; what has been read
    since is what [f_in] lost. *)
Record pif := mkpi { pi_data : list Z; pi_pos : Z; pi_s : ist }.
Definition pi_ahead (p : pif) : list Z := skipn (Z.to_nat (pi_pos p)) (pi_data p).
Definition pi_offset (p : pif) : Z := pi_pos p + (Z.of_nat (length (pi_ahead p)) - Z.of_nat (length (f_in (t_file (pi_s p))))).
Definition on_text {A} (m : io ist A) : io pif A :=
  fun p => match m (pi_s p) with
           | Ok (s, x) => Ok (mkpi (pi_data p) (pi_pos p) s, x)
           | UB => UB | Exn x => Exn x | NoFuel => NoFuel
           end.
(** ofstream.h:56 [tellg]. *)
Definition pi_tellg : io pif Z := fun p => Ok (p, Val (pi_offset p - t_remaining (pi_s p))).
(** ofstream.h:55 [clear]. *)
Definition pi_clear (v : Z) : io pif unit :=
  on_text (fun s => let f := t_file s in
    Ok (tput_state v (tput_file (mkf v (f_exc f) (f_out f) (f_in f) (f_sched f)) s), Val tt)).
(** ofstream.cc:171-178 [seekg].  _buffer.clear() leaves a string of no
    characters (ustring.h: clear() is resize (0)); the view is linked to it. *)
Definition pi_lseek (n : Z) (d : seekdir) : io pif unit :=
  fun p =>
    let t := target (pi_offset p) (Z.of_nat (length (pi_data p))) n d in
    let s := pi_s p in let f := t_file s in
    if t <? 0 then
      Ok (mkpi (pi_data p) (pi_pos p) (tput_file (mkf (Z.lor (f_state f) failbit) (f_exc f) (f_out f) (f_in f) (f_sched f)) s), Val tt)
    else Ok (mkpi (pi_data p) t (tput_file (mkf (f_state f) (f_exc f) (f_out f) (skipn (Z.to_nat t) (pi_data p)) (f_sched f)) s), Val tt).
Definition pi_seekg (n : Z) (d : seekdir) : io pif unit :=
  _ <~ on_text (fun s => Ok (tput_view (buf_resize 0 (t_mem s)) 0 s, Val tt)) ;;
  _ <~ pi_lseek n d ;;
  fun p => pi_clear (f_state (t_file (pi_s p))) p.
(** ofstream.h:61 [putback]: undefined if there is no such byte in the buffer. *)
Definition t_putback (c : Z) : io ist unit :=
  _ <~ t_ungetc ;;
  fun s => match upd (t_mem s) (Z.to_nat (t_pos s)) (Some c) with
           | Some m => Ok (mkt m (t_size s) (t_pos s) (t_state s) (t_gcount s) (t_delims s) (t_base s) (t_file s), Val tt)
           | None => UB
           end.
(** A file with content [d], opened for reading with a buffer of [sz]. *)
Definition pi_open (sz : nat) (d : list Z) (sched : list sysres) : pif := mkpi d 0 (ifs_new sz (mkf 0 0 [] d sched)).
