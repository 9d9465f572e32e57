(** * OCopyModel: copying and swapping ostringstreams. *)
From Verif Require Import Base UtilModel StoreModel MemModel StringModel StreamModel FileModel OStrModel.
From Coq Require Import ZArith.
Local Open Scope Z_scope.

(** sostream.h:19-88, mostream.h:51-96: the copy constructor is the implicit
    one.  memlink.h:44 copies the view (the pointer), uios.h:95-96 the state,
    [_pos] is copied, [_buffer] is copied as a string (ustring.cc:21-30). *)
Definition oss_copy (e : env) (s : ost) : outcome ost :=
  ' (h, b) <- str_copy e (s_heap s) (s_buf s) ;;
  Ok (mko h b (s_vptr s) (s_vsize s) (s_pos s) (s_state s) (s_exc s) (s_file s)).
(** mostream.h:80 [swap], inherited by ostringstream: cmemlink.h:63 exchanges
    the views, and the positions are exchanged.  Both streams use one memory. *)
Definition oss_swap (s1 s2 : ost) : ost * ost :=
  (mko (s_heap s1) (s_buf s1) (s_vptr s2) (s_vsize s2) (s_pos s2) (s_state s1) (s_exc s1) (s_file s1),
   mko (s_heap s2) (s_buf s2) (s_vptr s1) (s_vsize s1) (s_pos s1) (s_state s2) (s_exc s2) (s_file s2)).
(** The same stream after another one did something in the memory [h]. *)
Definition now_in (h : heap) (s : ost) : ost := sput_mem h (s_buf s) s.
(** ustring.h, memblock.h:51 [~ostringstream]: the buffer's memory is freed,
    if the string does not just link to it. *)
Definition oss_destroy (s : ost) : outcome heap :=
  if is_linked (s_buf s) then Ok (s_heap s) else free (s_heap s) (mptr (s_buf s)).
(** The implicit move constructor: memlink has a copy constructor and no move
    (memlink.h:44), so the view is copied; ustring.h:221 and memblock.h:53 swap
    [_buffer] with an empty one.  The new stream and the old one. *)
Definition oss_move (s : ost) : ost * ost :=
  (mko (s_heap s) (s_buf s) (s_vptr s) (s_vsize s) (s_pos s) (s_state s) (s_exc s) (s_file s),
   mko (s_heap s) mb_nil (s_vptr s) (s_vsize s) (s_pos s) (s_state s) (s_exc s) (s_file s)).
(** A copy of an ofstream: the implicit copy constructor of ofstream.h:18-43
    copies the ostringstream as above, and the fstream with its descriptor
    (FCopyModel), so that both write to one file.  [also_in c s] is the original
    [s] after its copy became [c]: the same memory, and in the file what was
    written through either. *)
Definition also_in (c s : ost) : ost :=
  sput_file (mkf (f_state (s_file s)) (f_exc (s_file s)) (f_out (s_file c)) (f_in (s_file c)) (f_sched (s_file c))) (now_in (s_heap c) s).
