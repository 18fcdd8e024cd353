(** * Model of compressor/fork/__init__.py in its binary mode (parameter bin): the parent of
    lines 26-32 and 40, and a child behind two pipes.

    The repository has no child for this mode; here the child is any program that takes lines
    up to a blank one, as the child of sample_exec_codec.py does, and then sends octets that
    are a function of the lines it took ([answer]).  As in Fork_Model every transfer of one
    octet is a step of its own; struct.unpack("q", ..) of line 31 is that of a machine whose
    native order is the least significant octet first.  stdout.read of a negative number reads
    to the end of the file, which does not come as long as the child runs.  Not modelled: end
    of file and the end of the processes, signals. *)
From Coq Require Import String List NArith ZArith Bool.
From Verif Require Import PyBase PyStr Lib_Model H1_Model Fork_Model.
Import ListNotations.
Open Scope N_scope.

(** struct.unpack("q", h)[0], line 31, of eight octets. *)
Definition unsigned_le (h : str) : N := fold_right (fun x a => x + 256 * a) 0 h.
Definition unpack_q (h : str) : Z :=
  let v := unsigned_le h in if v <? 2 ^ 63 then Z.of_N v else (Z.of_N v - 2 ^ 64)%Z.

(** The parent: [BHead got ..] in line 30 with [got] already there, [BBody n got ..] in line 32
    with the size [n]. *)
Inductive bparent :=
| BIdle (todo done : list str)
| BWriting (rest : str) (todo done : list str)
| BHead (got : str) (todo done : list str)
| BBody (n : Z) (got : str) (todo done : list str).
Record bsystem := mk_bsys { b_parent : bparent; b_down : str; b_child : child; b_up : str }.

(** Line 32: the octets [got] of [n] are there. *)
Definition body_got (n : Z) (got : str) (todo done : list str) : bparent :=
  if (Z.of_nat (length got) =? n)%Z then BIdle todo (done ++ [got]) else BBody n got todo done.
(** Lines 30-32: the octets [got] of eight are there. *)
Definition head_got (got : str) (todo done : list str) : bparent :=
  if (length got =? 8)%nat then body_got (unpack_q got) [] todo done else BHead got todo done.

(** The child has taken a line. *)
Definition btaken (answer : str -> str) (buf line kept : str) : child :=
  if blank_line line then Answering buf (answer kept) else Reading buf [] (kept ++ line).

Inductive bstep (answer : str -> str) (cd cu : N) : bsystem -> bsystem -> Prop :=
| bs_call m todo done d c u :                     (* compress is called *)
    bstep answer cd cu (mk_bsys (BIdle (m :: todo) done) d c u) (mk_bsys (BWriting m todo done) d c u)
| bs_write x rest todo done d c u :               (* line 28: one more octet fits *)
    lenN d < cd ->
    bstep answer cd cu (mk_bsys (BWriting (x :: rest) todo done) d c u) (mk_bsys (BWriting rest todo done) (d ++ [x]) c u)
| bs_written todo done d c u :                    (* line 28 returns *)
    bstep answer cd cu (mk_bsys (BWriting [] todo done) d c u) (mk_bsys (BHead [] todo done) d c u)
| bs_head x got todo done d c u :                 (* lines 30-31: one more octet of the eight *)
    bstep answer cd cu (mk_bsys (BHead got todo done) d c (x :: u)) (mk_bsys (head_got (got ++ [x]) todo done) d c u)
| bs_body x n got todo done d c u :               (* line 32: one more octet *)
    bstep answer cd cu (mk_bsys (BBody n got todo done) d c (x :: u)) (mk_bsys (body_got n (got ++ [x]) todo done) d c u)
| bs_fill p d a b line kept u :                   (* the child reads ahead some of what is there *)
    a <> [] -> d = a ++ b ->
    bstep answer cd cu (mk_bsys p d (Reading [] line kept) u) (mk_bsys p b (Reading a line kept) u)
| bs_take p d x buf line kept u :                 (* one more octet of its line *)
    x <> 10 ->
    bstep answer cd cu (mk_bsys p d (Reading (x :: buf) line kept) u) (mk_bsys p d (Reading buf (line ++ [x]) kept) u)
| bs_taken p d buf line kept u :                  (* the end of its line *)
    bstep answer cd cu (mk_bsys p d (Reading (10 :: buf) line kept) u) (mk_bsys p d (btaken answer buf (line ++ [10]) kept) u)
| bs_answer p d x buf rest u :                    (* one more octet of its answer fits *)
    lenN u < cu ->
    bstep answer cd cu (mk_bsys p d (Answering buf (x :: rest)) u) (mk_bsys p d (Answering buf rest) (u ++ [x]))
| bs_answered p d buf u :                         (* it turns to the next message *)
    bstep answer cd cu (mk_bsys p d (Answering buf []) u) (mk_bsys p d (Reading buf [] []) u).

Definition bstart (ms : list str) : bsystem := mk_bsys (BIdle ms []) [] (Reading [] [] []) [].
(** All calls have returned. *)
Definition bfinished (s : bsystem) (results : list str) : Prop := b_parent s = BIdle [] results.
