(** * Model of compressor/delta2/bit_bucket.py (class BitBucket).

    The StoreBits and GetBits of bohe, delta, delta_bohe and delta2_bohe are the
    same code (bohe's differs in the place of a type check on its input, which
    is outside the model: inputs are lists of integers).  [out_byte], which is
    only ever incremented, is left out.  [x & ~m] on octets is [N.ldiff x m]. *)
From Coq Require Import List NArith Bool Arith.
From Verif Require Import PyBase.
Import ListNotations.
Open Scope N_scope.
Open Scope py_scope.

(** Clear, lines 18-26. *)
Record bb := mk_bb { bb_out : list N; bb_boff : nat; bb_ibyte : nat; bb_iboff : nat }.
Definition bb_new : bb := mk_bb [] 0 0 0.

(** l[-1] = f(l[-1]) *)
Fixpoint upd_last (f : N -> N) (l : list N) : res (list N) :=
  match l with
  | [] => Err IndexError
  | [x] => Ok [f x]
  | x :: l' => let* r := upd_last f l' in Ok (x :: r)
  end.

(** PadToByteBoundary, lines 28-34. *)
Definition bb_pad (b : bb) : bb :=
  if (bb_boff b mod 8 =? 0)%nat then b else mk_bb (bb_out b) 0 (bb_ibyte b) (bb_iboff b).

(** AdvanceReadPtrToByteBoundary, lines 36-45. *)
Definition bb_advance (b : bb) : bb :=
  let adv := ((8 - bb_iboff b) mod 8)%nat in
  if (adv =? 0)%nat then b
  else mk_bb (bb_out b) (bb_boff b) (S (bb_ibyte b)) ((bb_iboff b + adv) mod 8).

(** The loop of lines 112-115. *)
Fixpoint store_loop (boff : nat) (inp out : list N) : res (list N) :=
  match inp with
  | [] => Ok out
  | c :: inp' =>
      let* out := upd_last (fun x => N.lor x (N.shiftr c (N.of_nat boff))) out in
      store_loop boff inp' (out ++ [N.land (N.shiftl c (N.of_nat (8 - boff))) 255])
  end.

(** StoreBits, lines 84-125. *)
Definition bb_store (b : bb) (inp : list N) (nbits : nat) : res bb :=
  match inp with
  | [] => Ok b
  | _ =>
      let old := bb_boff b in
      let leftover := if (nbits mod 8 =? 0)%nat then 8%nat else (nbits mod 8)%nat in
      let* (out, boff) :=
        if (old =? 0)%nat then
          let* out := upd_last (fun x => N.ldiff x (N.shiftr 255 (N.of_nat leftover))) (bb_out b ++ inp) in
          Ok (out, (leftover mod 8)%nat)
        else
          let* out := store_loop old inp (bb_out b) in
          let c := last inp 0 in
          let* out := if (old + leftover <=? 8)%nat then
                        upd_last (fun x => N.lor x (N.shiftr c (N.of_nat old))) (removelast out)
                      else Ok out in
          let boff := ((old + leftover) mod 8)%nat in
          let* out := if (boff =? 0)%nat then Ok out
                      else upd_last (fun x => N.ldiff x (N.shiftr 255 (N.of_nat boff))) out in
          Ok (out, boff) in
      if (boff =? (old + nbits) mod 8)%nat then Ok (mk_bb out boff (bb_ibyte b) (bb_iboff b))
      else Err StandardError
  end.

(** struct.pack(">L", val): raises beyond 32 bits. *)
Definition pack_L (n : N) : res str :=
  if n <? 2 ^ 32 then Ok [N.shiftr n 24; N.land (N.shiftr n 16) 255; N.land (N.shiftr n 8) 255; N.land n 255]
  else Err StructError.

(** StoreBit, StoreBits4, StoreBits8, StoreBits16, StoreBits32, lines 47-82. *)
Definition bb_store1 (b : bb) (bit : bool) : res bb := bb_store b [if bit then 128 else 0] 1.
Definition bb_store4 (b : bb) (v : N) : res bb := bb_store b [N.shiftl (N.land v 15) 4] 4.
Definition bb_store8 (b : bb) (v : N) : res bb := let* s := pack_B v in bb_store b s 8.
Definition bb_store16 (b : bb) (v : N) : res bb := let* s := pack_H v in bb_store b s 16.
Definition bb_store32 (b : bb) (v : N) : res bb := let* s := pack_L v in bb_store b s 32.

(** bohe/bit_bucket.py, StoreBits22, lines 62-67. *)
Definition bb_store22 (b : bb) (v : N) : res bb := let* s := pack_L v in bb_store b s 22.

(** NumBits, lines 135-145 (a bucket with a bit offset is never empty). *)
Definition bb_num (b : bb) : nat :=
  let n := (8 * length (bb_out b))%nat in
  if (bb_boff b mod 8 =? 0)%nat then n else (n - 8 + bb_boff b)%nat.

(** AllConsumed, line 162, and BytesOfStorage, line 152. *)
Definition bb_all_consumed (b : bb) : bool := (bb_num b <=? 8 * bb_ibyte b + bb_iboff b)%nat.
Definition bb_bytes (b : bb) : nat := ((bb_num b + 7) / 8)%nat.

(** l[i] *)
Definition pynth (l : list N) (i : nat) : res N := match nth_error l i with Some x => Ok x | None => Err IndexError end.

(** The loop of lines 217-220; [n] octets are left to read. *)
Fixpoint get_whole (out : list N) (n i : nat) : res (list N) :=
  match n with
  | O => Ok []
  | S m => let* x := pynth out i in let* r := get_whole out m (S i) in Ok (x :: r)
  end.

(** The loop of lines 231-258.  State: octet and bit index, current octet and
    its fill, octets returned so far, bits left. *)
Fixpoint get_loop (fuel : nat) (out : list N) (ib io : nat) (cur : N) (co : nat) (ret : list N) (left : nat)
  : res (nat * nat * N * nat * list N) :=
  match left with
  | O => Ok (ib, io, cur, co, ret)
  | _ =>
    match fuel with
    | O => Err Diverge
    | S f =>
        if (8 <=? left)%nat && (ib <? length out)%nat then
          let* x := pynth out ib in
          let cur := N.land 255 (N.shiftl x (N.of_nat io)) in
          let* y := pynth out (S ib) in
          let cur := N.lor cur (N.shiftr y (N.of_nat (8 - io))) in
          get_loop f out (S ib) io 0 co (ret ++ [cur]) (left - 8)
        else
          let n := Nat.min (Nat.min (8 - co) (8 - io)) left in
          let* x := pynth out ib in
          let c := N.land (N.shiftl x (N.of_nat io)) 255 in
          let cur := N.lor cur (N.shiftr (N.ldiff c (N.shiftr 255 (N.of_nat n))) (N.of_nat co)) in
          let left := (left - n)%nat in
          let co := (co + n)%nat in
          let io := (io + n)%nat in
          let '(ret, cur, co) := if (8 <=? co)%nat then (ret ++ [cur], 0, (co - 8)%nat) else (ret, cur, co) in
          if (8 <=? io)%nat then
            if (8 <=? io - 8)%nat then Err StandardError
            else get_loop f out (S ib) (io - 8) cur co ret left
          else get_loop f out ib io cur co ret left
    end
  end.

(** GetBits, lines 202-266: the octets and the new bucket. *)
Definition bb_get (b : bb) (nbits : nat) : res (list N * bb) :=
  let pos := (8 * bb_ibyte b + bb_iboff b)%nat in
  (* num_bits > bits_available, without negative numbers *)
  if (bb_num b <? pos + nbits)%nat then Err StandardError
  else
    let old := bb_iboff b in
    let* (ret, ib, io) :=
      if (old =? 0)%nat then
        let* r := get_whole (bb_out b) (nbits / 8) (bb_ibyte b) in
        let ib := (bb_ibyte b + nbits / 8)%nat in
        let left := (nbits mod 8)%nat in
        if (left =? 0)%nat then Ok (r, ib, old)
        else let* x := pynth (bb_out b) ib in
             Ok (r ++ [N.ldiff x (N.shiftr 255 (N.of_nat left))], ib, ((old + left) mod 8)%nat)
      else
        let* (ib, io, cur, co, ret) := get_loop nbits (bb_out b) (bb_ibyte b) old 0 0 [] nbits in
        Ok (if (co =? 0)%nat then ret else ret ++ [cur], ib, io) in
    if ((old + nbits) mod 8 =? io)%nat then Ok (ret, mk_bb (bb_out b) (bb_boff b) ib io)
    else Err StandardError.

(** GetBit, GetBits4, GetBits8, GetBits16, GetBits32, lines 164-200.
    [struct.unpack(">L", ...)] of octets. *)
Definition bb_get1 (b : bb) : res (N * bb) :=
  let* (r, b') := bb_get b 1 in let* x := pynth r 0 in Ok (N.shiftr x 7, b').
Definition bb_get4 (b : bb) : res (N * bb) :=
  let* (r, b') := bb_get b 4 in let* x := pynth r 0 in Ok (N.shiftr x 4, b').
Definition bb_get8 (b : bb) : res (N * bb) :=
  let* (r, b') := bb_get b 8 in let* x := pynth r 0 in Ok (x, b').
Definition bb_get16 (b : bb) : res (N * bb) :=
  let* (r, b') := bb_get b 16 in
  let* x := pynth r 0 in let* y := pynth r 1 in Ok (x * 256 + y, b').
Definition bb_get32 (b : bb) : res (N * bb) :=
  let* (r, b') := bb_get b 32 in
  let* x := pynth r 0 in let* y := pynth r 1 in let* z := pynth r 2 in let* w := pynth r 3 in
  Ok (x * 2 ^ 24 + y * 2 ^ 16 + z * 2 ^ 8 + w, b').
