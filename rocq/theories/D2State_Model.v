(** * What a delta2 decompressor is left with when a call raises.

    D2Code_Model.v gives DecompressorExecuteOps (lines 1043-1125 of
    compressor/delta2/spdy4_codec_impl.py) as a function that has no state when an
    exception is raised.  Here the same statements are followed one by one and the
    state at the moment of the exception is returned as well.  Line numbers refer to
    spdy4_codec_impl.py.
    Simplifications: those of D2Code_Model.v, and
    - an exception of Store (lines 1111-1121) would leave the table half changed;
      the model keeps it as it was before line 1111.  D2State_Proofs.v shows that
      Store does not raise. *)
From Coq Require Import String List NArith ZArith Bool Arith.
From Verif Require Import PyBase PyStr Lib_Model D2Huff_Model D2Wire_Model D2Store_Model D2Code_Model.
Import ListNotations.
Open Scope Z_scope.
Open Scope py_scope.

(** Lines 1052-1089: the local variables when the loop ends or raises. *)
Fixpoint exec_loop_st (s : storage) (x : xstate) (ops : list op) : xstate * option exn :=
  match ops with
  | [] => (x, None)
  | o :: r => match exec_op s x o with Ok x => exec_loop_st s x r | Err e => (x, Some e) end
  end.

(** DecompressorExecuteOps, lines 1043-1125: the header group exists from line
    1048 on, and has been changed (line 1098) before the entries it refers to are
    looked up (lines 1101-1109). *)
Definition execute_ops_st (ref_order : zset -> list Z) (k : code) (ops : list op) (gid : N) : code * res hdict :=
  let c := k_cfg k in
  let s := k_store k in
  let g := find_or_make (k_groups k) gid in
  match lru_to_hg_ops c s ops with
  | Err e => (mk_code c s g, Err e)
  | Ok ops =>
      let (x, raised) := exec_loop_st s (mk_x (s_heap s) [] [] [] []) ops in
      let s := mk_storage (x_heap x) (s_static s) (s_lru s) in
      match raised with
      | Some e => (mk_code c s g, Err e)
      | None =>
          let y := mk_y s g None in
          let cur := zsymdiff (y_cur gid y) (x_st x) in
          let y := y_set gid y cur in
          let r :=
            let* hd := append_refs s (x_headers x) (ref_order (zsymdiff (x_et x) cur)) in
            let* hg_later := if c_hg_adjust c then mapm (fun i => let* (e, _) := lookup_idx s i in Ok (e, i)) cur else Ok [] in
            let* y := store_loop c gid y (x_later x) in
            let* y := adjust_loop c gid y hg_later in
            Ok (y, hd) in
          match r with
          | Ok (y, hd) => (mk_code c (y_store y) (y_groups y), Ok (cookie_nul hd))
          | Err e => (mk_code c (y_store y) (y_groups y), Err e)
          end
      end
  end.

(** RealOpsToOpAndExecute, lines 1029-1036: an exception of the parser comes
    before the group is made. *)
Definition receive_one (h : huffman) (ref_order : zset -> list Z) (k : code) (blob : str) : code * res hdict :=
  match from_wire (c_width (k_cfg k)) h blob with
  | Err e => (k, Err e)
  | Ok (gid, ops) => execute_ops_st ref_order (mk_code (k_cfg k) (k_store k) (find_or_make (k_groups k) gid)) ops gid
  end.

(** Messages given to one decompressor one after the other, each with the order in
    which the set of references is iterated; an exception is caught by the caller,
    who goes on. *)
Fixpoint receive (h : huffman) (k : code) (msgs : list (str * (zset -> list Z))) : code * list (res hdict) :=
  match msgs with
  | [] => (k, [])
  | (blob, ref) :: r =>
      let (k, o) := receive_one h ref k blob in
      let (k, os) := receive h k r in
      (k, o :: os)
  end.
