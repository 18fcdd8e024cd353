(** * Property C08: the http2 processor and the harness' check. *)
From Coq Require Import String List NArith ZArith Bool Lia Permutation.
From Verif Require Import PyBase PyStr Lib_Model Lib_Spec Lib_Proofs
  HTTP2_Model HTTP2_Sim HTTP2_Inv HTTP2_Spec HTTP2_More HTTP2_Proc_Model HTTP2_Proc.
Import ListNotations.
Open Scope N_scope.
Open Scope py_scope.

(** ** C08.

    [http2_session]: what the harness does with one http2 processor, message
    by message: compress, decompress with the same object, compare.  The
    result lists the verdicts of compare_headers. *)
Fixpoint http2_session (fuel : nat) (max : Z) (ord : list (str * str) -> list (str * str))
    (st : encoder * decoder) (msgs : list hdict) : res (list str) :=
  match msgs with
  | [] => Ok []
  | d :: ms =>
      let* (st, frame) := http2_compress fuel max st d in
      let* (st, back) := http2_decompress max st frame in
      let* vs := http2_session fuel max ord st ms in
      Ok (match back with
          | Some b => compare_headers ord d (lit "orig") b (lit "http2")
          | None => []
          end :: vs)
  end.

(** All messages could be encoded (no frame too large, no divergence: C04,
    C07 say when). *)
Definition all_encodable (fuel : nat) (max : Z) (is_request : bool) (msgs : list hdict) : Prop :=
  exists c frames, encode_all fuel max (init_encoder is_request) (map split_headers msgs) = Ok (c, frames).

Theorem C08_http2_passes_harness_check : forall fuel max ord is_request msgs,
  is_order ord ->
  Forall blank_only msgs ->
  all_encodable fuel max is_request msgs ->
  http2_session fuel max ord (init_encoder is_request, init_decoder is_request) msgs
    = Ok (map (fun _ => []) msgs).
Proof.
  intros fuel max ord r msgs Ho HB (c' & frames & E).
  revert E. generalize (init_rel r), (init_good r). generalize (init_encoder r) as c, (init_decoder r) as d.
  revert frames. induction HB as [|m msgs Hm _ IH]; intros frames c d HR HG E; cbn [http2_session map]; [reflexivity|].
  cbn [map encode_all] in E. apply bind_ok in E as ([c1 f] & E1 & E). apply bind_ok in E as ([c2 fs] & E2 & E).
  unfold http2_compress. cbn [fst snd]. rewrite E1. cbn [bind].
  destruct (message_sim _ _ _ _ _ _ _ HR HG E1) as (d1 & out & D1 & HR1 & HG1 & Hset & _).
  unfold http2_decompress. cbn [fst snd]. rewrite D1. cbn [bind].
  assert (E2' : encode_all fuel max c1 (map split_headers msgs) = Ok (c', fs)) by congruence.
  rewrite (IH _ _ _ HR1 HG1 E2'). cbn [bind]. do 2 f_equal.
  apply compare_verdict; [exact Ho|]. now apply join_split_same.
Qed.
Print Assumptions C08_http2_passes_harness_check.

(** Without the proviso: a value ending in a tab is reported as changed. *)
Theorem C08_http2_harness_check_refuted :
  exists msgs vs, all_encodable 1 4096 true msgs /\
    http2_session 1 4096 (fun l => l) (init_encoder true, init_decoder true) msgs = Ok [vs] /\ vs <> [].
Proof.
  exists [[(lit "a", lit "b" ++ [9])]]. eexists. split; [|split].
  - do 2 eexists. vm_compute. reflexivity.
  - vm_compute. reflexivity.
  - discriminate.
Qed.
Print Assumptions C08_http2_harness_check_refuted.

(** Two requests with repeated cookies, blanks, NUL-joined values and empty pieces. *)
Definition c08_msgs : list hdict :=
  [ [(lit "cookie", lit "a=1; b=2;a=1"); (lit "x", lit "u" ++ [0] ++ lit "v"); (lit ":path", lit "/")];
    [(lit "x", lit " u" ++ [0] ++ lit "v "); (lit "y", []); (lit "cookie", lit "b=2;")] ].

Example C08_example :
  Forall blank_only c08_msgs /\ all_encodable 5 4096 true c08_msgs /\
  map split_headers c08_msgs =
    [ [(lit "cookie", lit "a=1"); (lit "cookie", lit "b=2"); (lit "x", lit "u"); (lit "x", lit "v"); (lit ":path", lit "/")];
      [(lit "x", lit "u"); (lit "x", lit "v"); (lit "y", []); (lit "cookie", lit "b=2"); (lit "cookie", [])] ].
Proof.
  split; [|split].
  - repeat (apply Forall_cons; [apply blank_onlyb_ok; vm_compute; reflexivity|]). constructor.
  - do 2 eexists. vm_compute. reflexivity.
  - vm_compute. reflexivity.
Qed.
