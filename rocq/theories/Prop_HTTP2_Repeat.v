(** * C84: what a message costs when the one before it carried the same
    headers (http2 codec). *)
From Coq Require Import String List NArith ZArith Bool Lia Permutation.
From Verif Require Import PyBase HTTP2_Model HTTP2_Spec HTTP2_Sim HTTP2_Inv HTTP2_More HTTP2_Repeat.
Import ListNotations.
Open Scope py_scope.

(** Number of base-128 digits of a number. *)
Definition digits128 (n : nat) : nat := N.to_nat (1 + N.log2 (N.of_nat n) / 7).

(** Octets of a literal [:path] header: one octet (requests: the name is in
    the initial table) or one octet, a length and five letters (responses),
    then the length of the value and the value. *)
Definition path_octets (is_request : bool) (value : str) : nat :=
  ((if is_request then 1 else 1 + 1 + 5) + digits128 (length value) + length value)%nat.

Definition initial_header (is_request : bool) (h : header) : bool :=
  existsb (header_eqb h) (default_headers is_request).

(** Octets that the [:path] headers of a message take when they are not in
    the initial table. *)
Fixpoint path_part (is_request : bool) (m : list header) : nat :=
  match m with
  | [] => 0
  | h :: m' =>
      ((if str_eqb (fst h) (lit ":path") then
          if initial_header is_request h then 0 else path_octets is_request (snd h)
        else 0) + path_part is_request m')%nat
  end.

Lemma path_part_cost r m : path_part r m = paths_cost r m.
Proof.
  induction m as [|h m IH]; [reflexivity|]. cbn [path_part]. rewrite IH. unfold paths_cost. cbn [filter].
  unfold literal_path at 2. unfold is_path, initial_header.
  destruct (str_eqb (fst h) (lit ":path")); cbn [andb]; [|reflexivity].
  destruct (existsb (header_eqb h) (default_headers r)); reflexivity.
Qed.

(** Every header of the session is one of [pool]; the initial table and the
    pool together fit in the buffer. *)
Definition fits (is_request : bool) (max : Z) (pool : list header) (msgs : list (list header)) : Prop :=
  (octets_of_headers (default_headers is_request) + octets_of_headers pool <= max)%Z /\
  forall m h, In m msgs -> In h m -> In h pool.

Lemma fits_forall r max pool msgs : fits r max pool msgs ->
  (sum_len (default_headers r) + sum_len pool <= max)%Z /\ Forall (fun m => incl m pool) msgs.
Proof.
  intros [A B]. rewrite !octets_headers_sum in A. split; [exact A|]. apply Forall_forall. intros m Hm h. now apply B.
Qed.

(** ** One repetition, in any order of the headers. *)
Theorem C84_repeat : forall is_request max fuel pool msgs m m' c frames,
  fits is_request max pool (msgs ++ [m]) ->
  NoDup m -> Permutation m m' -> (0 < fuel)%nat ->
  encode_all fuel max (init_encoder is_request) (msgs ++ [m]) = Ok (c, frames) ->
  if (N.of_nat (path_part is_request m) <? 65536)%N
  then exists c' frame, encode_headers fuel max m' c = Ok (c', frame) /\
       length frame = (8 + path_part is_request m)%nat
  else encode_headers fuel max m' c = Err StructError.
Proof.
  intros r max fuel pool msgs m m' c frames Hfit Hn Hp Hf E.
  destruct (fits_forall _ _ _ _ Hfit) as [A B].
  pose proof (repeat_cost r max fuel pool msgs m m' c frames Hf A B Hn Hp E) as H.
  rewrite path_part_cost.
  exact H.
Qed.
Print Assumptions C84_repeat.

(** ** Any number of repetitions. *)
Lemma encode_all_app fuel max a : forall c b,
  encode_all fuel max c (a ++ b) =
  let* (c1, fa) := encode_all fuel max c a in
  let* (c2, fb) := encode_all fuel max c1 b in Ok (c2, fa ++ fb).
Proof.
  induction a as [|m a IH]; intros c b; cbn [encode_all app bind].
  - destruct (encode_all fuel max c b) as [[? ?]|]; reflexivity.
  - destruct (encode_headers fuel max m c) as [[c1 f]|]; [|reflexivity]. cbn [bind]. rewrite IH.
    destruct (encode_all fuel max c1 a) as [[c2 fa]|]; [|reflexivity]. cbn [bind].
    destruct (encode_all fuel max c2 b) as [[c3 fb]|]; reflexivity.
Qed.

Theorem C84_repetitions : forall is_request max fuel pool msgs m c frames k,
  fits is_request max pool (msgs ++ [m]) ->
  NoDup m -> (N.of_nat (path_part is_request m) < 65536)%N -> (0 < fuel)%nat ->
  encode_all fuel max (init_encoder is_request) (msgs ++ [m]) = Ok (c, frames) ->
  exists c' again, encode_all fuel max (init_encoder is_request) (msgs ++ [m] ++ repeat m k) = Ok (c', frames ++ again) /\
    length again = k /\
    Forall (fun frame => length frame = (8 + path_part is_request m)%nat) again.
Proof.
  intros r max fuel pool msgs m c frames k Hfit Hn Hlt Hf E.
  induction k as [|k (c' & again & IH & Hl & Hall)].
  - exists c, []. cbn [repeat]. rewrite !app_nil_r. auto.
  - assert (Er : msgs ++ [m] ++ repeat m (S k) = (msgs ++ [m] ++ repeat m k) ++ [m]).
    { rewrite <- !app_assoc. do 2 f_equal. cbn [app repeat]. clear. induction k as [|k IH]; [reflexivity|]. cbn. now rewrite <- IH. }
    assert (Esp : exists pre, msgs ++ [m] ++ repeat m k = pre ++ [m] /\ fits r max pool (pre ++ [m])).
    { exists (msgs ++ repeat m k). split.
      - rewrite <- app_assoc. f_equal. clear. induction k as [|k IH]; [reflexivity|]. cbn [repeat app] in *. now rewrite <- IH.
      - destruct Hfit as [Ha Hb]. split; [exact Ha|]. intros x h Hx. apply Hb.
        rewrite <- app_assoc in Hx. apply in_app_or in Hx as [Hx|Hx]; [apply in_or_app; auto|].
        apply in_app_or in Hx as [Hx|Hx]; apply in_or_app; right; [|exact Hx].
        apply repeat_spec in Hx. subst. now left. }
    destruct Esp as (pre & Epre & Hfit'). rewrite Er, encode_all_app, IH. cbn [bind].
    rewrite Epre in IH.
    pose proof (C84_repeat r max fuel pool pre m m c' (frames ++ again) Hfit' Hn (Permutation_refl m) Hf IH) as H.
    apply N.ltb_lt in Hlt. rewrite Hlt in H. destruct H as (c2 & f & Ef & Lf).
    cbn [encode_all]. rewrite Ef. cbn [bind]. exists c2, (again ++ [f]). rewrite app_assoc. split; [reflexivity|].
    split; [rewrite app_length, Hl; cbn; lia|]. apply Forall_app. auto.
Qed.
Print Assumptions C84_repetitions.

(** A request sent four times after another one, default buffer. *)
Definition page : list header :=
  [(lit ":method", lit "get"); (lit ":path", lit "/index.html"); (lit ":host", lit "example.org");
   (lit "cookie", lit "id=0123456789")].
Definition root_page : list header :=
  [(lit ":path", lit "/"); (lit ":method", lit "get"); (lit "user-agent", lit "ua")].

Example C84_example :
  fits true 4096 (page ++ root_page) ([root_page; page] ++ [page]) /\ NoDup page /\ NoDup root_page /\
  path_part true page = 13%nat /\ path_part true root_page = 0%nat /\
  exists c frames, encode_all 5 4096 (init_encoder true) ([root_page] ++ [page] ++ repeat page 3) = Ok (c, frames) /\
    map (@length N) frames = [14; 51; 21; 21; 21]%nat.
Proof.
  split. { split; [vm_compute; discriminate|]. intros m h Hm Hh. apply in_or_app.
           destruct Hm as [<-|[<-|[<-|[]]]]; auto. }
  split. { repeat constructor; simpl; intuition discriminate. }
  split. { repeat constructor; simpl; intuition discriminate. }
  split; [vm_compute; reflexivity|]. split; [vm_compute; reflexivity|].
  do 2 eexists. split; vm_compute; reflexivity.
Qed.

(** ** Without the room: two headers, each of which fits in the buffer by
    itself, cost their full length again at every repetition. *)
Definition bulky : list header := [(lit "a", repeat 97 (N.to_nat 2100)); (lit "b", repeat 98 (N.to_nat 2100))].

Theorem C84_room_needed_refuted :
  exists m, NoDup m /\ (forall h, In h m -> fst h <> lit ":path" /\ (octets_of_headers [h] <= 4096)%Z) /\
    exists c frames, encode_all 5 4096 (init_encoder true) [m; m; m; m] = Ok (c, frames) /\
      Forall (fun frame => 4000 < lenN frame) frames.
Proof.
  exists bulky. split.
  { repeat constructor; [|tauto]. intros [H|[]]. apply (f_equal fst) in H. vm_compute in H. discriminate. }
  split.
  { intros h [<-|[<-|[]]]; (split; [intros H; vm_compute in H; discriminate|vm_compute; discriminate]). }
  assert (H : match encode_all 5 4096 (init_encoder true) [bulky; bulky; bulky; bulky] with
              | Ok (_, fs) => forallb (fun f => 4000 <? lenN f) fs | Err _ => false end = true)
    by (vm_compute; reflexivity).
  destruct (encode_all 5 4096 (init_encoder true) [bulky; bulky; bulky; bulky]) as [[c fs]|] eqn:E; [|discriminate].
  exists c, fs. split; [exact E|]. apply Forall_forall. intros f Hf.
  rewrite forallb_forall in H. apply H in Hf. now apply N.ltb_lt.
Qed.
Print Assumptions C84_room_needed_refuted.
