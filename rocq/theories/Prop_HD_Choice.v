(** * Property C95: what headerdiff's encoder sends for each header. *)
From Coq Require Import String List NArith ZArith Bool Arith Lia Permutation.
From Verif Require Import PyBase PyStr HD_Model HD_Spec HD_Sim HD_Choice.
Import ListNotations.
Open Scope N_scope.

(** In every session the frames are those of the description in HD_Choice: a
    header whose text is remembered is sent by index; otherwise, with deltas
    configured, as a difference to the header of the same name with the longest
    usable common beginning, if that has two characters; otherwise in full.
    It is remembered as long as there is room, instead of the header it differs
    from or of the one longest unused, or not at all. *)
Theorem C95_choice : forall ord cfg ms e' fs, some_order ord -> enc_all ord cfg henc_new ms = (e', Ok fs) ->
  exists w, conversation cfg at_start ms fs w.
Proof.
  intros ord cfg ms e' fs Ho E. destruct (session_says ord Ho cfg ms henc_new e' fs at_start rel_start E) as (w & C & _). eauto.
Qed.
Print Assumptions C95_choice.

(** With "max,N" no header is the reference of more than N deltas. *)
Lemma says_uses cfg m q : h_dtype cfg = DMax m -> forall w hs s w', says cfg q w hs s w' ->
  (forall x, In x (w_tbl w) -> (Z.of_nat (t_uses x) <= Z.max 0 m)%Z) -> forall x, In x (w_tbl w') -> (Z.of_nat (t_uses x) <= Z.max 0 m)%Z.
Proof.
  intros Hm w hs s w' S. induction S as [|w n v it s hs s' w' C O S IH]; intros H; [exact H|]. apply IH. clear IH S O.
  assert (Up : forall i (g : entry -> entry) t, (forall x, In x t -> (Z.of_nat (t_uses x) <= Z.max 0 m)%Z) ->
     (forall x, nth_error t i = Some x -> (Z.of_nat (t_uses (g x)) <= Z.max 0 m)%Z) -> forall x, In x (update_nth i g t) -> (Z.of_nat (t_uses x) <= Z.max 0 m)%Z).
  { intros i g t. revert i. induction t as [|y t IH]; intros [|i] H1 H2 x Hx; cbn [update_nth] in Hx; try contradiction.
    - destruct Hx as [<-|Hx]; [now apply H2|apply H1; now right].
    - destruct Hx as [<-|Hx]; [apply H1; now left|]. apply (IH i); [intros z Hz; apply H1; now right|exact H2|exact Hx]. }
  assert (St : forall n v st t, (forall x, In x t -> (Z.of_nat (t_uses x) <= Z.max 0 m)%Z) -> forall x, In x (stored n v st t) -> (Z.of_nat (t_uses x) <= Z.max 0 m)%Z).
  { intros n0 v0 st t H1. destruct st; cbn [stored]; [exact H1| |].
    - intros x Hx. apply in_app_or in Hx as [Hx|[<-|[]]]; [auto|cbn; lia].
    - apply Up; [exact H1|]. intros x _. cbn. lia. }
  destruct C as [i x Hx _|_ _ _|i x k st _ _ Hx [_ El] _ _ _ _|st _ _ _]; cbn [afterwards w_tbl].
  - apply Up; [exact H|]. intros y Hy. cbn. apply H. now apply nth_error_In in Hy.
  - exact H.
  - apply St. apply Up; [exact H|]. intros y Hy. rewrite Hy in Hx. injection Hx as ->. rewrite Hm in El. cbn [t_uses]. lia.
  - now apply St.
Qed.
Theorem C95_max_deltas : forall cfg m ms fs w, h_dtype cfg = DMax m -> conversation cfg at_start ms fs w ->
  forall x, In x (w_tbl w) -> (Z.of_nat (t_uses x) <= Z.max 0 m)%Z.
Proof.
  intros cfg m ms fs w Hm C.
  assert (G : forall w0, conversation cfg w0 ms fs w -> (forall x, In x (w_tbl w0) -> (Z.of_nat (t_uses x) <= Z.max 0 m)%Z) ->
     forall x, In x (w_tbl w) -> (Z.of_nat (t_uses x) <= Z.max 0 m)%Z).
  { clear C. intros w0 C. induction C as [|w0 q hs s w1 ms f fs w2 len S _ _ _ C IH]; intros H; [exact H|]. apply IH. apply (says_uses cfg m q Hm _ _ _ _ S).
    cbn [older w_tbl]. intros x Hx. apply in_map_iff in Hx as (y & <- & Hy). cbn [t_uses]. auto. }
  apply (G at_start C). contradiction.
Qed.
Print Assumptions C95_max_deltas.

(** Six messages with a table for fewer than 30 octets and one delta per entry:
    headers sent in full, by index, as differences that replace and that are
    forgotten, and one that replaces the header longest unused. *)
Definition choice_messages : list msg :=
  map (fun m => (true, map (fun p => (lit (fst p), lit (snd p))) m))
  [[("x", "abcdefgh"); ("y", "12")]; [("x", "abcdefgh"); ("x", "abcdxx")]; [("x", "abcdxxyyyyyyyyyyyyyyyyyyyyyyyyyyyy")];
   [("z", "zzzzzzzzzzzzzzzzzzzzz")]; [("y", "12"); ("w", "abcde")]; [("z", "zzq")]]%string.
Example C95_nontrivial : exists e fs, enc_all (fun _ l => l) (plain_cfg 30 true (DMax 1)) henc_new choice_messages = (e, Ok fs) /\
  map (skipn 8) fs =
   [ [2; 32] ++ 1 :: lit "x" ++ 8 :: lit "abcdefgh" ++ 32 :: 1 :: lit "y" ++ 2 :: lit "12";   (* in full, added *)
     [2; 128; 112; 4; 2] ++ lit "xx";                        (* by index 0; four characters of 0 and "xx", replacing 0 *)
     [1; 64; 6; 28] ++ repeat 121 28;                        (* six characters of 0, forgotten *)
     [1; 32; 1] ++ lit "z" ++ 21 :: repeat 122 21;
     [2; 129; 48; 1] ++ lit "w" ++ [0; 5] ++ lit "abcde";    (* by index 1; in full, replacing 0 *)
     [1; 114; 2; 1] ++ lit "q" ].                            (* two characters of 2, replacing 2 *)
Proof. eexists. eexists. split; vm_compute; reflexivity. Qed.
