(** * Property C112: the text of a bit bucket. *)
From Coq Require Import String List NArith Bool Arith Lia.
From Verif Require Import PyBase PyNum PyStr NBits Bits BB_Model BB_Spec BB_Proofs Prop_BB Fmt_Model.
Import ListNotations.
Open Scope N_scope.
Open Scope py_scope.

(** ** What the text should be: the bits in order, a bar before the first and
    before every eighth further one; then in brackets a number. *)
Definition digit (b : bool) : N := if b then 49 else 48.
Fixpoint drawn (i : nat) (l : list bool) : str :=
  match l with
  | [] => []
  | b :: l => (if (i mod 8 =? 0)%nat then [124] else []) ++ digit b :: drawn (S i) l
  end.
Definition text_of (l : list bool) (n : nat) : str := drawn 0 l ++ lit " [" ++ dec (N.of_nat n) ++ lit "]".

(** *** Proofs *)

Lemma drawn_app l1 : forall i l2, drawn i (l1 ++ l2) = drawn i l1 ++ drawn (i + length l1) l2.
Proof.
  induction l1 as [|b l1 IH]; intros i l2; cbn [app drawn length]; [now rewrite Nat.add_0_r|].
  rewrite IH, <- app_assoc. cbn [app]. do 3 f_equal. now replace (S i + length l1)%nat with (i + S (length l1))%nat by lia.
Qed.

Lemma drawn_8 l : forall i, drawn (i + 8) l = drawn i l.
Proof.
  induction l as [|b l IH]; intros i; cbn [drawn]; [reflexivity|].
  replace ((i + 8) mod 8)%nat with (i mod 8)%nat by (rewrite <- (Nat.mod_add i 1 8) by lia; f_equal; lia).
  change (S (i + 8)) with (S i + 8)%nat. now rewrite IH.
Qed.

Lemma fmt_check : forallb (fun c => str_eqb (fmt_08b c) (map digit (bits_of 8 c))) all_octets = true.
Proof. vm_compute. reflexivity. Qed.

Lemma fmt_octet c : c < 256 -> fmt_08b c = map digit (bits_of 8 c).
Proof.
  intros H. pose proof fmt_check as F. rewrite forallb_forall in F. specialize (F c).
  assert (Hi : In c all_octets).
  { unfold all_octets. apply in_map_iff. exists (N.to_nat c). split; [apply N2Nat.id|]. apply in_seq. lia. }
  specialize (F Hi). now destruct (str_eqb_spec (fmt_08b c) (map digit (bits_of 8 c))).
Qed.

Lemma drawn_octet c l : c < 256 -> drawn 0 (bits_of 8 c ++ l) = 124 :: fmt_08b c ++ drawn 0 l.
Proof.
  intros H. rewrite (fmt_octet c H), drawn_app, bits_of_length, (drawn_8 l 0). reflexivity.
Qed.

Lemma drawn_part c r : c < 256 -> (1 <= r < 8)%nat -> drawn 0 (firstn r (bits_of 8 c)) = 124 :: firstn r (fmt_08b c).
Proof.
  intros H Hr. rewrite (fmt_octet c H). cbn [bits_of map].
  do 8 (destruct r as [|r]; [first [lia|reflexivity]|]). lia.
Qed.

Lemma drawn_octets s l : is_bytes s -> drawn 0 (bits_of_bytes s ++ l) = flat_map (fun c => 124 :: fmt_08b c) s ++ drawn 0 l.
Proof.
  induction s as [|c s IH]; intros Hs; [reflexivity|]. inversion Hs; subst.
  rewrite bob_cons, <- app_assoc, drawn_octet by assumption. cbn [flat_map]. rewrite IH by assumption.
  cbn [app]. now rewrite <- app_assoc.
Qed.

Lemma skipn_mid {A} (a : list A) x r : skipn (length a) (a ++ x :: r) = x :: skipn (S (length a)) (a ++ x :: r).
Proof. induction a as [|y a IH]; [reflexivity|exact IH]. Qed.

Lemma fmt_loop_ok output : forall k idx, (idx + k <= length output)%nat ->
  fmt_loop k idx output = Ok (flat_map (fun c => 124 :: fmt_08b c) (firstn k (skipn idx output)), (idx + k)%nat).
Proof.
  induction k as [|k IH]; intros idx H; cbn [fmt_loop]; [now rewrite Nat.add_0_r|].
  destruct (pynth_ok output idx ltac:(lia)) as (a & x & r & E & La & Ex). rewrite Ex. cbn [bind].
  rewrite IH by lia. cbn [bind].
  assert (Es : skipn idx output = x :: skipn (S idx) output).
  { subst output. rewrite <- La. apply skipn_mid. }
  rewrite Es. cbn [firstn flat_map]. f_equal. f_equal. lia.
Qed.

Lemma format_ok out W bits : is_bytes out -> bits_of_bytes out = W ++ repeat false (pad_len (length W)) ->
  (bits mod 8 = length W mod 8)%nat -> format_as_bits out bits = Ok (text_of W bits).
Proof.
  intros Hb HB Hk. unfold format_as_bits.
  assert (HL : (8 * length out = length W + pad_len (length W))%nat).
  { rewrite <- (bits_of_bytes_length out), HB, app_length, repeat_length. reflexivity. }
  pose proof (Nat.div_mod (length W) 8 ltac:(lia)) as Hd. pose proof (Nat.mod_upper_bound (length W) 8 ltac:(lia)) as Hu.
  assert (Ht : fmt_turns out bits = (length W / 8)%nat).
  { unfold fmt_turns. destruct (Nat.eqb_spec bits 0) as [E0|E0].
    - subst bits. change (0 mod 8)%nat with 0%nat in Hk. unfold pad_len in HL. rewrite <- Hk in HL. change ((8 - 0) mod 8)%nat with 0%nat in HL. lia.
    - destruct (Nat.eqb_spec (bits mod 8) 0) as [E|E].
      + unfold pad_len in HL. rewrite <- Hk, E in HL. change ((8 - 0) mod 8)%nat with 0%nat in HL. lia.
      + rewrite (pad_small (length W mod 8) ltac:(lia) (length W) eq_refl) in HL. lia. }
  rewrite Ht. set (m := (length W / 8)%nat) in *.
  rewrite fmt_loop_ok by lia. cbn [bind skipn Nat.add].
  assert (HW : W = bits_of_bytes (firstn m out) ++ firstn (length W mod 8) (skipn (8 * m) (bits_of_bytes out))).
  { rewrite bob_firstn, <- firstn_add. replace (8 * m + length W mod 8)%nat with (length W) by lia.
    rewrite HB, firstn_app, Nat.sub_diag, firstn_all. cbn [firstn]. now rewrite app_nil_r. }
  unfold text_of. rewrite HW at 1. rewrite drawn_octets by (apply Forall_forall; intros x Hx; apply (proj1 (Forall_forall _ _) Hb x);
    rewrite <- (firstn_skipn m out); apply in_or_app; now left).
  rewrite <- app_assoc.
  destruct (Nat.eqb_spec (bits mod 8) 0) as [E|E].
  - cbn [bind]. rewrite <- Hk, E. reflexivity.
  - rewrite (pad_small (length W mod 8) ltac:(lia) (length W) eq_refl) in HL.
    destruct (pynth_ok out m ltac:(lia)) as (a & x & r & Eo & La & Ex). rewrite Ex. cbn [bind].
    assert (Hx : x < 256) by (rewrite Eo in Hb; now apply is_bytes_mid in Hb).
    assert (Es : firstn (length W mod 8) (skipn (8 * m) (bits_of_bytes out)) = firstn (length W mod 8) (bits_of 8 x)).
    { rewrite <- bob_skipn. rewrite Eo, <- La, skipn_app, skipn_all, Nat.sub_diag. cbn [skipn app]. rewrite bob_cons, firstn_app, bits_of_length.
      replace (length W mod 8 - 8)%nat with 0%nat by lia. cbn [firstn]. now rewrite app_nil_r. }
    rewrite Es, drawn_part by lia. rewrite Hk. reflexivity.
Qed.

(** ** str(bb): the bits stored, and how many of them are in the last octet.
    The same holds for FormatAsBits(bb.GetAllBits()), with all of them counted. *)
Theorem C112_text : forall ops, Forall mop_ok ops ->
  exists a b, bb_run bb_new ops = Ok (a, b) /\
    let W := q_bits (q_after q_new (map as_bits ops)) in
    bb_repr b = Ok (text_of W (length W mod 8)) /\ format_as_bits (bb_out b) (bb_num b) = Ok (text_of W (length W)).
Proof.
  intros ops HF. destruct (run_ok ops bb_new q_new HF rep_new) as (b & E & H). eexists. exists b. split; [exact E|].
  cbv zeta. pose proof (rep_num b _ H) as Hn. destruct H as (Hb & HB & Hk & _). split.
  - unfold bb_repr. rewrite Hk. apply format_ok; [exact Hb|exact HB|]. now rewrite Nat.mod_mod by lia.
  - rewrite Hn. now apply format_ok.
Qed.
Print Assumptions C112_text.

(** ** The text tells the bits *)

Lemma drawn_digits l : forall i, filter (fun c => negb (c =? 124)) (drawn i l) = map digit l.
Proof.
  induction l as [|b l IH]; intros i; cbn [drawn map]; [reflexivity|]. rewrite filter_app. cbn [filter].
  replace (negb (digit b =? 124)) with true by (destruct b; reflexivity). rewrite IH. destruct (i mod 8 =? 0)%nat; reflexivity.
Qed.

Lemma drawn_no_space l : forall i, ~ In 32 (drawn i l).
Proof.
  induction l as [|b l IH]; intros i H; cbn [drawn] in H; [exact H|]. apply in_app_or in H. destruct H as [H|[H|H]].
  - destruct (i mod 8 =? 0)%nat; cbn in H; [destruct H as [H|[]]; discriminate|exact H].
  - destruct b; discriminate.
  - now apply (IH (S i)).
Qed.

Lemma before_space (a : str) : forall b x y, ~ In 32 a -> ~ In 32 b -> a ++ 32 :: x = b ++ 32 :: y -> a = b.
Proof.
  induction a as [|c a IH]; intros [|d b] x y Ha Hb E; cbn [app] in E; [reflexivity| | |].
  - exfalso. apply Hb. left. congruence.
  - exfalso. apply Ha. left. congruence.
  - injection E as -> E. f_equal. apply (IH b x y); [intros Hi; apply Ha; now right|intros Hi; apply Hb; now right|exact E].
Qed.

Lemma digits_inj l : forall l', map digit l = map digit l' -> l = l'.
Proof.
  induction l as [|b l IH]; intros [|b' l'] E; try discriminate; [reflexivity|]. cbn [map] in E.
  assert (b = b') by (destruct b, b'; (reflexivity || discriminate)). subst b'. f_equal. apply IH. congruence.
Qed.

Theorem C112_text_tells : forall ops ops' a a' b b' s, Forall mop_ok ops -> Forall mop_ok ops' ->
  bb_run bb_new ops = Ok (a, b) -> bb_run bb_new ops' = Ok (a', b') -> bb_repr b = Ok s -> bb_repr b' = Ok s ->
  q_bits (q_after q_new (map as_bits ops)) = q_bits (q_after q_new (map as_bits ops')).
Proof.
  intros ops ops' a a' b b' s H H' E E' S S'.
  destruct (C112_text ops H) as (x & y & Er & T & _). rewrite E in Er.
  destruct (C112_text ops' H') as (x' & y' & Er' & T' & _). rewrite E' in Er'.
  assert (y = b) by congruence. assert (y' = b') by congruence. subst y y'. rewrite T in S. rewrite T' in S'.
  assert (EE : forall u v : str, Ok u = Ok v -> u = v) by (intros u v; congruence).
  apply EE in S. apply EE in S'. rewrite <- S' in S. unfold text_of in S. change (lit " [") with (32 :: lit "[") in S.
  cbn [app] in S. apply before_space in S; [|apply drawn_no_space|apply drawn_no_space].
  apply digits_inj. rewrite <- (drawn_digits _ 0), S. apply drawn_digits.
Qed.
Print Assumptions C112_text_tells.

(** ** The caret of DebugFormat stands under the last bit read; but if that is
    the first of its octet, under the bar before it. *)

Lemma rule_length l : forall i, length (rule (length l) i) = length (drawn i l).
Proof.
  induction l as [|b l IH]; intros i; cbn [rule drawn length]; [reflexivity|]. rewrite !app_length. cbn [length]. now rewrite IH, !app_length || (rewrite IH; destruct (i mod 8 =? 0)%nat; reflexivity).
Qed.

Theorem C112_caret : forall ops a b, Forall mop_ok ops -> bb_run bb_new ops = Ok (a, b) ->
  let q := q_after q_new (map as_bits ops) in
  (1 <= q_pos q <= length (q_bits q))%nat ->
  exists s r, debug_format b = Ok (s, r ++ lit "^") /\ bb_repr b = Ok s /\
    nth_error s (length r) = Some (if ((q_pos q - 1) mod 8 =? 0)%nat then 124 else digit (nth (q_pos q - 1) (q_bits q) false)).
Proof.
  intros ops a b HF E q Hp. destruct (run_ok ops bb_new q_new HF rep_new) as (b' & E' & H). fold q in H.
  assert (b' = b) by congruence. subst b'. destruct H as (Hb & HB & Hk & Hq & Hi). unfold debug_format, bb_repr.
  rewrite Hk. rewrite (format_ok (bb_out b) (q_bits q)) by (try assumption; now rewrite Nat.mod_mod by lia). cbn [bind].
  eexists. eexists. split; [reflexivity|]. split; [reflexivity|].
  replace (bb_ibyte b * 8 + bb_iboff b - 1)%nat with (q_pos q - 1)%nat by lia. set (k := (q_pos q - 1)%nat) in *.
  assert (Hkl : (k < length (q_bits q))%nat) by lia.
  assert (Lr : length (rule k 0) = length (drawn 0 (firstn k (q_bits q)))).
  { rewrite <- rule_length. f_equal. f_equal. symmetry. apply firstn_length_le. lia. }
  assert (ED : drawn 0 (q_bits q) = drawn 0 (firstn k (q_bits q)) ++ drawn k (skipn k (q_bits q))).
  { rewrite <- (firstn_skipn k (q_bits q)) at 1. rewrite drawn_app, firstn_length_le by lia. reflexivity. }
  rewrite Lr. unfold text_of. rewrite ED, <- app_assoc. rewrite nth_error_app2 by lia. rewrite Nat.sub_diag.
  destruct (skipn k (q_bits q)) as [|c l] eqn:Es.
  { exfalso. assert (length (skipn k (q_bits q)) = 0%nat) by now rewrite Es. rewrite skipn_length in *. lia. }
  assert (Hn : nth k (q_bits q) false = c).
  { rewrite <- (firstn_skipn k (q_bits q)) at 1. rewrite app_nth2 by (rewrite firstn_length; lia). rewrite firstn_length_le, Nat.sub_diag, Es by lia. reflexivity. }
  rewrite Hn. cbn [drawn]. destruct (k mod 8 =? 0)%nat; reflexivity.
Qed.
Print Assumptions C112_caret.

(** "The caret stands under a bit" is false: after one bit has been read it is
    under the bar. *)
Theorem C112_caret_under_a_bit_refuted : exists ops a b s r, Forall mop_ok ops /\ bb_run bb_new ops = Ok (a, b) /\
  debug_format b = Ok (s, r ++ lit "^") /\ (0 < q_pos (q_after q_new (map as_bits ops)))%nat /\ nth_error s (length r) = Some 124.
Proof.
  exists [MStore [160] 3; MGet 1], [Some [128]], (mk_bb [160] 3 0 1), (lit "|101 [3]"), [].
  split; [|split; [reflexivity|split; [reflexivity|split; [cbn; lia|reflexivity]]]].
  constructor; [|constructor; [exact I|constructor]]. cbn. repeat split; try lia. constructor; [lia|constructor].
Qed.
Print Assumptions C112_caret_under_a_bit_refuted.

(** ** The cases of compressor/delta2/bit_bucket_test.py, lines 48-107 (those of
    delta, delta_bohe and delta2_bohe are the same): after each store, the text. *)
Fixpoint runs (b : bb) (l : list (list N * nat * string)) : bool :=
  match l with
  | [] => true
  | (s, n, t) :: l =>
      match bb_store b s n with
      | Ok b => match bb_repr b with Ok x => str_eqb x (lit t) && runs b l | Err _ => false end
      | Err _ => false
      end
  end.

Example C112_case : forallb (runs bb_new) [
  [([255; 0], 14%nat, "|11111111|000000 [6]"%string); ([255], 3%nat, "|11111111|00000011|1 [1]"%string);
   ([0], 3%nat, "|11111111|00000011|1000 [4]"%string); ([255; 0], 14%nat, "|11111111|00000011|10001111|11110000|00 [2]"%string);
   ([255], 4%nat, "|11111111|00000011|10001111|11110000|001111 [6]"%string);
   ([0], 4%nat, "|11111111|00000011|10001111|11110000|00111100|00 [2]"%string)];
  [([240], 5%nat, "|11110 [5]"%string); ([15], 5%nat, "|11110000|01 [2]"%string); ([240], 5%nat, "|11110000|0111110 [7]"%string);
   ([15], 5%nat, "|11110000|01111100|0001 [4]"%string); ([240], 5%nat, "|11110000|01111100|00011111|0 [1]"%string);
   ([15], 5%nat, "|11110000|01111100|00011111|000001 [6]"%string); ([240], 5%nat, "|11110000|01111100|00011111|00000111|110 [3]"%string);
   ([15], 5%nat, "|11110000|01111100|00011111|00000111|11000001 [0]"%string);
   ([240], 5%nat, "|11110000|01111100|00011111|00000111|11000001|11110 [5]"%string)];
  [([240], 1%nat, "|1 [1]"%string); ([15], 1%nat, "|10 [2]"%string); ([240], 1%nat, "|101 [3]"%string); ([15], 1%nat, "|1010 [4]"%string);
   ([240], 1%nat, "|10101 [5]"%string); ([15], 1%nat, "|101010 [6]"%string); ([240], 1%nat, "|1010101 [7]"%string); ([15], 1%nat, "|10101010 [0]"%string);
   ([240], 1%nat, "|10101010|1 [1]"%string); ([0; 255], 15%nat, "|10101010|10000000|01111111 [0]"%string)];
  [([240], 8%nat, "|11110000 [0]"%string); ([240], 8%nat, "|11110000|11110000 [0]"%string); ([240], 1%nat, "|11110000|11110000|1 [1]"%string);
   ([15], 8%nat, "|11110000|11110000|10000111|1 [1]"%string)];
  [([0; 52], 14%nat, "|00000000|001101 [6]"%string); ([185], 8%nat, "|00000000|00110110|111001 [6]"%string)]] = true.
Proof. vm_compute. reflexivity. Qed.

(** Lines 109-120: a cleared bucket. *)
Example C112_empty_case : bb_repr bb_new = Ok (lit " [0]").
Proof. reflexivity. Qed.

(** Two lines of DebugFormat, the caret under the eleventh bit. *)
Example C112_caret_case : exists a b, bb_run bb_new [MStore [255; 5; 160] 19; MGet 11] = Ok (a, b) /\
  debug_format b = Ok (lit "|11111111|00000101|101 [3]", lit "|--------|--^").
Proof. eexists. eexists. split; vm_compute; reflexivity. Qed.
