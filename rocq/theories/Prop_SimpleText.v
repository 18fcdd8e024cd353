(** * Property C88: the text the simple codec makes of a message. *)
From Coq Require Import String List NArith ZArith Bool Lia Permutation Arith.
From Verif Require Import PyBase PyStr NBits Bits PyMerge Lib_Model Lib_Spec Lib_Proofs H1_Model H1_Spec H1_Proofs Prop_H1 BB_Proofs BB_Read.
From Verif Require Import Simple_Model Simple_Spec Simple_Proofs Simple_Session Prop_Simple.
Import ListNotations.
Open Scope N_scope.
Open Scope py_scope.

(** ** Specification *)

Definition same_kv (a b : str * str) : bool := str_eqb (fst a) (fst b) && str_eqb (snd a) (snd b).
Definition starts_with_colon (k : str) : bool := match k with c :: _ => c =? 58 | [] => false end.

(** The headers of the previous message (none before the first). *)
Definition before (last : option hdict) : hdict := match last with Some p => p | None => [] end.

(** A header that can be sent by reference: the host or a header that does not
    start with a colon, with the value of the previous message. *)
Definition unchanged (prev : hdict) (kv : str * str) : bool :=
  (negb (starts_with_colon (fst kv)) || str_eqb (fst kv) (lit ":host")) && existsb (same_kv kv) prev.
(** Those that are: the first ones, up to the limit. *)
Definition references (max : Z) (prev d : hdict) : hdict := firstn (Z.to_nat max) (filter (unchanged prev) d).
(** The others are spelled out, except two. *)
Definition spelled_out (max : Z) (prev d : hdict) : hdict :=
  filter (fun kv => negb (existsb (same_kv kv) (references max prev d)) &&
                    negb (str_eqb (fst kv) (lit ":version")) && negb (str_eqb (fst kv) (lit ":status-text"))) d.

(** The short name of a header, and how it is referred to. *)
Definition short (k : str) : str :=
  if str_eqb k (lit ":host") then lit "h" else if starts_with_colon k then k
  else match dget s_lookups k with Some x => x | None => 33 :: k end.
Definition refer (kv : str * str) : str := if str_eqb (fst kv) (lit ":host") then lit "!h" else short (fst kv).

(** One line for each value; the names of the first line have none. *)
Definition lines_of (kv : str * str) : list str := map (fun v => short (fst kv) ++ [58] ++ v ++ [10]) (split_on 0 (snd kv)).
Definition in_first_line (is_request : bool) (k : str) : bool :=
  if is_request then str_eqb k (lit ":method") || str_eqb k (lit ":path") else str_eqb k (lit ":status").
Definition first_line (is_request : bool) (d : hdict) : str :=
  if is_request then get_or d (lit ":method") [] ++ [32] ++ get_or d (lit ":path") [] ++ lit " H/2" ++ [10]
  else lit "H/2 " ++ get_or d (lit ":status") [] ++ lit " ?" ++ [10].
Definition other_lines (is_request : bool) (max : Z) (prev d : hdict) : list str :=
  flat_map lines_of (filter (fun kv => negb (in_first_line is_request (fst kv))) (spelled_out max prev d)) ++
  match references max prev d with [] => [] | F => [lit "ref:" ++ join [44] (map refer F) ++ [10]] end.

(** ** Proofs *)

Lemma same_kv_spec a b : reflect (a = b) (same_kv a b).
Proof.
  destruct a as [a1 a2], b as [b1 b2]. unfold same_kv. cbn [fst snd]. destruct (str_eqb_spec a1 b1), (str_eqb_spec a2 b2); cbn; constructor; congruence.
Qed.
Lemma existsb_same kv l : existsb (same_kv kv) l = true <-> In kv l.
Proof.
  rewrite existsb_exists. split; [intros (x & H & E); destruct (same_kv_spec kv x); [now subst|discriminate]|intros H; exists kv; split; [exact H|]].
  destruct (same_kv_spec kv kv); [reflexivity|congruence].
Qed.
Lemma existsb_same_not kv l : existsb (same_kv kv) l = false <-> ~ In kv l.
Proof. rewrite <- existsb_same. destruct (existsb (same_kv kv) l); split; congruence. Qed.

Lemma colon_hd k : (hd 0 k =? 58) = starts_with_colon k.
Proof. destruct k; reflexivity. Qed.

Lemma same_iff o lc R k v : match lc with Some p => NoDup (map fst p) | None => True end ->
  s_same o lc R k v = existsb (same_kv (k, v)) (before lc) && (Z.of_nat (length R) <? o_max o)%Z.
Proof.
  intros HN. unfold s_same. destruct lc as [[|x p]|]; [reflexivity| |reflexivity]. cbn [before]. set (q := x :: p) in *.
  destruct (dget q k) as [w|] eqn:E.
  - f_equal. destruct (str_eqb_spec w v) as [->|N]; symmetry.
    + apply existsb_same. now apply dget_in.
    + apply existsb_same_not. intros C. apply N. apply (in_dget q k v HN) in C. congruence.
  - symmetry. apply andb_false_intro1. apply existsb_same_not. intros C. apply dget_none in E. apply E. apply (in_map fst) in C. exact C.
Qed.

Lemma split_spec o lc : match lc with Some p => NoDup (map fst p) | None => True end ->
  forall items n, NoDup (map fst items) ->
  snd (s_split o lc items n) = firstn (Z.to_nat (o_max o) - n) (filter (unchanged (before lc)) items) /\
  fst (s_split o lc items n) = filter (fun kv => negb (existsb (same_kv kv) (snd (s_split o lc items n))) && negb (mem_str (fst kv) s_ignore_hdrs)) items.
Proof.
  intros HN. induction items as [|[k v] items IH]; intros n Hd; [cbn; now rewrite firstn_nil|].
  cbn [map fst] in Hd. inversion Hd as [|? ? Hk Hd']; subst. cbn [s_split filter].
  rewrite colon_hd, (same_iff o lc _ k v HN), repeat_length, andb_assoc.
  change ((negb (starts_with_colon k) || str_eqb k (lit ":host")) && existsb (same_kv (k, v)) (before lc)) with (unchanged (before lc) (k, v)).
  assert (Sub : forall m kv, In kv (snd (s_split o lc items m)) -> In kv items).
  { intros m kv H. destruct (IH m Hd') as [E _]. rewrite E in H. apply (filter_In (unchanged (before lc))). rewrite <- (firstn_skipn (Z.to_nat (o_max o) - m) (filter _ items)). apply in_or_app. now left. }
  assert (Out : forall m v', ~ In (k, v') (snd (s_split o lc items m))).
  { intros m v' H. apply Sub in H. apply Hk. apply (in_map fst) in H. exact H. }
  destruct (unchanged (before lc) (k, v)) eqn:U; cbn [andb].
  - destruct (Z.ltb_spec (Z.of_nat n) (o_max o)) as [L|L].
    + destruct (IH (S n) Hd') as [I1 I2]. destruct (s_split o lc items (S n)) as [S0 F] eqn:Es. cbn [fst snd] in *.
      replace (Z.to_nat (o_max o) - n)%nat with (S (Z.to_nat (o_max o) - S n)) by lia. cbn [firstn]. rewrite <- I1. split; [reflexivity|].
      cbn [existsb]. destruct (same_kv_spec (k, v) (k, v)); [|congruence]. cbn [orb negb andb fst]. rewrite I2 at 1. apply filter_ext_in.
      intros kv Hkv. destruct (same_kv_spec kv (k, v)) as [->|]; [|reflexivity]. exfalso. apply Hk. apply (in_map fst) in Hkv. exact Hkv.
    + destruct (IH n Hd') as [I1 I2]. replace (Z.to_nat (o_max o) - n)%nat with 0%nat in * by lia. cbn [firstn] in *.
      destruct (mem_str k s_ignore_hdrs) eqn:Ei.
      * rewrite I1 in *. split; [reflexivity|]. cbn [existsb negb andb fst]. rewrite Ei. cbn [negb]. exact I2.
      * destruct (s_split o lc items n) as [S0 F] eqn:Es. cbn [fst snd] in *. subst F. split; [reflexivity|]. cbn [existsb negb andb fst]. rewrite Ei. cbn [negb]. now rewrite I2 at 1.
  - destruct (IH n Hd') as [I1 I2]. destruct (mem_str k s_ignore_hdrs) eqn:Ei.
    + split; [exact I1|]. cbn [fst]. rewrite Ei, andb_false_r. exact I2.
    + pose proof (Out n v) as Hout. destruct (s_split o lc items n) as [S0 F] eqn:Es. cbn [fst snd] in *. split; [exact I1|].
      rewrite Ei. apply existsb_same_not in Hout. rewrite Hout. cbn [negb andb]. now rewrite I2 at 1.
Qed.

Lemma split_is o lc d : match lc with Some p => NoDup (map fst p) | None => True end -> NoDup (map fst d) ->
  snd (s_split o lc d 0) = references (o_max o) (before lc) d /\ fst (s_split o lc d 0) = spelled_out (o_max o) (before lc) d.
Proof.
  intros HN Hd. destruct (split_spec o lc HN d 0 Hd) as [E1 E2]. rewrite Nat.sub_0_r in E1. split; [exact E1|]. rewrite E2, E1. apply filter_ext.
  intros kv. unfold references. rewrite <- andb_assoc. f_equal. unfold s_ignore_hdrs, mem_str. cbn [existsb]. rewrite orb_false_r, negb_orb, andb_comm. reflexivity.
Qed.

(** The lines of a dictionary on the wire. *)
Definition wire_lines (avoid : list str) (kv : str * str) : list str :=
  if mem_str (fst kv) avoid then [] else
  map (fun v => (if str_eqb (fst kv) (lit ":host") then lit "h" else fst kv) ++ [58] ++ v ++ [10]) (split_on 0 (snd kv)).

Lemma wire_lines_text avoid l :
  flat_map (fun kv => if mem_str (fst kv) avoid then [] else h1_header [10] [58] (lit "h") kv) l = concat (flat_map (wire_lines avoid) l).
Proof.
  induction l as [|kv l IH]; [reflexivity|]. cbn [flat_map]. rewrite concat_app, <- IH. f_equal. unfold wire_lines. destruct (mem_str (fst kv) avoid); [reflexivity|].
  unfold h1_header. cbv zeta. now rewrite flat_map_concat_map.
Qed.

Lemma ename_host k : ename k = lit ":host" -> k = lit ":host".
Proof.
  unfold ename. destruct (hd 0 k =? 58); [auto|]. destruct (dget s_lookups k) as [x|] eqn:E; [|discriminate].
  intros ->. destruct (lookup_facts k _ E) as (_ & H & _). exfalso. now apply H.
Qed.
Lemma ename_colon k n : hd 0 n = 58 -> ename k = n -> k = n.
Proof.
  unfold ename. destruct (hd 0 k =? 58); [auto|]. destruct (dget s_lookups k) as [x|] eqn:E.
  - intros Hn ->. destruct (lookup_facts k _ E) as (_ & H & _). contradiction.
  - intros Hn <-. discriminate.
Qed.
Lemma short_ename k : (if str_eqb (ename k) (lit ":host") then lit "h" else ename k) = short k.
Proof.
  unfold short. destruct (str_eqb_spec k (lit ":host")) as [->|N]; [reflexivity|].
  destruct (str_eqb_spec (ename k) (lit ":host")) as [E|_]; [apply ename_host in E; contradiction|]. unfold ename. now rewrite colon_hd.
Qed.

Lemma ename_avoid k n : hd 0 n = 58 -> str_eqb (ename k) n = str_eqb k n.
Proof.
  intros Hn. destruct (str_eqb_spec k n) as [->|N].
  - unfold ename. rewrite Hn. cbn [N.eqb Pos.eqb]. apply str_eqb_refl.
  - destruct (str_eqb_spec (ename k) n) as [E|_]; [|reflexivity]. apply ename_colon in E; [contradiction|exact Hn].
Qed.

Definition avoided (is_request : bool) : list str :=
  if is_request then [lit ":method"; lit ":path"; lit ":version"] else [lit ":version"; lit ":status"; lit ":status-text"].

Lemma sent_lines r S0 o : o_dates o = false -> (forall kv, In kv S0 -> fst kv <> lit ":version" /\ fst kv <> lit ":status-text") ->
  flat_map (wire_lines (avoided r)) (map (enc_item o) S0) = flat_map lines_of (filter (fun kv => negb (in_first_line r (fst kv))) S0).
Proof.
  intros Hd. induction S0 as [|[k v] S0 IH]; intros H; [reflexivity|]. cbn [map flat_map filter].
  rewrite IH by (intros kv Hkv; apply H; now right). destruct (H (k, v) (or_introl eq_refl)) as [H1 H2]. cbn [fst] in *.
  assert (A : mem_str (ename k) (avoided r) = in_first_line r k).
  { destruct (str_eqb_spec k (lit ":version")); [contradiction|]. destruct (str_eqb_spec k (lit ":status-text")); [contradiction|].
    unfold avoided, in_first_line, mem_str. destruct r; cbn [existsb]; rewrite !ename_avoid by reflexivity.
    - destruct (str_eqb_spec k (lit ":version")); [contradiction|]. destruct (str_eqb k (lit ":method")), (str_eqb k (lit ":path")); reflexivity.
    - destruct (str_eqb_spec k (lit ":version")); [contradiction|]. destruct (str_eqb_spec k (lit ":status-text")); [contradiction|]. destruct (str_eqb k (lit ":status")); reflexivity. }
  unfold wire_lines at 1. cbn [enc_item fst snd]. rewrite A. destruct (in_first_line r k); cbn [negb]; [reflexivity|].
  cbn [flat_map]. f_equal. unfold lines_of. cbn [fst snd]. rewrite short_ename. unfold s_date_in. now rewrite Hd.
Qed.

Lemma refer_wire kv : ref_wire kv = refer kv.
Proof.
  unfold ref_wire, refer, short. destruct (str_eqb (fst kv) (lit ":host")); [reflexivity|]. unfold ename. now rewrite colon_hd.
Qed.

Lemma get_perm (W d : hdict) k v dflt : is_dict W -> In (k, v) W -> In (k, v) d -> is_dict d -> get_or W k dflt = get_or d k dflt.
Proof. intros H1 H2 H3 H4. unfold get_or. now rewrite (in_dget W k v H1 H2), (in_dget d k v H4 H3). Qed.

Lemma get_none (W : hdict) k dflt : (forall v, ~ In (k, v) W) -> get_or W k dflt = dflt.
Proof. intros H. unfold get_or. destruct (dget W k) as [v|] eqn:E; [|reflexivity]. apply dget_in in E. exfalso. now apply (H v). Qed.

(** ** C88 *)

(** The text before the last coding: a first line, one line for each value of
    each header that is spelled out, and one line of references, in some order,
    and an empty line. *)
Theorem C88_text : forall o ord lc d, (forall d, Permutation d (ord d)) -> o_dates o = false ->
  simple_message (o_request o) d -> match lc with Some p => NoDup (map fst p) | None => True end ->
  exists text lines, s_compress o ord lc d = Ok (Some d, o_enc o text) /\
    text = first_line (o_request o) d ++ concat lines ++ [10] /\
    Permutation lines (other_lines (o_request o) (o_max o) (before lc) d) /\
    (Z.of_nat (length (references (o_max o) (before lc) d)) <= Z.max 0 (o_max o))%Z.
Proof.
  intros o ord lc d Ho Hda Hm HN. pose proof (message_all_ok _ _ Hm) as HA. pose proof HA as [Hd _].
  destruct (split_is o lc d HN Hd) as [EF ES].
  exists (format_http1 (ord (wire o lc d)) [10] [58] (lit "h") (lit "H/2")), (flat_map (wire_lines (avoided (o_request o))) (ord (wire o lc d))).
  split; [now apply compress_ok|]. split; [|split].
  - unfold format_http1. unfold simple_message in Hm. destruct (o_request o) eqn:Er.
    + assert (Hm' : simple_message (o_request o) d) by (now rewrite Er). destruct Hm as (_ & (m & Hmm & _) & (p & Hp & _) & _).
      assert (Wm : In (lit ":method", m) (ord (wire o lc d))) by (apply w_colon; auto; [discriminate|intros [C|C]; discriminate]).
      assert (Wp : In (lit ":path", p) (ord (wire o lc d))) by (apply w_colon; auto; [discriminate|intros [C|C]; discriminate]).
      assert (Dw : is_dict (ord (wire o lc d))) by (apply (w_dict o ord Ho lc d Hm')).
      unfold din. rewrite (in_dget _ _ _ Dw Wm). rewrite wire_lines_text. unfold first_line.
      rewrite (get_perm _ d (lit ":method") m [] Dw Wm Hmm Hd), (get_perm _ d (lit ":path") p [] Dw Wp Hp Hd).
      rewrite (get_none (ord (wire o lc d)) (lit ":version")) by (apply (w_notwo o ord Ho lc d Hm'); now left). rewrite <- !app_assoc. reflexivity.
    + assert (Hm' : simple_message (o_request o) d) by (now rewrite Er). destruct Hm as (_ & Nm & _ & (s & Hs & _) & _).
      assert (Ws : In (lit ":status", s) (ord (wire o lc d))) by (apply w_colon; auto; [discriminate|intros [C|C]; discriminate]).
      assert (Dw : is_dict (ord (wire o lc d))) by (apply (w_dict o ord Ho lc d Hm')).
      assert (Wm : din (ord (wire o lc d)) (lit ":method") = false).
      { unfold din. destruct (dget (ord (wire o lc d)) (lit ":method")) as [v|] eqn:E; [|reflexivity]. apply dget_in in E. exfalso.
        apply (w_in o ord Ho lc d) in E. destruct (wire_in o lc d _ _ E) as [(k & v0 & K1 & K2 & _)|(_ & K & _)]; [|discriminate].
        symmetry in K2. apply ename_colon in K2; [|reflexivity]. subst k. apply Nm. destruct (s0_ok o lc d HA _ K1) as [K1' _]. apply (in_map fst) in K1'. exact K1'. }
      rewrite Wm, wire_lines_text. unfold first_line. rewrite (get_perm _ d (lit ":status") s [] Dw Ws Hs Hd).
      rewrite (get_none (ord (wire o lc d)) (lit ":version")) by (apply (w_notwo o ord Ho lc d Hm'); now left).
      rewrite (get_none (ord (wire o lc d)) (lit ":status-text")) by (apply (w_notwo o ord Ho lc d Hm'); now right). rewrite <- !app_assoc. reflexivity.
  - rewrite <- (Ho (wire o lc d)). unfold wire, other_lines. rewrite flat_map_app, EF, ES, sent_lines.
    2: exact Hda.
    2:{ intros kv Hkv. unfold spelled_out in Hkv. apply filter_In in Hkv as [_ Hkv]. apply andb_true_iff in Hkv as [Hkv H2]. apply andb_true_iff in Hkv as [_ H1].
        split; intros C; rewrite C, str_eqb_refl in *; discriminate. }
    apply Permutation_app_head. destruct (references (o_max o) (before lc) d) as [|f F] eqn:E; [reflexivity|].
    pose proof (ref_nonul o lc d Hm) as RW. rewrite EF in RW. rewrite (map_ext _ _ refer_wire) in *. cbn [flat_map]. rewrite app_nil_r.
    unfold wire_lines. cbn [fst snd]. replace (mem_str (lit "ref") (avoided (o_request o))) with false by (destruct (o_request o); reflexivity).
    change (str_eqb (lit "ref") (lit ":host")) with false. rewrite split_on_free; [reflexivity|].
    exact RW.
  - unfold references. rewrite firstn_length. lia.
Qed.
Print Assumptions C88_text.

Lemma filter_length_le' {A} (f : A -> bool) l : (length (filter f l) <= length l)%nat.
Proof. induction l as [|x l IH]; [reflexivity|]. cbn [filter length]. destruct (f x); cbn [length]; lia. Qed.
Lemma filter_filter' {A} (f g : A -> bool) l : filter f (filter g l) = filter (fun x => g x && f x) l.
Proof. induction l as [|x l IH]; [reflexivity|]. cbn [filter]. destruct (g x); cbn [filter andb]; [destruct (f x)|]; now rewrite IH. Qed.

(** Its length, without and with seven-bit packing. *)
Definition text_size (is_request : bool) (max : Z) (prev d : hdict) : nat :=
  (length (first_line is_request d) + list_sum (map (@length N) (other_lines is_request max prev d)) + 1)%nat.

Lemma concat_length {A} (l : list (list A)) : length (concat l) = list_sum (map (@length A) l).
Proof. induction l as [|x l IH]; [reflexivity|]. cbn [concat map list_sum fold_right]. rewrite app_length, IH. reflexivity. Qed.
Lemma list_sum_perm a b : Permutation a b -> list_sum a = list_sum b.
Proof. induction 1; unfold list_sum in *; cbn [fold_right]; lia. Qed.
Lemma seven_length t : length (seven_encode t) = ((7 * length t + 7) / 8)%nat.
Proof.
  unfold seven_encode. rewrite bytes_of_bits_len. unfold bytes_for. f_equal. f_equal.
  induction t as [|c t IH]; [reflexivity|]. cbn [flat_map]. rewrite app_length, IH, skipn_length, bits_of_length. cbn [length]. lia.
Qed.

Theorem C88_size : forall r max ord lc d, (forall d, Permutation d (ord d)) ->
  simple_message r d -> match lc with Some p => NoDup (map fst p) | None => True end ->
  (exists text, s_compress (opts_plain r max) ord lc d = Ok (Some d, text) /\ length text = text_size r max (before lc) d) /\
  (exists text, s_compress (opts_seven r max) ord lc d = Ok (Some d, text) /\ length text = ((7 * text_size r max (before lc) d + 7) / 8)%nat).
Proof.
  intros r max ord lc d Ho Hm HN. assert (L : forall lines, Permutation lines (other_lines r max (before lc) d) ->
    length (first_line r d ++ concat lines ++ [10]) = text_size r max (before lc) d).
  { intros lines P. unfold text_size. rewrite !app_length, concat_length, (list_sum_perm _ _ (Permutation_map (@length N) P)). cbn [length]. lia. }
  split.
  - destruct (C88_text (opts_plain r max) ord lc d Ho eq_refl Hm HN) as (text & lines & E & -> & P & _). cbn [o_enc opts_plain o_request o_max] in *.
    eexists. split; [exact E|]. now apply L.
  - destruct (C88_text (opts_seven r max) ord lc d Ho eq_refl Hm HN) as (text & lines & E & -> & P & _). cbn [o_enc opts_seven o_request o_max] in *.
    eexists. split; [exact E|]. now rewrite seven_length, L.
Qed.
Print Assumptions C88_size.

(** A message sent again, when the limit allows all references: a line remains
    only for those that start with a colon, other than the host. *)
Theorem C88_repeated : forall r max (d : hdict), simple_message r d -> (Z.of_nat (length d) <= max)%Z ->
  let named := filter (fun kv => negb (starts_with_colon (fst kv)) || str_eqb (fst kv) (lit ":host")) d in
  other_lines r max d d =
    flat_map lines_of (filter (fun kv => starts_with_colon (fst kv) && negb (str_eqb (fst kv) (lit ":host")) && negb (in_first_line r (fst kv)) &&
      negb (str_eqb (fst kv) (lit ":version")) && negb (str_eqb (fst kv) (lit ":status-text"))) d) ++
    match named with [] => [] | _ => [lit "ref:" ++ join [44] (map refer named) ++ [10]] end.
Proof.
  intros r max d Hm Hl. cbv zeta. unfold other_lines.
  assert (U : filter (unchanged d) d = filter (fun kv => negb (starts_with_colon (fst kv)) || str_eqb (fst kv) (lit ":host")) d).
  { apply filter_ext_in. intros kv Hkv. unfold unchanged. apply existsb_same in Hkv. now rewrite Hkv, andb_true_r. }
  assert (R : references max d d = filter (fun kv => negb (starts_with_colon (fst kv)) || str_eqb (fst kv) (lit ":host")) d).
  { unfold references. rewrite U. apply firstn_all2. pose proof (filter_length_le' (fun kv => negb (starts_with_colon (fst kv)) || str_eqb (fst kv) (lit ":host")) d). lia. }
  rewrite R. set (named := filter (fun kv => negb (starts_with_colon (fst kv)) || str_eqb (fst kv) (lit ":host")) d) in *. f_equal; [|destruct named; reflexivity].
  f_equal. unfold spelled_out. rewrite R. rewrite filter_filter'. apply filter_ext_in. intros kv Hkv.
  assert (X : existsb (same_kv kv) named = negb (starts_with_colon (fst kv)) || str_eqb (fst kv) (lit ":host")).
  { destruct (negb (starts_with_colon (fst kv)) || str_eqb (fst kv) (lit ":host")) eqn:E.
    - apply existsb_same. apply filter_In. auto.
    - apply existsb_same_not. intros C. apply filter_In in C as [_ C]. congruence. }
  rewrite X. destruct (starts_with_colon (fst kv)), (str_eqb (fst kv) (lit ":host")), (in_first_line r (fst kv)), (str_eqb (fst kv) (lit ":version")), (str_eqb (fst kv) (lit ":status-text")); reflexivity.
Qed.
Print Assumptions C88_repeated.

(** The session of C30: what the second message takes, with and without a limit
    of one reference. *)
Example C88_example :
  simple_message true c30_m2 /\ NoDup (map fst c30_m1) /\
  other_lines true 10 c30_m1 c30_m2 = [lit "c:c=1" ++ [10]; lit "ref:a,!h,!x-a" ++ [10]] /\
  text_size true 10 c30_m1 c30_m2 = 32%nat /\
  other_lines true 1 c30_m1 c30_m2 = [lit "h:h.com" ++ [10]; lit "!x-a:one" ++ [10]; lit "!x-a:two" ++ [10]; lit "c:c=1" ++ [10]; lit "ref:a" ++ [10]] /\
  text_size true 0 c30_m1 c30_m2 = 50%nat /\
  other_lines true 10 c30_m2 c30_m2 = [lit "ref:a,!h,!x-a,c" ++ [10]].
Proof.
  split; [|split; [|vm_compute; repeat split]].
  - pose proof C30_example_wf as H. inversion H as [|? ? _ H']; subst. now inversion H'.
  - vm_compute. repeat constructor; cbn; intuition discriminate.
Qed.

(** A message cannot be made exactly when a header has no name. *)
Lemma hdr_name_ok n : n <> [] -> exists x, hdr_name n = Ok x.
Proof. destruct n as [|c r]; [contradiction|]. intros _. cbn [hdr_name]. destruct (c =? 58); eexists; reflexivity. Qed.
Lemma hdr_names_ok l : Forall (fun n => n <> []) l -> exists x, hdr_names l = Ok x.
Proof.
  induction 1 as [|n l H _ [xs IH]]; [now exists []|]. cbn [hdr_names].
  destruct (hdr_name_ok n H) as [x ->]. cbn [bind]. rewrite IH. cbn [bind]. now eexists.
Qed.
Lemma s_loop_raises o last items : forall acc, Forall (fun n => n <> []) (snd acc) ->
  (In [] (map fst items) /\ s_loop o last items acc = Err IndexError) \/
  (~ In [] (map fst items) /\ exists r, s_loop o last items acc = Ok r /\ Forall (fun n => n <> []) (snd r)).
Proof.
  induction items as [|[name value] items IH]; intros [hs rs] F; cbn [s_loop map fst In].
  - right. split; [tauto|]. now exists (hs, rs).
  - destruct name as [|c r].
    + left. split; [now left|reflexivity].
    + assert (K : exists acc', s_step o last (hs, rs) (c :: r, value) = Ok acc' /\ Forall (fun n => n <> []) (snd acc')).
      { cbn [s_step]. destruct (negb (c =? 58) && s_same o last rs (c :: r) value).
        { eexists. split; [reflexivity|]. apply Forall_app. split; [exact F|]. constructor; [discriminate|constructor]. }
        destruct (str_eqb (c :: r) (lit ":host") && s_same o last rs (c :: r) value).
        { eexists. split; [reflexivity|]. apply Forall_app. split; [exact F|]. constructor; [discriminate|constructor]. }
        destruct (mem_str (c :: r) s_ignore_hdrs); [eexists; split; [reflexivity|exact F]|].
        destruct (hdr_name_ok (c :: r)) as [x ->]; [discriminate|]. cbn [bind]. eexists. split; [reflexivity|exact F]. }
      destruct K as (acc' & -> & F'). cbn [bind]. destruct (IH acc' F') as [[I E]|[N E]].
      * left. split; [now right|exact E].
      * right. split; [|exact E]. intros [H|H]; [discriminate|contradiction].
Qed.

Theorem C88_raises : forall o ord last d e,
  s_compress o ord last d = Err e <-> e = IndexError /\ In [] (map fst d).
Proof.
  intros o ord last d e. unfold s_compress.
  destruct (s_loop_raises o last d (@nil (str * str), @nil str)) as [[I ->]|[N ([hs rs] & -> & F)]]; [constructor| |]; cbn [bind].
  - split; [intros H; injection H as <-; auto|]. intros [-> _]. reflexivity.
  - split; [|intros [_ I]; contradiction]. destruct rs as [|r rs]; [discriminate|].
    destruct (hdr_names_ok (r :: rs) F) as [ns ->]. cbn [bind]. discriminate.
Qed.
Print Assumptions C88_raises.
