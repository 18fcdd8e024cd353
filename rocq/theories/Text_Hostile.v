(** * http1 and simple: what the decoders do with texts made by anybody. *)
From Coq Require Import String List NArith ZArith Bool Lia Arith.
From Verif Require Import PyBase PyStr PyMerge Lib_Model H1_Model Simple_Model.
Import ListNotations.
Open Scope N_scope.
Open Scope py_scope.

(** ** Specification *)

(** The lines of a message after the first, up to an empty one. *)
Fixpoint until_empty (lines : list str) : list str :=
  match lines with [] => [] | [] :: _ => [] | l :: ls => l :: until_empty ls end.
Definition field_lines (message : str) : list str := until_empty (tl (split_on 10 (strip is_space message))).
Definition first_line (message : str) : str := hd [] (split_on 10 (strip is_space message)).
(** A line with a colon that is not its first character. *)
Definition has_name (line : str) : Prop := In 58 (tl line).
(** Two words and something more. *)
Definition three_parts (line : str) : Prop := exists a x b y c z d, line = a ++ x ++ b ++ y ++ c ++ z :: d /\
  Forall (fun c => is_space c = true) (a ++ b ++ c) /\ Forall (fun c => is_space c = false) (x ++ y) /\ is_space z = false /\
  x <> [] /\ b <> [] /\ y <> [] /\ c <> [].

(** Characters of names and values. *)
Definition dsize (d : hdict) : nat := fold_right (fun kv n => length (fst kv) + length (snd kv) + n)%nat O d.

(** ** Lines *)
Lemma split_once_none_iff c s : snd (split_once c s) = None <-> ~ In c s.
Proof.
  pose proof (split_once_spec c s) as H. destruct (split_once c s) as [a [b|]]; cbn [snd]; split; intros X; try discriminate; try reflexivity.
  - exfalso. apply X. destruct H as [-> _]. apply in_or_app. right. now left.
  - destruct H as [-> H]. exact H.
Qed.
Lemma split_line_ok c r : match h1_split_line c r with Ok (n, v) => In 58 r /\ c :: r = n ++ 58 :: v /\ n <> [] | Err e => ~ In 58 r /\ e = ValueError end.
Proof.
  unfold h1_split_line. destruct (N.eqb_spec c 58) as [->|Hc].
  - pose proof (split_once_spec 58 r) as H. pose proof (split_once_none_iff 58 r) as G. destruct (split_once 58 r) as [n [v|]]; cbn [snd] in G.
    + destruct H as [-> _]. split; [apply in_or_app; right; now left|]. split; [reflexivity|discriminate].
    + split; [now apply G|reflexivity].
  - pose proof (split_once_spec 58 (c :: r)) as H. pose proof (split_once_none_iff 58 (c :: r)) as G. destruct (split_once 58 (c :: r)) as [n [v|]]; cbn [snd] in G.
    + destruct H as [H Hn]. destruct n as [|x n]; cbn [app] in H; [congruence|]. injection H as <- ->. split; [apply in_or_app; right; now left|]. split; [reflexivity|discriminate].
    + split; [|reflexivity]. intros I. apply (proj1 G eq_refl). now right.
Qed.
Lemma parse_lines_outcome lines : forall out,
  (Forall has_name (until_empty lines) -> exists d, parse_lines is_space lower lines out = Ok d) /\
  (forall e, parse_lines is_space lower lines out = Err e -> e = ValueError) /\
  (forall d, parse_lines is_space lower lines out = Ok d -> Forall has_name (until_empty lines)).
Proof.
  induction lines as [|[|c r] lines IH]; intros out; cbn [parse_lines until_empty].
  1,2: split; [eauto|split; [discriminate|constructor]].
  pose proof (split_line_ok c r) as H. destruct (h1_split_line c r) as [[n v]|e]; cbn [bind].
  - destruct H as (H & _). destruct (IH (merge_step (fun _ => 0) out (lower n, strip is_space v))) as (A & B & C). split; [intros F; inversion F; subst; auto|]. split; [exact B|]. intros d E. constructor; [exact H|eauto].
  - destruct H as [H ->]. split; [intros F; inversion F; subst; contradiction|]. split; [congruence|discriminate].
Qed.

Lemma lstrip_nonspace s : match lstrip is_space s with [] => Forall (fun c => is_space c = true) s
  | z :: d => exists a, s = a ++ z :: d /\ Forall (fun c => is_space c = true) a /\ is_space z = false end.
Proof.
  destruct (lstrip_spec is_space s) as (a & E & F). pose proof (lstrip_head is_space s) as H. destruct (lstrip is_space s) as [|z d].
  - rewrite E, app_nil_r. exact F.
  - exists a. auto.
Qed.
Lemma span_split p s : let '(a, b) := span p s in s = a ++ b /\ Forall (fun c => p c = true) a /\ match b with [] => True | x :: _ => p x = false end.
Proof.
  induction s as [|x s IH]; cbn [span]; [repeat constructor|]. destruct (p x) eqn:E.
  - destruct (span p s) as [a b]. destruct IH as (-> & F & B). repeat split; auto.
  - repeat split; auto.
Qed.
Lemma lstrip_parts a z d : Forall (fun c => is_space c = true) a -> is_space z = false -> lstrip is_space (a ++ z :: d) = z :: d.
Proof. intros F H. rewrite lstrip_app by exact F. apply lstrip_id. exact H. Qed.
Lemma span_parts x b : Forall (fun c => is_space c = false) x -> match b with [] => True | c :: _ => is_space c = true end -> span (fun c => negb (is_space c)) (x ++ b) = (x, b).
Proof.
  intros F. revert b. induction F as [|c x Hc _ IH]; intros b Hb; cbn [app span].
  - destruct b as [|c b]; [reflexivity|]. cbn [span]. now rewrite Hb.
  - rewrite Hc. cbn [negb]. now rewrite IH.
Qed.

Lemma split_ws_parts line : match split_ws is_space 2 line with
  | [t0; t1; t2] => three_parts line /\ (length t0 + length t1 + length t2 <= length line)%nat
  | _ => ~ three_parts line end.
Proof.
  destruct (split_ws is_space 2 line) as [|t0 [|t1 [|t2 [|t3 l]]]] eqn:E.
  1,2,3,5: intros (a & x & b & y & c & z & d & -> & Fs & Fn & Hz & Nx & Nb & Ny & Nc); apply Forall_app in Fs as [Fa Fs]; apply Forall_app in Fs as [Fb Fc]; apply Forall_app in Fn as [Fx Fy];
    destruct x as [|x0 x]; [contradiction|]; destruct y as [|y0 y]; [contradiction|]; destruct b as [|b0 b]; [contradiction|]; destruct c as [|c0 c]; [contradiction|];
    pose proof (Forall_inv Fx) as Hx; pose proof (Forall_inv Fy) as Hy; pose proof (Forall_inv Fb) as Hb; pose proof (Forall_inv Fc) as Hc; cbv beta in Hx, Hy, Hb, Hc;
    cbn [split_ws] in E; change ((x0 :: x) ++ (b0 :: b) ++ (y0 :: y) ++ (c0 :: c) ++ z :: d) with (x0 :: x ++ (b0 :: b) ++ (y0 :: y) ++ (c0 :: c) ++ z :: d) in E;
    rewrite lstrip_parts in E by assumption;
    change (x0 :: x ++ (b0 :: b) ++ (y0 :: y) ++ (c0 :: c) ++ z :: d) with ((x0 :: x) ++ (b0 :: b) ++ (y0 :: y) ++ (c0 :: c) ++ z :: d) in E;
    rewrite span_parts in E by assumption;
    change ((b0 :: b) ++ (y0 :: y) ++ (c0 :: c) ++ z :: d) with ((b0 :: b) ++ y0 :: (y ++ (c0 :: c) ++ z :: d)) in E; rewrite lstrip_parts in E by assumption;
    change (y0 :: y ++ (c0 :: c) ++ z :: d) with ((y0 :: y) ++ (c0 :: c) ++ z :: d) in E; rewrite span_parts in E by assumption; rewrite lstrip_parts in E by assumption; discriminate.
  cbn [split_ws] in E. pose proof (lstrip_nonspace line) as H0. destruct (lstrip is_space line) as [|z0 d0]; [discriminate|]. destruct H0 as (a & -> & Fa & Hz0).
  pose proof (span_split (fun c => negb (is_space c)) (z0 :: d0)) as S0. cbn [span] in S0, E. rewrite Hz0 in S0, E. cbn [negb] in S0, E. destruct (span (fun c => negb (is_space c)) d0) as [x b0]. destruct S0 as (E0 & Fx & B0).
  pose proof (lstrip_nonspace b0) as H1. destruct (lstrip is_space b0) as [|z1 d1]; [discriminate|]. destruct H1 as (b & Eb & Fb & Hz1).
  pose proof (span_split (fun c => negb (is_space c)) (z1 :: d1)) as S1. cbn [span] in S1, E. rewrite Hz1 in S1, E. cbn [negb] in S1, E. destruct (span (fun c => negb (is_space c)) d1) as [y c0]. destruct S1 as (E1 & Fy & B1).
  pose proof (lstrip_nonspace c0) as H2. destruct (lstrip is_space c0) as [|z2 d2]; [discriminate|]. destruct H2 as (c & Ec & Fc & Hz2).
  injection E as <- <- <-. assert (En : z0 :: d0 = (z0 :: x) ++ b ++ (z1 :: y) ++ c ++ z2 :: d2) by (rewrite E0, Eb, E1, Ec; reflexivity). rewrite En. split.
  - exists a, (z0 :: x), b, (z1 :: y), c, z2, d2. split; [reflexivity|].
    assert (Neg : forall l, Forall (fun c => negb (is_space c) = true) l -> Forall (fun c => is_space c = false) l) by (intros l Hl; eapply Forall_impl; [|exact Hl]; cbv beta; intros ? Hn; now apply negb_true_iff in Hn).
    split; [rewrite !Forall_app; auto|]. split; [apply Forall_app; split; now apply Neg|]. split; [exact Hz2|]. split; [discriminate|].
    split; [intros ->; subst b0; cbn [app] in B0; rewrite Hz1 in B0; discriminate|]. split; [discriminate|]. intros ->. subst c0. cbn [app] in B1. rewrite Hz2 in B1. discriminate.
  - repeat (rewrite ?app_length; cbn [length app]). lia.
Qed.

(** ** Sizes *)
Lemma dset_size d k v : (dsize (dset d k v) <= dsize d + length k + length v)%nat.
Proof. induction d as [|[k' v'] d IH]; cbn [dset dsize fold_right fst snd]; [lia|]. destruct (str_eqb k k') eqn:E; cbn [dsize fold_right fst snd]; fold (dsize d) (dsize (dset d k v)); lia. Qed.
Lemma dset_size_old d k v old : dget d k = Some old -> (dsize (dset d k v) + length old = dsize d + length v)%nat.
Proof.
  induction d as [|[k' v'] d IH]; cbn [dget dset]; [discriminate|]. destruct (str_eqb_spec k k') as [->|N]; cbn [dsize fold_right fst snd]; fold (dsize d).
  - intros [= ->]. lia.
  - intros H. specialize (IH H). fold (dsize (dset d k v)). lia.
Qed.
Lemma ddel_size d k v : dget d k = Some v -> (dsize (ddel d k) + length k + length v = dsize d)%nat.
Proof.
  induction d as [|[k' v'] d IH]; cbn [dget ddel]; [discriminate|]. destruct (str_eqb_spec k k') as [->|N]; cbn [dsize fold_right fst snd]; fold (dsize d).
  - intros [= ->]. lia.
  - intros H. specialize (IH H). fold (dsize (ddel d k)). lia.
Qed.
Lemma strip_length p (s : str) : (length (strip p s) <= length s)%nat.
Proof. destruct (strip_spec p s) as (a & b & E & _). rewrite E at 2. rewrite !app_length. lia. Qed.
Lemma lower_length s : length (lower s) = length s.
Proof. unfold lower. apply map_length. Qed.
Definition text_size (ls : list str) : nat := fold_right (fun l n => length l + n)%nat O ls.
Lemma text_size_split c s : (text_size (split_on c s) <= length s)%nat.
Proof.
  rewrite <- (join_split c s) at 2. generalize (split_on c s). intros l. induction l as [|x [|y l] IH]; cbn [text_size fold_right join] in *; [lia|lia|]. rewrite !app_length. cbn [length]. unfold text_size in IH. lia.
Qed.
Lemma parse_lines_size lines : forall out d, parse_lines is_space lower lines out = Ok d -> (dsize d <= dsize out + text_size lines)%nat.
Proof.
  induction lines as [|[|c r] lines IH]; intros out d; cbn [parse_lines]; try (intros [= <-]; lia).
  pose proof (split_line_ok c r) as H. destruct (h1_split_line c r) as [[n v]|e]; cbn [bind]; [|discriminate]. destruct H as (_ & E & _). intros P. apply IH in P.
  cbn [text_size fold_right]. fold (text_size lines). rewrite E, app_length. cbn [length]. pose proof (strip_length is_space v) as Sl.
  enough (dsize (merge_step (fun _ => 0%N) out (lower n, strip is_space v)) <= dsize out + (length n + S (length v)))%nat by lia.
  unfold merge_step. cbn [fst snd]. destruct (dget out (lower n)) as [old|] eqn:G.
  - pose proof (dset_size_old out (lower n) (old ++ [0] ++ strip is_space v) old G) as D. rewrite !app_length in D. cbn [length] in D. lia.
  - pose proof (dset_size out (lower n) (strip is_space v)) as D. rewrite lower_length in D. lia.
Qed.

Lemma parse_size s q host d : host <> lit ":host" -> parse_http1 s q host = Ok d -> (dsize d <= length s + 27)%nat.
Proof.
  intros Hh. unfold parse_http1, parse_http1_in. pose proof (text_size_split 10 (strip is_space s)) as T. pose proof (strip_length is_space s) as L. destruct (split_on 10 (strip is_space s)) as [|first lines]; [discriminate|].
  cbn [text_size fold_right] in T. fold (text_size lines) in T. destruct (parse_lines is_space lower lines []) as [out|] eqn:E; [|discriminate]. cbn [bind]. apply parse_lines_size in E. cbn [dsize fold_right] in E.
  pose proof (split_ws_parts first) as W. destruct (split_ws is_space 2 first) as [|t0 [|t1 [|t2 [|t3 l]]]]; try discriminate. destruct W as [_ W]. pose proof (strip_length is_space t2) as L2. destruct q.
  - set (o3 := dset (dset (dset out (lit ":method") t0) (lit ":path") t1) (lit ":version") (strip is_space t2)).
    assert (S3 : (dsize o3 <= length s + 20)%nat).
    { unfold o3. etransitivity; [apply dset_size|]. pose proof (dset_size (dset out (lit ":method") t0) (lit ":path") t1). pose proof (dset_size out (lit ":method") t0). change (length (lit ":method")) with 7%nat in *. change (length (lit ":path")) with 5%nat in *. change (length (lit ":version")) with 8%nat. lia. }
    clearbody o3. destruct (dget o3 host) as [v|] eqn:G; intros [= <-]; [|lia].
    assert (G2 : dget (dset o3 (lit ":host") v) host = Some v) by (rewrite dget_dset; destruct (str_eqb_spec host (lit ":host")); [contradiction|exact G]).
    pose proof (ddel_size _ _ _ G2). pose proof (dset_size o3 (lit ":host") v). change (length (lit ":host")) with 5%nat in *. lia.
  - intros [= <-]. etransitivity; [apply dset_size|]. pose proof (dset_size (dset out (lit ":version") t0) (lit ":status") t1). pose proof (dset_size out (lit ":version") t0).
    change (length (lit ":version")) with 8%nat in *. change (length (lit ":status")) with 7%nat in *. change (length (lit ":status-text")) with 12%nat. lia.
Qed.

(** ** simple *)
Lemma rev_lookups_size : Forall (fun kv : str * str => (length (snd kv) <= 14 * length (fst kv))%nat) s_rev_lookups.
Proof. vm_compute. repeat constructor. Qed.

Lemma d_step_size o out kv out' : o_dates o = false -> d_step o out kv = Ok out' -> (dsize out' <= dsize out + 14 * (length (fst kv) + length (snd kv)))%nat.
Proof.
  intros Hd. destruct kv as [name value]. unfold d_step. cbn [fst snd]. destruct (str_eqb name (lit "ref")); [intros [= <-]; lia|].
  destruct (str_eqb_spec name (lit ":host")) as [->|_].
  { intros [= <-]. pose proof (dset_size out (lit "h") value). change (length (lit "h")) with 1%nat in *. change (length (lit ":host")) with 5%nat. lia. }
  destruct name as [|c rest]; [discriminate|]. destruct (c =? 58); [intros [= <-]; pose proof (dset_size out (c :: rest) value); lia|].
  destruct (c =? 33); [intros [= <-]; pose proof (dset_size out rest value); cbn [length]; lia|].
  destruct (dget s_rev_lookups (c :: rest)) as [e|] eqn:G; [|discriminate]. rewrite Hd. cbn [andb]. intros [= <-].
  apply dget_in in G. pose proof rev_lookups_size as R. rewrite Forall_forall in R. specialize (R _ G). cbn [fst snd] in R. pose proof (dset_size out e value). lia.
Qed.
Lemma d_loop_size o items : o_dates o = false -> forall out out', d_loop o items out = Ok out' -> (dsize out' <= dsize out + 14 * dsize items)%nat.
Proof.
  intros Hd. induction items as [|kv items IH]; intros out out'; cbn [d_loop]; [intros [= <-]; lia|]. destruct (d_step o out kv) as [o1|] eqn:E; [|discriminate]. cbn [bind]. intros H. apply IH in H. apply (d_step_size o out kv o1 Hd) in E.
  cbn [dsize fold_right]. fold (dsize items). unfold hdict, dict, str in *. lia.
Qed.
Lemma in_dset (d : hdict) k v x : In x (dset d k v) -> x = (k, v) \/ In x d.
Proof.
  induction d as [|[k' v'] d IH]; cbn [dset]; [intros [<-|[]]; now left|]. destruct (str_eqb k k').
  - intros [<-|H]; [now left|right; now right].
  - intros [<-|H]; [right; now left|]. apply IH in H as [H|H]; [now left|right; now right].
Qed.
Lemma d_refs_in last refs : forall out out', d_refs last refs out = Ok out' -> is_dict out -> is_dict out' /\ incl out' (out ++ last).
Proof.
  induction refs as [|ref refs IH]; intros out out'; cbn [d_refs]; [intros [= <-] H; split; [exact H|intros x Hx; apply in_or_app; now left]|].
  destruct (match ref with [] => _ | c :: rest => _ end) as [name|]; [|discriminate]. cbn [bind]. destruct (dget last name) as [v|] eqn:G; [|discriminate]. intros H D.
  destruct (IH _ _ H (is_dict_dset _ _ _ D)) as [A B]. split; [exact A|]. intros x Hx. apply B in Hx. apply in_app_or in Hx as [Hx|Hx]; [|apply in_or_app; now right].
  apply in_dset in Hx as [->|Hx]; apply in_or_app; [right; now apply dget_in|now left].
Qed.
Lemma dsize_app a b : dsize (a ++ b) = (dsize a + dsize b)%nat.
Proof. induction a as [|x a IH]; [reflexivity|]. cbn [app dsize fold_right]. fold (dsize (a ++ b)) (dsize a). lia. Qed.
Lemma dsize_incl a b : is_dict a -> incl a b -> (dsize a <= dsize b)%nat.
Proof.
  intros H. revert b. unfold is_dict, keys in H. induction a as [|x a IH]; intros b I; [cbn; lia|]. cbn [map] in H. apply NoDup_cons_iff in H as [Hx H].
  destruct (in_split x b (I x (or_introl eq_refl))) as (b1 & b2 & ->). specialize (IH H (b1 ++ b2)). rewrite dsize_app in *. cbn [dsize fold_right]. fold (dsize a) (dsize b2).
  enough (dsize a <= dsize b1 + dsize b2)%nat by lia. apply IH. intros y Hy. specialize (I y (or_intror Hy)). apply in_app_or in I as [I|[->|I]]; [apply in_or_app; now left| |apply in_or_app; now right].
  exfalso. apply Hx. now apply in_map.
Qed.
Lemma d_step_dict o out kv out' : d_step o out kv = Ok out' -> is_dict out -> is_dict out'.
Proof.
  destruct kv as [name value]. unfold d_step. destruct (str_eqb name (lit "ref")); [intros [= <-]; auto|]. destruct (str_eqb name (lit ":host")); [intros [= <-]; apply is_dict_dset|].
  destruct name as [|c rest]; [discriminate|]. destruct (c =? 58); [intros [= <-]; apply is_dict_dset|]. destruct (c =? 33); [intros [= <-]; apply is_dict_dset|].
  destruct (dget s_rev_lookups (c :: rest)) as [e|]; [|discriminate]. destruct (o_dates o && mem_str e s_date_hdrs); [destruct (o_dout o value)|]; intros [= <-]; apply is_dict_dset.
Qed.
Lemma d_loop_dict o items : forall out out', d_loop o items out = Ok out' -> is_dict out -> is_dict out'.
Proof.
  induction items as [|kv items IH]; intros out out'; cbn [d_loop]; [intros [= <-]; auto|]. destruct (d_step o out kv) as [o1|] eqn:E; [|discriminate]. cbn [bind]. intros H D. eapply IH; [exact H|]. eapply d_step_dict; eauto.
Qed.
Lemma d_loop_errors o items : forall out e, d_loop o items out = Err e -> e = KeyError \/ e = IndexError.
Proof.
  induction items as [|[name value] items IH]; intros out e; cbn [d_loop]; [discriminate|]. destruct (d_step o out (name, value)) as [o1|x] eqn:E; cbn [bind]; [apply IH|]. intros [= ->].
  unfold d_step in E. destruct (str_eqb name (lit "ref")); [discriminate|]. destruct (str_eqb name (lit ":host")); [discriminate|]. destruct name as [|c rest]; [injection E as <-; now right|].
  destruct (c =? 58); [discriminate|]. destruct (c =? 33); [discriminate|]. destruct (dget s_rev_lookups (c :: rest)) as [x|]; [|injection E as <-; now left].
  destruct (o_dates o && mem_str x s_date_hdrs); [destruct (o_dout o value)|]; discriminate.
Qed.
Lemma d_refs_errors last refs : forall out e, d_refs last refs out = Err e -> e = KeyError \/ e = IndexError.
Proof.
  induction refs as [|ref refs IH]; intros out e; cbn [d_refs]; [discriminate|]. destruct ref as [|c rest]; cbn [bind]; [intros [= <-]; now right|].
  destruct (c =? 33); cbn [bind]; [destruct (dget last rest); [apply IH|intros [= <-]; now left]|]. destruct (dget s_rev_lookups (c :: rest)); cbn [bind]; [|intros [= <-]; now left].
  destruct (dget last s); [apply IH|intros [= <-]; now left].
Qed.
