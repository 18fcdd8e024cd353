(** * http2 codec: sessions in which nothing is evicted, and what a repeated
    message costs. *)
From Coq Require Import String List NArith ZArith Bool Lia Permutation.
From Verif Require Import PyBase HTTP2_Model HTTP2_Spec HTTP2_Int HTTP2_Sim HTTP2_Inv HTTP2_More.
Import ListNotations.
Open Scope py_scope.

Section Fits.
Variables (defs pool : list header) (max : Z).
Hypothesis Hfit : (sum_len defs + sum_len pool <= max)%Z.

Lemma entry_len_pos h : (0 < entry_len h)%Z.
Proof. unfold entry_len. lia. Qed.

Lemma sum_len_nonneg l : (0 <= sum_len l)%Z.
Proof. induction l as [|h l IH]; simpl; [lia|]. pose proof (entry_len_pos h). lia. Qed.

Lemma sum_len_perm l l' : Permutation l l' -> sum_len l = sum_len l'.
Proof. induction 1; simpl; lia. Qed.

Lemma sum_len_incl l l' : NoDup l -> incl l l' -> (sum_len l <= sum_len l')%Z.
Proof.
  revert l'. induction l as [|h l IH]; intros l' Hn Hi; [apply sum_len_nonneg|].
  inversion Hn; subst. destruct (in_split h l' (Hi h (or_introl eq_refl))) as (a & b & ->).
  rewrite <- (sum_len_perm (h :: a ++ b) (a ++ h :: b)) by apply Permutation_middle. simpl.
  enough (sum_len l <= sum_len (a ++ b))%Z by lia. apply IH; auto.
  intros x Hx. pose proof (Hi x (or_intror Hx)) as Hin. apply in_app_or in Hin as [Hin|[->|Hin]].
  - apply in_or_app; auto.
  - contradiction.
  - apply in_or_app; auto.
Qed.

(** The table is the defaults followed by non-[:path] headers of the pool. *)
Record Fit (c : encoder) : Prop := {
  fit_tbl : exists added, hdrs (c_tbl c) = defs ++ added /\ incl added pool /\
              Forall (fun h => is_path h = false) added;
  fit_nodup : NoDup (hdrs (c_tbl c));
  fit_size : c_size c = sum_len (hdrs (c_tbl c)) }.

Lemma append_fit c h : Fit c -> In h pool -> is_path h = false -> ~ In h (hdrs (c_tbl c)) ->
  exists c', append_encoded_header max (new_entry h true true) c = c' /\
    c_tbl c' = c_tbl c ++ [new_entry h true true] /\ Fit c'.
Proof.
  intros [(added & Et & Hi & Hp) Hn Hs] Hh Hpath Hnin.
  unfold append_encoded_header. cbn [e_hdr new_entry].
  assert (Hle : (c_size c + entry_len h <= max)%Z).
  { rewrite Hs, Et, sum_len_app.
    assert (Hna : NoDup (h :: added)).
    { constructor.
      - intros Hin. apply Hnin. rewrite Et. apply in_or_app; auto.
      - rewrite Et in Hn. now apply NoDup_app_r in Hn. }
    assert (Hia : incl (h :: added) pool) by (intros x [<-|Hx]; auto).
    pose proof (sum_len_incl _ _ Hna Hia) as H. simpl in H. lia. }
  assert (Ee : enc_evict max (entry_len h) (c_tbl c) (c_size c) = (c_tbl c, c_size c)).
  { destruct (c_tbl c) as [|e t]; simpl; [reflexivity|].
    destruct (c_size c + entry_len h >? max)%Z eqn:E; [|reflexivity].
    apply Z.gtb_lt in E. lia. }
  rewrite Ee. destruct (Z.leb_spec (c_size c + entry_len h) max) as [_|?]; [|lia].
  eexists. split; [reflexivity|]. cbn [c_tbl]. split; [reflexivity|]. split; cbn [c_tbl c_size].
  - exists (added ++ [h]). unfold hdrs in *. rewrite map_app, Et. cbn. split; [now rewrite app_assoc|].
    split.
    + intros x Hx. apply in_app_or in Hx as [Hx|[<-|[]]]; auto.
    + apply Forall_app. auto.
  - unfold hdrs in *. rewrite map_app. cbn. apply NoDup_snoc; auto.
  - unfold hdrs in *. rewrite map_app, sum_len_app. cbn. lia.
Qed.

Definition grows (c c' : encoder) : Prop := exists l, hdrs (c_tbl c') = hdrs (c_tbl c) ++ l.

Lemma grows_refl c : grows c c.
Proof. exists []. now rewrite app_nil_r. Qed.

Lemma grows_trans a b c : grows a b -> grows b c -> grows a c.
Proof. intros [l E] [l' E']. exists (l ++ l'). now rewrite E', E, app_assoc. Qed.

Lemma grows_in a b h : grows a b -> In h (hdrs (c_tbl a)) -> In h (hdrs (c_tbl b)).
Proof. intros [l ->] H. apply in_or_app; auto. Qed.

Lemma fit_same c t : hdrs t = hdrs (c_tbl c) -> Fit c -> Fit (mkEnc t (c_size c)).
Proof. intros E [A B C]. split; cbn [c_tbl c_size]; rewrite E; auto. Qed.

Lemma encode_header_fit h c c' b : Fit c -> In h pool -> encode_header max h c = Ok (c', b) ->
  Fit c' /\ grows c c' /\ (is_path h = false -> In h (hdrs (c_tbl c'))).
Proof.
  intros HF Hh. unfold encode_header, determine_representation.
  destruct (find_header h (c_tbl c)) as [i|] eqn:Ef.
  - pose proof Ef as Ef'. apply find_header_some in Ef' as (e & En & Eh). rewrite En.
    destruct (if e_ref e then _ else _) as [b1|]; [|discriminate]. cbn [bind].
    destruct (write_integer 128 7 (N.of_nat i)) as [b2|]; [|discriminate]. cbn [bind].
    intros H; injection H as <- <-.
    assert (E : hdrs (update_nth i (set_both true true) (c_tbl c)) = hdrs (c_tbl c)) by now apply hdrs_update_nth.
    split; [now apply fit_same|]. split.
    + exists []. cbn [c_tbl]. now rewrite E, app_nil_r.
    + intros _. cbn [c_tbl]. rewrite E, <- Eh. unfold hdrs. apply in_map. now apply nth_error_In in En.
  - fold (is_path h). destruct (is_path h) eqn:Ep.
    + destruct (write_literal 96 h (c_tbl c)) as [w|]; [|discriminate]. cbn [bind]. intros H; injection H as <- <-.
      split; [auto|]. split; [apply grows_refl|discriminate].
    + destruct (write_literal 64 h (c_tbl c)) as [w|]; [|discriminate]. cbn [bind].
      apply find_header_none in Ef.
      destruct (append_fit c h HF Hh Ep Ef) as (c2 & -> & Et & HF2). intros H; injection H as <- <-.
      split; [auto|]. unfold grows, hdrs. rewrite Et, map_app. cbn. split; [eauto|].
      intros _. apply in_or_app. simpl. auto.
Qed.

Lemma encode_remaining_fit hs : incl hs pool -> forall c c' b, Fit c -> encode_remaining max hs c = Ok (c', b) ->
  Fit c' /\ grows c c' /\ (forall h, In h hs -> is_path h = false -> In h (hdrs (c_tbl c'))).
Proof.
  induction hs as [|h hs IH]; intros Hi c c' b HF; simpl.
  - intros H; injection H as <- <-. split; [auto|]. split; [apply grows_refl|]. intros ? [].
  - destruct (encode_header max h c) as [[c1 b1]|] eqn:E1; [|discriminate]. cbn [bind].
    destruct (encode_remaining max hs c1) as [[c2 b2]|] eqn:E2; [|discriminate]. cbn [bind].
    intros H; injection H as <- <-.
    destruct (encode_header_fit _ _ _ _ HF (Hi h (or_introl eq_refl)) E1) as (HF1 & G1 & P1).
    destruct (IH (fun x Hx => Hi x (or_intror Hx)) _ _ _ HF1 E2) as (HF2 & G2 & P2).
    split; [auto|]. split; [eapply grows_trans; eauto|].
    intros x [<-|Hx] Hp; [|auto]. eapply grows_in; eauto.
Qed.

Lemma reencode_pass_present kept : forall c enc, incl kept (hdrs (c_tbl c)) ->
  reencode_pass max kept c enc = Ok (c, [], enc).
Proof.
  induction kept as [|h kept IH]; intros c enc Hi; simpl; [reflexivity|].
  destruct (find_header h (c_tbl c)) as [i|] eqn:Ef.
  - apply IH. intros x Hx. apply Hi. now right.
  - apply find_header_none in Ef. exfalso. apply Ef, Hi. now left.
Qed.

Lemma reencode_loop_present fuel kept c : incl kept (hdrs (c_tbl c)) -> (0 < fuel)%nat ->
  reencode_loop fuel max kept true c = Ok (c, []).
Proof.
  intros Hi Hf. destruct fuel as [|f]; [lia|]. destruct kept as [|k kept]; [reflexivity|].
  cbn [reencode_loop]. rewrite reencode_pass_present by auto. cbn [bind]. destruct f; reflexivity.
Qed.

Lemma encode_removed_fit ix : forall c c' b, Fit c -> encode_removed ix c = Ok (c', b) -> Fit c' /\ grows c c'.
Proof.
  induction ix as [|i ix IH]; intros c c' b HF; simpl.
  - intros H; injection H as <- <-. split; [auto|apply grows_refl].
  - destruct (write_integer 128 7 (N.of_nat i)) as [w|]; [|discriminate]. cbn [bind].
    set (c1 := mkEnc _ _).
    assert (E : hdrs (c_tbl c1) = hdrs (c_tbl c)) by now apply hdrs_update_nth.
    destruct (encode_removed ix c1) as [[c2 b2]|] eqn:E2; [|discriminate]. cbn [bind].
    intros H; injection H as <- <-.
    destruct (IH c1 c2 b2) as [F G]; [now apply fit_same|exact E2|].
    split; [exact F|]. destruct G as [l G]. exists l. now rewrite G, E.
Qed.

(** What compute_diff leaves in the table and returns. *)
Lemma compute_diff_spec hs c : NoDup (hdrs (c_tbl c)) ->
  exists t1 kept rem,
    compute_diff hs (c_tbl c) = (removed_from 0 t1, kept, rem, map unmark t1) /\
    map view t1 = map view (c_tbl c) /\
    (forall e, In e t1 -> (e_emit e = true <-> e_ref e = true /\ In (e_hdr e) hs)) /\
    (forall x, In x kept <-> In x hs /\ reffed (c_tbl c) x) /\ NoDup kept /\
    Permutation (kept ++ rem) hs.
Proof.
  intros Hn. unfold compute_diff.
  pose proof (diff_loop_spec hs [] (map (set_emit false) (c_tbl c)) [] []) as HD.
  destruct (diff_loop hs (map (set_emit false) (c_tbl c)) [] []) as [[t1 kept] rem] eqn:Ed.
  destruct HD as (D1 & D2 & D3 & D4 & D5).
  { now rewrite (view_hdrs _ _ (set_emit_view false (c_tbl c))). }
  { intros e Hin. apply in_map_iff in Hin as (x & <- & _). cbn. split; [discriminate|tauto]. }
  { constructor. }
  { simpl. tauto. }
  { constructor. }
  simpl in D2, D4, D5. exists t1, kept, rem. split; [reflexivity|].
  split; [now rewrite D1, set_emit_view|]. split; [exact D2|]. split; [|auto].
  intros x. rewrite D4, (reffed_view_iff _ _ x (set_emit_view false (c_tbl c))). reflexivity.
Qed.

Lemma hdrs_upd_unmark t : hdrs (update_encoder_table (map unmark t)) = hdrs t.
Proof.
  unfold hdrs, update_encoder_table. rewrite !map_map. apply map_ext. intros e.
  unfold update_entry, unmark. now destruct (e_ref e).
Qed.

Lemma reffed_in t h : reffed t h -> In h (hdrs t).
Proof. intros (e & Hin & <- & _). unfold hdrs. now apply in_map. Qed.

(** A message made of headers of the pool. *)
Lemma encode_headers_fit fuel hs c c' frame : Fit c -> incl hs pool ->
  encode_headers fuel max hs c = Ok (c', frame) ->
  Fit c' /\ grows c c' /\ (forall h, In h hs -> is_path h = false -> In h (hdrs (c_tbl c'))).
Proof.
  intros HF Hi. unfold encode_headers.
  destruct (compute_diff_spec hs c (fit_nodup _ HF)) as (t1 & kept & rem & -> & Hv & Hm & Hk & Hnk & Hperm).
  set (c0 := mkEnc (update_encoder_table (map unmark t1)) (c_size c)).
  assert (E0 : hdrs (c_tbl c0) = hdrs (c_tbl c)).
  { cbn [c0 c_tbl]. rewrite hdrs_upd_unmark. now apply view_hdrs. }
  assert (HF0 : Fit c0) by now apply fit_same.
  destruct (encode_removed _ c0) as [[c1 b1]|] eqn:E1; [|discriminate]. cbn [bind].
  destruct (encode_remaining max rem c1) as [[c2 b2]|] eqn:E2; [|discriminate]. cbn [bind].
  destruct (encode_removed_fit _ _ _ _ HF0 E1) as [HF1 G1].
  assert (Hir : incl rem pool).
  { intros x Hx. apply Hi. apply (Permutation_in _ Hperm). apply in_or_app; auto. }
  destruct (encode_remaining_fit rem Hir _ _ _ HF1 E2) as (HF2 & G2 & P2).
  assert (G02 : grows c0 c2) by (eapply grows_trans; eauto).
  assert (Hkin : incl kept (hdrs (c_tbl c2))).
  { intros x Hx. apply (grows_in _ _ _ G02). rewrite E0. apply Hk in Hx as [_ Hx]. now apply reffed_in. }
  destruct (reencode_loop fuel max kept true c2) as [[c3 b3]|] eqn:E3; [|discriminate]. cbn [bind].
  assert (c3 = c2).
  { destruct fuel as [|f].
    - destruct kept; simpl in E3; congruence.
    - rewrite reencode_loop_present in E3 by (auto; lia). congruence. }
  subst c3. destruct (frame_header _) as [f|]; [|discriminate]. cbn [bind]. intros H; injection H as <- _.
  split; [auto|]. split.
  - destruct G02 as [l G]. exists l. now rewrite G, E0.
  - intros h Hh Hp. apply (Permutation_in _ (Permutation_sym Hperm)) in Hh. apply in_app_or in Hh as [Hh|Hh]; auto.
Qed.

(** The message after it: the same headers again. *)
Lemma removed_nil t i : (forall e, In e t -> e_ref e = true -> e_emit e = true) -> removed_from i t = [].
Proof.
  revert i. induction t as [|e t IH]; intros i H; simpl; [reflexivity|].
  destruct (e_ref e) eqn:Er; cbn [andb].
  - rewrite (H e (or_introl eq_refl) Er). cbn. apply IH. intros x Hx. apply H. now right.
  - apply IH. intros x Hx. apply H. now right.
Qed.

Lemma encode_again fuel hs c : (0 < fuel)%nat -> Fit c -> NoDup hs -> incl hs pool ->
  (forall e, In e (c_tbl c) -> (e_ref e = true <-> In (e_hdr e) hs)) ->
  (forall h, In h hs -> is_path h = false -> In h (hdrs (c_tbl c))) ->
  exists rem c0, hdrs (c_tbl c0) = hdrs (c_tbl c) /\
    Permutation rem (filter (fun h => is_path h && negb (existsb (header_eqb h) defs)) hs) /\
    encode_headers fuel max hs c =
      let* (c, b) := encode_remaining max rem c0 in
      let* f := frame_header (lenN b) in Ok (c, f ++ b).
Proof.
  intros Hf HF Hnd Hi Href Hin. unfold encode_headers.
  destruct (compute_diff_spec hs c (fit_nodup _ HF)) as (t1 & kept & rem & -> & Hv & Hm & Hk & Hnk & Hperm).
  set (c0 := mkEnc (update_encoder_table (map unmark t1)) (c_size c)).
  assert (E0 : hdrs (c_tbl c0) = hdrs (c_tbl c)).
  { cbn [c0 c_tbl]. rewrite hdrs_upd_unmark. now apply view_hdrs. }
  assert (HF0 : Fit c0) by now apply fit_same.
  assert (Er : removed_from 0 t1 = []).
  { apply removed_nil. intros e He Hr. apply Hm; auto. split; auto.
    assert (Hin2 : In (e_hdr e, true) (map view (c_tbl c))).
    { rewrite <- Hv. apply in_map_iff. exists e. unfold view. now rewrite Hr. }
    apply in_map_iff in Hin2 as (e' & Ev & He'). unfold view in Ev. injection Ev as Ev1 Ev2.
    rewrite <- Ev1. apply Href; auto. }
  assert (Hkr : NoDup (kept ++ rem)) by (apply (Permutation_NoDup (Permutation_sym Hperm)); auto).
  assert (Hdisj : forall x, In x kept -> ~ In x rem).
  { intros x Hx Hx'. clear -Hkr Hx Hx'. induction kept as [|k kept IH]; [destruct Hx|].
    simpl in Hkr. inversion Hkr; subst. destruct Hx as [->|Hx]; auto. apply H1. apply in_or_app; auto. }
  assert (Hrem : forall x, In x rem <-> In x hs /\ ~ In x (hdrs (c_tbl c))).
  { intros x. split.
    - intros Hx. assert (Hxs : In x hs) by (apply (Permutation_in _ Hperm), in_or_app; auto). split; [auto|].
      intros Hx2. apply (Hdisj x); auto. apply Hk. split; [auto|].
      unfold hdrs in Hx2. apply in_map_iff in Hx2 as (e & <- & He). exists e. split; [auto|]. split; [auto|].
      now apply Href.
    - intros [Hx Hx2]. apply (Permutation_in _ (Permutation_sym Hperm)) in Hx. apply in_app_or in Hx as [Hx|Hx]; auto.
      exfalso. apply Hx2. apply Hk in Hx as [_ Hx]. now apply reffed_in. }
  exists rem, c0. split; [exact E0|]. split.
  { apply NoDup_Permutation; [now apply NoDup_app_r in Hkr|now apply NoDup_filter|].
    intros x. rewrite Hrem, filter_In, andb_true_iff, negb_true_iff.
    destruct HF as [(added & Et & _ & Hp) _ _]. split; intros [Hx Hy]; split; auto.
    - split; [destruct (is_path x) eqn:Ep; auto; exfalso; apply Hy, Hin; auto|].
      destruct (existsb (header_eqb x) defs) eqn:Ex; [|reflexivity]. exfalso. apply Hy. rewrite Et.
      apply existsb_exists in Ex as (y & Hin' & Ey). destruct (header_eqb_spec x y); [subst|discriminate].
      apply in_or_app; auto.
    - destruct Hy as [Hy1 Hy2]. rewrite Et. intros Hc. apply in_app_or in Hc as [Hc|Hc].
      + assert (existsb (header_eqb x) defs = true); [|congruence].
        apply existsb_exists. exists x. split; [auto|]. destruct (header_eqb_spec x x); congruence.
      + rewrite Forall_forall in Hp. apply Hp in Hc. congruence. }
  rewrite Er. cbn [encode_removed bind].
  destruct (encode_remaining max rem c0) as [[c2 b2]|] eqn:E2; [|reflexivity]. cbn [bind].
  assert (Hir : incl rem pool) by (intros x Hx; apply Hi; now apply Hrem).
  destruct (encode_remaining_fit rem Hir _ _ _ HF0 E2) as (HF2 & G2 & P2).
  rewrite reencode_loop_present; [|intros x Hx|auto].
  - cbn [bind app]. now rewrite app_nil_r.
  - apply (grows_in _ _ _ G2). rewrite E0. apply Hk in Hx as [_ Hx]. now apply reffed_in.
Qed.

(** Headers that stay literal leave the encoder alone. *)
Lemma encode_paths hs : forall c,
  (forall h, In h hs -> is_path h = true /\ ~ In h (hdrs (c_tbl c))) ->
  exists bs, Forall2 (fun h b => write_literal 96 h (c_tbl c) = Ok b) hs bs /\
    encode_remaining max hs c = Ok (c, concat bs).
Proof.
  induction hs as [|h hs IH]; intros c H; simpl.
  - exists []. split; [constructor|reflexivity].
  - destruct (H h (or_introl eq_refl)) as [Hp Hn].
    destruct (IH c (fun x Hx => H x (or_intror Hx))) as (bs & Hbs & E).
    destruct (encode_header_total max h c) as (c1 & b1 & E1). rewrite E1.
    unfold encode_header, determine_representation in E1. apply find_header_none in Hn. rewrite Hn in E1.
    fold (is_path h) in E1. rewrite Hp in E1.
    destruct (write_literal 96 h (c_tbl c)) as [w|] eqn:Ew; [|discriminate]. cbn [bind] in E1. injection E1 as <- <-.
    cbn [bind]. rewrite E. cbn [bind]. exists (w :: bs). split; [constructor; auto|reflexivity].
Qed.

End Fits.

(** ** Lengths *)

(** Octets of an integer in base 128. *)
Definition len_octets (n : N) : nat := N.to_nat (1 + N.log2 n / 7).

Lemma write_digits_len fuel : forall v ds, 0 < v -> write_digits fuel v = Ok ds -> length ds = len_octets v.
Proof.
  induction fuel as [|f IH]; intros v ds Hv E.
  - cbn [write_digits] in E. destruct (N.eqb_spec v 0); [lia|discriminate].
  - cbn [write_digits] in E. destruct (N.eqb_spec v 0); [lia|].
    destruct (pack_B _) as [b|] eqn:Eb; [|discriminate]. cbn [bind] in E.
    destruct (write_digits f (N.shiftr v 7)) as [r|] eqn:Er; [|discriminate]. cbn [bind] in E. injection E as <-.
    assert (Hb : length b = 1%nat).
    { unfold pack_B in Eb. destruct (_ <? 256); [|discriminate]. now injection Eb as <-. }
    rewrite app_length, Hb. unfold len_octets.
    destruct (N.eq_dec (N.shiftr v 7) 0) as [E0|E0].
    + rewrite E0 in Er. assert (r = []) as -> by (destruct f; cbn in Er; congruence).
      assert (Hl : N.log2 v < 7).
      { rewrite N.shiftr_div_pow2 in E0. apply N.div_small_iff in E0; [|lia]. apply N.log2_lt_pow2; auto. }
      rewrite N.div_small by auto. reflexivity.
    + assert (Hq : 0 < N.shiftr v 7) by (now apply N.neq_0_lt_0).
      rewrite (IH _ _ Hq Er). unfold len_octets. rewrite N.log2_shiftr.
      assert (Hl : 7 <= N.log2 v).
      { apply N.log2_le_pow2; auto. destruct (N.lt_ge_cases v (2 ^ 7)) as [H|H]; auto. exfalso. apply E0.
        rewrite N.shiftr_div_pow2. apply N.div_small. auto. }
      replace (N.log2 v) with ((N.log2 v - 7) + 1 * 7) at 2 by lia. rewrite N.div_add by lia. lia.
Qed.

Lemma write_literal_string_len v : exists b, write_literal_string v = Ok b /\
  length b = (len_octets (lenN v) + length v)%nat.
Proof.
  destruct (write_literal_string v) as [b|e] eqn:E.
  - exists b. split; [reflexivity|]. unfold write_literal_string in E.
    destruct (write_integer 0 0 (lenN v)) as [w|] eqn:Ew; [|discriminate]. cbn [bind] in E. injection E as <-.
    rewrite app_length. f_equal. unfold write_integer in Ew. cbn [MAX_VALUES bind] in Ew.
    destruct (N.ltb_spec (lenN v) 0); [lia|]. rewrite N.ltb_irrefl in Ew. cbn [bind] in Ew.
    rewrite N.sub_0_r in Ew. destruct (N.eqb_spec (lenN v) 0) as [E0|E0].
    + cbn in Ew. injection Ew as <-. now rewrite E0.
    + destruct (write_digits _ _) as [ds|] eqn:Ed; [|discriminate]. cbn in Ew. injection Ew as <-.
      apply write_digits_len in Ed; [auto|lia].
  - exfalso. destruct (encode_header_total 0 ([], v) (mkEnc [] 0)) as (c' & b & Eh).
    unfold encode_header, determine_representation, write_literal in Eh. cbn [find_header find_header_name c_tbl] in Eh.
    cbn [fst snd] in Eh. rewrite E in Eh. cbn in Eh. discriminate.
Qed.

(** A literal [:path] header over a table that starts with the defaults. *)
Definition path_name_octets (r : bool) : nat := if r then 1%nat else 7%nat.

Lemma find_name_path r added t v : hdrs t = default_headers r ++ added ->
  Forall (fun h => is_path h = false) added ->
  find_header_name (lit ":path", v) t = if r then Some 3%nat else None.
Proof.
  intros E Hp.
  rewrite (find_header_name_hdrs _ t (map (fun h => new_entry h false false) (default_headers r ++ added))).
  2:{ rewrite E. unfold hdrs. rewrite map_map. cbn. now rewrite map_id. }
  rewrite map_app. destruct r; [reflexivity|].
  assert (Hn : find_header_name (lit ":path", v) (map (fun h => new_entry h false false) added) = None).
  { clear -Hp. induction Hp as [|h l Hh _ IH]; [reflexivity|]. cbn [map find_header_name e_hdr new_entry fst].
    unfold is_path in Hh. destruct (str_eqb_spec (lit ":path") (fst h)) as [Ee|Ee].
    - exfalso. rewrite <- Ee in Hh. discriminate.
    - now rewrite IH. }
  cbn [default_headers]. revert Hn. generalize (map (fun h => new_entry h false false) added). intros l Hn.
  unfold DEFAULT_RESPONSE_HEADERS. cbn [map app].
  repeat (cbn [find_header_name e_hdr new_entry fst];
    match goal with |- context [str_eqb ?a ?b] =>
      let x := eval vm_compute in (str_eqb a b) in change (str_eqb a b) with x; cbn iota end).
  now rewrite Hn.
Qed.

Lemma write_path_len r added t h b : hdrs t = default_headers r ++ added ->
  Forall (fun h => is_path h = false) added -> is_path h = true ->
  write_literal 96 h t = Ok b ->
  length b = (path_name_octets r + len_octets (lenN (snd h)) + length (snd h))%nat.
Proof.
  intros E Hp Hh. destruct h as [n v]. unfold is_path in Hh. cbn [fst] in Hh.
  destruct (str_eqb_spec n (lit ":path")) as [->|]; [|discriminate].
  unfold write_literal. rewrite (find_name_path r added t v E Hp). cbn [snd].
  destruct (write_literal_string_len v) as (bv & Ev & Lv). rewrite Ev.
  destruct r; cbn [name_code].
  - change (write_integer 96 5 (N.of_nat 3 + 1)) with (Ok [100]). cbn [bind app]. intros H; injection H as <-.
    cbn [length path_name_octets]. lia.
  - change (write_integer 96 5 0) with (Ok [96]). cbn [bind fst].
    change (write_literal_string (lit ":path")) with (Ok (5 :: lit ":path")). cbn [bind]. intros H.
    assert (Eb : b = [96] ++ (5 :: lit ":path") ++ bv) by congruence. rewrite Eb.
    rewrite app_length, app_length, Lv. cbn [length path_name_octets].
    change (length (lit ":path")) with 5%nat. lia.
Qed.

(** ** Sessions *)
Lemma encode_all_snoc fuel max msgs m : forall c c2 frames,
  encode_all fuel max c (msgs ++ [m]) = Ok (c2, frames) ->
  exists c1 fs f, encode_all fuel max c msgs = Ok (c1, fs) /\ encode_headers fuel max m c1 = Ok (c2, f) /\
    frames = fs ++ [f].
Proof.
  induction msgs as [|x msgs IH]; intros c c2 frames E; cbn [encode_all app] in E.
  - destruct (encode_headers fuel max m c) as [[c1 f]|] eqn:E1; [|discriminate]. cbn [bind] in E.
    injection E as <- <-. exists c, [], f. cbn. auto.
  - destruct (encode_headers fuel max x c) as [[c1 f]|] eqn:E1; [|discriminate]. cbn [bind] in E.
    destruct (encode_all fuel max c1 (msgs ++ [m])) as [[c3 fs]|] eqn:E2; [|discriminate]. cbn [bind] in E.
    injection E as <- <-. destruct (IH _ _ _ E2) as (ca & fa & fb & A & B & ->).
    exists ca, (f :: fa), fb. cbn [encode_all]. rewrite E1. cbn [bind]. rewrite A. cbn. auto.
Qed.

Lemma encode_all_fit defs pool max fuel msgs : (sum_len defs + sum_len pool <= max)%Z ->
  forall c c' frames, Fit defs pool c -> Forall (fun m => incl m pool) msgs ->
  encode_all fuel max c msgs = Ok (c', frames) -> Fit defs pool c'.
Proof.
  intros Hfit. induction msgs as [|m msgs IH]; intros c c' frames HF Hi E; cbn [encode_all] in E.
  - now injection E as <- <-.
  - destruct (encode_headers fuel max m c) as [[c1 f]|] eqn:E1; [|discriminate]. cbn [bind] in E.
    destruct (encode_all fuel max c1 msgs) as [[c2 fs]|] eqn:E2; [|discriminate]. cbn [bind] in E.
    injection E as <- <-. inversion Hi; subst.
    apply (IH c1 c2 fs); auto. eapply encode_headers_fit; eauto.
Qed.

Lemma init_fit r pool : Fit (default_headers r) pool (init_encoder r).
Proof.
  assert (E : hdrs (c_tbl (init_encoder r)) = default_headers r).
  { cbn [init_encoder c_tbl]. unfold hdrs. rewrite map_map. cbn. apply map_id. }
  split.
  - exists []. rewrite E, app_nil_r. split; [auto|]. split; [intros ? []|constructor].
  - pose proof (init_good r) as [Hn _]. rewrite <- (view_hdrs _ _ (proj1 (init_rel r))) in Hn. exact Hn.
  - rewrite E. reflexivity.
Qed.

Definition path_cost (r : bool) (h : header) : nat :=
  (path_name_octets r + len_octets (lenN (snd h)) + length (snd h))%nat.

Definition literal_path (r : bool) (h : header) : bool :=
  is_path h && negb (existsb (header_eqb h) (default_headers r)).

Definition paths_cost (r : bool) (hs : list header) : nat :=
  list_sum (map (path_cost r) (filter (literal_path r) hs)).

Lemma list_sum_perm l l' : Permutation l l' -> list_sum l = list_sum l'.
Proof. unfold list_sum. induction 1; simpl; lia. Qed.

Lemma filter_perm {A} (p : A -> bool) l l' : Permutation l l' -> Permutation (filter p l) (filter p l').
Proof.
  induction 1; simpl; auto.
  - destruct (p x); auto.
  - destruct (p x), (p y); auto. constructor.
  - eapply Permutation_trans; eauto.
Qed.

Theorem repeat_cost r max fuel pool msgs m m' c frames :
  (0 < fuel)%nat ->
  (sum_len (default_headers r) + sum_len pool <= max)%Z ->
  Forall (fun m => incl m pool) (msgs ++ [m]) ->
  NoDup m -> Permutation m m' ->
  encode_all fuel max (init_encoder r) (msgs ++ [m]) = Ok (c, frames) ->
  if (N.of_nat (paths_cost r m) <? 65536)%N
  then exists c' frame, encode_headers fuel max m' c = Ok (c', frame) /\
       length frame = (8 + paths_cost r m)%nat
  else encode_headers fuel max m' c = Err StructError.
Proof.
  intros Hf Hfit Hin Hn Hperm E.
  destruct (encode_all_snoc _ _ _ _ _ _ _ E) as (c1 & fs & f & E1 & E2 & _).
  apply Forall_app in Hin as [Hin1 Hin2]. inversion Hin2 as [|? ? Hm _]; subst.
  assert (HF1 : Fit (default_headers r) pool c1).
  { eapply (encode_all_fit _ _ max fuel msgs); eauto. apply init_fit. }
  destruct (session_sim _ _ _ _ _ _ _ (init_rel r) (init_good r) E1) as (d1 & o & _ & HR1 & HG1 & _).
  destruct (message_sim _ _ _ _ _ _ _ HR1 HG1 E2) as (d2 & out & _ & [HRv _] & _ & _ & _ & Href).
  destruct (encode_headers_fit _ _ _ Hfit _ _ _ _ _ HF1 Hm E2) as (HF & _ & Hp).
  assert (Href' : forall e, In e (c_tbl c) -> (e_ref e = true <-> In (e_hdr e) m')).
  { intros e He. assert (Hv : In (view e) (map view (d_tbl d2))) by (rewrite <- HRv; now apply in_map).
    apply in_map_iff in Hv as (e2 & Ev & He2). unfold view in Ev. injection Ev as Ea Eb.
    rewrite <- Ea, <- Eb, (Href e2 He2). split; intros Hx; [eapply Permutation_in; eauto|].
    eapply Permutation_in; [apply Permutation_sym|]; eauto. }
  assert (Hn' : NoDup m') by (eapply Permutation_NoDup; eauto).
  assert (Hm' : incl m' pool).
  { intros x Hx. apply Hm. eapply Permutation_in; [apply Permutation_sym|]; eauto. }
  assert (Hp' : forall h, In h m' -> is_path h = false -> In h (hdrs (c_tbl c))).
  { intros h Hh. apply Hp. eapply Permutation_in; [apply Permutation_sym|]; eauto. }
  destruct (encode_again _ _ _ Hfit fuel m' c Hf HF Hn' Hm' Href' Hp') as (rem & c0 & E0 & Hrem & ->).
  destruct (fit_tbl _ _ _ HF) as (added & Et & _ & Hnp).
  destruct (encode_paths max rem c0) as (bs & Hbs & ->).
  { intros h Hh. apply (Permutation_in _ Hrem) in Hh. apply filter_In in Hh as [Hh Hb].
    apply andb_prop in Hb as [Hb1 Hb2]. split; [auto|]. rewrite E0, Et. intros Hc.
    apply in_app_or in Hc as [Hc|Hc].
    - apply negb_true_iff in Hb2. assert (existsb (header_eqb h) (default_headers r) = true); [|congruence].
      apply existsb_exists. exists h. split; [auto|]. destruct (header_eqb_spec h h); congruence.
    - rewrite Forall_forall in Hnp. apply Hnp in Hc. congruence. }
  assert (Hlen : length (concat bs) = paths_cost r m).
  { unfold paths_cost. rewrite (list_sum_perm _ (map (path_cost r) rem)).
    2:{ apply Permutation_map. eapply Permutation_trans; [apply (filter_perm _ _ _ Hperm)|].
        apply Permutation_sym. exact Hrem. }
    assert (Hall : forall h, In h rem -> is_path h = true).
    { intros h Hh. apply (Permutation_in _ Hrem), filter_In in Hh as [_ Hb]. now apply andb_prop in Hb as [Hb _]. }
    clear -Hbs E0 Et Hnp Hall. induction Hbs as [|h b hs bs Hw _ IH]; [reflexivity|].
    cbn [concat map]. rewrite app_length.
    rewrite (write_path_len r added (c_tbl c0) h b); auto.
    - cbn [list_sum fold_right]. rewrite IH; [reflexivity|]. intros x Hx. apply Hall. now right.
    - now rewrite E0.
    - apply Hall. now left. }
  cbn [bind]. unfold frame_header, lenN, pack_H. rewrite Hlen.
  destruct (N.of_nat (paths_cost r m) <? 65536)%N; cbn [bind]; [|reflexivity].
  eexists _, _. split; [reflexivity|]. rewrite app_length, Hlen. reflexivity.
Qed.
