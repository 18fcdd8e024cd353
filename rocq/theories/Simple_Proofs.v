(** * The simple codec: proofs. *)
From Coq Require Import String List NArith ZArith Bool Lia Permutation Arith.
From Verif Require Import PyBase PyStr NBits Bits PyMerge Lib_Model Lib_Spec Lib_Proofs H1_Model H1_Spec H1_Proofs Prop_H1.
From Verif Require Import Simple_Model Simple_Spec.
Import ListNotations.
Open Scope N_scope.
Open Scope py_scope.

(** ** Names on the wire *)

Lemma str_eqb_true a b : str_eqb a b = true -> a = b.
Proof. destruct (str_eqb_spec a b); [auto|discriminate]. Qed.

Definition ok_name (k : str) : Prop := simple_name k \/ colon_name k.

(** The name a header is sent under. *)
Definition ename (k : str) : str :=
  if hd 0 k =? 58 then k else match dget s_lookups k with Some x => x | None => 33 :: k end.
(** The name it has inside the receiver. *)
Definition vn (k : str) : str := if str_eqb k (lit ":host") then lit "h" else k.
(** The name the receiver gives to a name on the wire. *)
Definition dn (n : str) : str :=
  if str_eqb n (lit ":host") then lit "h" else
  match n with
  | [] => []
  | c :: rest => if c =? 58 then n else if c =? 33 then rest
                 else match dget s_rev_lookups n with Some e => e | None => n end
  end.

Definition wire_ok (k x : str) : bool :=
  match dget s_rev_lookups x with Some y => str_eqb y k | None => false end
  && negb (hd 0 x =? 58) && negb (hd 0 x =? 33) && negb (str_eqb x []) && negb (str_eqb x (lit "ref"))
  && (str_eqb k (lit ":host") || negb (str_eqb x (lit "h")))
  && forallb (fun c => (97 <=? c) && (c <=? 122) || (c =? 51)) x.

Lemma lookups_ok : forallb (fun kv : str * str => wire_ok (fst kv) (snd kv)) s_lookups = true.
Proof. vm_compute. reflexivity. Qed.

Lemma lookup_ok k x : dget s_lookups k = Some x -> wire_ok k x = true.
Proof.
  intros H. apply dget_in in H. pose proof lookups_ok as L. rewrite forallb_forall in L. exact (L _ H).
Qed.

Lemma lookup_facts k x : dget s_lookups k = Some x ->
  dget s_rev_lookups x = Some k /\ hd 0 x <> 58 /\ hd 0 x <> 33 /\ x <> [] /\ x <> lit "ref" /\
  (k <> lit ":host" -> x <> lit "h") /\ (forall c, In c x -> 97 <= c <= 122 \/ c = 51).
Proof.
  intros H. apply lookup_ok in H. unfold wire_ok in H. rewrite !andb_true_iff in H.
  destruct H as ((((((H1 & H2) & H3) & H4) & H5) & H6) & H7).
  split. { destruct (dget s_rev_lookups x) as [y|]; [|discriminate]. destruct (str_eqb_spec y k); [congruence|discriminate]. }
  split. { intros E. rewrite E in H2. discriminate. }
  split. { intros E. rewrite E in H3. discriminate. }
  split. { intros E. rewrite E in H4. discriminate. }
  split. { intros E. rewrite E, str_eqb_refl in H5. discriminate. }
  split. { intros Hk E. rewrite E, str_eqb_refl in H6. destruct (str_eqb_spec k (lit ":host")); [contradiction|discriminate]. }
  intros c Hc. rewrite forallb_forall in H7. specialize (H7 c Hc). apply orb_true_iff in H7 as [H7|H7].
  - apply andb_true_iff in H7 as [A B]. apply N.leb_le in A, B. lia.
  - apply N.eqb_eq in H7. lia.
Qed.

Lemma simple_not_colon k : simple_name k -> (hd 0 k =? 58) = false.
Proof.
  intros (H1 & _ & H). destruct k as [|c k]; [congruence|]. cbn. apply N.eqb_neq. apply H. now left.
Qed.

Lemma ok_nonempty k : ok_name k -> k <> [].
Proof. intros [H|[_ H]]; apply H. Qed.

Lemma ok_not_h k : ok_name k -> k <> lit "h".
Proof. intros [H|[H _]]; [apply H|]. intros ->. discriminate. Qed.

Lemma hdr_name_ok k : k <> [] -> hdr_name k = Ok (ename k).
Proof. intros H. destruct k as [|c k]; [congruence|]. unfold hdr_name, ename. change (hd 0 (c :: k)) with c. now destruct (c =? 58). Qed.

Lemma vn_inj k k' : ok_name k -> ok_name k' -> vn k = vn k' -> k = k'.
Proof.
  intros H H'. pose proof (ok_not_h k H). pose proof (ok_not_h k' H'). unfold vn.
  destruct (str_eqb_spec k (lit ":host")) as [E|], (str_eqb_spec k' (lit ":host")) as [E'|]; congruence.
Qed.

Lemma dn_ename k : ok_name k -> dn (ename k) = vn k.
Proof.
  intros [H|[H Hn]].
  - unfold ename. rewrite (simple_not_colon k H).
    assert (Hk : str_eqb k (lit ":host") = false).
    { destruct (str_eqb_spec k (lit ":host")) as [E|]; [|reflexivity]. rewrite E in H. apply simple_not_colon in H. discriminate. }
    unfold vn. rewrite Hk. destruct (dget s_lookups k) as [x|] eqn:E.
    + destruct (lookup_facts k x E) as (R1 & R2 & R3 & R4 & _). unfold dn.
      destruct (str_eqb_spec x (lit ":host")) as [Ex|_]; [rewrite Ex in R2; exfalso; now apply R2|].
      destruct x as [|c x]; [congruence|]. cbn [hd] in R2, R3.
      destruct (N.eqb_spec c 58); [congruence|]. destruct (N.eqb_spec c 33); [congruence|]. now rewrite R1.
    + reflexivity.
  - unfold ename. rewrite H. cbn [N.eqb Pos.eqb]. unfold dn, vn. destruct (str_eqb_spec k (lit ":host")) as [_|Hk]; [reflexivity|].
    destruct k as [|c k]; [discriminate|]. cbn [hd] in H. rewrite H. reflexivity.
Qed.

Lemma ename_inj k k' : ok_name k -> ok_name k' -> ename k = ename k' -> k = k'.
Proof. intros H H' E. apply vn_inj; auto. rewrite <- !dn_ename, E; auto. Qed.

Lemma ename_not_ref k : ok_name k -> ename k <> lit "ref".
Proof.
  intros [H|[H Hn]].
  - unfold ename. rewrite (simple_not_colon k H). destruct (dget s_lookups k) as [x|] eqn:E.
    + now apply (lookup_facts k x E).
    + discriminate.
  - unfold ename. rewrite H. cbn. intros ->. discriminate.
Qed.

Lemma ename_not_h k : ok_name k -> ename k <> lit "h".
Proof.
  intros [H|[H Hn]].
  - unfold ename. rewrite (simple_not_colon k H). destruct (dget s_lookups k) as [x|] eqn:E.
    + apply (lookup_facts k x E). intros ->. apply simple_not_colon in H. discriminate.
    + discriminate.
  - unfold ename. rewrite H. cbn. intros ->. discriminate.
Qed.

Lemma white_c c : 97 <= c <= 122 \/ c = 51 -> ~ white c.
Proof. unfold white. lia. Qed.

Lemma ename_header k : ok_name k -> header_name (ename k).
Proof.
  intros [H|[H Hn]].
  - pose proof H as (Hne & _ & Hc). unfold ename. rewrite (simple_not_colon k H).
    destruct (dget s_lookups k) as [x|] eqn:E.
    + destruct (lookup_facts k x E) as (_ & R2 & _ & R4 & _ & _ & R7). split; [exact R4|]. split; [|split].
      * intros c Hin. destruct (R7 c Hin); lia.
      * intros Hin. apply R7 in Hin. lia.
      * destruct x as [|y x]; [congruence|]. cbn [tl]. intros Hin. assert (Hx : In 58 (y :: x)) by now right. apply R7 in Hx. lia.
    + split; [discriminate|]. split; [|split].
      * intros c [<-|Hin]; [lia|]. now apply Hc.
      * intros [A|Hin]; [discriminate|]. apply Hc in Hin as [W _]. apply W. right. lia.
      * cbn [tl]. intros Hin. apply Hc in Hin. tauto.
  - unfold ename. rewrite H. exact Hn.
Qed.

(** ** Splitting a message into what is sent and what is referred to *)

Fixpoint s_split (o : s_opts) (last : option hdict) (items : hdict) (n : nat) : hdict * hdict :=
  match items with
  | [] => ([], [])
  | (k, v) :: items' =>
      if (negb (hd 0 k =? 58) || str_eqb k (lit ":host")) && s_same o last (repeat [] n) k v then
        let '(S0, F) := s_split o last items' (S n) in (S0, (k, v) :: F)
      else if mem_str k s_ignore_hdrs then s_split o last items' n
      else let '(S0, F) := s_split o last items' n in ((k, v) :: S0, F)
  end.

Definition enc_item (o : s_opts) (kv : str * str) : str * str := (ename (fst kv), s_date_in o (fst kv) (snd kv)).
Definition ref_name (kv : str * str) : str := if str_eqb (fst kv) (lit ":host") then lit "h" else fst kv.

Lemma same_len o last R R' k v : length R = length R' -> s_same o last R k v = s_same o last R' k v.
Proof. intros H. unfold s_same. now rewrite H. Qed.

Lemma dget_app_none {V} (a b : dict V) k : dget a k = None -> dget (a ++ b) k = dget b k.
Proof.
  induction a as [|[k' v'] a IH]; [auto|]. cbn [app]. intros H. cbn [dget] in *. destruct (str_eqb k k'); [discriminate|auto].
Qed.

Lemma loop_split o last items : forall H R, Forall ok_name (keys items) ->
  NoDup (keys H ++ map ename (keys items)) ->
  s_loop o last items (H, R) =
    Ok (H ++ map (enc_item o) (fst (s_split o last items (length R))), R ++ map ref_name (snd (s_split o last items (length R)))).
Proof.
  induction items as [|[k v] items IH]; intros H R HF HN.
  - cbn. now rewrite !app_nil_r.
  - cbn [keys map fst] in HF, HN. inversion HF as [|? ? Hk HF']; subst. cbn [s_loop s_split].
    fold (keys items) in HF', HN. pose proof (ok_nonempty k Hk) as Hne.
    assert (HN' : NoDup (keys H ++ map ename (keys items))) by (apply NoDup_remove_1 in HN; exact HN).
    rewrite <- (same_len o last R (repeat [] (length R)) k v) by (symmetry; apply repeat_length).
    unfold s_step. destruct k as [|c k0] eqn:Ek; [congruence|]. rewrite <- Ek in *.
    change (hd 0 (c :: k0)) with c. replace (hd 0 k) with c by now rewrite Ek.
    destruct (negb (c =? 58) && s_same o last R k v) eqn:E1.
    + apply andb_true_iff in E1 as [E1 E2]. rewrite E1, E2. cbn [orb andb bind].
      etransitivity; [exact (IH H (R ++ [k]) HF' HN')|]. rewrite app_length. cbn [length]. rewrite Nat.add_1_r.
      destruct (s_split o last items (S (length R))) as [S0 F]. cbn [fst snd map]. rewrite <- app_assoc.
      do 3 f_equal. cbn [app]. f_equal. unfold ref_name. cbn [fst].
      destruct (str_eqb_spec k (lit ":host")) as [Eh|]; [|reflexivity]. rewrite Ek in Eh. injection Eh as -> _. discriminate.
    + destruct (str_eqb k (lit ":host") && s_same o last R k v) eqn:E2.
      * apply andb_true_iff in E2 as [E2 E3]. rewrite E2, E3, orb_true_r. cbn [andb bind].
        etransitivity; [exact (IH H (R ++ [lit "h"]) HF' HN')|]. rewrite app_length. cbn [length]. rewrite Nat.add_1_r.
        destruct (s_split o last items (S (length R))) as [S0 F]. cbn [fst snd map]. rewrite <- app_assoc.
        do 3 f_equal. unfold ref_name at 2. cbn [fst]. rewrite E2. reflexivity.
      * assert (E3 : (negb (c =? 58) || str_eqb k (lit ":host")) && s_same o last R k v = false).
        { destruct (negb (c =? 58)), (str_eqb k (lit ":host")), (s_same o last R k v); cbn in *; congruence. }
        rewrite E3. destruct (mem_str k s_ignore_hdrs); cbn [bind].
        -- exact (IH H R HF' HN').
        -- rewrite hdr_name_ok by exact Hne. cbn [bind].
           rewrite dset_new.
           2:{ apply dget_none. intros Hin. apply NoDup_remove_2 in HN. apply HN. apply in_or_app. now left. }
           etransitivity; [apply IH; [exact HF'|]|].
           2:{ destruct (s_split o last items (length R)) as [S0 F]. cbn [fst snd map]. now rewrite <- app_assoc. }
           ++ unfold keys at 1. rewrite map_app. cbn [map fst]. fold (keys H).
              rewrite <- app_assoc. exact HN.
Qed.

Lemma split_facts o last items : forall n S0 F, s_split o last items n = (S0, F) ->
  (forall kv, In kv items -> In kv S0 \/ In kv F \/ In (fst kv) s_ignore_hdrs) /\
  (forall kv, In kv S0 -> In kv items /\ ~ In (fst kv) s_ignore_hdrs) /\
  (forall kv, In kv F -> In kv items /\ (hd 0 (fst kv) <> 58 \/ fst kv = lit ":host") /\
     exists d, last = Some d /\ d <> [] /\ dget d (fst kv) = Some (snd kv)) /\
  (NoDup (keys items) -> NoDup (keys S0)) /\
  (forall kv, In kv S0 -> In kv F -> NoDup (keys items) -> False).
Proof.
  induction items as [|[k v] items IH]; intros n S0 F E.
  - cbn in E. injection E as <- <-. split; [intros ? []|]. repeat split; try (intros; contradiction). intros _. constructor.
  - cbn [s_split] in E.
    destruct ((negb (hd 0 k =? 58) || str_eqb k (lit ":host")) && s_same o last (repeat [] n) k v) eqn:E1.
    + destruct (s_split o last items (S n)) as [S1 F1] eqn:E2. injection E as <- <-.
      destruct (IH _ _ _ E2) as (A & B & C & D & G). split; [|split; [|split; [|split]]].
      * intros kv [<-|Hin]; [right; left; now left|]. destruct (A kv Hin) as [?|[?|?]]; auto. right; left; now right.
      * intros kv Hin. destruct (B kv Hin). split; [now right|auto].
      * intros kv [<-|Hin].
        -- split; [now left|]. apply andb_true_iff in E1 as [E1 E3]. split.
           ++ apply orb_true_iff in E1 as [E1|E1].
              ** left. intros Hc. cbn [fst] in Hc. rewrite Hc in E1. discriminate.
              ** right. cbn [fst]. now apply str_eqb_true.
           ++ unfold s_same in E3. destruct last as [[|x d]|]; try discriminate. exists (x :: d).
              split; [reflexivity|]. split; [discriminate|]. change (fst (k, v)) with k.
              destruct (dget (x :: d) k) as [v'|]; [|discriminate]. apply andb_true_iff in E3 as [E3 _].
              cbn [snd]. f_equal. now apply str_eqb_true.
        -- destruct (C kv Hin) as (C1 & C2 & C3). split; [now right|auto].
      * intros HN. inversion HN; subst. auto.
      * intros kv H1 [<-|H2] HN; inversion HN as [|? ? Hn HN']; subst.
        -- destruct (B _ H1) as [B1 _]. apply Hn. apply (in_map fst) in B1. exact B1.
        -- eauto.
    + destruct (mem_str_spec k s_ignore_hdrs) as [Hi|Hi].
      * destruct (IH _ _ _ E) as (A & B & C & D & G). split; [|split; [|split; [|split]]].
        -- intros kv [<-|Hin]; [right; right; exact Hi|auto].
        -- intros kv Hin. destruct (B kv Hin). split; [now right|auto].
        -- intros kv Hin. destruct (C kv Hin) as (C1 & C2 & C3). split; [now right|auto].
        -- intros HN. inversion HN; subst. auto.
        -- intros kv H1 H2 HN; inversion HN as [|? ? Hn HN']; subst. eauto.
      * destruct (s_split o last items n) as [S1 F1] eqn:E2. injection E as <- <-.
        destruct (IH _ _ _ E2) as (A & B & C & D & G). split; [|split; [|split; [|split]]].
        -- intros kv [<-|Hin]; [left; now left|]. destruct (A kv Hin) as [?|[?|?]]; auto. left; now right.
        -- intros kv [<-|Hin]; [split; [now left|exact Hi]|]. destruct (B kv Hin). split; [now right|auto].
        -- intros kv Hin. destruct (C kv Hin) as (C1 & C2 & C3). split; [now right|auto].
        -- intros HN. inversion HN as [|? ? Hn HN']; subst. cbn [keys map fst]. constructor; [|auto].
           intros Hin. apply Hn. apply in_map_iff in Hin as ([k' v'] & Ek & Hin). destruct (B _ Hin) as [B1 _].
           apply in_map_iff. exists (k', v'). auto.
        -- intros kv [<-|H1] H2 HN; inversion HN as [|? ? Hn HN']; subst.
           ++ destruct (C _ H2) as [B1 _]. apply Hn. apply (in_map fst) in B1. exact B1.
           ++ eauto.
Qed.

(** The names of the reference list. *)
Definition ref_wire (kv : str * str) : str := if str_eqb (fst kv) (lit ":host") then lit "!h" else ename (fst kv).

Lemma hdr_names_ok F : Forall (fun kv : str * str => ok_name (fst kv)) F -> hdr_names (map ref_name F) = Ok (map ref_wire F).
Proof.
  induction 1 as [|[k v] F Hk HF IH]; [reflexivity|]. cbn [map hdr_names fst] in *.
  assert (E : hdr_name (ref_name (k, v)) = Ok (ref_wire (k, v))).
  { unfold ref_name, ref_wire. cbn [fst]. destruct (str_eqb k (lit ":host")); [reflexivity|].
    apply hdr_name_ok. now apply ok_nonempty. }
  rewrite E, IH. reflexivity.
Qed.

(** ** The receiver *)

Definition dv (o : s_opts) (n v : str) : str :=
  if (hd 0 n =? 58) || (hd 0 n =? 33) then v
  else if o_dates o && mem_str (dn n) s_date_hdrs then match o_dout o v with Some x => x | None => v end
  else v.

Definition not_ref (kv : str * str) : bool := negb (str_eqb (fst kv) (lit "ref")).
Definition dec_item (o : s_opts) (kv : str * str) : str * str := (dn (fst kv), dv o (fst kv) (snd kv)).

(** [n] is a name that the receiver understands. *)
Definition known (n : str) : Prop := n = lit "ref" \/ exists k, ok_name k /\ n = ename k.

Lemma d_step_ok o out n v : known n -> d_step o out (n, v) =
  Ok (if not_ref (n, v) then dset out (dn n) (dv o n v) else out).
Proof.
  intros [->|(k & Hk & ->)]; [reflexivity|]. unfold d_step, not_ref. cbn [fst].
  destruct (str_eqb_spec (ename k) (lit "ref")) as [E|_]; [now apply ename_not_ref in E|]. cbn [negb].
  destruct (str_eqb_spec (ename k) (lit ":host")) as [E|E]; [rewrite E; reflexivity|].
  destruct Hk as [H|[H Hn]].
  - unfold dv, dn. unfold ename in *. rewrite (simple_not_colon k H) in *. destruct (dget s_lookups k) as [x|] eqn:El.
    + destruct (lookup_facts k x El) as (R1 & R2 & R3 & R4 & _).
      destruct (str_eqb_spec x (lit ":host")) as [|_]; [contradiction|].
      destruct x as [|c x]; [congruence|]. cbn [hd] in *.
      destruct (N.eqb_spec c 58); [contradiction|]. destruct (N.eqb_spec c 33); [contradiction|]. cbn [orb].
      rewrite R1. destruct (o_dates o && mem_str k s_date_hdrs); [|reflexivity]. destruct (o_dout o v); reflexivity.
    + cbn [hd]. change (33 =? 58) with false. change (33 =? 33) with true. cbn [orb].
      destruct (str_eqb_spec (33 :: k) (lit ":host")) as [|_]; [discriminate|]. reflexivity.
  - unfold dv, dn. unfold ename in *. rewrite H in *. cbn [N.eqb Pos.eqb] in *.
    destruct (str_eqb_spec k (lit ":host")) as [|_]; [contradiction|]. rewrite H.
    destruct k as [|c k]; [discriminate|]. cbn [hd] in H. rewrite H. reflexivity.
Qed.

Lemma d_loop_ok o items : forall out, (forall kv, In kv items -> known (fst kv)) ->
  NoDup (keys out ++ keys (map (dec_item o) (filter not_ref items))) ->
  d_loop o items out = Ok (out ++ map (dec_item o) (filter not_ref items)).
Proof.
  induction items as [|[n v] items IH]; intros out HK HN; [cbn; now rewrite app_nil_r|].
  cbn [d_loop filter]. rewrite d_step_ok by (apply (HK (n, v)); now left). cbn [bind filter] in *.
  destruct (not_ref (n, v)); [|apply IH; [intros kv Hin; apply HK; now right|exact HN]].
  cbn [map keys] in HN |- *. unfold dec_item in HN at 1. cbn [fst snd] in HN. rewrite dset_new.
  2:{ apply dget_none. intros Hin. apply NoDup_remove_2 in HN. apply HN. apply in_or_app. now left. }
  rewrite IH.
  - rewrite <- app_assoc. reflexivity.
  - intros kv Hin. apply HK. now right.
  - unfold keys at 1. rewrite map_app. cbn [map fst]. rewrite <- app_assoc. exact HN.
Qed.

Definition in_refs (F : hdict) (x : str) : bool := existsb (fun kv : str * str => str_eqb (vn (fst kv)) x) F.

Lemma ref_wire_dec kv : ok_name (fst kv) -> (hd 0 (fst kv) <> 58 \/ fst kv = lit ":host") ->
  match ref_wire kv with
  | [] => Err IndexError
  | c :: rest => if c =? 33 then Ok rest
                 else match dget s_rev_lookups (ref_wire kv) with Some n => Ok n | None => Err KeyError end
  end = Ok (vn (fst kv)).
Proof.
  destruct kv as [k v]. cbn [fst]. intros Hk Hc. unfold ref_wire, vn. cbn [fst].
  destruct (str_eqb_spec k (lit ":host")) as [E|E]; [reflexivity|]. destruct Hc as [Hc|Hc]; [|contradiction].
  unfold ename. destruct (N.eqb_spec (hd 0 k) 58) as [|_]; [contradiction|].
  destruct (dget s_lookups k) as [x|] eqn:El; [|reflexivity].
  destruct (lookup_facts k x El) as (R1 & R2 & R3 & R4 & _). rewrite R1.
  destruct x as [|c x]; [congruence|]. cbn [hd] in R3. destruct (N.eqb_spec c 33); [contradiction|reflexivity].
Qed.

Lemma d_refs_ok last F : forall out, is_dict out ->
  (forall kv, In kv F -> ok_name (fst kv) /\ (hd 0 (fst kv) <> 58 \/ fst kv = lit ":host") /\
     dget last (vn (fst kv)) = Some (snd kv)) ->
  exists out', d_refs last (map ref_wire F) out = Ok out' /\ is_dict out' /\
    forall x, dget out' x = if in_refs F x then dget last x else dget out x.
Proof.
  induction F as [|[k v] F IH]; intros out HD HF; [exists out; auto|].
  destruct (HF (k, v)) as (H1 & H2 & H3); [now left|]. cbn [fst snd] in *.
  cbn [map d_refs]. pose proof (ref_wire_dec (k, v) H1 H2) as E. cbn [fst] in E. rewrite E. cbn [bind]. rewrite H3.
  destruct (IH (dset out (vn k) v)) as (out' & E' & HD' & HL).
  - now apply is_dict_dset.
  - intros kv Hin. apply HF. now right.
  - exists out'. split; [exact E'|]. split; [exact HD'|]. intros x. rewrite HL. cbn [in_refs existsb fst].
    fold (in_refs F x). rewrite dget_dset. destruct (in_refs F x); [now rewrite orb_true_r|]. rewrite orb_false_r.
    destruct (str_eqb_spec x (vn k)) as [Ex|Ex], (str_eqb_spec (vn k) x) as [Ex'|Ex']; try congruence.
Qed.

Lemma in_refs_spec F x : in_refs F x = true <-> exists kv, In kv F /\ vn (fst kv) = x.
Proof.
  unfold in_refs. rewrite existsb_exists. split; intros (kv & H & E); exists kv; (split; [exact H|]).
  - destruct (str_eqb_spec (vn (fst kv)) x); congruence.
  - rewrite E. apply str_eqb_refl.
Qed.

(** ** One message *)

(** The headers under the receiver's internal names. *)
Definition vd (d : hdict) : hdict := map (fun kv : str * str => (vn (fst kv), snd kv)) d.

Definition two (x : str) : Prop := x = lit ":version" \/ x = lit ":status-text".

Definition dates_ok (o : s_opts) (d : hdict) : Prop := forall k v, In (k, v) d ->
  o_dates o = true -> In k s_date_hdrs ->
  match o_din o v with
  | Some x => o_dout o x = Some v /\ (forall y, piece_of 0 x y -> one_line y)
  | None => o_dout o v = None
  end.

Definition all_ok (d : hdict) : Prop := NoDup (keys d) /\ forall kv, In kv d -> ok_name (fst kv).

Definition Inv (c d : option hdict) : Prop :=
  match c, d with
  | None, None => True
  | Some c, Some d => all_ok c /\ is_dict d /\ d <> [] /\ forall x, ~ two x -> dget d x = dget (vd c) x
  | _, _ => False
  end.

Lemma NoDup_map_inj {A B} (f : A -> B) (l : list A) :
  (forall x y, In x l -> In y l -> f x = f y -> x = y) -> NoDup l -> NoDup (map f l).
Proof.
  induction l as [|a l IH]; intros Hi HN; [constructor|]. inversion HN; subst. cbn. constructor.
  - intros Hin. apply in_map_iff in Hin as (b & E & Hb). assert (b = a) by (apply Hi; cbn; auto). subst. contradiction.
  - apply IH; [|assumption]. intros x y Hx Hy. apply Hi; now right.
Qed.

Lemma dget_iff {V} (d : dict V) k v : is_dict d -> (dget d k = Some v <-> In (k, v) d).
Proof. intros H. split; [apply dget_in|now apply in_dget]. Qed.

Lemma dget_perm {V} (d d' : dict V) k : is_dict d -> Permutation d d' -> dget d' k = dget d k.
Proof.
  intros H HP. assert (H' : is_dict d').
  { unfold is_dict, keys in *. eapply Permutation_NoDup; [|exact H]. now apply Permutation_map. }
  destruct (dget d k) as [v|] eqn:E.
  - apply dget_in in E. apply in_dget; [exact H'|]. now apply (Permutation_in _ HP).
  - apply dget_none in E. apply dget_none. intros Hin. apply E. unfold keys in *.
    apply (Permutation_in _ (Permutation_sym (Permutation_map fst HP)) Hin).
Qed.

Lemma is_dict_perm {V} (d d' : dict V) : is_dict d -> Permutation d d' -> is_dict d'.
Proof. intros H HP. unfold is_dict, keys in *. eapply Permutation_NoDup; [|exact H]. now apply Permutation_map. Qed.

Lemma vd_dict d : all_ok d -> is_dict (vd d).
Proof.
  intros [HN HO]. unfold is_dict, vd, keys. rewrite map_map. cbn [fst].
  rewrite <- (map_map fst vn). apply NoDup_map_inj; [|exact HN].
  intros x y Hx Hy E. apply in_map_iff in Hx as (kx & <- & Hx). apply in_map_iff in Hy as (ky & <- & Hy).
  apply vn_inj; auto.
Qed.

Lemma vd_in d k v : all_ok d -> In (k, v) d -> dget (vd d) (vn k) = Some v.
Proof.
  intros H Hin. apply in_dget; [now apply vd_dict|]. unfold vd. apply in_map_iff. exists (k, v). auto.
Qed.

Lemma strip_snoc t : strip is_space (t ++ [10]) = strip is_space t.
Proof.
  destruct (strip_spec is_space t) as (pre & post & E & H1 & H2 & H3). rewrite E at 1. rewrite <- !app_assoc.
  apply strip_unique; auto. apply Forall_app. split; [auto|]. constructor; [reflexivity|constructor].
Qed.

Lemma date_back o k v d : dates_ok o d -> In (k, v) d -> ok_name k -> dv o (ename k) (s_date_in o k v) = v.
Proof.
  intros HD Hin Hk. unfold dv. rewrite (dn_ename k Hk). unfold s_date_in.
  destruct Hk as [H|[H Hn]].
  - assert (Ev : vn k = k).
    { unfold vn. destruct (str_eqb_spec k (lit ":host")) as [E|]; [|reflexivity]. rewrite E in H. apply simple_not_colon in H. discriminate. }
    rewrite Ev. destruct (o_dates o) eqn:Eo; cbn [andb].
    + destruct (mem_str_spec k s_date_hdrs) as [Hm|Hm].
      * assert (El : (hd 0 (ename k) =? 58) || (hd 0 (ename k) =? 33) = false).
        { unfold s_date_hdrs in Hm. cbn [In] in Hm. destruct Hm as [<-|[<-|[<-|[<-|[]]]]]; reflexivity. }
        rewrite El. specialize (HD k v Hin Eo Hm). destruct (o_din o v) as [x|].
        -- destruct HD as [-> _]. reflexivity.
        -- now rewrite HD.
      * destruct (_ || _); reflexivity.
    + destruct (_ || _); reflexivity.
  - assert (En : ename k = k) by (unfold ename; now rewrite H). rewrite En, H. cbn [N.eqb Pos.eqb orb].
    destruct (mem_str_spec k s_date_hdrs) as [Hm|Hm]; [|now rewrite andb_false_r].
    unfold s_date_hdrs in Hm. cbn [In] in Hm. destruct Hm as [<-|[<-|[<-|[<-|[]]]]]; discriminate.
Qed.

Section Message.
  Variable o : s_opts.
  Variable ord1 ord2 : hdict -> hdict.
  Hypothesis Ho1 : forall d, Permutation d (ord1 d).
  Hypothesis Ho2 : forall d, Permutation d (ord2 d).
  Variables (lc ld : option hdict) (d : hdict).
  Hypothesis Hinv : Inv lc ld.
  Hypothesis Hall : all_ok d.
  Hypothesis Hdates : dates_ok o d.

  Let S0 := fst (s_split o lc d 0).
  Let F := snd (s_split o lc d 0).
  Definition wire : hdict := map (enc_item o) S0 ++
    match F with [] => [] | _ => [(lit "ref", join [44] (map ref_wire F))] end.

  Lemma sf : s_split o lc d 0 = (S0, F).
  Proof. unfold S0, F. now destruct (s_split o lc d 0). Qed.

  Lemma s0_ok kv : In kv S0 -> In kv d /\ ok_name (fst kv) /\ ~ two (fst kv).
  Proof.
    intros Hin. destruct (split_facts o lc d 0 _ _ sf) as (_ & B & _). destruct (B kv Hin) as [B1 B2].
    split; [exact B1|]. split; [now apply Hall|]. intros [E|E]; apply B2; rewrite E; cbn; tauto.
  Qed.

  Lemma f_ok kv : In kv F -> In kv d /\ ok_name (fst kv) /\ (hd 0 (fst kv) <> 58 \/ fst kv = lit ":host") /\
     exists c, lc = Some c /\ dget c (fst kv) = Some (snd kv).
  Proof.
    intros Hin. destruct (split_facts o lc d 0 _ _ sf) as (_ & _ & C & _). destruct (C kv Hin) as (C1 & C2 & (c & C3 & _ & C4)).
    split; [exact C1|]. split; [now apply Hall|]. split; [exact C2|]. now exists c.
  Qed.

  Lemma enc_nodup : NoDup (keys (map (enc_item o) S0)).
  Proof.
    unfold keys. rewrite map_map. unfold enc_item. cbn [fst]. rewrite <- (map_map fst ename). apply NoDup_map_inj.
    - intros x y Hx Hy E. apply in_map_iff in Hx as (kx & <- & Hx). apply in_map_iff in Hy as (ky & <- & Hy).
      apply ename_inj; [now apply s0_ok|now apply s0_ok|exact E].
    - destruct (split_facts o lc d 0 _ _ sf) as (_ & _ & _ & D & _). apply D. apply Hall.
  Qed.

  Lemma wire_dict : is_dict wire.
  Proof.
    unfold is_dict, wire, keys. rewrite map_app. destruct F as [|f F']; [rewrite app_nil_r; exact enc_nodup|].
    cbn [map fst]. apply NoDup_snoc; [exact enc_nodup|]. intros Hin. unfold keys in Hin. rewrite map_map in Hin.
    apply in_map_iff in Hin as (kv & E & Hkv). unfold enc_item in E. cbn [fst] in E. apply ename_not_ref in E; [auto|now apply s0_ok].
  Qed.

  Lemma wire_in n v : In (n, v) wire ->
    (exists k v0, In (k, v0) S0 /\ n = ename k /\ v = s_date_in o k v0) \/
    (F <> [] /\ n = lit "ref" /\ v = join [44] (map ref_wire F)).
  Proof.
    unfold wire. intros Hin. apply in_app_or in Hin as [Hin|Hin].
    - left. apply in_map_iff in Hin as ([k v0] & E & Hin). exists k, v0. unfold enc_item in E. cbn [fst snd] in E. split; [exact Hin|split; congruence].
    - right. destruct F as [|f F']; [destruct Hin|]. destruct Hin as [E|[]]. split; [discriminate|split; congruence].
  Qed.

  Lemma wire_sent k v : In (k, v) S0 -> In (ename k, s_date_in o k v) wire.
  Proof. intros H. unfold wire. apply in_or_app. left. apply in_map_iff. exists (k, v). auto. Qed.

  Lemma wire_ref : F <> [] -> dget wire (lit "ref") = Some (join [44] (map ref_wire F)).
  Proof.
    intros H. apply in_dget; [exact wire_dict|]. unfold wire. apply in_or_app. right. destruct F; [congruence|now left].
  Qed.

  Lemma wire_noref : F = [] -> dget wire (lit "ref") = None.
  Proof.
    intros H. apply dget_none. intros Hin. apply in_map_iff in Hin as ([n v] & E & Hin). cbn [fst] in E.
    apply wire_in in Hin as [(k & v0 & H1 & H2 & _)|(H1 & _)]; [|contradiction].
    apply s0_ok in H1 as (_ & H1 & _). cbn [fst] in H1. apply ename_not_ref in H1. congruence.
  Qed.

  Lemma two_not k : two k -> forall v, ~ In (k, v) wire.
  Proof.
    intros Ht v Hin. apply wire_in in Hin as [(k0 & v0 & H1 & H2 & _)|(_ & H1 & _)].
    - apply s0_ok in H1 as (_ & H1 & H3). cbn [fst] in H1, H3. apply H3.
      assert (Hc : ok_name k) by (right; destruct Ht as [->| ->]; (split; [reflexivity|];
         split; [discriminate|]; split; [|cbn; intuition discriminate]; intros c Hc; vm_compute in Hc; repeat (destruct Hc as [<-|Hc]; [lia|]); destruct Hc)).
      assert (E : ename k = k) by (destruct Ht as [->| ->]; reflexivity). rewrite <- E in H2. apply ename_inj in H2; auto. now subst k0.
    - destruct Ht as [->| ->]; discriminate.
  Qed.

  Lemma compress_ok :
    s_compress o ord1 lc d = Ok (Some d, o_enc o (format_http1 (ord1 wire) [10] [58] (lit "h") (lit "H/2"))).
  Proof.
    unfold s_compress.
    assert (E : s_loop o lc d ([], []) = Ok ([] ++ map (enc_item o) S0, [] ++ map ref_name F)).
    { apply loop_split.
      - unfold keys. apply Forall_forall. intros x Hx. apply in_map_iff in Hx as (kv & <- & Hx). now apply Hall.
      - cbn [keys map app]. apply NoDup_map_inj; [|apply Hall]. intros x y Hx Hy Exy.
        apply in_map_iff in Hx as (kx & <- & Hx). apply in_map_iff in Hy as (ky & <- & Hy). apply ename_inj; [now apply Hall|now apply Hall|exact Exy]. }
    cbn [app] in E. rewrite E. cbn [bind].
    assert (E2 : match map ref_name F with
                 | [] => Ok (map (enc_item o) S0)
                 | _ => let* ns := hdr_names (map ref_name F) in Ok (dset (map (enc_item o) S0) (lit "ref") (join [44] ns))
                 end = Ok wire).
    { assert (HF : Forall (fun kv : str * str => ok_name (fst kv)) F) by (apply Forall_forall; intros kv Hkv; now apply f_ok).
      rewrite (hdr_names_ok F HF). unfold wire. destruct F as [|f F'] eqn:EF; [cbn; now rewrite app_nil_r|]. cbn [map bind].
      rewrite dset_new; [reflexivity|]. apply dget_none. intros Hin. unfold keys in Hin. rewrite map_map in Hin.
      apply in_map_iff in Hin as (kv & Ek & Hkv). unfold enc_item in Ek. cbn [fst] in Ek. apply ename_not_ref in Ek; [auto|]. now apply s0_ok. }
    match goal with |- bind ?x _ = _ => replace x with (Ok wire) end. cbn [bind].
    assert (E3 : dget wire (lit "h") = None).
    { apply dget_none. intros Hin. apply in_map_iff in Hin as ([n v] & En & Hin). cbn [fst] in En.
      apply wire_in in Hin as [(k & v0 & H1 & H2 & _)|(_ & H2 & _)].
      - apply s0_ok in H1 as (_ & H1 & _). cbn [fst] in H1. apply ename_not_h in H1. congruence.
      - subst n. discriminate. }
    rewrite E3. reflexivity.
  Qed.

  (** What the parser gives the receiver. *)
  Variable P : hdict.
  Hypothesis HPd : is_dict P.
  Hypothesis HPver : exists v, In (lit ":version", v) P.
  Hypothesis HP : forall n, ~ two n -> dget P n = dget wire n.
  Hypothesis HPt : forall n v, In (n, v) P -> two n \/ In (n, v) wire.

  Lemma p_known n v : In (n, v) P -> n = lit "ref" \/ exists k, n = ename k /\ ok_name k /\
     (two k \/ exists v0, In (k, v0) S0 /\ v = s_date_in o k v0).
  Proof.
    intros Hin. destruct (HPt n v Hin) as [Ht|Hw].
    - right. exists n. split; [destruct Ht as [->| ->]; reflexivity|]. split; [|auto].
      right; destruct Ht as [->| ->]; (split; [reflexivity|];
         split; [discriminate|]; split; [|cbn; intuition discriminate]; intros c Hc; vm_compute in Hc; repeat (destruct Hc as [<-|Hc]; [lia|]); destruct Hc).
    - apply wire_in in Hw as [(k & v0 & H1 & H2 & H3)|(_ & H2 & _)]; [right|now left].
      exists k. split; [exact H2|]. split; [apply (s0_ok (k, v0) H1)|]. right. exists v0. auto.
  Qed.

  Lemma p_in2 n v : In (n, v) (ord2 P) <-> In (n, v) P.
  Proof. split; intros H; [apply (Permutation_in _ (Permutation_sym (Ho2 P)) H)|apply (Permutation_in _ (Ho2 P) H)]. Qed.

  Lemma vn_two k : ok_name k -> (two (vn k) <-> two k).
  Proof.
    intros Hk. unfold vn. destruct (str_eqb_spec k (lit ":host")) as [->|]; [|tauto]. split; intros [E|E]; discriminate.
  Qed.

  Lemma out0 : exists out, d_loop o (ord2 P) [] = Ok out /\ is_dict out /\ out <> [] /\
    (forall k v, In (k, v) S0 -> dget out (vn k) = Some v) /\
    (forall x, ~ two x -> (forall k v, In (k, v) S0 -> vn k <> x) -> dget out x = None).
  Proof.
    set (out := map (dec_item o) (filter not_ref (ord2 P))).
    assert (HN : is_dict out).
    { unfold is_dict, out, keys. rewrite map_map. unfold dec_item. cbn [fst]. rewrite <- (map_map fst dn). apply NoDup_map_inj.
      - intros x y Hx Hy E. apply in_map_iff in Hx as ([nx vx] & <- & Hx). apply in_map_iff in Hy as ([ny vy] & <- & Hy).
        apply filter_In in Hx as [Hx Rx]. apply filter_In in Hy as [Hy Ry]. apply p_in2 in Hx, Hy. cbn [fst] in *.
        unfold not_ref in Rx, Ry. cbn [fst] in Rx, Ry.
        destruct (p_known _ _ Hx) as [->|(kx & -> & Okx & _)]; [discriminate|].
        destruct (p_known _ _ Hy) as [->|(ky & -> & Oky & _)]; [discriminate|].
        rewrite !dn_ename in E by assumption. apply vn_inj in E; auto. congruence.
      - pose proof (is_dict_perm _ _ HPd (Ho2 P)) as HN2. unfold is_dict, keys in HN2. revert HN2. generalize (ord2 P).
        induction h as [|kv l IH]; intros HN2; [constructor|]. cbn [filter map] in *. inversion HN2; subst.
        destruct (not_ref kv); [|auto]. cbn [map]. constructor; [|auto]. intros Hin. apply in_map_iff in Hin as (kv' & E & Hin).
        apply filter_In in Hin as [Hin _]. rewrite <- E in *. apply H1. now apply in_map. }
    exists out. split; [|split; [exact HN|split; [|split]]].
    - apply (d_loop_ok o (ord2 P) []).
      + intros [n v] Hin. apply p_in2 in Hin. destruct (p_known _ _ Hin) as [->|(k & -> & Ok & _)]; [now left|right; eauto].
      + exact HN.
    - destruct HPver as [v Hv]. intros E. apply p_in2 in Hv.
      assert (Hin : In (dec_item o (lit ":version", v)) out) by (apply in_map, filter_In; auto). rewrite E in Hin. destruct Hin.
    - intros k v Hin. destruct (s0_ok _ Hin) as (H1 & H2 & H3). cbn [fst] in *. apply in_dget; [exact HN|].
      pose proof (wire_sent k v Hin) as Hw.
      assert (Hnt : ~ two (ename k)) by (intros Ht; apply (two_not _ Ht _ Hw)).
      assert (HPin : In (ename k, s_date_in o k v) (ord2 P)).
      { apply p_in2. apply dget_in. rewrite HP by exact Hnt. apply in_dget; [exact wire_dict|exact Hw]. }
      replace (vn k, v) with (dec_item o (ename k, s_date_in o k v)).
      + apply in_map, filter_In. split; [exact HPin|]. unfold not_ref. cbn [fst].
        destruct (str_eqb_spec (ename k) (lit "ref")) as [E|]; [|reflexivity]. now apply ename_not_ref in E.
      + unfold dec_item. cbn [fst snd]. rewrite dn_ename by exact H2. f_equal. now apply (date_back o k v d).
    - intros x Hx Hno. apply dget_none. intros Hin. unfold keys, out in Hin. rewrite map_map in Hin.
      apply in_map_iff in Hin as ([n v] & E & Hin). apply filter_In in Hin as [Hin R]. apply p_in2 in Hin.
      unfold dec_item in E. cbn [fst] in E. destruct (p_known _ _ Hin) as [->|(k & -> & Ok & H)]; [discriminate|].
      rewrite dn_ename in E by exact Ok. destruct H as [Ht|(v0 & Hs & _)].
      + apply Hx. rewrite <- E. now apply vn_two.
      + now apply (Hno k v0).
  Qed.

  Lemma out1 : exists out, 
    (let* out := d_loop o (ord2 P) [] in
     match dget P (lit "ref"), ld with
     | Some r, Some ((_ :: _) as l) => d_refs l (split_on 44 r) out
     | _, _ => Ok out
     end) = Ok out /\ is_dict out /\ out <> [] /\ forall x, ~ two x -> dget out x = dget (vd d) x.
  Proof.
    destruct out0 as (out & E & HD & Hne & H1 & H2). rewrite E. cbn [bind].
    assert (Hnr : ~ two (lit "ref")) by (intros [Hr|Hr]; discriminate).
    destruct (split_facts o lc d 0 _ _ sf) as (A & _).
    assert (Hfin : forall x, ~ two x -> in_refs F x = false -> dget out x = dget (vd d) x).
    { intros x Hx Hr. destruct (dget (vd d) x) as [v|] eqn:Ev.
      - apply dget_in in Ev. unfold vd in Ev. apply in_map_iff in Ev as ([k v'] & Ek & Hin). cbn [fst snd] in Ek.
        assert (Ex : vn k = x) by congruence. assert (Evv : v' = v) by congruence. subst v'. rewrite <- Ex in *.
        destruct (A _ Hin) as [Hs|[Hf|Hi]]; [now apply H1| |].
        + assert (in_refs F (vn k) = true); [|congruence]. apply in_refs_spec. exists (k, v). auto.
        + exfalso. apply Hx. apply vn_two; [now apply (proj2 Hall (k, v))|]. cbn [fst] in Hi. unfold s_ignore_hdrs in Hi. cbn [In] in Hi. unfold two. intuition.
      - apply H2; [exact Hx|]. intros k v Hs Ex. apply s0_ok in Hs as (Hs & _). pose proof (vd_in d k v Hall Hs) as Hv. congruence. }
    destruct F as [|f F'] eqn:EF.
    - assert (Er : dget P (lit "ref") = None) by (rewrite HP by exact Hnr; now apply wire_noref).
      rewrite Er. exists out. split; [reflexivity|]. split; [exact HD|]. split; [exact Hne|]. intros x Hx. now apply Hfin.
    - assert (Er : dget P (lit "ref") = Some (join [44] (map ref_wire F))).
      { rewrite HP by exact Hnr. apply wire_ref. rewrite EF. discriminate. }
      rewrite Er. rewrite <- EF in *.
      destruct (f_ok f) as (_ & _ & _ & (c & Ec & Edc)); [rewrite EF; now left|].
      unfold Inv in Hinv. rewrite Ec in Hinv. destruct ld as [l|] eqn:El; [|contradiction].
      destruct Hinv as (Hc & Hl1 & Hl2 & Hl3).
      assert (HFl : forall kv, In kv F -> ok_name (fst kv) /\ (hd 0 (fst kv) <> 58 \/ fst kv = lit ":host") /\
                dget l (vn (fst kv)) = Some (snd kv)).
      { intros [k v] Hin. destruct (f_ok _ Hin) as (G1 & G2 & G3 & (c' & Ec' & G4)). cbn [fst snd] in *.
        split; [exact G2|]. split; [exact G3|]. assert (c' = c) by congruence. subst c'.
        rewrite Hl3.
        - apply vd_in; [exact Hc|]. now apply dget_in.
        - rewrite vn_two by exact G2. intros [Et|Et]; rewrite Et in G3; destruct G3 as [G3|G3]; try discriminate; now apply G3. }
      destruct (d_refs_ok l F out HD HFl) as (out' & E' & HD' & HL').
      rewrite split_on_join.
      + exists out'. destruct l as [|l0 l']; [congruence|]. split; [exact E'|]. split; [exact HD'|].
        assert (Hx : forall x, ~ two x -> dget out' x = dget (vd d) x).
        { intros x Hx. rewrite HL'. destruct (in_refs F x) eqn:Ein; [|now apply Hfin].
          apply in_refs_spec in Ein as ([k v] & Hin & Ek). destruct (HFl _ Hin) as (_ & _ & G). cbn [fst snd] in *. rewrite <- Ek, G.
          symmetry. apply vd_in; [exact Hall|]. now apply (f_ok (k, v)). }
        split; [|exact Hx]. intros Eo. destruct (f_ok f) as (G1 & G2 & G3 & _); [rewrite EF; now left|]. destruct f as [k v]. cbn [fst] in *.
        assert (Hk : dget out' (vn k) = Some v); [|rewrite Eo in Hk; discriminate].
        rewrite Hx; [now apply vd_in|]. rewrite vn_two by exact G2. intros [Et|Et]; rewrite Et in G3; destruct G3 as [G3|G3]; try discriminate; now apply G3.
      + rewrite EF. discriminate.
      + apply Forall_forall. intros x Hx. apply in_map_iff in Hx as ([k v] & <- & Hin). destruct (HFl _ Hin) as (G2 & G3 & _).
        cbn [fst] in *. unfold ref_wire. cbn [fst]. destruct (str_eqb_spec k (lit ":host")); [cbn; intuition discriminate|].
        destruct G3 as [G3|G3]; [|contradiction]. destruct G2 as [G2|[G2 _]]; [|contradiction].
        unfold ename. rewrite (simple_not_colon k G2). destruct (dget s_lookups k) as [x|] eqn:Ex.
        * destruct (lookup_facts k x Ex) as (_ & _ & _ & _ & _ & _ & R7). intros Hc44. apply R7 in Hc44. lia.
        * intros [Hc44|Hc44]; [discriminate|]. destruct G2 as (_ & _ & G2). apply G2 in Hc44. tauto.
  Qed.

  Lemma decompress_ok text t : o_dec o text = Ok t -> parse_http1 t (o_request o) (lit "h") = Ok P ->
    exists e out, s_decompress o ord2 ld text = Ok (Some e, out) /\ Inv (Some d) (Some e) /\ arrives d out.
  Proof.
    intros Ed Ep. unfold s_decompress. rewrite Ed. cbn [bind]. rewrite Ep. cbn [bind].
    destruct out1 as (out & E & HD & Hne & HL). apply bind_ok in E as (o0 & E0 & E). rewrite E0. cbn [bind]. rewrite E. cbn [bind].
    eexists out, _. split; [reflexivity|]. split; [repeat split; try assumption; apply Hall|].
    pose proof (vd_dict d Hall) as HV.
    assert (Hh : dget out (lit "h") = dget d (lit ":host")).
    { rewrite HL by (intros [Et|Et]; discriminate). destruct (dget d (lit ":host")) as [v|] eqn:Ev.
      - apply dget_in in Ev. now apply (vd_in d (lit ":host") v Hall).
      - apply dget_none. intros Hin. apply dget_none in Ev. apply Ev. unfold vd, keys in *. rewrite map_map in Hin.
        apply in_map_iff in Hin as ([k v] & Ek & Hin). cbn [fst] in Ek. unfold vn in Ek.
        destruct (str_eqb_spec k (lit ":host")) as [Eh|_].
        + rewrite <- Eh. apply in_map_iff. exists (k, v). auto.
        + pose proof (proj2 Hall _ Hin) as Hk. apply ok_not_h in Hk. contradiction. }
    assert (Hfin : is_dict (match dget out (lit "h") with Some v => ddel (dset out (lit ":host") v) (lit "h") | None => out end) /\
      forall k, ~ two k -> dget (match dget out (lit "h") with Some v => ddel (dset out (lit ":host") v) (lit "h") | None => out end) k = dget d k).
    { assert (Hnoh : dget d (lit "h") = None).
      { apply dget_none. intros Hin. apply in_map_iff in Hin as (kv & Ek & Hin). apply (proj2 Hall) in Hin. apply ok_not_h in Hin. contradiction. }
      assert (Hord : forall k, k <> lit ":host" -> k <> lit "h" -> dget (vd d) k = dget d k).
      { intros k Hk1 Hk2. destruct (dget d k) as [v|] eqn:Ev.
        - apply dget_in in Ev. pose proof (vd_in d k v Hall Ev) as Hv. unfold vn in Hv.
          destruct (str_eqb_spec k (lit ":host")); [contradiction|exact Hv].
        - apply dget_none. intros Hin. apply dget_none in Ev. apply Ev. unfold vd, keys in *. rewrite map_map in Hin.
          apply in_map_iff in Hin as ([k' v] & Ek & Hin). cbn [fst] in Ek. unfold vn in Ek.
          destruct (str_eqb_spec k' (lit ":host")) as [Eh|_]; [congruence|]. rewrite <- Ek. apply in_map_iff. exists (k', v). auto. }
      destruct (dget out (lit "h")) as [v|] eqn:Eh.
      - split; [apply is_dict_ddel, is_dict_dset, HD|]. intros k Hk. rewrite dget_ddel by now apply is_dict_dset.
        destruct (str_eqb_spec k (lit "h")) as [->|Hk1]; [congruence|]. rewrite dget_dset.
        destruct (str_eqb_spec k (lit ":host")) as [->|Hk2]; [congruence|]. rewrite HL by exact Hk. now apply Hord.
      - split; [exact HD|]. intros k Hk. destruct (str_eqb_spec k (lit "h")) as [->|Hk1]; [congruence|].
        rewrite HL by exact Hk. destruct (str_eqb_spec k (lit ":host")) as [->|Hk2]; [|now apply Hord].
        rewrite <- Hh. apply dget_none. unfold vd, keys. rewrite map_map. intros Hin. apply in_map_iff in Hin as ([k v] & Ek & Hin).
        cbn [fst] in Ek. unfold vn in Ek. destruct (str_eqb_spec k (lit ":host")); [discriminate|contradiction]. }
    destruct Hfin as [HF1 HF2]. split; [exact HF1|]. intros k v Hk1 Hk2.
    assert (Hk : ~ two k) by (intros [Et|Et]; contradiction). rewrite <- (dget_iff _ k v HF1), (HF2 k Hk). apply dget_iff. apply Hall.
  Qed.
End Message.
