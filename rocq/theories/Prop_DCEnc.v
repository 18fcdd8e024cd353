(** * Property C125: delta2_bohe's encoders of header values. *)
From Coq Require Import String List NArith ZArith Bool Arith Lia ZifyN ZifyNat.
From Verif Require Import PyBase NBits Small_Model Prop_Small Bohe_Model Bohe_Proofs Prop_Bohe BoheCookie_Model Prop_BoheCookie SDate_Model SDate_Cal
  DC_Model DCE_Model PyStr Prop_BoheEnc.
Import ListNotations.
Open Scope N_scope.
Open Scope py_scope.

(** ** Specification *)

(** Seconds from 1970 to the first of January of a year. *)
Definition a_leap_year (y : Z) : Prop := (y mod 4 = 0 /\ (y mod 100 <> 0 \/ y mod 400 = 0))%Z.
Inductive january : Z -> Z -> Prop :=
| january_1970 : january 1970 0
| january_leap y s : january y s -> a_leap_year y -> january (y + 1) (s + 366 * 86400)
| january_common y s : january y s -> ~ a_leap_year y -> january (y + 1) (s + 365 * 86400).

(** The seconds are counted from the first of January of the last year that 21 divides. *)
Definition counts_from (year s : Z) : Prop := exists y, (y mod 21 = 0 /\ y <= year < y + 21)%Z /\ january y s.

(** The names of dates. *)
Definition dates : list str := map lit ["last-modified"; "date"; "expires"; "if-modified-since"; "if-unmodified-since"]%string.

(** The library with every date told by so many seconds less. *)
Definition earlier (d : Z) (L : library) : library :=
  mk_library (fun v => option_map (fun t => (t - d)%Z) (lib_date L v)) (lib_md5 L) (lib_accept L) (lib_dict L) (lib_setcookie L) (lib_cookie L).

(** ** Proofs *)

Lemma leap_iff y : leap y = true <-> a_leap_year y.
Proof.
  unfold leap, a_leap_year. rewrite andb_true_iff, orb_true_iff, negb_true_iff, !Z.eqb_eq, Z.eqb_neq. reflexivity.
Qed.
Lemma january_is y s : january y s -> s = timegm y 1 1 0 0 0.
Proof.
  assert (M : forall y, before_month y 1 = 0%Z) by reflexivity.
  induction 1 as [|y s H IH Hl|y s H IH Hl]; [reflexivity| |]; subst s; unfold timegm; rewrite !M, before_year_next; unfold leap_z.
  - apply leap_iff in Hl. rewrite Hl. lia.
  - destruct (leap y) eqn:E; [apply leap_iff in E; contradiction|]. lia.
Qed.
Lemma january_all n : january (1970 + Z.of_nat n) (timegm (1970 + Z.of_nat n) 1 1 0 0 0).
Proof.
  induction n as [|n IH]; [exact january_1970|]. replace (1970 + Z.of_nat (S n))%Z with (1970 + Z.of_nat n + 1)%Z by lia. destruct (leap (1970 + Z.of_nat n)) eqn:E.
  - pose proof (january_leap _ _ IH (proj1 (leap_iff _) E)) as H. pose proof (january_is _ _ H) as H'. now rewrite <- H'.
  - assert (Nl : ~ a_leap_year (1970 + Z.of_nat n)) by (intros C; apply leap_iff in C; congruence).
    pose proof (january_common _ _ IH Nl) as H. pose proof (january_is _ _ H) as H'. now rewrite <- H'.
Qed.
Lemma counts_iff year s : (1974 <= year)%Z -> (counts_from year s <-> s = new_epoch2 year).
Proof.
  intros Hy. unfold counts_from, new_epoch2, sliding_epoch. pose proof (Z.mod_pos_bound year 21 ltac:(lia)) as B. pose proof (Z.div_mod year 21 ltac:(lia)) as D. split.
  - intros (y & (M & B1 & B2) & J). apply january_is in J. subst s. do 1 f_equal.
    pose proof (Z.div_mod y 21 ltac:(lia)) as D'. rewrite M in D'. assert (y / 21 = year / 21)%Z by lia. lia.
  - intros ->. exists (year - year mod 21)%Z. assert (Lo : (1974 <= year - year mod 21)%Z).
    { assert (94 <= year / 21)%Z by lia. lia. }
    split; [split; [|lia]|].
    + replace (year - year mod 21)%Z with ((year / 21) * 21)%Z by lia. apply Z.mod_mul. lia.
    + replace (year - year mod 21)%Z with (1970 + Z.of_nat (Z.to_nat (year - year mod 21 - 1970)))%Z by lia. apply january_all.
Qed.

Lemma max_number z : uvarint_of (Z.max 0 z) = uvarint_of z.
Proof. unfold uvarint_of. now replace (Z.max 0 (Z.max 0 z)) with (Z.max 0 z) by lia. Qed.
Lemma date_earlier year L v : enc_date2 year L v = enc_date (earlier (new_epoch2 year - 631152000) L) v.
Proof.
  unfold enc_date2, enc_date, earlier, new_epoch. cbn [lib_date]. destruct (lib_date L v) as [t|]; cbn [option_map].
  - f_equal. lia.
  - destruct (py_int v) as [n|e]; [apply max_number|reflexivity].
Qed.
Lemma setcookies_earlier year C L : forall vals e, enc_setcookies2 year C L vals e = enc_setcookies C (earlier (new_epoch2 year - 631152000) L) vals e.
Proof.
  assert (M : forall l e, enc_morsels2 year L l e = enc_morsels (earlier (new_epoch2 year - 631152000) L) l e).
  { induction l as [|[n m] l IH]; intros e; cbn [enc_morsels2 enc_morsels]; [reflexivity|]. unfold enc_morsel2, enc_morsel. rewrite <- date_earlier.
    repeat match goal with |- context [bind ?x _] => destruct x; cbn [bind]; [|reflexivity] end. apply IH. }
  induction vals as [|v vals IH]; intros e; cbn [enc_setcookies2 enc_setcookies]; [reflexivity|]. destruct (cl_cookie C (no_brackets v)) as [c|]; cbn [bind]; [|reflexivity].
  rewrite M. destruct (enc_morsels _ _ _); cbn [bind]; [apply IH|reflexivity].
Qed.

(** *** Everything but the cache-control of responses is as in bohe, with the dates counted
    from another day. *)
Theorem C125_as_bohe : forall year req C L k v s, (1974 <= year)%Z -> counts_from year s -> k <> lit "cache-control" \/ req = true ->
  encode2 year req C L k v = encoded (with_cookies C (earlier (s - 631152000) L)) k v.
Proof.
  intros year req C L k v s Hy Hs Hk. apply counts_iff in Hs; [|exact Hy]. subst s. unfold encode2, encoded, encoder.
  destruct (mem_str k (names ["last-modified"; "date"; "expires"; "if-modified-since"; "if-unmodified-since"]%string)); [rewrite date_earlier; reflexivity|].
  destruct (mem_str k (names [":status"; "content-length"; "age"]%string)); [reflexivity|].
  destruct (str_eqb k (lit "set-cookie")); [rewrite setcookies_earlier; reflexivity|].
  destruct (str_eqb k (lit "cookie")); [reflexivity|].
  destruct (str_eqb_spec k (lit "cache-control")) as [->|_].
  - destruct Hk as [Hk| ->]; [congruence|]. unfold enc_cachecontrol2, enc_cachecontrol. rewrite number_0.
    repeat match goal with |- context [bind (cc_number ?x ?y) _] => destruct (cc_number x y); cbn [bind]; [|reflexivity] end. now rewrite <- ?app_assoc.
  - destruct (str_eqb k (lit ":method")); [reflexivity|].
    destruct (mem_str k (names ["accept"; "accept-language"; "accept-encoding"; "accept-charset"]%string)); [reflexivity|].
    destruct (mem_str k (names ["etag"; "if-match"; "if-none-match"]%string)); [reflexivity|]. now destruct (str_eqb k (lit "p3p")).
Qed.
Print Assumptions C125_as_bohe.

(** *** Dates: seconds since that day, nothing before it. *)
Lemma date_is year req C L k v : In k dates -> encode2 year req C L k v = enc_date2 year L v.
Proof. intros Hk. unfold dates in Hk. cbn [map In] in Hk. destruct Hk as [<-|[<-|[<-|[<-|[<-|[]]]]]]; reflexivity. Qed.
Theorem C125_dates : forall year req C L k v s t out, (1974 <= year)%Z -> counts_from year s -> In k dates -> lib_date L v = Some t ->
  (encode2 year req C L k v = Ok out <-> number (Z.to_N (Z.max 0 (t - s))) out).
Proof.
  intros year req C L k v s t out Hy Hs Hk Ht. apply counts_iff in Hs; [|exact Hy]. subst s. rewrite date_is by exact Hk. unfold enc_date2. rewrite Ht. apply number_iff.
Qed.
Print Assumptions C125_dates.

(** *** The year: the octets of a date from that day on change when a year comes that 21
    divides, and only then. *)
Lemma jan_mono y y' : (y < y')%Z -> (timegm y 1 1 0 0 0 < timegm y' 1 1 0 0 0)%Z.
Proof.
  intros H. assert (M : forall y, before_month y 1 = 0%Z) by reflexivity. unfold timegm. rewrite !M. pose proof (before_year_mono y y' H). pose proof (leap_z_01 y). lia.
Qed.
Theorem C125_same_span : forall year year' req C L k v, (year / 21 = year' / 21)%Z -> encode2 year req C L k v = encode2 year' req C L k v.
Proof.
  intros year year' req C L k v H. assert (E : new_epoch2 year = new_epoch2 year').
  { unfold new_epoch2, sliding_epoch. do 1 f_equal. pose proof (Z.div_mod year 21 ltac:(lia)). pose proof (Z.div_mod year' 21 ltac:(lia)). lia. }
  assert (D : forall v, enc_date2 year L v = enc_date2 year' L v) by (intros w; unfold enc_date2; now rewrite E).
  unfold encode2. rewrite D, setcookies_earlier, E, <- setcookies_earlier. reflexivity.
Qed.
Print Assumptions C125_same_span.
Theorem C125_other_span : forall year year' req C L k v t s, (1974 <= year)%Z -> (year / 21 < year' / 21)%Z -> In k dates -> lib_date L v = Some t ->
  counts_from year s -> (s < t)%Z -> encode2 year req C L k v <> encode2 year' req C L k v.
Proof.
  intros year year' req C L k v t s Hy Hd Hk Ht Hs Hst E. apply counts_iff in Hs; [|exact Hy]. subst s. rewrite !date_is in E by exact Hk. unfold enc_date2 in E. rewrite Ht in E.
  destruct (uvarint_of_ok (t - new_epoch2 year)) as (a & Ea & _). destruct (uvarint_of_ok (t - new_epoch2 year')) as (b & Eb & _).
  assert (a = b) by congruence. subst b. destruct (uvarint_of_inj _ _ _ _ [] [] Ea Eb eq_refl) as [M _].
  assert (J : (new_epoch2 year < new_epoch2 year')%Z).
  { apply jan_mono. unfold sliding_epoch. pose proof (Z.div_mod year 21 ltac:(lia)). pose proof (Z.div_mod year' 21 ltac:(lia)). nia. }
  lia.
Qed.
Print Assumptions C125_other_span.

(** *** Cache-control of responses: max-age and s-maxage; nothing else is kept, the lists of
    no-cache and private neither. *)
Lemma cc_list_none parts p : cc_list parts p = Ok [0].
Proof. unfold cc_list. destruct (last_value parts p) as [[s|z]|]; reflexivity. Qed.
Theorem C125_response_cachecontrol : forall year C L ds out, ds <> [] -> Forall clean ds ->
  (forall m v, In m (map lit ["max-age"; "s-maxage"]%string) -> last_said m ds = Some v -> v <> [] /\ Forall digit v) ->
  (encode2 year false C L (lit "cache-control") (join [44] (map render ds)) = Ok out <->
   exists a b, number (says ds (lit "max-age")) a /\ number (says ds (lit "s-maxage")) b /\ out = lit "_" ++ a ++ b ++ [0; 0; 0]).
Proof.
  intros year C L ds out Hn Hc Hv. change (encode2 year false C L (lit "cache-control") (join [44] (map render ds))) with (enc_cachecontrol2 false (join [44] (map render ds))).
  unfold enc_cachecontrol2. rewrite number_0, !cc_list_none. cbv iota. set (parts := cc_parts _).
  pose proof (fun m Hm s => number_says ds m s (fun v => Hv m v Hm) Hn Hc) as NS. fold parts in NS. rewrite bind_iff. split.
  - intros (a & Ea & H). apply bind_iff in H as (r & H & Eo). apply bind_iff in H as (b & Eb & H). cbn [bind app] in H. exists a, b.
    apply NS in Ea, Eb; try (cbn; tauto). split; [exact Ea|]. split; [exact Eb|]. change (lit "_") with [95]. congruence.
  - intros (a & b & Ha & Hb & ->). apply NS in Ha, Hb; try (cbn; tauto). exists a. split; [exact Ha|]. apply bind_iff. exists (b ++ [0; 0; 0]). split; [|reflexivity].
    apply bind_iff. exists b. split; [exact Hb|reflexivity].
Qed.
Print Assumptions C125_response_cachecontrol.

(** *** Messages with the same names and the same encoded values cannot be told apart: the codec
    does the same for both. *)
Theorem C125_indistinct : forall ord enc gid c m m',
  Forall2 (fun p q => fst p = fst q /\ enc (fst p) (snd p) = enc (fst q) (snd q)) (split_headers m) (split_headers m') ->
  make_operations ord enc gid c m = make_operations ord enc gid c m'.
Proof.
  intros ord enc gid c m m' H. unfold make_operations. destruct (gs_make (k_groups c) gid) as [gs g].
  assert (E : forall c i, process_all ord enc gid c i (split_headers m) = process_all ord enc gid c i (split_headers m')).
  { induction H as [|[k v] [k' v'] l l' [H1 H2] H IH]; intros c0 i; [reflexivity|]. cbn [fst snd] in H1, H2. subst k'. cbn [process_all]. rewrite H2.
    destruct (enc k v') as [w|]; cbn [bind]; [|reflexivity]. destruct (process_kv ord gid c0 i k w) as [[c1 i1]|]; cbn [bind]; [apply IH|reflexivity]. }
  now rewrite E.
Qed.
Print Assumptions C125_indistinct.

(** In 2026 dates before 2016 are not told apart, in any state of the codec; in 2015 they were. *)
Definition two_dates (L : library) : library :=
  mk_library (fun v => if str_eqb v (lit "Tue, 01 Jan 2013 00:00:00 GMT") then Some 1356998400%Z
                       else if str_eqb v (lit "Thu, 01 Jan 2015 00:00:00 GMT") then Some 1420070400%Z else None)
    (lib_md5 L) (lib_accept L) (lib_dict L) (lib_setcookie L) (lib_cookie L).
Theorem C125_old_dates_refuted : exists v v', v <> v' /\ forall req C L ord gid c,
  make_operations ord (encode2 2026 req C (two_dates L)) gid c [(lit "last-modified", v)] =
    make_operations ord (encode2 2026 req C (two_dates L)) gid c [(lit "last-modified", v')] /\
  encode2 2026 req C (two_dates L) (lit "last-modified") v = Ok [0] /\
  encode2 2015 req C (two_dates L) (lit "last-modified") v <> encode2 2015 req C (two_dates L) (lit "last-modified") v'.
Proof.
  exists (lit "Tue, 01 Jan 2013 00:00:00 GMT"), (lit "Thu, 01 Jan 2015 00:00:00 GMT"). split; [discriminate|]. intros req C L ord gid c. split; [|split].
  - apply C125_indistinct. change (split_headers [(?k, ?v)]) with [(k, v)]. constructor; [split; reflexivity|constructor].
  - reflexivity.
  - vm_compute. discriminate.
Qed.
Print Assumptions C125_old_dates_refuted.

(** *** Cases *)
Lemma january_2016 : january 2016 1451606400.
Proof. exact (january_all 46). Qed.
Example C125_case : forall L C, counts_from 2026 1451606400 /\ counts_from 2036 1451606400 /\ ~ counts_from 2037 1451606400 /\
  In (lit "date") dates /\ (2026 / 21 = 2036 / 21)%Z /\ (2036 / 21 < 2037 / 21)%Z /\
  lib_date (two_dates L) (lit "Thu, 01 Jan 2015 00:00:00 GMT") = Some 1420070400%Z /\ (788918400 < 1420070400)%Z /\ counts_from 2015 788918400 /\
  encode2 2015 true C (two_dates L) (lit "date") (lit "Thu, 01 Jan 2015 00:00:00 GMT") = Ok [128; 187; 250; 172; 2] /\
  Forall clean [(0%nat, lit "max-age", Some (lit "300")); (1%nat, lit "private", Some (lit "set-cookie")); (1%nat, lit "s-maxage", Some (lit "7"))] /\
  encode2 2026 false C L (lit "cache-control") (lit "max-age=300, private=set-cookie, s-maxage=7") = Ok (lit "_" ++ [172; 2; 7; 0; 0; 0]) /\
  encode2 2026 true C L (lit "cache-control") (lit "max-age=300, private=set-cookie, s-maxage=7") = Ok (lit "_" ++ [172; 2; 0; 0; 0]).
Proof.
  intros L C. assert (W : forall y s, (1974 <= y)%Z -> s = new_epoch2 y -> counts_from y s) by (intros y s H E; now apply counts_iff).
  split; [now apply W|]. split; [now apply W|]. split; [intros H; apply counts_iff in H; [vm_compute in H; discriminate|lia]|]. split; [right; now left|]. split; [reflexivity|]. split; [reflexivity|].
  split; [reflexivity|]. split; [lia|]. split; [now apply W|]. split; [vm_compute; reflexivity|]. split; [|split; vm_compute; reflexivity].
  repeat constructor; cbn; try (intros C0; repeat (destruct C0 as [C0|C0]; [discriminate|]); exact C0); try lia; try (intros [? ?]; lia).
Qed.
