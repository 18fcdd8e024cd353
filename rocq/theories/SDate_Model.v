(** * Model of simple's dates: compressor/simple/__init__.py lines 211-234 (DATE,
      parse_date, format_date), "%x" of line 135 and int(value, 16) of line 169.

    The code rests on the standard library of Python 2.7, of which the parts used
    are modelled here as well: email.utils.parsedate (Lib/email/_parseaddr.py),
    calendar.timegm, email.utils.formatdate, time.gmtime (the Gregorian calendar
    without end in both directions), int(text, 16).

    Simplification: gmtime takes a double; numbers from 2^53 on are rounded, and
    those beyond the doubles raise OverflowError.  Here they are formatted exactly,
    and refused with ValueError when the year does not fit 32 bits. *)
From Coq Require Import String List NArith ZArith Bool.
From Verif Require Import PyBase PyNum Params_Model PyStr.
Import ListNotations.
Open Scope N_scope.
Open Scope py_scope.

(** ** The regular expression DATE, lines 211-214, followed by a dollar (line 218) *)

Definition cls := N -> bool.
Definition is_digit : cls := fun c => (48 <=? c) && (c <=? 57).
Definition is_word : cls := fun c => is_digit c || (97 <=? c) && (c <=? 122) || (65 <=? c) && (c <=? 90) || (c =? 95).
Definition only (x : N) : cls := N.eqb x.

Fixpoint fits (p : list cls) (s : str) : bool :=
  match p, s with
  | [], [] => true
  | c :: p, x :: s => c x && fits p s
  | _, _ => false
  end.

Definition re_clock : list cls := [is_digit; is_digit; only 58; is_digit; is_digit; only 58; is_digit; is_digit].
Definition re_gmt : list cls := [only 32; only 71; only 77; only 84].
Definition re_fixdate : list cls :=
  repeat is_word 3 ++ [only 44; only 32; is_digit; is_digit; only 32] ++ repeat is_word 3 ++ [only 32] ++ repeat is_digit 4 ++ [only 32] ++ re_clock ++ re_gmt.
Definition re_850 (n : nat) : list cls :=
  repeat is_word n ++ [only 44; only 32; is_digit; is_digit; only 45] ++ repeat is_word 3 ++ [only 45; is_digit; is_digit; only 32] ++ re_clock ++ re_gmt.
Definition re_asctime : list cls :=
  repeat is_word 3 ++ [only 32] ++ repeat is_word 3 ++ [only 32; (fun c => is_digit c || (c =? 32)); is_digit; only 32] ++ re_clock ++ [only 32] ++ repeat is_digit 4.

(** The dollar also matches before a newline at the end. *)
Definition re_date (v : str) : bool :=
  existsb (fun s => fits re_fixdate s || existsb (fun n => fits (re_850 n) s) [6; 7; 8; 9]%nat || fits re_asctime s)
    (v :: match rev v with 10 :: r => [rev r] | _ => [] end).

(** ** email.utils.parsedate *)

(** str.split(): the words between white space. *)
Fixpoint words_from (cur : str) (s : str) : list str :=
  match s with
  | [] => match cur with [] => [] | _ => [rev cur] end
  | c :: r => if is_space c then match cur with [] => words_from [] r | _ => rev cur :: words_from [] r end
              else words_from (c :: cur) r
  end.
Definition words (s : str) : list str := words_from [] s.

Definition months : list str :=
  map lit ["jan"; "feb"; "mar"; "apr"; "may"; "jun"; "jul"; "aug"; "sep"; "oct"; "nov"; "dec"; "january"; "february"; "march"; "april"; "may"; "june";
           "july"; "august"; "september"; "october"; "november"; "december"]%string.
Definition daynames : list str := map lit ["mon"; "tue"; "wed"; "thu"; "fri"; "sat"; "sun"]%string.

(** list.index *)
Fixpoint index_of (x : str) (l : list str) (i : Z) : option Z :=
  match l with [] => None | y :: r => if str_eqb x y then Some i else index_of x r (i + 1) end.

(** x[-1] == ',' *)
Definition ends_comma (x : str) : bool := match rev x with 44 :: _ => true | _ => false end.
Definition drop_comma (x : str) : str := if ends_comma x then removelast x else x.
(** The text after the last comma. *)
Definition after_comma (x : str) : str := last (split_on 44 x) [].

(** From the fields to the time tuple's first six; None where parsedate gives None.
    Empty fields do not occur in the texts that match the expression above. *)
Definition from_fields (dd mm yy tm tz : str) : option (Z * Z * Z * Z * Z * Z) :=
  let '(dd, mm) := if mem_str (lower mm) months then (dd, lower mm) else (lower mm, lower dd) in
  match index_of mm months 1 with
  | None => None
  | Some m =>
      let m := (if m >? 12 then m - 12 else m)%Z in
      let dd := drop_comma dd in
      let '(yy, tm) := match split_once 58 yy with (_ :: _, Some _) => (tm, yy) | _ => (yy, tm) end in
      let yy := drop_comma yy in
      let yy := match yy with c :: _ => if is_digit c then yy else tz | [] => yy end in
      let tm := drop_comma tm in
      let clock := match split_on 58 tm with
                   | [h; mi] => Some (h, mi, lit "0")
                   | [h; mi; s] => Some (h, mi, s)
                   | _ => None end in
      match clock with
      | None => None
      | Some (h, mi, s) =>
          match py_int yy, py_int dd, py_int h, py_int mi, py_int s with
          | Ok y, Ok d, Ok h, Ok mi, Ok s =>
              let y := (if y <? 100 then if y >? 68 then y + 1900 else y + 2000 else y)%Z in
              Some (y, m, d, h, mi, s)
          | _, _, _, _, _ => None
          end
      end
  end.

(** The fields: the name of the day is left out, a date with hyphens taken apart,
    a missing zone added. *)
Definition fields (w : str) (ws : list str) : list str :=
  let data := if ends_comma w || mem_str (lower w) daynames then ws else after_comma w :: ws in
  let data := match data with
              | [d; a; b] => match split_on 45 d with [x; y; z] => [x; y; z; a; b] | _ => data end
              | _ => data end in
  match data with
  | [a; b; c; s] => match split_once 43 s with
                    | (x :: r, Some t) => [a; b; c; x :: r; t]
                    | _ => [a; b; c; s; []] end
  | _ => data
  end.

Definition parsedate (v : str) : option (Z * Z * Z * Z * Z * Z) :=
  match words v with
  | [] => None
  | w :: ws => match fields w ws with
               | dd :: mm :: yy :: tm :: tz :: _ => from_fields dd mm yy tm tz
               | _ => None
               end
  end.

(** ** The calendar *)
Open Scope Z_scope.

Definition leap (y : Z) : bool := (y mod 4 =? 0) && (negb (y mod 100 =? 0) || (y mod 400 =? 0)).

(** Days before the year, before the month, counted from 1 January of the year 1. *)
Definition before_year (y : Z) : Z := 365 * (y - 1) + (y - 1) / 4 - (y - 1) / 100 + (y - 1) / 400.
Definition before_month (y m : Z) : Z :=
  nth (Z.to_nat (m - 1)) [0; 31; 59; 90; 120; 151; 181; 212; 243; 273; 304; 334] 0 + (if (m >? 2) && leap y then 1 else 0).

(** calendar.timegm. *)
Definition timegm (y m d h mi s : Z) : Z :=
  let days := before_year y + before_month y m + 1 - 719163 + d - 1 in
  ((days * 24 + h) * 60 + mi) * 60 + s.

(** time.gmtime: the date of a day, the time of day, the day of the week (Monday
    is 0).  The year is estimated by the mean length of a year. *)
Definition year_of (n : Z) : Z :=
  let g := 400 * n / 146097 + 1 in
  if n <? before_year g then g - 1 else if before_year (g + 1) <=? n then g + 1 else g.
Definition month_of (y r : Z) : Z :=
  let after m := before_month y m <=? r in
  if after 12 then 12 else if after 11 then 11 else if after 10 then 10 else if after 9 then 9 else if after 8 then 8 else if after 7 then 7
  else if after 6 then 6 else if after 5 then 5 else if after 4 then 4 else if after 3 then 3 else if after 2 then 2 else 1.
Definition civil (days : Z) : Z * Z * Z :=
  let n := days + 719162 in
  let y := year_of n in
  let r := n - before_year y in
  let m := month_of y r in
  (y, m, r - before_month y m + 1).

(** ** email.utils.formatdate(timeval, localtime=False, usegmt=True) *)

Definition day_short : list str := map lit ["Mon"; "Tue"; "Wed"; "Thu"; "Fri"; "Sat"; "Sun"]%string.
Definition month_short : list str := map lit ["Jan"; "Feb"; "Mar"; "Apr"; "May"; "Jun"; "Jul"; "Aug"; "Sep"; "Oct"; "Nov"; "Dec"]%string.

(** "%0nd" *)
Definition zero_pad (n : nat) (z : Z) : str :=
  let digits := dec (Z.abs_N z) in
  if z <? 0 then 45%N :: repeat 48%N (n - 1 - length digits) ++ digits else repeat 48%N (n - length digits) ++ digits.

Definition format_date (z : Z) : option str :=
  let '(y, m, d) := civil (z / 86400) in
  let t := z mod 86400 in
  if (y - 1900 <? -2147483648) || (2147483647 <? y - 1900) then None else
  Some (nth (Z.to_nat ((z / 86400 + 3) mod 7)) day_short [] ++ lit ", " ++ zero_pad 2 d ++ lit " " ++ nth (Z.to_nat (m - 1)) month_short [] ++ lit " " ++
        zero_pad 4 y ++ lit " " ++ zero_pad 2 (t / 3600) ++ lit ":" ++ zero_pad 2 (t / 60 mod 60) ++ lit ":" ++ zero_pad 2 (t mod 60) ++ lit " GMT").

(** ** parse_date, lines 216-230; None: ValueError. *)
Definition parse_date (v : str) : option Z :=
  if re_date v then
    match parsedate v with
    | None => None
    | Some (y, m, d, h, mi, s) =>
        let y := if y <? 100 then if y >? 68 then y + 1900 else y + 2000 else y in
        Some (timegm y m d h mi s)
    end
  else None.

(** "%x" % number, line 135. *)
Definition hex_of (z : Z) : str := if z <? 0 then 45%N :: hex (Z.abs_N z) else hex (Z.abs_N z).
Definition date_in (v : str) : option str := match parse_date v with Some z => Some (hex_of z) | None => None end.

(** int(text, 16): as [py_int], with an optional 0x. *)
Definition int16 (s : str) : option Z :=
  let s := strip is_space s in
  let '(neg, r) := match s with
                   | [] => (false, s)
                   | c :: r => if (c =? 45)%N then (true, lstrip is_space r)
                               else if (c =? 43)%N then (false, lstrip is_space r) else (false, s)
                   end in
  let r := match r with 48%N :: x :: t => if ((x =? 120) || (x =? 88))%N then t else r | _ => r end in
  match r with
  | [] => None
  | _ => match value_in 16 0 r with
         | Some n => Some (if neg then - Z.of_N n else Z.of_N n)
         | None => None
         end
  end.

(** format_date(int(value, 16)), lines 168-171; None: ValueError. *)
Definition date_out (w : str) : option str := match int16 w with Some z => format_date z | None => None end.
