(** * Model of the replacement that shortens host names: re.sub in lines 47-48 of
      compressor/delta/__init__.py, 50-51 of compressor/delta2/__init__.py and 68-69 of
      compressor/delta2_bohe/__init__.py (Python 2):

        re.sub('[0-1a-zA-Z-\.]* \.([^.]* \.[^.]* )', '\\1', host)

    (without the blanks, which this comment needs after stars).

    In D1Code_Model, D2Code_Model and the theorems about them the replacement is an
    arbitrary function; [norm_host] is the one that the code uses.  Characters are code
    points.  The matcher is Python's: a star takes as much as it can and gives back one
    character at a time until the rest of the pattern matches; re.sub replaces matches from
    left to right, and no match of this pattern is empty. *)
From Coq Require Import String List NArith Bool Arith.
From Verif Require Import PyBase PyStr.
Import ListNotations.
Open Scope N_scope.

(** The class [0-1a-zA-Z-\.] of the pattern. *)
Definition in_class (c : N) : bool :=
  ((48 <=? c) && (c <=? 49)) || ((97 <=? c) && (c <=? 122)) || ((65 <=? c) && (c <=? 90)) || (c =? 45) || (c =? 46).
(** The class [^.]. *)
Definition no_dot (c : N) : bool := negb (c =? 46).

(** A starred class followed by [k]; [k] is given what the star has taken and what is left. *)
Fixpoint star {A} (p : N -> bool) (k : str -> str -> option A) (taken s : str) : option A :=
  match s with
  | [] => k taken []
  | c :: r =>
      if p c then match star p k (taken ++ [c]) r with Some x => Some x | None => k taken s end
      else k taken s
  end.
(** A full stop followed by [k]. *)
Definition stop {A} (k : str -> option A) (s : str) : option A :=
  match s with c :: r => if c =? 46 then k r else None | [] => None end.

(** The pattern at the start of [s]: the text of the group and what follows the match. *)
Definition host_match (s : str) : option (str * str) :=
  star in_class (fun _ s => stop (fun s =>
    star no_dot (fun a s => stop (fun s => star no_dot (fun b s => Some (a ++ 46 :: b, s)) [] s) s) [] s) s) [] s.

(** re.sub: [fuel] bounds the number of characters looked at. *)
Fixpoint host_sub (fuel : nat) (s : str) : str :=
  match fuel with
  | O => s
  | S f =>
      match host_match s with
      | Some (g, rest) => g ++ host_sub f rest
      | None => match s with [] => [] | c :: r => c :: host_sub f r end
      end
  end.
Definition norm_host (s : str) : str := host_sub (length s) s.
