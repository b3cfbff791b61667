(** Specification vocabulary for printed numbers: reading a decimal number in
    scientific notation.  Nothing here is a model of code. *)

From Coq Require Import List ZArith NArith Reals String Ascii.
From Verif Require Import SpecWriter.
Import ListNotations.
Local Open Scope string_scope.

(** an integer *)
Definition read_int (s : string) : option Z :=
  match s with
  | "" => None
  | String "-" t => match t with "" => None | _ => option_map (fun n => - Z.of_N n)%Z (number 0 t) end
  | _ => option_map Z.of_N (number 0 s)
  end.

(** a number without sign: digits, perhaps with a point among them, [e] and an
    integer.  [d e x] is [d * 10^x], and each digit after the point lowers the
    exponent by one. *)
Definition read_pos (s : string) : option R :=
  match split "e" s with
  | [a; b] =>
      match split "." a, read_int b with
      | [i], Some x => match i, number 0 i with
                       | String _ _, Some n => Some (IZR (Z.of_N n) * powerRZ 10 x)%R
                       | _, _ => None
                       end
      | [i; f], Some x => match i, number 0 (i ++ f) with
                          | String _ _, Some n => Some (IZR (Z.of_N n) * powerRZ 10 (x - Z.of_nat (String.length f)))%R
                          | _, _ => None
                          end
      | _, _ => None
      end
  | _ => None
  end.

(** the number a text denotes *)
Definition read_number (s : string) : option R :=
  match s with
  | String "-" t => option_map Ropp (read_pos t)
  | _ => read_pos s
  end.
