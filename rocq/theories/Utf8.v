(** UTF-8 validation as done by [String::from_utf8] (Rust core, run_utf8_validation). *)
From Verif Require Import Base.

(** byte ranges of the UTF-8 table, and continuation bytes *)
Definition in_range (lo hi : N) (b : byte) : bool := (lo <=? b2n b) && (b2n b <=? hi).
Definition cont (b : byte) : bool := in_range 128 191 b.

(** Models [core::str::validations::run_utf8_validation]:
    ASCII; C2..DF + 1; E0 A0..BF + 1; E1..EC|EE..EF + 2; ED 80..9F + 1; F0 90..BF + 2; F1..F3 + 3; F4 80..8F + 2. *)
Fixpoint utf8_valid (l : bytes) : bool :=
  match l with
  | [] => true
  | b0 :: t0 =>
    if b2n b0 <? 128 then utf8_valid t0
    else match t0 with
    | [] => false
    | b1 :: t1 =>
      if in_range 194 223 b0 then cont b1 && utf8_valid t1
      else match t1 with
      | [] => false
      | b2 :: t2 =>
        if b2n b0 =? 224 then in_range 160 191 b1 && cont b2 && utf8_valid t2
        else if b2n b0 =? 237 then in_range 128 159 b1 && cont b2 && utf8_valid t2
        else if in_range 225 239 b0 then cont b1 && cont b2 && utf8_valid t2
        else match t2 with
        | [] => false
        | b3 :: t3 =>
          if b2n b0 =? 240 then in_range 144 191 b1 && cont b2 && cont b3 && utf8_valid t3
          else if in_range 241 243 b0 then cont b1 && cont b2 && cont b3 && utf8_valid t3
          else if b2n b0 =? 244 then in_range 128 143 b1 && cont b2 && cont b3 && utf8_valid t3
          else false
        end
      end
    end
  end.
