(** Python's UTF-8 codec (strict error handling), as used by str.encode("utf8")
    and bytes.decode("utf8"). Strings are lists of code points. *)
From Verif Require Import Py.
Open Scope Z_scope.

(** Unicode scalar values: what a str can hold and UTF-8 can encode. *)
Definition scalarb (c : Z) : bool :=
  ((0 <=? c) && (c <? 55296)) || ((57344 <=? c) && (c <? 1114112)).

(** One code point; a lone surrogate raises UnicodeEncodeError. *)
Definition utf8_char (c : Z) : list Z :=
  if c <? 128 then [c]
  else if c <? 2048 then [192 + c / 64; 128 + c mod 64]
  else if c <? 65536 then [224 + c / 4096; 128 + c / 64 mod 64; 128 + c mod 64]
  else [240 + c / 262144; 128 + c / 4096 mod 64; 128 + c / 64 mod 64; 128 + c mod 64].

Definition utf8_encode (s : list Z) : res (list Z) :=
  if forallb scalarb s then Ok (flat_map utf8_char s) else Err UnicodeError.

(** Continuation byte. *)
Definition contb (b : Z) : bool := (128 <=? b) && (b <? 192).

(** Strict decoding: rejects overlong forms, surrogates, values above 0x10ffff
    and truncated sequences. *)
Fixpoint utf8_decode_fuel (fuel : nat) (bs : list Z) : res (list Z) :=
  match fuel with
  | O => match bs with [] => Ok [] | _ => Err UnicodeError end
  | S f =>
      match bs with
      | [] => Ok []
      | a :: r =>
          if a <? 128 then s <- utf8_decode_fuel f r ;; Ok (a :: s)
          else if (194 <=? a) && (a <? 224) then
            match r with
            | b :: r' =>
                if contb b
                then s <- utf8_decode_fuel f r' ;; Ok ((a - 192) * 64 + (b - 128) :: s)
                else Err UnicodeError
            | _ => Err UnicodeError
            end
          else if (224 <=? a) && (a <? 240) then
            match r with
            | b :: c :: r' =>
                let v := (a - 224) * 4096 + (b - 128) * 64 + (c - 128) in
                if contb b && contb c && (2048 <=? v) && scalarb v
                then s <- utf8_decode_fuel f r' ;; Ok (v :: s)
                else Err UnicodeError
            | _ => Err UnicodeError
            end
          else if (240 <=? a) && (a <? 245) then
            match r with
            | b :: c :: d :: r' =>
                let v := (a - 240) * 262144 + (b - 128) * 4096 + (c - 128) * 64 + (d - 128) in
                if contb b && contb c && contb d && (65536 <=? v) && scalarb v
                then s <- utf8_decode_fuel f r' ;; Ok (v :: s)
                else Err UnicodeError
            | _ => Err UnicodeError
            end
          else Err UnicodeError
      end
  end.
(** Each step consumes at least one byte, so the number of bytes is enough
    fuel. *)
Definition utf8_decode (bs : list Z) : res (list Z) := utf8_decode_fuel (length bs) bs.
