(** Model of the byte-level codecs shared by coral/pf.py and coral/rg.py:
    [struct] integers, variable-length integers, NUL-terminated names.
    A file being written is a list of bytes appended to; a file being read is
    the list of the bytes from the current position on. *)
From Verif Require Import Py.
Open Scope Z_scope.

(** Big-endian digits in base 256, most significant first, [n] of them. *)
Fixpoint be_bytes (n : nat) (v : Z) : list Z :=
  match n with
  | O => []
  | S m => v / 256 ^ Z.of_nat m mod 256 :: be_bytes m v
  end.
Definition be_value (bs : list Z) : Z := fold_left (fun a b => a * 256 + b) bs 0.

(** struct.pack of one unsigned integer of [n] bytes, big endian
    ("B", ">H", ">I", ">Q"); out of range raises struct.error. *)
Definition pack_be (n : nat) (v : Z) : res (list Z) :=
  if (0 <=? v) && (v <? 256 ^ Z.of_nat n) then Ok (be_bytes n v) else Err StructError.
(** struct.unpack; a wrong length raises struct.error. *)
Definition unpack_be (n : nat) (bs : list Z) : res Z :=
  if Z.of_nat (length bs) =? Z.of_nat n then Ok (be_value bs) else Err StructError.
(** Little endian (native order on the platforms considered). *)
Definition pack_le (n : nat) (v : Z) : res (list Z) := rmap (@rev Z) (pack_be n v).
Definition unpack_le (n : nat) (bs : list Z) : res Z := unpack_be n (rev bs).

(** f.read(n): as many of the next n bytes as exist. *)
Definition f_read (n : nat) (s : list Z) : list Z * list Z := (firstn n s, skipn n s).

(** bytes((d,)) *)
Definition one_byte (d : Z) : res (list Z) :=
  if is_byteb d then Ok [d] else Err ValueError.

(** pf.py:76-81, rg.py:89-94; the loop with fuel. *)
Fixpoint base128_loop (fuel : nat) (v : Z) (digits : list Z) : option (list Z) :=
  if 128 <=? v then
    match fuel with
    | O => None
    | S f => base128_loop f (Z.shiftr v 7) (v mod 128 :: digits)
    end
  else Some (v :: digits).
(** The fuel suffices, see C32_base128_terminates; [] stands for
    non-termination. *)
Definition base128_fuel (v : Z) : nat := S (Z.to_nat (Z.log2 v)).
Definition base128 (v : Z) : list Z :=
  match base128_loop (base128_fuel v) v [] with Some l => l | None => [] end.

(** pf.py:83-87, rg.py:96-100: the bytes appended to the file. *)
Definition writevlv (v : Z) : res (list Z) :=
  let ds := base128 v in
  hs <- mapM (fun d => one_byte (Z.lor d 128)) (removelast ds) ;;
  t <- one_byte (last ds 0) ;;
  Ok (concat hs ++ t).

(** pf.py:89-94, rg.py:102-107 *)
Definition writesvlv (v : Z) : res (list Z) :=
  w <- writevlv (Z.abs v) ;;
  Ok ((if v <? 0 then 255 else 0) :: w).

(** pf.py:100-107, rg.py:109-116; ord(b'') raises TypeError at end of file. *)
Fixpoint readvlv_loop (v : Z) (s : list Z) : res (Z * list Z) :=
  match s with
  | [] => Err TypeError
  | d :: r =>
      if negb (Z.land d 128 =? 0)
      then readvlv_loop (Z.shiftl v 7 + Z.land d 127) r
      else Ok (Z.shiftl v 7 + d, r)
  end.
Definition readvlv (s : list Z) : res (Z * list Z) := readvlv_loop 0 s.

(** pf.py:109-113, rg.py:118-122 *)
Definition readsvlv (s : list Z) : res (Z * list Z) :=
  match s with
  | [] => Err TypeError
  | g :: r => '(v, r') <- readvlv r ;; Ok (if negb (g =? 0) then - v else v, r')
  end.

(** str.encode("ascii") and bytes.decode("ascii") *)
Definition ascii_encode (s : list Z) : res (list Z) :=
  if forallb (fun c => c <? 128) s then Ok s else Err UnicodeError.
Definition ascii_decode (s : list Z) : res (list Z) :=
  if forallb (fun c => c <? 128) s then Ok s else Err UnicodeError.

(** pf.py:96-98 *)
Definition writeascii (v : list Z) : res (list Z) :=
  e <- ascii_encode v ;; Ok (e ++ [0]).

(** pf.py:115-121 (also inlined at rg.py:223-228); at end of file f.read(1) is
    b'', which is not b'\x00', so the loop goes on. *)
Fixpoint readascii_loop (fuel : nat) (bs : list Z) (s : list Z)
  : option (list Z * list Z) :=
  match fuel with
  | O => None
  | S f =>
      match s with
      | [] => readascii_loop f (bs ++ []) []
      | b :: r => if b =? 0 then Some (bs, r) else readascii_loop f (bs ++ [b]) r
      end
  end.
Definition readascii (fuel : nat) (s : list Z) : option (res (list Z * list Z)) :=
  match readascii_loop fuel [] s with
  | None => None
  | Some (bs, r) => Some (n <- ascii_decode bs ;; Ok (n, r))
  end.
