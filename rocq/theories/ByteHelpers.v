(** Model of /repo/pillowcore/ByteArrayHelpers.h, of the comparison operators of
    /repo/pillowcore/private/ByteArray.h, and of QByteArray::toInt/toLongLong as pillow uses them. *)
From Verif Require Import Bytes.
Open Scope Z_scope.

(** ** Comparisons *)

(* ByteArrayHelpers.h 125-126 (same expression at 138, 150, 162): the [good] test of one pair of chars;
   char operands are promoted to int, so f - s is the plain difference of signed values. *)
Definition ci_good (f s : ascii) : bool :=
  let f := schar f in let s := schar s in
  (f =? s) || ((f - s =? 32) && (97 <=? f) && (f <=? 122))
           || ((f - s =? -32) && (65 <=? f) && (f <=? 90)).

(* ByteArrayHelpers.h 174: LowerCaseToken variant, second operand asserted lower case *)
Definition ci_good_lower (f s : ascii) : bool :=
  let f := schar f in let s := schar s in
  (f =? s) || ((f - s =? -32) && (65 <=? f) && (f <=? 90)).

(* ByteArrayHelpers.h 118-177: size test, then the loop over both arrays *)
Fixpoint ci_loop (good : ascii -> ascii -> bool) (a b : bytes) : bool :=
  match a, b with
  | x :: a', y :: b' => if good x y then ci_loop good a' b' else false
  | _, _ => true
  end.
Definition asciiEqualsCI (a b : bytes) : bool :=
  if negb (Nat.eqb (length a) (length b)) then false else ci_loop ci_good a b.
(* ByteArrayHelpers.h 167-177 *)
Definition asciiEqualsCI_lower (a tok : bytes) : bool :=
  if negb (Nat.eqb (length a) (length tok)) then false else ci_loop ci_good_lower a tok.

(* qstrncmp(a, b, n) == 0 with n = size of both: equal up to the end or up to a common NUL *)
Fixpoint strncmp_eq (a b : bytes) : bool :=
  match a, b with
  | x :: a', y :: b' =>
      if Ascii.eqb x y then (if Ascii.eqb x NUL then true else strncmp_eq a' b') else false
  | _, _ => true
  end.
(* private/ByteArray.h 45-53: operator==(const Token&) *)
Definition eq_token (a tok : bytes) : bool := Nat.eqb (length a) (length tok) && strncmp_eq a tok.

(** ** Numbers *)

Definition INT_MIN : Z := - 2147483648.
Definition INT_MAX : Z := 2147483647.
Definition LLONG_MIN : Z := - 9223372036854775808.
Definition LLONG_MAX : Z := 9223372036854775807.

(* ByteArrayHelpers.h 100: intToChar, and char(n % Base) + '0' for Base <= 10 *)
Definition digit_char (d : Z) : ascii :=
  nth (Z.to_nat d) (lit "0123456789abcdef") NUL.

(* ByteArrayHelpers.h 103: do { append(digit of n % Base) } while ((n /= Base) > 0);
   [fuel] bounds the iterations; [appendNumber] gives one more than the bit length of n, which is
   enough for any base >= 2 (lemma digits_rev_value covers the result for all n). *)
Fixpoint digits_rev (fuel : nat) (base n : Z) : bytes :=
  match fuel with
  | O => []
  | S f => digit_char (n mod base)
           :: (if 0 <? n / base then digits_rev f base (n / base) else [])
  end.

(* ByteArrayHelpers.h 97-116, Integer = int: None is the undefined behaviour of -n at INT_MIN.
   The in-place swap loop (106-115) over what was just appended is list reversal. *)
Definition appendNumber (base : Z) (number : Z) : option bytes :=
  if number =? INT_MIN then None else
  let n := if number <? 0 then - number else number in
  let ds := digits_rev (S (Z.to_nat (Z.log2 n))) base n in
  Some (rev (ds ++ if number <? 0 then ["-"%char] else [])).

(* conversion of a qint64 argument to the int parameter of appendNumber<int, ..>
   (HttpConnection.cpp 546): modulo 2^32 into the int range (gcc/clang/msvc) *)
Definition to_int (z : Z) : Z :=
  let m := z mod 4294967296 in if m <? 2147483648 then m else m - 4294967296.

(** QByteArray::toLongLong/toInt(&ok), base 10 (Qt's bytearrayToLongLong over qstrtoll): the bytes up to
    the first NUL; leading isspace() skipped; optional sign; at least one digit; nothing after the digits;
    no overflow.  None is ok = false (value 0). *)
Fixpoint until_nul (b : bytes) : bytes :=
  match b with
  | [] => []
  | c :: t => if Ascii.eqb c NUL then [] else c :: until_nul t
  end.
Definition is_space (c : ascii) : bool := in_range 9 13 c || in_range 32 32 c.
Fixpoint skip_space (b : bytes) : bytes :=
  match b with
  | c :: t => if is_space c then skip_space t else b
  | [] => []
  end.
Fixpoint dec_value (acc : Z) (b : bytes) : option Z :=
  match b with
  | [] => Some acc
  | c :: t => if is_digit c then dec_value (10 * acc + (byte_val c - 48)) t else None
  end.
Definition strtoll_all (s : bytes) : option Z :=
  let s := skip_space s in
  let '(neg, s) := match s with
                   | c :: t => if Ascii.eqb c "-" then (true, t)
                               else if Ascii.eqb c "+" then (false, t) else (false, s)
                   | [] => (false, s)
                   end in
  match s with
  | [] => None
  | _ => match dec_value 0 s with
         | Some v => let v := if neg then - v else v in
                     if (LLONG_MIN <=? v) && (v <=? LLONG_MAX) then Some v else None
         | None => None
         end
  end.
Definition toLongLong (b : bytes) : option Z := strtoll_all (until_nul b).
Definition toInt (b : bytes) : option Z :=
  match toLongLong b with
  | Some v => if (INT_MIN <=? v) && (v <=? INT_MAX) then Some v else None
  | None => None
  end.

(** ** Percent decoding *)

(* ByteArrayHelpers.h 179-185 *)
Definition unhex (c : ascii) : Z :=
  let v := schar c in
  if (48 <=? v) && (v <=? 57) then v - 48
  else if (97 <=? v) && (v <=? 102) then v - 97 + 10
  else if (65 <=? v) && (v <=? 70) then v - 65 + 10
  else 0.

(* ByteArrayHelpers.h 196: static_cast<char>(unhex(a) << 4 | unhex(b)) *)
Definition unhex2 (a b : ascii) : ascii :=
  ascii_of_nat (Z.to_nat (Z.lor (Z.shiftl (unhex a) 4) (unhex b))).

(* reading data[i]; None is a read outside of the buffer *)
Definition load (b : bytes) (i : nat) : option ascii := nth_error b i.

(* ByteArrayHelpers.h 187-207: the in-place loop. [out]/[inp] are data/inData as indices into the one
   buffer, [sz] the running size. None: read or write outside of [0,size), or loop not finished within
   [fuel] iterations (size iterations always suffice, lemma pd_inplace_spec). *)
Fixpoint pd_loop (fuel : nat) (buf : bytes) (out inp sz0 : nat) (sz : Z) : option (bytes * Z) :=
  if negb (Nat.ltb inp sz0) then Some (buf, sz) else
  match fuel with
  | O => None
  | S f =>
      match load buf inp with
      | None => None
      | Some c =>
          if Ascii.eqb c "%" && Nat.ltb (inp + 2) sz0 then
            match load buf (inp + 1), load buf (inp + 2) with
            | Some a, Some b =>
                if Nat.ltb out (length buf)
                then pd_loop f (set_nth out (unhex2 a b) buf) (out + 1) (inp + 3) sz0 (sz - 2)
                else None
            | _, _ => None
            end
          else if Nat.ltb out (length buf)
               then pd_loop f (set_nth out c buf) (out + 1) (inp + 1) sz0 sz
               else None
      end
  end.
Definition percentDecodeInPlace (data : bytes) (size : nat) : option (bytes * Z) :=
  pd_loop size data 0 0 size (Z.of_nat size).

(* ByteArrayHelpers.h 209-240 (both overloads): copy (stack buffer below 1024 bytes, heap copy above, the
   same bytes either way), decode in place, and take the first [returned size] bytes.  The result bytes are
   then given to QString::fromUtf8, which is outside of the model. *)
Definition percentDecode_bytes (b : bytes) : option bytes :=
  match b with
  | [] => Some []
  | _ => match percentDecodeInPlace b (length b) with
         | Some (buf, n) => if n <? 0 then None else Some (firstn (Z.to_nat n) buf)
         | None => None
         end
  end.

(** ** Raw data views *)

(* ByteArrayHelpers.h 57-90: setFromRawDataAndNullterm. The target becomes a view (start, length) on
   [data] and the byte after it is overwritten by NUL, except for empty views, which touch nothing.
   The effect on the shared buffer is returned; the view is (start, length). *)
Definition nullterm (data : bytes) (start length : Z) : bytes :=
  if length =? 0 then data else store data (start + length) NUL.
