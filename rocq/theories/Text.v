(** Strings across the C boundary: crates/rsharp/cs/src/RString.cs and
    crates/rsharp/rust/src/string.rs.  A C# [string] is a list of 16-bit code units,
    a Rust [String] its list of bytes.  The conversions of the two standard
    libraries are modelled from their documentation. *)
From Verif Require Export Base.
Open Scope Z_scope.

Definition is_high (u : Z) : bool := (0xD800 <=? u) && (u <=? 0xDBFF).
Definition is_low (u : Z) : bool := (0xDC00 <=? u) && (u <=? 0xDFFF).
Definition replacement : Z := 0xFFFD.

(** Bytes of one Unicode scalar value ([UTF8Encoding], [String::push]). *)
Definition encode_scalar (z : Z) : list Z :=
  if z <? 0x80 then [z]
  else if z <? 0x800 then [0xC0 + z / 64; 0x80 + z mod 64]
  else if z <? 0x10000 then [0xE0 + z / 4096; 0x80 + (z / 64) mod 64; 0x80 + z mod 64]
  else [0xF0 + z / 262144; 0x80 + (z / 4096) mod 64; 0x80 + (z / 64) mod 64; 0x80 + z mod 64].
Definition encode_utf8 (zs : list Z) : list Z := flat_map encode_scalar zs.

(** Code units of one scalar value. *)
Definition units_of_scalar (z : Z) : list Z :=
  if z <? 0x10000 then [z]
  else [0xD800 + (z - 0x10000) / 1024; 0xDC00 + (z - 0x10000) mod 1024].
Definition encode_utf16 (zs : list Z) : list Z := flat_map units_of_scalar zs.

Definition join (hi lo : Z) : Z := 0x10000 + (hi - 0xD800) * 1024 + (lo - 0xDC00).

(** [new UTF8Encoding()] does not throw: a surrogate that is not part of a pair is
    replaced by U+FFFD. *)
Fixpoint scalars_lossy (us : list Z) : list Z :=
  match us with
  | [] => []
  | u :: t =>
      if is_high u then
        match t with
        | l :: t' => if is_low l then join u l :: scalars_lossy t' else replacement :: scalars_lossy t
        | [] => [replacement]
        end
      else if is_low u then replacement :: scalars_lossy t
      else u :: scalars_lossy t
  end.
(** RString.cs:15-16 [utf8.GetBytes(managedString)]. *)
Definition get_bytes (us : list Z) : list Z := encode_utf8 (scalars_lossy us).

(** Rust's [String::from_utf16] fails on such a surrogate. *)
Fixpoint scalars_strict (us : list Z) : option (list Z) :=
  match us with
  | [] => Some []
  | u :: t =>
      if is_high u then
        match t with
        | l :: t' => if is_low l then option_map (cons (join u l)) (scalars_strict t') else None
        | [] => None
        end
      else if is_low u then None
      else option_map (cons u) (scalars_strict t)
  end.

(** Rust's [core::str] validation ([run_utf8_validation]), on bytes. *)
Definition cont (b : Z) : bool := (0x80 <=? b) && (b <=? 0xBF).
Definition within (lo hi b : Z) : bool := (lo <=? b) && (b <=? hi).
Definition lead2 (a : Z) : bool := within 0xC2 0xDF a.
Definition pair3 (a b : Z) : bool :=
  ((a =? 0xE0) && within 0xA0 0xBF b) || (within 0xE1 0xEC a && cont b)
  || ((a =? 0xED) && within 0x80 0x9F b) || (within 0xEE 0xEF a && cont b).
Definition pair4 (a b : Z) : bool :=
  ((a =? 0xF0) && within 0x90 0xBF b) || (within 0xF1 0xF3 a && cont b)
  || ((a =? 0xF4) && within 0x80 0x8F b).
Fixpoint valid_utf8 (bs : list Z) : bool :=
  match bs with
  | [] => true
  | a :: t =>
      if a <? 0x80 then valid_utf8 t
      else match t with
           | [] => false
           | b :: t1 =>
               if lead2 a then cont b && valid_utf8 t1
               else match t1 with
                    | [] => false
                    | c :: t2 =>
                        if pair3 a b then cont c && valid_utf8 t2
                        else match t2 with
                             | [] => false
                             | d :: t3 => pair4 a b && cont c && cont d && valid_utf8 t3
                             end
                    end
           end
  end.

(** [utf8.GetString]: the scalar values of valid bytes.  (On ill-formed bytes, which
    no Rust [String] contains, .NET puts U+FFFD for maximal ill-formed pieces; here
    the rest is dropped.) *)
Fixpoint decode_utf8 (bs : list Z) : list Z :=
  match bs with
  | [] => []
  | a :: t =>
      if a <? 0x80 then a :: decode_utf8 t
      else match t with
           | [] => [replacement]
           | b :: t1 =>
               if a <? 0xE0 then (a - 0xC0) * 64 + (b - 0x80) :: decode_utf8 t1
               else match t1 with
                    | [] => [replacement]
                    | c :: t2 =>
                        if a <? 0xF0 then (a - 0xE0) * 4096 + (b - 0x80) * 64 + (c - 0x80) :: decode_utf8 t2
                        else match t2 with
                             | [] => [replacement]
                             | d :: t3 =>
                                 (a - 0xF0) * 262144 + (b - 0x80) * 4096 + (c - 0x80) * 64 + (d - 0x80)
                                 :: decode_utf8 t3
                             end
                    end
           end
  end.

(** How a call from C# can end. *)
Inductive managed (A : Type) : Type :=
| Returns (a : A)
| Throws          (* a C# exception *)
| Aborts.         (* a Rust panic: [ffi_export] aborts the process *)
Arguments Returns {A} a.
Arguments Throws {A}.
Arguments Aborts {A}.

(** string.rs:30-39 [String__copy_utf8]. *)
Definition copy_utf8 (bs : list Z) : managed (list Z) :=
  if valid_utf8 bs then Returns bs else Aborts.
(** string.rs:41-50 [String__copy_utf16]. *)
Definition copy_utf16 (us : list Z) : managed (list Z) :=
  match scalars_strict us with Some zs => Returns (encode_utf8 zs) | None => Aborts end.
(** RString.cs:13-28 [new RString(s)]: line 20 takes the address of [bytes[0]], which
    throws [IndexOutOfRangeException] if there is none.  The result is the native
    string the wrapper owns. *)
Definition rstring_new (us : list Z) : managed (list Z) :=
  match get_bytes us with
  | [] => Throws
  | bs => copy_utf8 bs
  end.
(** string.rs:18-22 [String__value], RString.cs:30-41 [Value]. *)
Definition rstring_value (native : list Z) : list Z := encode_utf16 (decode_utf8 native).
