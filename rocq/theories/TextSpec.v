(** What Unicode says (The Unicode Standard, tables 3-5, 3-6 and 3-7), written
    without reference to how either library computes it. *)
From Verif Require Export Base.
Open Scope Z_scope.

(** A Unicode scalar value: a code point that is not a surrogate. *)
Definition scalar (z : Z) : Prop := 0 <= z <= 0xD7FF \/ 0xE000 <= z <= 0x10FFFF.

(** Bit distribution of UTF-8: the bytes of [z], shortest form only. *)
Definition utf8 (z : Z) (bs : list Z) : Prop :=
  scalar z /\
  ((z <= 0x7F /\ bs = [z]) \/
   (exists x y, 0 <= x < 32 /\ 0 <= y < 64 /\ z = x * 64 + y /\ 0x80 <= z <= 0x7FF /\
      bs = [0xC0 + x; 0x80 + y]) \/
   (exists x y w, 0 <= x < 16 /\ 0 <= y < 64 /\ 0 <= w < 64 /\ z = x * 4096 + y * 64 + w /\
      0x800 <= z <= 0xFFFF /\ bs = [0xE0 + x; 0x80 + y; 0x80 + w]) \/
   (exists x y w v, 0 <= x < 8 /\ 0 <= y < 64 /\ 0 <= w < 64 /\ 0 <= v < 64 /\
      z = x * 262144 + y * 4096 + w * 64 + v /\
      0x10000 <= z /\ bs = [0xF0 + x; 0x80 + y; 0x80 + w; 0x80 + v])).

(** UTF-16: one unit, or a high and a low surrogate. *)
Definition utf16 (z : Z) (us : list Z) : Prop :=
  scalar z /\
  ((z <= 0xFFFF /\ us = [z]) \/
   (exists x y, 0 <= x < 1024 /\ 0 <= y < 1024 /\ z = 0x10000 + x * 1024 + y /\
      us = [0xD800 + x; 0xDC00 + y])).

(** A text is a list of scalar values; its encoding is the concatenation. *)
Inductive encodes (one : Z -> list Z -> Prop) : list Z -> list Z -> Prop :=
| encodes_nil : encodes one [] []
| encodes_cons z zs c cs : one z c -> encodes one zs cs -> encodes one (z :: zs) (c ++ cs).

Definition high_surrogate (u : Z) : Prop := 0xD800 <= u <= 0xDBFF.
Definition low_surrogate (u : Z) : Prop := 0xDC00 <= u <= 0xDFFF.
Definition code_unit (u : Z) : Prop := 0 <= u <= 0xFFFF.

(** Position [i] of a C# string is fine unless it is a surrogate without its
    partner next to it. *)
Definition paired (us : list Z) (i : nat) : Prop :=
  exists u, nth_error us i = Some u /\
    ((~ high_surrogate u /\ ~ low_surrogate u) \/
     (high_surrogate u /\ exists l, nth_error us (S i) = Some l /\ low_surrogate l) \/
     (low_surrogate u /\ exists j h, i = S j /\ nth_error us j = Some h /\ high_surrogate h)).
