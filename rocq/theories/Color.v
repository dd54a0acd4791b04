(** The Unity demo's colour packing:
    demos/unity_states/unity/Assets/Scripts/BallStateDataSourceUnity.cs:110-131. *)
From Verif Require Export Base.
Open Scope Z_scope.

(** C# [int] values are two's complement 32-bit; [wrap32] is the value an
    unchecked operation stores. *)
Definition wrap32 (z : Z) : Z := (z + 2147483648) mod 4294967296 - 2147483648.

(** C# [x << n] on [int] (a [ushort] operand is promoted to [int]): the count is
    taken modulo 32 and the result truncated to 32 bits. *)
Definition shl_int (x n : Z) : Z := wrap32 (x * 2 ^ (n mod 32)).

(** C# [(ulong)x] from [int], unchecked: sign extension to 64 bits. *)
Definition int_to_ulong (x : Z) : Z := x mod 18446744073709551616.

(** BallStateDataSourceUnity.cs:129
    [(ulong)((r << 48) | (g << 32) | (b << 16) | a)]; the four channels are
    [ushort]s (lines 124-127; the float scaling before is not modelled). *)
Definition pack (r g b a : Z) : Z :=
  int_to_ulong (Z.lor (Z.lor (Z.lor (shl_int r 48) (shl_int g 32)) (shl_int b 16)) a).
