(** The repository's own Rust tests, replayed on the model: each [Example] is a test, with its
    assertions in the order of the source.  They check the model against what the authors
    (and the compiler, whenever they ran them) found the code to do.  They are not among the
    claims.  The round trip of client/serialize/rust/tests/round_trip.rs is in TestsWire.v. *)
From Verif Require Import Arena ArenaIter Indexing Tween Dynamic Time Macro.
Import Coq.Strings.String.StringSyntax.
Open Scope string_scope.
Open Scope list_scope.
Open Scope nat_scope.

(** crates/datastructures/arena/src/lib.rs:243-298 [test_insert_delete]. *)
Definition count {A} (a : arena A) : nat := length (aiter a).
Example test_insert_delete :
  let ar := @arena_new string in
  (len ar = 0 /\ is_empty ar = true /\ get ar (mkIndex 0 0%N) = None /\ count ar = 0) /\
  exists ar1 ar2 ar3 a b c,
    insert ar "a" = Ok (ar1, a) /\ insert ar1 "b" = Ok (ar2, b) /\ insert ar2 "c" = Ok (ar3, c) /\
    (contains ar3 a = true /\ contains ar3 b = true /\ contains ar3 c = true /\
     index_op ar3 a = Ok "a" /\ index_op ar3 b = Ok "b" /\ index_op ar3 c = Ok "c" /\
     len ar3 = 3 /\ Nat.leb (len ar3) (capacity ar3) = true /\ count ar3 = 3) /\
    exists ar4, aremove ar3 b = (ar4, Some "b") /\
    (contains ar4 a = true /\ contains ar4 b = false /\ contains ar4 c = true /\
     index_op ar4 a = Ok "a" /\ get ar4 b = None /\ get ar4 c = Some "c" /\
     len ar4 = 2 /\ Nat.leb (len ar4) (capacity ar4) = true /\ count ar4 = 2) /\
    exists ar5 b2, insert ar4 "b" = Ok (ar5, b2) /\
    (contains ar5 a = true /\ contains ar5 b = false /\ contains ar5 b2 = true /\ contains ar5 c = true /\
     index_op ar5 a = Ok "a" /\ get ar5 b = None /\ index_op ar5 b2 = Ok "b" /\ index_op ar5 c = Ok "c" /\
     len ar5 = 3 /\ Nat.leb (len ar5) (capacity ar5) = true /\ count ar5 = 3).
Proof.
  split; [vm_compute; auto|]. do 6 eexists.
  split; [vm_compute; reflexivity|]. split; [vm_compute; reflexivity|]. split; [vm_compute; reflexivity|].
  split; [vm_compute; auto 20|]. eexists. split; [vm_compute; reflexivity|]. split; [vm_compute; auto 20|].
  do 2 eexists. split; [vm_compute; reflexivity|]. vm_compute. auto 20.
Qed.

(** The times of the tests below are [f64]: [n / d], correctly rounded, is what the literal
    denotes.  [keyframe::ease] hands the function's value to the tween: that of [Linear] is
    its argument, that of [Step] 0 below one half and 1 from there on. *)
Definition q (n d : positive) : float := F64 (SFdiv 53 1024 (S754_finite false n 0) (S754_finite false d 0)).
Definition at0 : float := F64 (S754_zero false).
Definition at1 : float := q 1 1.

(** client/rust/src/contract/properties/channels/misc.rs:41-57 [test_jump_tween]. *)
Example test_jump_tween :
  let e := @jump_ease Z (-2)%Z 8%Z in
  e at0 = (-2)%Z /\ e (q 1 10) = (-2)%Z /\ e (q 9 10) = (-2)%Z /\ e at1 = 8%Z.
Proof. vm_compute. auto. Qed.

(** misc.rs:59-84 [test_int_tween], on [i32]. *)
Example test_int_tween :
  let e := int_ease i32_min i32_max (-2) 8 in
  e at0 = Ok (-2)%Z /\ e (q 9 100) = Ok (-2)%Z /\ e (q 10 100) = Ok (-1)%Z /\ e (q 11 100) = Ok (-1)%Z /\
  e (q 89 100) = Ok 6%Z /\ e (q 90 100) = Ok 7%Z /\ e (q 91 100) = Ok 7%Z /\ e at1 = Ok 8%Z.
Proof. vm_compute. auto 20. Qed.

(** client/rust/src/contract/properties/dynamic/primitive.rs:98-121 [test_partialeq]. *)
Example test_partialeq_primitive :
  let d := prim_from TU16 1337%Z in
  prim_eq_static TU16 d 1337%Z = true /\ static_eq_prim TU16 1337%Z d = true /\
  prim_eq_static TU32 d 1337%Z = false /\ static_eq_prim TU32 1337%Z d = false /\
  prim_eq_static TU16 d 7331%Z = false /\ static_eq_prim TU16 7331%Z d = false /\
  prim_eq_static TU32 d 7331%Z = false /\ static_eq_prim TU32 7331%Z d = false.
Proof. vm_compute. auto 20. Qed.

(** client/rust/src/contract/properties/dynamic/eq_impls.rs:87-111 [test_partialeq]. *)
Example test_partialeq_property :
  let u16_1 := dyn_from (TPrim TU16) 1%Z in
  let u32_1 := PPrim (prim_from TU32 1%Z) in
  dyn_eq_static (TPrim TU16) u16_1 1%Z = true /\ static_eq_dyn (TPrim TU16) 1%Z u16_1 = true /\
  dynprop_eqb u32_1 u32_1 = true /\
  dyn_eq_static (TVec TU16) u16_1 [1%Z] = false /\ static_eq_dyn (TVec TU16) [1%Z] u16_1 = false /\
  dyn_eq_static (TPrim TU16) u32_1 1%Z = false /\ static_eq_dyn (TPrim TU16) 1%Z u32_1 = false /\
  dyn_eq_static (TVec TU16) u32_1 [1%Z] = false /\ static_eq_dyn (TVec TU16) [1%Z] u32_1 = false /\
  dyn_eq_static (TVec TU32) u16_1 [2%Z] = false.
Proof. vm_compute. auto 20. Qed.

(** client/rust/src/time/mod.rs:167-197 [test_resolve_time]; [/] rounds towards zero. *)
Example test_resolve_time :
  warp_apply (mkWarp 2048 (denominator * 2))%Z 4096%Z = 4096%Z /\
  warp_apply (mkWarp 5000 (Z.quot denominator (-2)))%Z 4096%Z = 452%Z /\
  warp_apply (mkWarp 0 (Z.quot denominator 2))%Z 4096%Z = 2048%Z.
Proof. vm_compute. auto. Qed.

(** client/contract_macro/tests/test.rs:4-33 [test_macros]. *)
Example test_macros :
  (exists g, expand (DNamed [("s1", TPrim TU32); ("f1", TPrim TF64)]) = Ok g /\ g_type_ids g = [TPrim TU32; TPrim TF64]) /\
  (exists g, expand (DNamed [("c1", TPrim TF32); ("c_whatever", TPrim TU8)]) = Ok g /\ g_type_ids g = [TPrim TF32; TPrim TU8]).
Proof. split; eexists; (split; [vm_compute; reflexivity|vm_compute; reflexivity]). Qed.
