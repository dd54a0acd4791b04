(** The repository's own C# tests, replayed on the model (see TestsRust.v): the calls in the
    order of the source, with what each returned or threw.  Wrappers are numbered in the
    order in which they are made; C# properties are called each time they are read. *)
From Verif Require Import CSharp.
Import Coq.Strings.String.StringSyntax.
Open Scope string_scope.
Open Scope list_scope.
Open Scope nat_scope.

Inductive seen : Type := Returned (r : cret) | Threw (e : exn) | Broken.
Fixpoint replay (w : world) (l : list op) : list seen * world :=
  match l with
  | [] => ([], w)
  | o :: l =>
      match cs_step w o with
      | Return r w1 => let (s, w2) := replay w1 l in (Returned r :: s, w2)
      | Throw e w1 => let (s, w2) := replay w1 l in (Threw e :: s, w2)
      | _ => ([Broken], w)
      end
  end.
Definition test (l : list (op * seen)) : Prop := fst (replay empty_world (map fst l)) = map snd l.
(** [Assert.Null(x.Inner)] after the calls [l]. *)
Definition null_after (l : list (op * seen)) (x : nat) : Prop :=
  option_map wr_inner (nth_error (ww (snd (replay empty_world (map fst l)))) x) = Some None.
Definition ref i := Returned (Ref i).
Definition val v := Returned (Val v).
Definition done := Returned Nothing.
Definition invalid := Threw InvalidOperation.

(** client/cs/tests/Baseline.cs:15-28 [TestKind]. *)
Example test_kind : test
  [(NewBaseline true, ref 0); (NewBaseline false, ref 1);
   (IsMain 0, Returned (Flag true)); (IsMain 1, Returned (Flag false));
   (Dispose 0, done); (Dispose 1, done); (IsMain 0, invalid); (IsMain 1, invalid)].
Proof. vm_compute. reflexivity. Qed.

(** client/cs/tests/Contract.cs:17-44 [TestExampleContract]. *)
Example test_example_contract : test
  [(NewBaseline true, ref 0); (Register 0, ref 1); (Handle 1, ref 2);
   (GetContractData 0 2, ref 3); (DataId 3, ref 4); (IdName 4, Returned (Name "teleportal.example-ffi-contract"));
   (DataId 3, ref 5); (IdVersion 5, Returned (Version (1, 2, 3)%N));
   (GetContractData 0 2, ref 6);
   (DataId 3, ref 7); (IdName 7, Returned (Name "teleportal.example-ffi-contract"));
   (DataId 6, ref 8); (IdName 8, Returned (Name "teleportal.example-ffi-contract"));
   (DataId 3, ref 9); (IdVersion 9, Returned (Version (1, 2, 3)%N));
   (DataId 6, ref 10); (IdVersion 10, Returned (Version (1, 2, 3)%N));
   (Dispose 3, done); (Dispose 6, done); (DataId 3, invalid); (DataId 6, invalid);
   (Dispose 2, done); (Dispose 1, done); (Handle 1, invalid); (Dispose 0, done); (IsMain 0, invalid)].
Proof. vm_compute. reflexivity. Qed.

(** client/cs/tests/State.cs:16-28 [TestI8]. *)
Example test_i8 : test
  [(NewBox (VI8 (-20)), ref 0); (NewState TI8 0, ref 1);
   (StateValue TI8 1, ref 2); (BoxValue 2, val (VI8 (-20)));
   (NewBox (VI8 10), ref 3); (SetStateValue TI8 1 3, done);
   (StateValue TI8 1, ref 4); (BoxValue 4, val (VI8 10));
   (Dispose 1, done); (StateValue TI8 1, invalid)].
Proof. vm_compute. reflexivity. Qed.
(** State.cs:31-44 [TestF64]: 20181.530152399 and -56817.5919827. *)
Definition f64_1 : Z := 0x40D3B561EE0453E6.
Definition f64_2 : Z := 0xC0EBBE32F185B40A.
Definition f64_made : list (op * seen) := [(NewBox (VF64 f64_1), ref 0); (NewState TF64 0, ref 1)].
Example test_f64 : null_after f64_made 0 /\ test (f64_made ++
  [(StateValue TF64 1, ref 2); (BoxValue 2, val (VF64 f64_1));
   (NewBox (VF64 f64_2), ref 3); (SetStateValue TF64 1 3, done);
   (StateValue TF64 1, ref 4); (BoxValue 4, val (VF64 f64_2));
   (Dispose 1, done); (StateValue TF64 1, invalid)]).
Proof. split; vm_compute; reflexivity. Qed.
(** State.cs:47-62 [TestString]. *)
Definition string_made : list (op * seen) :=
  [(NewBox (VString "Hello!"), ref 0); (NewState TString 0, ref 1);
   (StateValue TString 1, ref 2); (BoxValue 2, val (VString "Hello!"))].
Example test_string : null_after string_made 0 /\ test (string_made ++
  [(Dispose 0, done); (StateValue TString 1, ref 3); (BoxValue 3, val (VString "Hello!"));
   (Dispose 1, done); (StateValue TString 1, invalid)]).
Proof. split; vm_compute; reflexivity. Qed.

(** crates/rsharp/cs/test/RBox.cs:19-27 [TestU8]; RString.cs:15-25 [TestString1]. *)
Example test_u8 : test
  [(NewBox (VU8 10), ref 0); (BoxValue 0, val (VU8 10)); (Dispose 0, done); (BoxValue 0, invalid)].
Proof. vm_compute. reflexivity. Qed.
Example test_string1 : test
  [(NewBox (VString "Hello!"), ref 0); (BoxValue 0, val (VString "Hello!")); (BoxValue 0, val (VString "Hello!"));
   (Dispose 0, done); (BoxValue 0, invalid)].
Proof. vm_compute. reflexivity. Qed.

(** client/cs/tests/Object.cs:18-51 [TestObjectCreate].  As written it does not compile
    ([ObjectCreate] is two arguments short, C49); here with the two it forgets, an object
    handle of another library and the handle of the contract. *)
Definition read (t : prim) (h n : nat) (v : dynprim) : list (op * seen) :=
  [(GetState t 0 h, ref n); (StateValue t n, ref (S n)); (BoxValue (S n), val v)].
Definition read_mut (t : prim) (h n : nat) (v : dynprim) : list (op * seen) :=
  [(GetStateMut t 0 h, ref n); (StateValue t n, ref (S n)); (BoxValue (S n), val v)].
Definition f32_0 : Z := 0.
Definition f32_1 : Z := 0x3F800000.
Example test_object_create : test (
  [(NewBaseline true, ref 0); (Register 0, ref 1); (States 1, ref 2); (NewBox (VString "foobar"), ref 3);
   (ForeignHandle (mkIndex 0 0%N), ref 4); (Handle 1, ref 5);
   (FixedObjectCreate 1 0 0 1 (-1) (-2) f32_0 f32_1 3 4 5, ref 6);
   (Field U8_0 2, ref 7); (BindState TU8 0 7 6, ref 8); (Field U8_1 2, ref 9); (BindState TU8 0 9 6, ref 10);
   (Field F32_0 2, ref 11); (BindState TF32 0 11 6, ref 12); (Field F32_1 2, ref 13); (BindState TF32 0 13 6, ref 14);
   (Field I8_0 2, ref 15); (BindState TI8 0 15 6, ref 16); (Field I8_1 2, ref 17); (BindState TI8 0 17 6, ref 18);
   (Field Str_0 2, ref 19); (BindState TString 0 19 6, ref 20)] ++
  read TU8 8 21 (VU8 0) ++ read TU8 10 23 (VU8 1) ++ read TI8 16 25 (VI8 (-1)) ++ read TI8 18 27 (VI8 (-2)) ++
  read TF32 12 29 (VF32 f32_0) ++ read TF32 14 31 (VF32 f32_1) ++ read TString 20 33 (VString "foobar") ++
  read_mut TU8 8 35 (VU8 0) ++ read_mut TU8 10 37 (VU8 1) ++ read_mut TI8 16 39 (VI8 (-1)) ++ read_mut TI8 18 41 (VI8 (-2)) ++
  read_mut TF32 12 43 (VF32 f32_0) ++ read_mut TF32 14 45 (VF32 f32_1) ++ read_mut TString 20 47 (VString "foobar") ++
  [(Dispose 6, done); (Field U8_0 2, ref 49); (BindState TU8 0 49 6, invalid)]).
Proof. vm_compute. reflexivity. Qed.

(** client/cs/tests/StateId.cs:18-48 [TestContractDataHandle] (not marked as a test, so never
    run), without the comparisons of handles, which fail: handles are objects of their own
    (C47).  Its last two disposals name the wrong variable: these two assertions fail. *)
Example test_contract_data_handle :
  let l := [(NewBaseline true, ref 0); (Register 0, ref 1); (States 1, ref 2);
   (Field U8_0 2, ref 3); (Field U8_1 2, ref 4); (Field I8_0 2, ref 5); (Field I8_1 2, ref 6); (Field F32_0 2, ref 7); (Field F32_1 2, ref 8);
   (Dispose 3, done); (IdContract TU8 3, invalid); (Dispose 4, done); (IdContract TU8 4, invalid);
   (Dispose 5, done); (IdContract TI8 5, invalid); (Dispose 5, done)] in
  test l /\ test (l ++ [(IdContract TI8 6, ref 9)]).
Proof. vm_compute. auto. Qed.
