(** client/serialize/rust/tests/round_trip.rs, replayed on the model (see TestsRust.v), down
    to the bytes of the file. *)
From Verif Require Import Baseline Serializer Deserializer CApi WireSerial Wire.
Import Coq.Strings.String.StringSyntax.
Open Scope string_scope.
Open Scope list_scope.
Open Scope nat_scope.

(** round_trip.rs:11-39. *)
Definition EmptyContract : contract_ty := mkCty (mkCid "empty" (0%N, 0%N, 0%N)) [] [] [] [].
(** round_trip.rs:41-50, 57-69: [i as f32 + 0.1] and [i as f32 + 0.2] as bits. *)
Record fields : Type := mkFields { u8_0 : Z; u8_1 : Z; i8_0 : Z; i8_1 : Z; f32_0 : Z; f32_1 : Z; str_0 : string }.
Definition test_fields : list fields :=
 ([
   mkFields 0 255 (-1) (-2) 1036831949 1045220557 "0";
   mkFields 1 254 (-2) (-3) 1066192077 1067030938 "1";
   mkFields 2 253 (-3) (-4) 1074161254 1074580685 "2";
   mkFields 3 252 (-4) (-5) 1078355558 1078774989 "3";
   mkFields 4 251 (-5) (-6) 1082340147 1082549862 "4";
   mkFields 5 250 (-6) (-7) 1084437299 1084647014 "5";
   mkFields 6 249 (-7) (-8) 1086534451 1086744166 "6";
   mkFields 7 248 (-8) (-9) 1088631603 1088841318 "7";
   mkFields 8 247 (-9) (-10) 1090623898 1090728755 "8";
   mkFields 9 246 (-10) (-11) 1091672474 1091777331 "9" ])%Z.
Definition values (f : fields) : list dynprop :=
  [PPrim (VU8 (u8_0 f)); PPrim (VU8 (u8_1 f)); PPrim (VI8 (i8_0 f)); PPrim (VI8 (i8_1 f));
   PPrim (VF32 (f32_0 f)); PPrim (VF32 (f32_1 f)); PPrim (VString (str_0 f))].

(** round_trip.rs:121-157 [create_baseline]: [None] where [expect] panics. *)
Fixpoint create_all (b : baseline) (c : contract_inst) (oh ch : index) (l : list fields) : option baseline :=
  match l with
  | [] => Some b
  | f :: l =>
      match object_create b c (values f ++ [PPrim (VObjectHandle oh); PPrim (VContractDataHandle ch)]) [] with
      | (Ok _, b1) => create_all b1 c oh ch l
      | _ => None
      end
  end.
Definition create_baseline (l : list fields) : option (contract_inst * contract_inst * baseline) :=
  match register_contract (baseline_new KMain) EmptyContract with
  | (Ok ce, b) =>
      match object_create b ce [] [] with
      | (Ok eo, b) =>
          match register_contract b Example with
          | (Ok c, b) => option_map (fun b => (ce, c, b)) (create_all b c eo (ci_handle ce) l)
          | _ => None
          end
      | _ => None
      end
  | _ => None
  end.

(** round_trip.rs:159-277 [check_matches_fields]: [false] where it panics or fails. *)
Definition cid_eqb (a b : contract_id) : bool :=
  string_eqb (cid_name a) (cid_name b) && ver_eqb (cid_ver a) (cid_ver b).
Definition field (b : baseline) (c : contract_inst) (o : index) (f : exfield) : option dynprop :=
  match bind_state b (mkPid (TPrim (exfield_prim f)) (exfield_idx f) (ci_handle c)) o with
  | Ok h => match state_get b (TPrim (exfield_prim f)) h with Ok v => Some v | _ => None end
  | _ => None
  end.
Fixpoint take (v : list dynprop) (l : list fields) : option (list fields) :=
  match l with
  | [] => None
  | f :: l => if (fix eq a b := match a, b with
                   | [], [] => true | x :: a, y :: b => dynprop_eqb x y && eq a b | _, _ => false end) v (values f)
              then Some l else option_map (cons f) (take v l)
  end.
Fixpoint check_objects (b : baseline) (ce c : contract_inst) (l : list fields) (objs : list index) : bool :=
  match objs with
  | [] => match l with [] => true | _ => false end
  | o :: objs =>
      match Wire.all (map (field b c o) [U8_0; U8_1; I8_0; I8_1; F32_0; F32_1; Str_0]), field b c o Ch_0, field b c o Oh_0 with
      | Some vs, Some (PPrim (VContractDataHandle ch)), Some (PPrim (VObjectHandle oh)) =>
          match take vs l, contract_data_of b ch, Arena.get (b_objects b) oh with
          | Some l1, Ok cd, Some ob =>
              cid_eqb (cd_id cd) (ct_id EmptyContract) && Nat.eqb (length (cd_objects cd)) 1 &&
              index_eqb (o_contract ob) (ci_handle ce) && check_objects b ce c l1 objs
          | _, _, _ => false
          end
      | _, _, _ => false
      end
  end.
Definition check_matches_fields (l : list fields) (ce c : contract_inst) (b : baseline) : bool :=
  match contract_data_of b (ci_handle c), contract_data_of b (ci_handle ce) with
  | Ok cd, Ok cde =>
      cid_eqb (cd_id cd) (ct_id Example) && Nat.eqb (length (cd_objects cd)) (length l) &&
      cid_eqb (cd_id cde) (ct_id EmptyContract) && Nat.eqb (length (cd_objects cde)) 1 &&
      check_objects b ce c l (cd_objects cd)
  | _, _ => false
  end.

(** The objects of the deserializer's null contract. *)
Definition null_objects (d : deser) : list index :=
  match contract_data_of (d_base (ds_b d)) (ci_handle (d_null (ds_b d))) with Ok cd => cd_objects cd | _ => [] end.

(** round_trip.rs:52-119 [test_round_trip]; the hash orders are those of the lists. *)
Definition test : bool :=
  match create_baseline test_fields with
  | None => false
  | Some (ce, c, b) =>
      check_matches_fields test_fields ce c b &&
      match contract_data_of b (ci_handle c), contract_data_of b (ci_handle ce) with
      | Ok cd, Ok cde =>
          match save b [(c, cd_objects cd); (ce, cd_objects cde)] (fun s => (hm_cstates s, hm_ostates s)) with
          | Ok bytes =>
              match load bytes with
              | Some (Some fb) =>
                  match builder_new fb KMain with
                  | Ok d =>
                      match register_all d [Example; EmptyContract] with
                      | (Ok [c2; ce2], d) =>
                          match deserialize_all (deser_new d) [c2; ce2] with
                          | (Ok _, ds) =>
                              match deser_finish ds (ds_states ds) (null_objects ds) with
                              | Ok b2 => check_matches_fields test_fields ce2 c2 b2
                              | _ => false
                              end
                          | _ => false
                          end
                      | _ => false
                      end
                  | _ => false
                  end
              | _ => false
              end
          | _ => false
          end
      | _, _ => false
      end
  end.
Example test_round_trip : test = true.
Proof. vm_compute. reflexivity. Qed.
