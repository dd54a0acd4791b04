(** The Unity demo: demos/unity_states (rust/src/lib.rs, cs/src/BallContract.cs and
    the scripts BallStateDataSource{Platform,Unity,Synchronizer}.cs).  The C# calls
    are modelled by their effect on the baseline; the lifetime of the native boxes
    they pass around is modelled separately (Managed.v). *)
From Verif Require Export Baseline Color FloatBits Tween.
Import Coq.Strings.String.StringSyntax.
Open Scope string_scope.
Open Scope list_scope.
Open Scope nat_scope.

(** The ten fields of a ball, in the order of rust/src/lib.rs:59-70. *)
Inductive field : Type :=
| PosX | PosY | PosZ | EulerX | EulerY | EulerZ | ScaleX | ScaleY | ScaleZ | ColorF.
Definition fields : list field :=
  [PosX; PosY; PosZ; EulerX; EulerY; EulerZ; ScaleX; ScaleY; ScaleZ; ColorF].
Definition field_type (f : field) : ptype :=
  match f with
  | EulerX | EulerY | EulerZ => TPrim TI16
  | ColorF => TPrim TU64
  | _ => TPrim TF32
  end.
(** rust/src/lib.rs:19-70. *)
Definition Ball : contract_ty :=
  mkCty (mkCid "Ball" (0%N, 0%N, 0%N))
        [TPrim TF32; TPrim TF32; TPrim TF32; TPrim TI16; TPrim TI16; TPrim TI16;
         TPrim TF32; TPrim TF32; TPrim TF32; TPrim TU64]
        ["pos_x"; "pos_y"; "pos_z"; "euler_x"; "euler_y"; "euler_z";
         "scale_x"; "scale_y"; "scale_z"; "color"] [] [].

(** rust/src/lib.rs:86-133 and cs/src/BallStates.cs:17-94: the accessors of the
    field identifiers, [BallStates__pos_x] and so on. *)
Definition field_id (f : field) : nat :=
  match f with
  | PosX => 0 | PosY => 1 | PosZ => 2 | EulerX => 3 | EulerY => 4 | EulerZ => 5
  | ScaleX => 6 | ScaleY => 7 | ScaleZ => 8 | ColorF => 9
  end.

(** rust/src/lib.rs:139-142 [BallContract__register]: an error is unwrapped. *)
Definition ball_register (b : baseline) : outcome (contract_inst * baseline) :=
  match register_contract b Ball with (Ok c, b') => Ok (c, b') | _ => Panic end.
(** rust/src/lib.rs:168-203 [BallContract__object_create].  BallContract.cs:70-77
    passes a box holding the contract's handle where the Rust function expects the
    contract; the function only reads the handle, which is the first field of the
    contract (lib.rs:22-25), and the model reads that handle. *)
Definition ball_object_create (b : baseline) (handle : index) (vs : list dynprop)
  : outcome (index * baseline) :=
  match object_create b (mkCinst Ball handle) vs [] with (Ok o, b') => Ok (o, b') | _ => Panic end.
(** rust/src/lib.rs:205-208 [BallContract__object_remove] as called from
    BallContract.cs:82-90: the C# method takes a contract handle and passes its box
    as an object handle (both are boxed indices). *)
Definition ball_object_remove (b : baseline) (contract_handle : index) : outcome unit * baseline :=
  match object_remove b Ball contract_handle with (Ok _, b') => (Ok tt, b') | (_, b') => (Panic, b') end.
(** baseline.rs:466-474 [Baseline__bind_state_T]: an error is unwrapped. *)
Definition c_bind_state (b : baseline) (t : ptype) (k : nat) (contract o : index) : outcome index :=
  match bind_state b (mkPid t k contract) o with Ok h => Ok h | _ => Panic end.
(** baseline.rs:438-445 [Baseline__state_T], then states/mod.rs:101-105
    [State_T__value]. *)
Definition c_state_value (b : baseline) (t : ptype) (h : index) : outcome dynprop :=
  match state_get b t h with Ok v => Ok v | _ => Panic end.
(** baseline.rs:438-445 (the shared accessor, StateAccessors.cs), then
    states/mod.rs:107-112 [State_T__value_set] on the result. *)
Definition c_state_value_set (b : baseline) (t : ptype) (h : index) (v : dynprop) : outcome baseline :=
  match state_get b t h with
  | Ok _ => match state_set b h v with (Ok _, b') => Ok b' | _ => Panic end
  | _ => Panic
  end.

(** BallStateDataSourcePlatform.cs:9-21. *)
Record platform : Type := mkPlatform {
  pf_baseline : baseline;
  pf_contract : contract_inst;
  pf_object : index;
  pf_handle : field -> index
}.
(** BallStateDataSourcePlatform.cs:39-48: one handle per field, bound in this order. *)
Fixpoint bind_fields (b : baseline) (c o : index) (fs : list field) (hs : field -> index)
  : outcome (field -> index) :=
  match fs with
  | [] => Ok hs
  | f :: t =>
      match c_bind_state b (field_type f) (field_id f) c o with
      | Ok h => bind_fields b c o t (fun f' => if Nat.eqb (field_id f') (field_id f) then h else hs f')
      | _ => Panic
      end
  end.
Definition zeros : list dynprop :=
  [PPrim (VF32 0); PPrim (VF32 0); PPrim (VF32 0); PPrim (VI16 0); PPrim (VI16 0); PPrim (VI16 0);
   PPrim (VF32 0); PPrim (VF32 0); PPrim (VF32 0); PPrim (VU64 0)].
(** BallStateDataSourcePlatform.cs:23-50 [Awake]. *)
Definition awake : outcome platform :=
  match ball_register (baseline_new KMain) with
  | Ok (c, b) =>
      match ball_object_create b (ci_handle c) zeros with
      | Ok (o, b') =>
          match bind_fields b' (ci_handle c) o fields (fun _ => mkIndex 0 0%N) with
          | Ok hs => Ok (mkPlatform b' c o hs)
          | _ => Panic
          end
      | _ => Panic
      end
  | _ => Panic
  end.
(** BallStateDataSourcePlatform.cs:77-195: the getters and setters. *)
Definition platform_get (p : platform) (f : field) : outcome dynprop :=
  c_state_value (pf_baseline p) (field_type f) (pf_handle p f).
Definition platform_set (p : platform) (f : field) (v : dynprop) : outcome platform :=
  match c_state_value_set (pf_baseline p) (field_type f) (pf_handle p f) v with
  | Ok b => Ok (mkPlatform b (pf_contract p) (pf_object p) (pf_handle p))
  | _ => Panic
  end.

(** What Unity reports in one frame: transform and colour components are f32 bit
    patterns; the colour is absent if there is no renderer or material. *)
Record unity : Type := mkUnity {
  un_pos : Z * Z * Z;
  un_euler : Z * Z * Z;
  un_scale : Z * Z * Z;
  un_color : option (Z * Z * Z * Z)
}.

(** Truncation of a float towards zero; [None] for infinities and NaN. *)
Definition f32_trunc (x : spec_float) : option Z :=
  match x with
  | S754_zero _ => Some 0%Z
  | S754_finite s m e =>
      let q := (if 0 <=? e then Zpos m * 2 ^ e else Zpos m / 2 ^ (- e))%Z in
      Some (if s then (- q)%Z else q)
  | _ => None
  end.
(** C#'s [(short)x] and [(ushort)x] of a float, unchecked: truncation; when the
    result does not fit, the language leaves the value unspecified, which is the
    parameter [wild]. *)
Definition cast_int (lo hi : Z) (wild : spec_float -> Z) (x : spec_float) : Z :=
  match f32_trunc x with
  | Some z => if ((lo <=? z) && (z <=? hi))%Z then z else wild x
  | None => wild x
  end.
Definition cast_short (wild : spec_float -> Z) (bits : Z) : Z :=
  cast_int (-32768) 32767 wild (f32_decode bits).
(** BallStateDataSourceUnity.cs:124-127 [(ushort)(c.r * scale)] with [scale], the
    ushort 65535, converted to float. *)
Definition scale_channel (wild : spec_float -> Z) (c : Z) : Z :=
  cast_int 0 65535 wild (SFmul 24 128 (f32_decode c) (int_as_f32 65535)).

(** BallStateDataSourceUnity.cs:31-132, the getters; [None] is the exception of
    lines 116-119. *)
Definition unity_get (wild : spec_float -> Z) (u : unity) (f : field) : option dynprop :=
  let '(px, py, pz) := un_pos u in
  let '(ex, ey, ez) := un_euler u in
  let '(sx, sy, sz) := un_scale u in
  match f with
  | PosX => Some (PPrim (VF32 px))
  | PosY => Some (PPrim (VF32 py))
  | PosZ => Some (PPrim (VF32 pz))
  | EulerX => Some (PPrim (VI16 (cast_short wild ex)))
  | EulerY => Some (PPrim (VI16 (cast_short wild ey)))
  | EulerZ => Some (PPrim (VI16 (cast_short wild ez)))
  | ScaleX => Some (PPrim (VF32 sx))
  | ScaleY => Some (PPrim (VF32 sy))
  | ScaleZ => Some (PPrim (VF32 sz))
  | ColorF =>
      match un_color u with
      | Some (r, g, b, a) =>
          Some (PPrim (VU64 (pack (scale_channel wild r) (scale_channel wild g)
                                  (scale_channel wild b) (scale_channel wild a))))
      | None => None
      end
  end.

(** BallStateDataSourceSynchronizer.cs:29-38: the assignments, in order; an
    exception from a getter ends the frame (Unity logs it and carries on). *)
Fixpoint assign (wild : spec_float -> Z) (p : platform) (u : unity) (fs : list field) : outcome platform :=
  match fs with
  | [] => Ok p
  | f :: t =>
      match unity_get wild u f with
      | None => Ok p
      | Some v =>
          match platform_set p f v with
          | Ok p' => assign wild p' u t
          | _ => Panic
          end
      end
  end.
(** BallStateDataSourceSynchronizer.cs:24-40 [Update]; [ready] as set by lines
    12-22 (both sources assigned). *)
Definition update (wild : spec_float -> Z) (ready : bool) (p : platform) (u : unity) : outcome platform :=
  if ready then assign wild p u fields else Ok p.
Fixpoint updates (wild : spec_float -> Z) (ready : bool) (p : platform) (us : list unity) : outcome platform :=
  match us with
  | [] => Ok p
  | u :: t => match update wild ready p u with Ok p' => updates wild ready p' t | _ => Panic end
  end.
