(** client/cs/tests/Keyframe.cs, replayed on the model (see TestsRust.v).  [TestVec] is
    disabled in the source with the remark that it crashes under `dotnet test`; the native
    calls it makes have the expected results in the model, so the cause lies in what the model
    leaves out (the structs that CppSharp passes and returns by value). *)
From Verif Require Import CList.
Open Scope list_scope.
Open Scope nat_scope.

Fixpoint replay (H : heap) (l : list call) : option (list ret * heap) :=
  match l with
  | [] => Some ([], H)
  | c :: l =>
      match step (fun x => x) H c with
      | Done r H1 => option_map (fun q => (r :: fst q, snd q)) (replay H1 l)
      | _ => None
      end
  end.
(** 1.0, 0.5, 1.5 *)
Definition t1 : Z := 0x3FF0000000000000.
Definition t05 : Z := 0x3FE0000000000000.
Definition t15 : Z := 0x3FF8000000000000.

(** Keyframe.cs:17-27 [TestScalar]. *)
Example test_scalar : option_map fst (replay []
  [Box__new (VU8 10); Keyframe__new TU8 (PBox 0) t1; Keyframe__value TU8 (PBox 1); Load (PValue (PBox 1));
   Keyframe__time TU8 (PBox 1); Keyframe__drop TU8 (PBox 1)]) =
  Some [RPtr (PBox 0); RPtr (PBox 1); RPtr (PValue (PBox 1)); RVal (VU8 10); RTime t1; RUnit].
Proof. vm_compute. reflexivity. Qed.

(** Keyframe.cs:31-59 [TestVec] (disabled). *)
Definition made : list call :=
  [Box__new (VU8 0); Keyframe__new TU8 (PBox 0) 0; Box__new (VU8 1); Keyframe__new TU8 (PBox 2) t05;
   Box__new (VU8 2); Keyframe__new TU8 (PBox 4) t1; Box__new (VU8 3); Keyframe__new TU8 (PBox 6) t15].
Definition pushed (H : heap) (l : list ptr) : managed (option cvec * heap) :=
  fold_left (fun acc p =>
    match acc with
    | Ok_ (v, H) => match cs_push (fun x => x) H v (Some p) with
                    | Ok_ (v', _, H') => Ok_ (v', H')
                    | Throws => Throws | Native_abort => Native_abort | Native_ub => Native_ub
                    end
    | x => x
    end) l (Ok_ (Some (mkCvec TU8 None 0 0), H)).
Definition item (H : heap) (v : option cvec) (i : Z) : option (ret * ret) :=
  match cs_get (fun x => x) H v i with
  | Ok_ p => match replay H [Keyframe__value TU8 p; Load (PValue p); Keyframe__time TU8 p] with
             | Some ([_; x; t], _) => Some (x, t)
             | _ => None
             end
  | _ => None
  end.
Example test_vec : exists rs H0 v H,
  replay [] made = Some (rs, H0) /\ pushed H0 [PBox 1; PBox 3; PBox 5; PBox 7] = Ok_ (v, H) /\
  item H v 0 = Some (RVal (VU8 0), RTime 0) /\ item H v 1 = Some (RVal (VU8 1), RTime t05) /\
  item H v 2 = Some (RVal (VU8 2), RTime t1) /\ item H v 3 = Some (RVal (VU8 3), RTime t15) /\
  cs_get (fun x => x) H None 0 = Throws.
Proof.
  do 4 eexists. split; [vm_compute; reflexivity|]. split; [vm_compute; reflexivity|]. vm_compute. auto 10.
Qed.
