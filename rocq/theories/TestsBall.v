(** demos/unity_states/cs/tests/BallContract.cs:15-35 [Test], replayed on the model (see
    TestsRust.v); that using the disposed handle throws is in TestsCs.v. *)
From Verif Require Import UnityDemo.
Open Scope list_scope.
Open Scope nat_scope.

(** 420.69f *)
Definition x : Z := 1137858642.
Example test : exists c b1 o b2 h,
  ball_register (baseline_new KMain) = Ok (c, b1) /\
  ball_object_create b1 (ci_handle c)
    [PPrim (VF32 x); PPrim (VF32 0); PPrim (VF32 0); PPrim (VI16 0); PPrim (VI16 0); PPrim (VI16 0);
     PPrim (VF32 0); PPrim (VF32 0); PPrim (VF32 0); PPrim (VU64 0)] = Ok (o, b2) /\
  c_bind_state b2 (TPrim TF32) (field_id PosX) (ci_handle c) o = Ok h /\
  c_state_value b2 (TPrim TF32) h = Ok (PPrim (VF32 x)).
Proof. do 5 eexists. repeat (split; [vm_compute; reflexivity|]). vm_compute. reflexivity. Qed.
