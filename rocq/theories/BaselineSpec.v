(** Histories of a baseline, and small specifications used by the theorems. *)
From Verif Require Export Baseline.

(** What Rust's type system and the standard library guarantee about the
    arguments of an operation: [ord] really is an iteration order of the
    contract's object set, and channels hold values of their own type. *)
Definition bop_ok (b : baseline) (op : bop) : Prop :=
  match op with
  | BUnregister _ h ord =>
      forall cd, get (b_contracts b) h = Some cd -> Permutation ord (cd_objects cd)
  | BCreate _ _ cs => Forall channel_wt cs
  | BSetKeys t _ ks => Forall (fun k => prop_type (k_value k) = t) ks
  | _ => True
  end.

(** [bsteps b ops b']: performing [ops] on [b] does not panic and gives [b']. *)
Inductive bsteps : baseline -> list bop -> baseline -> Prop :=
| bsteps_nil b : bsteps b [] b
| bsteps_cons b op r b1 ops b2 :
    bop_ok b op -> bstep b op = (r, b1) -> r <> Panic -> bsteps b1 ops b2 ->
    bsteps b (op :: ops) b2.

(** The baselines a program can hold. *)
Definition reach (b : baseline) : Prop := exists k ops, bsteps (baseline_new k) ops b.

(** Observations: does a handle resolve, and to what? *)
Definition obj_at (b : baseline) (o : index) : option object := get (b_objects b) o.
Definition con_at (b : baseline) (h : index) : option contract_data := get (b_contracts b) h.
Definition st_at (b : baseline) (t : ptype) (h : index) : option dynprop :=
  match state_get b t h with Ok v => Some v | _ => None end.
Definition ch_at (b : baseline) (t : ptype) (h : index) : option channel :=
  match channel_get b t h with Ok v => Some v | _ => None end.

(** A contract type without any field. *)
Definition fieldless (C : contract_ty) : bool :=
  match ct_states C, ct_chans C with [], [] => true | _, _ => false end.
