(** What the code does when it is compiled in release mode (build_mac_host.sh -r; Cargo.toml:19
    sets nothing but [lto]): integer overflow wraps around instead of panicking, and debug
    assertions are not checked.  The functions below are those of the model that contain such
    an operation; every other function is the same in both modes.  (engine.rs:128 has a debug
    assertion too, followed by an unconditional panic.) *)
From Verif Require Export Serializer.
From Verif Require Import Tween.
Open Scope nat_scope.

(** misc.rs:22-33 [IntTweenable::ease]: the subtraction and the addition wrap;
    [from_u32(..).unwrap()] still panics. *)
Definition wrap (lo hi z : Z) : Z := ((z - lo) mod (hi - lo + 1) + lo)%Z.
Definition int_ease_release (lo hi from to : Z) (time : float) : outcome Z :=
  let diff := int_as_f32 (wrap lo hi (to - from)) in
  let scaled := f32_as_u32 (SFmul 24 128 (to_f32 time) diff) in
  if negb (Tween.fits lo hi scaled) then Panic
  else Ok (wrap lo hi (from + scaled)).

(** properties/mod.rs:38-51 [nth]: [self.pos + n] wraps. *)
Definition nth_release (types : list ptype) (it : prop_iter) (n : nat)
  : outcome (option prop_id) * prop_iter :=
  let new_pos := (N.of_nat (pi_pos it + n) mod 18446744073709551616)%N in
  if N.leb (N.of_nat (length types)) new_pos then (Ok None, mkIter (pi_contract it) (length types))
  else match nth_error types (pi_pos it) with
       | None => (Panic, it)
       | Some t =>
           let pos' := S (pi_pos it) in
           (Ok (Some (dyn_id_new (pi_contract it) pos' t)), mkIter (pi_contract it) pos')
       end.

(** serializer/mod.rs:47-152: [self.contracts.len() as u16 - 1] wraps. *)
Definition serialize_release (b : baseline) (s : ser) (c : contract_inst) (ord : list index)
  : outcome unit * ser :=
  match contract_data_of b (ci_handle c) with
  | Err e => (Err e, s)
  | Panic => (Panic, s)
  | Ok cd =>
      match ser_contract (ci_ty c) with
      | Err e => (Err e, s)
      | Panic => (Panic, s)
      | Ok fc =>
          let contracts := sr_contracts s ++ [fc] in
          let s1 := mkSer contracts (sr_states s) (sr_objects s) (hm_objects s)
                      (bm_insert index_eqb Nat.eqb (ci_handle c) (length (sr_contracts s)) (hm_contracts s))
                      (hm_cstates s) (hm_ostates s) in
          ser_objects b c ((as_u16 (length contracts) + 65535) mod 65536)%N s1 ord
      end
  end.

(** mod.rs:211-243: without the assertion of line 239, whatever stands there is replaced. *)
Fixpoint rewrite_release (b : baseline) (t : ptype) (look : dynprop -> option nat) (mk : nat -> fbval)
    (pairs : list (index * nat)) (states : list (option fbval)) : outcome (list (option fbval)) :=
  match pairs with
  | [] => Ok states
  | (h, i) :: rest =>
      match state_get b t h with
      | Ok v =>
          match look v with
          | Some j =>
              match nth_error states i with
              | Some _ => rewrite_release b t look mk rest (list_set states i (Some (mk j)))
              | None => Panic                    (* index out of range *)
              end
          | None => Panic
          end
      | _ => Panic
      end
  end.
(** mod.rs:208-272. *)
Definition finish_release (b : baseline) (s : ser) (ordc ordo : list (index * nat))
  : outcome (option fb_baseline) :=
  match rewrite_release b (TPrim TContractDataHandle) (look_contract s)
          (fun j => FContractDataHandle (as_u16 j)) ordc (sr_states s) with
  | Ok st1 =>
      match rewrite_release b (TPrim TObjectHandle) (look_object s)
              (fun j => FObjectHandle (as_u32 j)) ordo st1 with
      | Ok st2 =>
          Ok match all_some st2 with
             | Some states => Some (mkFb (Some (sr_contracts s)) (Some states) (Some (sr_objects s)))
             | None => None
             end
      | _ => Panic
      end
  | _ => Panic
  end.
