(** The circle game: demos/circle_game/src/{lib.rs, circle.rs, components.rs,
    circle_bundle.rs}.  Bevy's scheduler is modelled by letting the systems run in
    any order, each visiting the entities in any order; drawing is left out. *)
From Verif Require Export Engine FloatBits.
Import Coq.Strings.String.StringSyntax.
Open Scope string_scope.
Open Scope list_scope.
Open Scope nat_scope.

(** circle.rs:10-24. *)
Definition Circle : contract_ty :=
  mkCty (mkCid "teleportal.app-circle_game-Circle" (0%N, 0%N, 1%N))
        [TPrim TF32; TPrim TF32] ["x"; "y"] [] [].

(** components.rs:11-22 and the [Transform] of the bundle (circle_bundle.rs:9-50):
    the components of one entity that the systems use. *)
Record entity : Type := mkEntity {
  en_kind : baseline_kind;
  en_obj : index;
  en_x : index;
  en_y : index;
  en_transform : Z * Z
}.

(** The Bevy resources and entities (lib.rs:45-68). *)
Record game : Type := mkGame {
  gm_realm : realm;
  gm_contract : contract_inst;
  gm_entities : list entity
}.

(** lib.rs:45-53: [Realm::new], then [register_contract] on the fork. *)
Definition configure : outcome game :=
  let r := realm_new "tmp id" in
  match register_contract (realm_baseline r KFork) Circle with
  | (Ok c, b) => Ok (mkGame (realm_set_baseline r KFork b) c [])
  | _ => Panic
  end.

(** lib.rs:84-86 [(val as f32 - SQUARE_SIZE as f32 / 2.0) * 50.]; 2.0 is
    0x40000000, 50.0 is 0x42480000. *)
Definition offset_and_scale (size val : nat) : Z :=
  f32_mul (f32_sub (f32_of_nat val) (f32_div (f32_of_nat size) 1073741824)) 1112014848.

(** lib.rs:81-137, the body of the loops of [setup]; an error is unwrapped by
    [report_eyre] (lib.rs:70-72), so it panics. *)
Definition spawn (size : nat) (g : game) (xy : nat * nat) : outcome game :=
  let x := offset_and_scale size (fst xy) in
  let y := offset_and_scale size (snd xy) in
  match object_create (realm_baseline (gm_realm g) KFork) (gm_contract g)
          [PPrim (VF32 x); PPrim (VF32 y)] [] with
  | (Ok o, b) =>
      match ci_state_id (gm_contract g) 0, ci_state_id (gm_contract g) 1 with
      | Some x_id, Some y_id =>
          match bind_state b x_id o with
          | Ok x_h =>
              match bind_state b y_id o with
              | Ok y_h =>
                  Ok (mkGame (realm_set_baseline (gm_realm g) KFork b) (gm_contract g)
                             (gm_entities g ++ [mkEntity KFork o x_h y_h (x, y)]))
              | _ => Panic
              end
          | _ => Panic
          end
      | _, _ => Panic
      end
  | _ => Panic
  end.
Fixpoint spawn_all (size : nat) (g : game) (l : list (nat * nat)) : outcome game :=
  match l with
  | [] => Ok g
  | p :: t => match spawn size g p with Ok g' => spawn_all size g' t | r => r end
  end.
(** lib.rs:74-141 [setup]; [SQUARE_SIZE] is 10 in the code, any size here. *)
Definition grid (size : nat) : list (nat * nat) := list_prod (seq 0 size) (seq 0 size).
Definition setup (size : nat) (g : game) : outcome game := spawn_all size g (grid size).

(** lib.rs:156-157 [base[h].value += (rand::random::<f32>() - 0.5) * 2.]; 0.5 is
    0x3f000000.  Indexing panics on an invalid handle (baseline.rs:349-360). *)
Definition nudge (rand : Z) : Z := f32_mul (f32_sub rand 1056964608) 1073741824.
Definition bump (b : baseline) (h : index) (rand : Z) : outcome baseline :=
  match state_get b (TPrim TF32) h with
  | Ok (PPrim (VF32 v)) =>
      match state_set b h (PPrim (VF32 (f32_add v (nudge rand)))) with
      | (Ok _, b') => Ok b'
      | _ => Panic
      end
  | _ => Panic
  end.
(** lib.rs:143-160, one entity, with the two random numbers drawn. *)
Definition walk_one (r : realm) (e : entity) (rx ry : Z) : outcome realm :=
  match en_kind e with
  | KFork =>
      match bump (realm_baseline r (en_kind e)) (en_x e) rx with
      | Ok b1 =>
          match bump b1 (en_y e) ry with
          | Ok b2 => Ok (realm_set_baseline r (en_kind e) b2)
          | _ => Panic
          end
      | _ => Panic
      end
  | _ => Ok r
  end.
(** [query.iter_mut()] visits the entities numbered in [vs], in that order. *)
Fixpoint random_walk (g : game) (vs : list (nat * (Z * Z))) : outcome game :=
  match vs with
  | [] => Ok g
  | (k, (rx, ry)) :: t =>
      match nth_error (gm_entities g) k with
      | None => Panic
      | Some e =>
          match walk_one (gm_realm g) e rx ry with
          | Ok r => random_walk (mkGame r (gm_contract g) (gm_entities g)) t
          | _ => Panic
          end
      end
  end.
(** lib.rs:162-172. *)
Fixpoint sync_transforms (g : game) (vs : list nat) : outcome game :=
  match vs with
  | [] => Ok g
  | k :: t =>
      match nth_error (gm_entities g) k with
      | None => Panic
      | Some e =>
          let b := realm_baseline (gm_realm g) (en_kind e) in
          match state_get b (TPrim TF32) (en_x e), state_get b (TPrim TF32) (en_y e) with
          | Ok (PPrim (VF32 x)), Ok (PPrim (VF32 y)) =>
              sync_transforms (mkGame (gm_realm g) (gm_contract g)
                (list_set (gm_entities g) k (mkEntity (en_kind e) (en_obj e) (en_x e) (en_y e) (x, y)))) t
          | _, _ => Panic
          end
      end
  end.

(** lib.rs:65-67: the two systems, in whatever order Bevy runs them. *)
Inductive system : Type := Walk (vs : list (nat * (Z * Z))) | Sync (vs : list nat).
Definition run_system (g : game) (s : system) : outcome game :=
  match s with Walk vs => random_walk g vs | Sync vs => sync_transforms g vs end.
Fixpoint run_systems (g : game) (ss : list system) : outcome game :=
  match ss with
  | [] => Ok g
  | s :: t => match run_system g s with Ok g' => run_systems g' t | r => r end
  end.
