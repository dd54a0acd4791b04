(** C01, C02: the arena behaves like a map from never-reused handles. *)
From Verif Require Import ArenaProofs.

(** C01/C02, full strength: whatever operations are made on an arena, its
    answers are those of the abstract handle map of [ArenaSpec]. *)
Theorem C01_arena_history_refines :
  forall (A : Type) (n : nat) (os : list (aop A)),
    Forall aop_ok os ->
    hrun (hempty (Nat.max n 1)) os (arun (with_capacity n) os).
Proof. exact (@arena_history_refines). Qed.
Print Assumptions C01_arena_history_refines.

(** C01: no handle is ever returned twice. *)
Theorem C01_handles_never_reissued :
  forall (A : Type) (n : nat) (os : list (aop A)),
    Forall aop_ok os -> NoDup (handles (arun (with_capacity n) os)).
Proof. exact (@handles_nodup). Qed.
Print Assumptions C01_handles_never_reissued.

(** C01: a handle that resolved and then stopped resolving never resolves again. *)
Theorem C01_stale_forever :
  forall (A : Type) (n : nat) (os1 os2 os3 : list (aop A)) (h : index) (v : A),
    Forall aop_ok os1 -> Forall aop_ok os2 -> Forall aop_ok os3 ->
    get (afinal (with_capacity n) os1) h = Some v ->
    get (afinal (with_capacity n) (os1 ++ os2)) h = None ->
    get (afinal (with_capacity n) (os1 ++ os2 ++ os3)) h = None.
Proof. exact (@stale_forever). Qed.
Print Assumptions C01_stale_forever.

(** C02: iteration, length, emptiness and capacity at any point of any history. *)
Theorem C02_iter_len_agree :
  forall (A : Type) (n : nat) (os : list (aop A)),
    Forall aop_ok os ->
    let a := afinal (with_capacity n) os in
    NoDup (map fst (aiter a)) /\
    (forall h v, In (h, v) (aiter a) <-> get a h = Some v) /\
    slots_increasing (aiter a) /\
    len a = length (aiter a) /\
    (is_empty a = true <-> aiter a = []) /\
    len a <= capacity a.
Proof. exact (@iter_len_agree). Qed.
Print Assumptions C02_iter_len_agree.

(** The [0 < k] restriction on [reserve] is forced by the code:
    generational-arena 0.2.8 sets the free-list head to the end of the vector
    even when it adds no slot, so the next insert panics. *)
Theorem C01_reserve_zero_refuted :
  exists os : list (aop nat), arun arena_new os = [OUnit; OPanic].
Proof. exact reserve_zero_panics. Qed.
Print Assumptions C01_reserve_zero_refuted.

(** Non-vacuity: a history that fills, removes, reuses a slot and asks for the
    stale handle meets the hypotheses, and the answers are the expected ones. *)
Example arena_history_example :
  let os := [AInsert 10; AInsert 20; AReserve 2; ARemove (mkIndex 0 0%N);
             AInsert 30; AGet (mkIndex 0 0%N); AGet (mkIndex 0 1%N); AIter; ALen] in
  Forall aop_ok os /\
  arun (with_capacity 1) os =
  [OHandle (mkIndex 0 0%N); OHandle (mkIndex 1 0%N); OUnit; OVal (Some 10);
   OHandle (mkIndex 0 1%N); OVal None; OVal (Some 30);
   OList [(mkIndex 0 1%N, 30); (mkIndex 1 0%N, 20)]; ONat 2].
Proof. split; [repeat constructor | vm_compute; reflexivity]. Qed.

Example stale_example :
  get (afinal (with_capacity 1) [AInsert 10]) (mkIndex 0 0%N) = Some 10 /\
  get (afinal (with_capacity 1) ([AInsert 10] ++ [ARemove (mkIndex 0 0%N)])) (mkIndex 0 0%N) = None /\
  get (afinal (with_capacity 1) ([AInsert 10] ++ [ARemove (mkIndex 0 0%N)] ++ [AInsert 11])) (mkIndex 0 0%N) = None.
Proof. vm_compute; auto. Qed.
