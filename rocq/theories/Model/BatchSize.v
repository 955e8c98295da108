(** [get_batch] called with a batch size of any type:
    BaseFlowFieldScheduler.get_batch (src/synthpix/scheduler/base.py:196-289),
    EpisodicFlowFieldScheduler.get_batch (episodic.py:137-168),
    PrefetchingFlowFieldScheduler.get_batch (prefetch.py:77-121).
    Model/Base.v, Model/Episodic.v and Model/Prefetch.v have the three for
    non-negative integers. *)
From Coq Require Import List Arith ZArith QArith String Bool.
From Verif Require Import Prelude Model.PyVal Model.Base Model.Episodic Model.Prefetch.
Import ListNotations.
Local Open Scope nat_scope.

(** What is left to NumPy in [np.ones((batch_size,), dtype=bool)],
    base.py:213: whether a bool is taken as a size, and which sizes cannot be
    allocated (with the exception raised). *)
Record npsizes : Type := mkNpsizes { nz_bool : bool; nz_fails : nat -> option exn }.

(** base.py:213: negative dimensions raise ValueError; what is not an integer
    raises TypeError.  [range(batch_size)], line 214, takes what passed. *)
Definition np_ones (z : npsizes) (v : pyval) : result nat :=
  let alloc n := match nz_fails z n with Some e => Err e | None => Ok n end in
  match v with
  | PInt i => if (i <? 0)%Z then Err ValueError else alloc (Z.to_nat i)
  | PBool b => if nz_bool z then alloc (if b then 1 else 0) else Err TypeError
  | _ => Err TypeError
  end.

(** base.py:196-289 *)
Definition get_batch_any (z : npsizes) (c : cfg) (fuel : nat) (v : pyval) (s : st) : call_res * st :=
  match np_ones z v with
  | Err e => (CRaise e, s)
  | Ok n => get_batch c fuel n s
  end.

(** [batch_size != self.batch_size], where the right side is an int: a value
    that is no number is different. *)
Definition py_ne_int (v : pyval) (b : nat) : bool :=
  match num_of v with
  | Some x => let y := Fin (inject_Z (Z.of_nat b)) in negb (num_leb x y && num_leb y x)
  | None => true
  end.

(** episodic.py:137-168: the step counter is advanced (line 163) before the
    wrapped scheduler looks at the size (line 165). *)
Definition ep_get_any (z : npsizes) (ec : ecfg) (fuel : nat) (v : pyval) (s : est) : call_res * est :=
  if py_ne_int v (ec_B ec) then (CRaise ValueError, s)
  else if ec_L ec <=? e_t s then (CRaise EpisodeEnd, s)
  else
    let (r, b) := get_batch_any z (ec_base ec) fuel v (e_base s) in
    (r, mkEst b (e_key s) (S (e_t s))).

(** prefetch.py:92-109: the size is only compared; the background thread asks
    for the size given to the constructor (line 147). *)
Definition call_get_any (sc : sched) (B : nat) (v : pyval) (s : pst sc) : list (event sc) * pst sc :=
  if py_ne_int v B then ([EvValueError], s) else call_get sc B B s.

(** Consumers that call with sizes of any type. *)
Inductive vop : Type := VGet (v : pyval) | VReset.

Definition do_vop (z : npsizes) (c : cfg) (fuel : nat) (o : vop) (s : st) : obs * st :=
  match o with
  | VGet v => let (r, s') := get_batch_any z c fuel v s in (ORes r, s')
  | VReset => (OUnit, reset c s)
  end.

Fixpoint run_any (z : npsizes) (c : cfg) (fuel : nat) (ops : list vop) (s : st) : list obs * st :=
  match ops with
  | [] => ([], s)
  | o :: ops =>
      let (r, s1) := do_vop z c fuel o s in
      let (rs, s2) := run_any z c fuel ops s1 in
      (r :: rs, s2)
  end.

Inductive vep : Type := VEGet (v : pyval) | VENext | VEReset | VEIter.

Definition do_vep (z : npsizes) (ec : ecfg) (fuel : nat) (o : vep) (s : est) : obs * est :=
  match o with
  | VEGet v => let (r, s') := ep_get_any z ec fuel v s in (ORes r, s')
  | VENext | VEReset => (OUnit, next_episode ec s)
  | VEIter => (OUnit, ep_iter s)
  end.

Fixpoint erun_any (z : npsizes) (ec : ecfg) (fuel : nat) (ops : list vep) (s : est) : list obs * est :=
  match ops with
  | [] => ([], s)
  | o :: ops =>
      let (r, s1) := do_vep z ec fuel o s in
      let (rs, s2) := erun_any z ec fuel ops s1 in
      (r :: rs, s2)
  end.
