(** Another thread calls [shutdown] of a PrefetchingFlowFieldScheduler
    (src/synthpix/scheduler/prefetch.py:221-247), any number of times, while any
    number of threads are inside [get_batch] (Model/Readers.v). *)
From Coq Require Import List Arith Bool.
From Verif Require Import Model.Prefetch Model.Readers.
Import ListNotations.
Local Open Scope nat_scope.

Section Stopper.
Variable sc : sched.
Variables B N : nat.

(** Where the thread that calls [shutdown] is. *)
Inductive kpc : Type :=
| KIdle                 (* between calls *)
| KPoll                 (* line 235 *)
| KPut                  (* line 241 *)
| KJoin.                (* lines 245-247 *)

Record kst : Type := mkK { k_r : rst sc; k_pc : kpc }.

Definition kinit (u : sc_state sc) : kst := mkK (rinit sc u) KIdle.

Inductive kevent : Type :=
| KEv (e : revent sc)        (* of the readers and the background thread *)
| KPolled (x : item sc)      (* removed by shutdown *)
| KReturned.                 (* shutdown returned *)

Inductive klabel : Type :=
| KR (l : rlabel)            (* a step of a reader or of the background thread *)
| KCall                      (* shutdown is called *)
| KStep                      (* the next step of shutdown *).

Definition with_queue (s : rst sc) (q : list (item sc)) : rst sc := mkR (set_queue sc (r_sh s) q) (r_pc s).

Definition kstep (s : kst) (l : klabel) : option (list kevent * kst) :=
  let r := k_r s in
  match l with
  | KR l => match rstep sc B N r l with
            | Some (es, r') => Some (map KEv es, mkK r' (k_pc s))
            | None => None
            end
  | KCall => match k_pc s with
             | KIdle => Some ([], mkK (mkR (set_stop sc (r_sh r)) (r_pc r)) KPoll)
             | _ => None
             end
  | KStep =>
      match k_pc s with
      | KIdle => None
      | KPoll => match p_queue (r_sh r) with
                 | [] => Some ([], mkK r KPut)
                 | x :: q => Some ([KPolled x], mkK (with_queue r q) KPut)
                 end
      | KPut => Some ([], mkK (if List.length (p_queue (r_sh r)) <? N
                               then with_queue r (p_queue (r_sh r) ++ [EOS]) else r) KJoin)
      (* [join] returns when the thread has ended or its timeout has passed *)
      | KJoin => Some ([KReturned], mkK r KIdle)
      end
  end.

Inductive kexec (s : kst) : list klabel -> list kevent -> kst -> Prop :=
| kexec_nil : kexec s [] [] s
| kexec_snoc : forall ls l es e s1 s2,
    kexec s ls es s1 -> kstep s1 l = Some (e, s2) -> kexec s (ls ++ [l]) (es ++ e) s2.

End Stopper.

Arguments k_r {sc}. Arguments k_pc {sc}. Arguments mkK {sc}.
Arguments KEv {sc} e. Arguments KPolled {sc} x. Arguments KReturned {sc}.
