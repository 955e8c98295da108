(** Another thread calls [next_episode] of a PrefetchingFlowFieldScheduler
    (src/synthpix/scheduler/prefetch.py:273-306), any number of times, while any
    number of threads are inside [get_batch] (Model/Readers.v).

    Unlocked accesses are modelled one by one: [_started] and [_t] are read in line
    288, [_t] is read again in line 289.  The deadline may pass at any iteration of
    the loop. *)
From Coq Require Import List Arith Bool.
From Verif Require Import Model.Prefetch Model.Readers.
Import ListNotations.
Local Open Scope nat_scope.

Section Skipper.
Variable sc : sched.
Variables B N : nat.

(** Where the thread that calls [next_episode] is. *)
Inductive hpc : Type :=
| HIdle                 (* between calls *)
| HCheck                (* line 288, [_started] was true *)
| HRead                 (* line 289 *)
| HLoop (todo : nat)    (* lines 292-302, [todo] still to discard *)
| HFlag                 (* line 133, called from 304 *)
| HSaw                  (* line 134 *)
| HSet                  (* line 135 *)
| HZero.                (* line 306 *)

Record hst : Type := mkH { h_r : rst sc; h_pc : hpc }.

Definition hinit (u : sc_state sc) : hst := mkH (rinit sc u) HIdle.

Inductive hevent : Type :=
| HEv (e : revent sc)        (* of the readers and the background thread *)
| HFlushed (x : item sc)     (* removed by next_episode *)
| HGaveUp                    (* its deadline passed *)
| HRuntimeError              (* the thread was started already *)
| HReturned.                 (* next_episode returned *)

Inductive hlabel : Type :=
| HR (l : rlabel)            (* a step of a reader or of the background thread *)
| HCall                      (* next_episode is called, first access *)
| HStep                      (* the next step of next_episode *)
| HExpire.                   (* its deadline passes *)

Definition hstep (s : hst) (l : hlabel) : option (list hevent * hst) :=
  let r := h_r s in
  let p := r_sh r in
  let to p c := mkH (mkR p (r_pc r)) c in
  match l with
  | HR l => match rstep sc B N r l with
            | Some (es, r') => Some (map HEv es, mkH r' (h_pc s))
            | None => None
            end
  | HCall =>
      match h_pc s, sc_len sc with
      | HIdle, None => Some ([HReturned], s)
      | HIdle, Some _ => Some ([], mkH r (if p_started p then HCheck else HFlag))
      | _, _ => None
      end
  | HStep =>
      match h_pc s, sc_len sc with
      | HCheck, Some L => Some ([], mkH r (if p_t p <? L then HRead else HFlag))
      | HRead, Some L => Some ([], mkH r (HLoop (L - p_t p)))
      | HLoop 0, _ => Some ([], mkH r HZero)
      | HLoop (S n), _ =>
          match p_queue p with
          | [] => None
          | Data b :: q => Some ([HFlushed (Data b)], to (set_queue sc p q) (HLoop n))
          | EOS :: q => Some ([HFlushed EOS], to (set_queue sc p q) HZero)
          end
      | HFlag, _ => Some ([], mkH r (if p_started p then HZero else HSaw))
      | HSaw, _ => Some ([], to (set_started sc p) HSet)
      | HSet, _ =>
          match p_worker p with
          | WIdle => Some ([], to (set_worker sc p WCheck) HZero)
          | _ => Some ([HRuntimeError], mkH r HIdle)
          end
      | HZero, _ => Some ([HReturned], to (set_t sc p 0) HIdle)
      | _, _ => None
      end
  | HExpire =>
      match h_pc s with
      | HLoop (S _) => Some ([HGaveUp], mkH r HZero)
      | _ => None
      end
  end.

Inductive hexec (s : hst) : list hlabel -> list hevent -> hst -> Prop :=
| hexec_nil : hexec s [] [] s
| hexec_snoc : forall ls l es e s1 s2,
    hexec s ls es s1 -> hstep s1 l = Some (e, s2) -> hexec s (ls ++ [l]) (es ++ e) s2.

End Skipper.

Arguments h_r {sc}. Arguments h_pc {sc}. Arguments mkH {sc}.
Arguments HEv {sc} e. Arguments HFlushed {sc} x. Arguments HGaveUp {sc}. Arguments HRuntimeError {sc}. Arguments HReturned {sc}.
