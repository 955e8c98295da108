(** Shared vocabulary of the model: exceptions, arrays, random keys. *)
From Coq Require Import List Arith Lia String QArith.
Import ListNotations.
Local Open Scope nat_scope.

(** Python exceptions that the modelled code raises or catches.  [OtherExn n]
    stands for any further exception class (library errors); the code never
    distinguishes between them. *)
Inductive exn : Type :=
| StopIteration | EpisodeEnd | ValueError | TypeError | IndexError | KeyError
| RuntimeError | AttributeError | FileNotFoundError | AssertionError
| NotImplementedError | ZeroDivisionError | QueueFull | OtherExn (n : nat).

Definition exn_eq_dec (a b : exn) : {a = b} + {a <> b}.
Proof. decide equality; apply Nat.eq_dec. Defined.

(** The outcome of a Python call: a value or an exception. *)
Inductive result (A : Type) : Type :=
| Ok (a : A)
| Err (e : exn).
Arguments Ok {A} a.
Arguments Err {A} e.

(** Monadic sequencing of calls: an exception aborts what follows. *)
Definition bind {A B} (r : result A) (f : A -> result B) : result B :=
  match r with Ok a => f a | Err e => Err e end.

(** NumPy arrays: a shape and the elements in row-major order.  Elements are
    exact rationals (simplification: no dtype, no rounding). *)
Record arr : Type := mkArr { shape : list nat; data : list Q }.

Definition size (sh : list nat) : nat := fold_right Nat.mul 1 sh.

Definition wf_arr (a : arr) : Prop := List.length (data a) = size (shape a).

(** [a[i]] for the first axis ([numpy] basic indexing, in range). *)
Definition row (i : nat) (a : arr) : arr :=
  let s := tl (shape a) in
  mkArr s (firstn (size s) (skipn (i * size s) (data a))).

(** An all-zero array of the given shape. *)
Definition zeros (sh : list nat) : arr := mkArr sh (repeat 0%Q (size sh)).

(** Length of the first axis, [a.shape[0]] ([len(a)]). *)
Definition nrows (a : arr) : nat := hd 0 (shape a).

(** [np.stack(l)] along a new first axis: raises [ValueError] on an empty
    list and on differing shapes. *)
Definition np_stack (l : list arr) : result arr :=
  match l with
  | [] => Err ValueError
  | a :: _ =>
      if forallb (fun b => if list_eq_dec Nat.eq_dec (shape b) (shape a)
                           then true else false) l
      then Ok (mkArr (List.length l :: shape a) (flat_map data l))
      else Err ValueError
  end.

(** [np.pad(a, ((0, p), (0, 0), ...), mode="constant", constant_values=0)]
    where the pad specification has [k] pairs: [ValueError] unless [a] has
    exactly [k] axes; otherwise [p] zero rows are appended. *)
Definition np_pad0 (k p : nat) (a : arr) : result arr :=
  if Nat.eqb (List.length (shape a)) k then
    match shape a with
    | [] => Err ValueError
    | n :: s => Ok (mkArr (n + p :: s) (data a ++ repeat 0%Q (p * size s)))
    end
  else Err ValueError.

(** Random keys, kept symbolic: a key is a seed or the [i]-th result of
    splitting another key.  The code only ever splits keys and passes them to
    drawing functions; a draw is an arbitrary function of the symbolic key,
    which covers every concrete generator.  (jax.random.PRNGKey / split) *)
Inductive key : Type :=
| Seed (z : Z)
| Child (k : key) (i : nat).

(** [key, subkey = jax.random.split(key)] *)
Definition split2 (k : key) : key * key := (Child k 0, Child k 1).

(** Draws used by the schedulers. *)
Record rng : Type := mkRng {
  (** [jax.random.permutation(key, jnp.arange(n)).tolist()] *)
  rperm : key -> nat -> list nat;
  (** [jax.random.choice(key, n, shape=(m,), replace=True)] *)
  rchoice : key -> nat -> nat -> list nat
}.
