(** The three file loaders: [load_file] and [get_next_slice]. *)
From Coq Require Import List Arith ZArith String Bool QArith.
From Verif Require Import Prelude Model.Base Model.Files.
Import ListNotations.
Local Open Scope nat_scope.

(** ** HDF5 *)

(** The first object of an HDF5 file, as [h5py] presents it. *)
Inductive h5_file : Type :=
| H5Fails (e : exn)       (* cannot be opened, or is empty (IndexError) *)
| H5Group                 (* the first object is not a dataset *)
| H5Data (a : arr).

(** HDF5FlowFieldScheduler.load_file, src/synthpix/scheduler/hdf5.py:43-61. *)
Definition h5_load (disk : string -> h5_file) (p : string) : result SchedData :=
  match disk p with
  | H5Fails e => Err e
  | H5Group => Err ValueError
  | H5Data a => Ok (mkSD a None None None (Some [p]))
  end.

(** NumPy basic indexing [a[:, y, :, :]] for [y < a.shape[1]]: needs at least
    four axes (IndexError otherwise); further axes are kept. *)
Definition slice_axis1 (a : arr) (y : nat) : result arr :=
  match shape a with
  | X :: Y :: (_ :: _ :: _) =>
      let rest := tl (tl (shape a)) in
      let m := size rest in
      Ok (mkArr (X :: rest)
            (flat_map (fun x => firstn m (skipn ((x * Y + y) * m) (data a))) (seq 0 X)))
  | _ => Err IndexError
  end.

(** HDF5FlowFieldScheduler.get_next_slice, hdf5.py:63-82. *)
Definition h5_slice (d : option SchedData) (f : option string) (i : nat) : slice_res :=
  match d, f with
  | None, _ => SRaise RuntimeError
  | _, None => SRaise RuntimeError
  | Some d, Some f =>
      match nth_error (shape (sd_flow d)) 1 with
      | None => SRaise IndexError                       (* shape[1] *)
      | Some Y =>
          if Y <=? i then SEnded
          else match slice_axis1 (sd_flow d) i with
               | Ok a => SItem (mkSD a None None None (Some [f]))
               | Err e => SRaise e
               end
      end
  end.

Definition h5_loader (disk : string -> h5_file) : loader :=
  mkLoader (h5_load disk) h5_slice.

(** HDF5FlowFieldScheduler.get_flow_fields_shape, hdf5.py:84-102. *)
Definition h5_flow_shape (disk : string -> h5_file) (s : st) : result (list nat) :=
  match s_files s with
  | [] => Err IndexError
  | p :: _ =>
      match disk p with
      | H5Fails e => Err e
      | H5Group => Err ValueError
      | H5Data a =>
          match nth_error (shape a) 0, nth_error (shape a) 2 with
          | Some X, Some Z => Ok [X; Z; 2]
          | _, _ => Err IndexError
          end
      end
  end.

(** ** NumPy *)

(** NumpyFlowFieldScheduler.load_file, src/synthpix/scheduler/numpy.py:79-88;
    [npy p] is the outcome of [np.load(p)]. *)
Definition npy_load (npy : string -> result arr) (p : string) : result SchedData :=
  bind (npy p) (fun a => Ok (mkSD a None None None (Some [p]))).

(** NumpyFlowFieldScheduler.get_next_slice, numpy.py:90-117; [jpg p] is the
    outcome of [np.array(Image.open(p).convert("RGB"))]. *)
Definition npy_slice (include_images : bool) (jpg : string -> result arr)
           (d : option SchedData) (f : option string) (i : nat) : slice_res :=
  match d, f with
  | Some d, Some f =>
      if negb (i =? 0) then SEnded
      else if negb include_images then
        SItem (mkSD (sd_flow d) None None (sd_mask d) (sd_files d))
      else
        match flow_number (basename f) with
        | None => SRaise ValueError
        | Some t =>
            match jpg (img_path f (Z.of_nat t - 1)) with
            | Err e => SRaise e
            | Ok prev =>
                match jpg (img_path f (Z.of_nat t)) with
                | Err e => SRaise e
                | Ok nxt => SItem (mkSD (sd_flow d) (Some prev) (Some nxt) (sd_mask d) (sd_files d))
                end
            end
        end
  | _, _ => SRaise RuntimeError
  end.

Definition npy_loader (include_images : bool) (npy jpg : string -> result arr) : loader :=
  mkLoader (npy_load npy) (npy_slice include_images jpg).

(** NumpyFlowFieldScheduler.get_flow_fields_shape, numpy.py:119-125. *)
Definition npy_flow_shape (npy : string -> result arr) (s : st) : result (list nat) :=
  match s_files s with
  | [] => Err IndexError
  | p :: _ => bind (npy p) (fun a => Ok (shape a))
  end.

(** ** MAT *)

(** Values stored under the keys of a .mat file: an array, or something
    without a [shape] of an array (struct, string, scalar). *)
Inductive mat_val : Type := MArr (a : arr) | MOther.

Definition mat_dict : Type := list (string * mat_val).

Fixpoint lookup {A} (k : string) (l : list (string * A)) : option A :=
  match l with
  | [] => None
  | (k', v) :: l => if String.eqb k k' then Some v else lookup k l
  end.

(** What the readers say about a path: [scipy.io.loadmat] (with
    [squeeze_me=True], dunder keys dropped), [h5py.is_hdf5], and the flattened
    HDF5 tree. *)
Record mat_disk : Type := mkMat {
  m_scipy : string -> result mat_dict;
  m_is_h5 : string -> bool;
  m_h5 : string -> result mat_dict
}.

(** PIL: [np.asarray(Image.fromarray(a).resize((w, h)))]; only the shape of
    the result is known (Spec/LoaderSpec.v), the values are those of an
    arbitrary resampling function. *)
Definition pil : Type := arr -> nat -> nat -> result arr.

(** [a.shape[:2] == (h, w)]. *)
Definition head2_is (s : list nat) (h w : nat) : bool :=
  match s with
  | a :: b :: _ => (a =? h) && (b =? w)
  | _ => false
  end.

(** Resizing one image, src/synthpix/scheduler/mat.py:145-151: PIL's size is
    (width, height), but the code passes [output_shape] = (height, width). *)
Definition mat_image (r : pil) (oh ow : nat) (v : mat_val) : result arr :=
  match v with
  | MOther => Err AttributeError
  | MArr a => if head2_is (shape a) oh ow then Ok a else r a oh ow
  end.

(** [np.transpose(a, (1, 2, 0))] of a 3-axis array; ValueError otherwise. *)
Definition transpose_120 (a : arr) : result arr :=
  match shape a with
  | [A; B; C] =>
      Ok (mkArr [B; C; A]
            (flat_map (fun b => flat_map (fun c =>
               map (fun k => nth (k * (B * C) + b * C + c) (data a) 0%Q) (seq 0 A))
               (seq 0 C)) (seq 0 B)))
  | _ => Err ValueError
  end.

(** [a[..., j]], for [j] below the size of the last axis. *)
Definition last_index (a : arr) (j : nat) : result arr :=
  match rev (shape a) with
  | [] => Err IndexError
  | k :: rs =>
      if j <? k then
        let s := rev rs in
        Ok (mkArr s (map (fun i => nth (i * k + j) (data a) 0%Q) (seq 0 (size s))))
      else Err IndexError
  end.

Definition scale (q : Q) (a : arr) : arr := mkArr (shape a) (map (fun x => (x * q)%Q) (data a)).

(** [np.stack([u, v], axis=-1)]. *)
Definition stack_last (u v : arr) : result arr :=
  if list_eq_dec Nat.eq_dec (shape u) (shape v) then
    Ok (mkArr (shape u ++ [2])
          (flat_map (fun i => [nth i (data u) 0%Q; nth i (data v) 0%Q]) (seq 0 (size (shape u)))))
  else Err ValueError.

Definition qratio (a b : nat) : Q := (inject_Z (Z.of_nat a) / inject_Z (Z.of_nat b))%Q.

(** The flow part of load_file, mat.py:153-177. *)
Definition mat_flow (r : pil) (oh ow : nat) (v : mat_val) : result arr :=
  match v with
  | MOther => Err AttributeError
  | MArr a =>
      match nth_error (shape a) 2 with
      | None => Err IndexError                                   (* shape[2] *)
      | Some c =>
          if (c =? 2) || (nth 0 (shape a) 0 =? 2) then
            bind (if negb (c =? 2) then transpose_120 a else Ok a) (fun flow =>
            if head2_is (shape flow) oh ow then Ok flow
            else
              let h := nth 0 (shape flow) 0 in
              let w := nth 1 (shape flow) 0 in
              if (h =? 0) || (w =? 0) then Err ZeroDivisionError
              else
                bind (last_index flow 0) (fun u0 =>
                bind (r u0 ow oh) (fun u =>
                bind (last_index flow 1) (fun v0 =>
                bind (r v0 ow oh) (fun v =>
                stack_last (scale (qratio ow w) u) (scale (qratio oh h) v))))))
          else Err AssertionError
      end
  end.

(** MATFlowFieldScheduler.load_file, mat.py:91-185. *)
Definition mat_load (r : pil) (m : mat_disk) (include_images : bool) (oh ow : nat) (p : string)
  : result SchedData :=
  let data :=
    match m_scipy m p with
    | Ok d => Ok d
    | Err NotImplementedError | Err ValueError =>
        if m_is_h5 m p then m_h5 m p else Err ValueError
    | Err e => Err e
    end in
  bind data (fun d =>
  match lookup "V" d with
  | None => Err ValueError
  | Some v =>
      bind (if include_images then
              match lookup "I0" d, lookup "I1" d with
              | Some i0, Some i1 =>
                  bind (mat_image r oh ow i0) (fun a0 =>
                  bind (mat_image r oh ow i1) (fun a1 => Ok (Some a0, Some a1)))
              | _, _ => Err ValueError
              end
            else Ok (None, None)) (fun im =>
      bind (mat_flow r oh ow v) (fun flow =>
      Ok (mkSD flow (fst im) (snd im) None (Some [p]))))
  end).

(** MATFlowFieldScheduler.get_next_slice, mat.py:187-202. *)
Definition mat_slice (include_images : bool) (d : option SchedData) (f : option string) (i : nat)
  : slice_res :=
  match d with
  | None => SRaise RuntimeError
  | Some d =>
      if negb (i =? 0) then SEnded
      else if include_images then SItem d
      else SItem (mkSD (sd_flow d) None None (sd_mask d) (sd_files d))
  end.

Definition mat_loader (r : pil) (m : mat_disk) (include_images : bool) (oh ow : nat) : loader :=
  mkLoader (mat_load r m include_images oh ow) (mat_slice include_images).

(** MATFlowFieldScheduler.get_flow_fields_shape, mat.py:204-210. *)
Definition mat_flow_shape (oh ow : nat) : list nat := [oh; ow; 2].
