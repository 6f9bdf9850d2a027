(** core/pyclustering_package.py: packing numpy tables and encoded strings; the packages and their extraction are in
    Codec_Model.  Strings that are not encoded (python str) are not modelled: line 235 gives the address of memory
    that ctypes frees after the call. *)
From Verif Require Import Base Codec_Model.

(** an element of a numpy table; float64 is a python float (isinstance), int64 and float32 are neither int nor
    float; for [first_type], core/pyclustering_package.py:165-178 *)
Inductive nscalar := NFloat64 (q : Q) | NInt64 (z : Z) | NFloat32 (q : Q).

(** the data given to the package builder: numpy.matrix, numpy arrays with one or two axes, bytes
    (core/pyclustering_package.py:142-162) *)
Inductive ndata :=
| NMatrix (cols : nat) (rows : list (list nscalar))
| NArray1 (l : list nscalar)
| NArray2 (rows : list (list nscalar))
| NBytes (l : list Z).

(** core/pyclustering_package.py:205 and 222-223: ctypes takes a number with __index__ for integer types and a
    number with __float__ for double; a python float (float64) and a float32 are refused for integer types *)
Definition nstore (c : ctype) (v : nscalar) : res cell :=
  match v with
  | NInt64 z => store c (VInt z)
  | NFloat64 q | NFloat32 q => store c (VFloat q)
  end.

(** core/pyclustering_package.py:165-194 __fill_type for the first element of a row *)
Definition first_type (c_data_type : option ctype) (first : nscalar) : res ctype :=
  match c_data_type with
  | Some c => Ok c
  | None => match first with NFloat64 _ => Ok c_double | _ => Raise NameError end
  end.

(** core/pyclustering_package.py:142-162 and 197-206 for an array with one axis *)
Definition pack_row (c_data_type : option ctype) (l : list nscalar) : res package :=
  match l with
  | [] => Ok (Package 0 TUndefined [] [])
  | first :: _ => do c <- first_type c_data_type first; do cells <- mapM (nstore c) l; Ok (Package (length l) (get_pyclustering_type c) cells [])
  end.

(** core/pyclustering_package.py:214-226: one row of a matrix; [None * cols] is a TypeError *)
Definition matrix_row (c_data_type : option ctype) (cols : nat) (l : list nscalar) : res package :=
  match c_data_type with
  | None => Raise TypeError
  | Some c => do cells <- mapM (nstore c) l; Ok (Package cols (get_pyclustering_type c) cells [])
  end.

(** core/pyclustering_package.py:142-162 __create_package, 209-229 __create_package_numpy_matrix; the elements of
    bytes are python ints *)
Definition pack (c_data_type : option ctype) (d : ndata) : res package :=
  match d with
  | NMatrix cols rows => do subs <- mapM (matrix_row c_data_type cols) rows; Ok (Package (length rows) TList [] subs)
  | NArray1 l => pack_row c_data_type l
  | NArray2 rows => match rows with [] => Ok (Package 0 TUndefined [] []) | _ => do subs <- mapM (pack_row c_data_type) rows; Ok (Package (length rows) TList [] subs) end
  | NBytes l => create_package c_data_type (VList (map VInt l))
  end.
