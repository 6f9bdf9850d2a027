(** core/pyclustering_package.py: packages exchanged with the C++ core, as trees.
    Memory is abstracted: the array behind [data] is a list. *)
From Verif Require Import Base.

(** python values that are packed: int, float, and containers (list / tuple).
    Bytes and numpy tables are in Npack_Model; for [create], core/pyclustering_package.py:142-206 *)
Inductive value :=
| VInt (z : Z)
| VFloat (q : Q)
| VList (l : list value).

(** core/pyclustering_package.py:44-53; the types the builder may produce for such data.
    FLOAT (rounding), CHAR and WCHAR_T are not modelled. *)
Inductive ptype := TInt | TUnsignedInt | TDouble | TLong | TList | TSizeT | TUndefined.

(** the ctypes the caller may give as c_data_type; for [get_pyclustering_type], core/pyclustering_package.py:55-66 *)
Inductive ctype := c_int | c_uint | c_double | c_long | c_size_t.

(** core/pyclustering_package.py:55-66 __CTYPE_PYCLUSTERING_MAP (the modelled rows) *)
Definition get_pyclustering_type (c : ctype) : ptype :=
  match c with c_int => TInt | c_uint => TUnsignedInt | c_double => TDouble | c_long => TLong | c_size_t => TSizeT end.

(** one cell of a C array; for [package], core/pyclustering_package.py:20-34 *)
Inductive cell := CellInt (z : Z) | CellDouble (q : Q).

(** core/pyclustering_package.py:20-34 pyclustering_package: size, type, data; [cells] is used
    for scalar types, [subs] for TYPE_LIST *)
Inductive package := Package (size : nat) (type : ptype) (cells : list cell) (subs : list package).

(** ctypes conversion of a python int to a C integer of [bits] bits; for [store], core/pyclustering_package.py:205 *)
Definition wrap_signed (bits : Z) (z : Z) : Z := ((z + 2 ^ (bits - 1)) mod 2 ^ bits - 2 ^ (bits - 1))%Z.
(** for [store], core/pyclustering_package.py:205 *)
Definition wrap_unsigned (bits : Z) (z : Z) : Z := (z mod 2 ^ bits)%Z.

(** core/pyclustering_package.py:205, one element of [(c_data_type * len(dataset))( *dataset )].
    ctypes refuses a float for an integer array and a container for any array (TypeError);
    an int is accepted for a double array (the rounding of ints above 2^53 is not modelled).
    LP64 sizes. *)
Definition store (c : ctype) (v : value) : res cell :=
  match c, v with
  | c_int, VInt z => Ok (CellInt (wrap_signed 32 z))
  | c_uint, VInt z => Ok (CellInt (wrap_unsigned 32 z))
  | c_long, VInt z => Ok (CellInt (wrap_signed 64 z))
  | c_size_t, VInt z => Ok (CellInt (wrap_unsigned 64 z))
  | c_double, VInt z => Ok (CellDouble (inject_Z z))
  | c_double, VFloat q => Ok (CellDouble q)
  | _, _ => Raise TypeError
  end.

(** for [create_package], core/pyclustering_package.py:142-206 *)
Definition mapM {A B : Type} (f : A -> res B) : list A -> res (list B) :=
  fix go (l : list A) : res (list B) :=
    match l with
    | [] => Ok []
    | x :: t => do y <- f x; do t' <- go t; Ok (y :: t')
    end.

(** core/pyclustering_package.py:131-132 *)
Definition is_container (v : value) : bool := match v with VList _ => true | _ => false end.

(** core/pyclustering_package.py:165-194 __fill_type / __fill_dataset_type / __fill_specify_type
    for a first element that is not a container *)
Definition scalar_type (c_data_type : option ctype) (first : value) : ctype :=
  match c_data_type with
  | Some c => c
  | None => match first with VInt _ => c_long | _ => c_double end
  end.

(** core/pyclustering_package.py:142-206 __create_package, __fill_data; [len] of a number is
    a TypeError *)
Fixpoint create_package (c_data_type : option ctype) (dataset : value) : res package :=
  match dataset with
  | VList [] => Ok (Package 0 TUndefined [] [])
  | VList ((first :: _) as l) =>
      if is_container first then
        do subs <- mapM (create_package c_data_type) l;
        Ok (Package (length l) TList [] subs)
      else
        let c := scalar_type c_data_type first in
        do cells <- mapM (store c) l;
        Ok (Package (length l) (get_pyclustering_type c) cells [])
  | _ => Raise TypeError
  end.

(** reading one cell of a scalar array back (core/pyclustering_package.py L290) *)
Definition load (c : cell) : value :=
  match c with CellInt z => VInt z | CellDouble q => VFloat q end.

(** core/pyclustering_package.py:265-303 __extract_data / __unpack_pointer_data / __unpack_data:
    the loop over [range(0, size)] with [data[index]] (reading beyond the array is not
    python-defined: IndexError here) *)
Fixpoint extract (p : package) : res value :=
  match p with
  | Package size type cells subs =>
      match size with
      | 0 => Ok (VList [])
      | S _ =>
          match type with
          | TList =>
              let fix go (l : list package) : res (list value) :=
                match l with
                | [] => Ok []
                | x :: t => do y <- extract x; do t' <- go t; Ok (y :: t')
                end in
              if length subs =? size then do l <- go subs; Ok (VList l) else Raise IndexError
          | _ => if length cells =? size then Ok (VList (map load cells)) else Raise IndexError
          end
      end
  end.
