(** Model of saving and loading the smoothers that keep bin values
    (smoothing/onedim.py:85-102, smoothing/multidim.py:95-115). *)
From Coq Require Import List Bool Reals String.
From Verif.Model Require Import Train.
Import ListNotations.
Local Open Scope R_scope.

(** A float; [None] is NaN, and both zeros are 0. *)
Definition float := option R.
Definition nonzero (v : float) : bool := match v with Some x => negb (Reqb x 0) | None => true end.

(** A sparse matrix with one row: number of columns, and columns and values of the
    entries kept. *)
Record csr := { c_cols : nat; c_entries : list (nat * float) }.
(** [sparse.csr_matrix(array)]: the entries that are not zero. *)
Definition csr_matrix (array : list float) : csr :=
  {| c_cols := List.length array;
     c_entries := filter (fun e => nonzero (snd e)) (combine (seq 0 (List.length array)) array) |}.
(** [toarray()[0, :]]: entries that are not kept are zero. *)
Definition toarray (m : csr) : list float :=
  map (fun j => match find (fun e => Nat.eqb (fst e) j) (c_entries m) with Some e => snd e | None => Some 0 end)
      (seq 0 (c_cols m)).

(** Attributes of an object. [Other]: a value that is neither None nor an array. *)
Inductive attr := ANone | Array (l : list float) | Sparse (m : csr) | Other (tag : nat).
Definition attrs := list (string * attr).
Fixpoint set_attr (d : attrs) (k : string) (v : attr) : attrs :=
  match d with
  | [] => [(k, v)]
  | (k', v') :: r => if String.eqb k' k then (k, v) :: r else (k', v') :: set_attr r k v
  end.
Definition get_attr (d : attrs) (k : string) : option attr := option_map snd (find (fun e => String.eqb (fst e) k) d).
(** [d.update(s)]. *)
Definition update (d s : attrs) : attrs := fold_left (fun d e => set_attr d (fst e) (snd e)) s d.

(** [__getstate__] for the attribute names [elems] (onedim.py:91-96,
    multidim.py:102-108): the object after the call, and the state. *)
Definition getstate (elems : list string) (object : attrs) : attrs * attrs :=
  (object,
   fold_left (fun state elem => match get_attr state elem with
                                | Some (Array l) => set_attr state elem (Sparse (csr_matrix l))
                                | _ => state
                                end) elems object).
(** [__setstate__] (onedim.py:98-102, multidim.py:110-115) of an object with the
    attributes [object]. *)
Definition setstate (elems : list string) (object state : attrs) : attrs :=
  update object
    (fold_left (fun state elem => match get_attr state elem with
                                  | Some (Sparse m) => set_attr state elem (Array (toarray m))
                                  | _ => state
                                  end) elems state).

(** The class attributes (onedim.py:85, multidim.py:95). *)
Definition elems_onedim : list string := ["smoothed_y_"%string].
Definition elems_multidim : list string := ["smoothed_y_"%string; "bin_weights_"%string].
