(** Model of cyclic_boosting/binning/bin_number_transformer.py and of
    ECdfTransformer.transform (binning/ecdf_transformer.py). *)
From Coq Require Import ZArith NArith QArith List Bool.
From Verif.Model Require Import Num BinarySearch Flags Ecdf.
Import ListNotations.
Local Open Scope Z_scope.

(** MISSING_VALUE_AS_BINNO (binning/__init__.py:16). *)
Definition MISSING : fnum := Fin (inject_Z (-1)).

(** The closure [is_finite] (bin_number_transformer.py:150-154). *)
Definition is_finite_prop (prop : N) (x : fnum) : bool :=
  if has_magic_missing_set prop
  then negb (feq x (Fin (inject_Z (-9)))) && negb (feq x (Fin (inject_Z (-999)))) && isfinite x
  else isfinite x.

(** Boolean-mask selection [xt[mask]] and assignment [xt[mask] = vals]. *)
Fixpoint select {A} (mask : list bool) (l : list A) : list A :=
  match mask, l with
  | true :: m, x :: r => x :: select m r
  | false :: m, _ :: r => select m r
  | _, _ => []
  end.
Fixpoint scatter {A} (mask : list bool) (l vals : list A) : list A :=
  match mask, l with
  | true :: m, x :: r => match vals with
                         | v :: vs => v :: scatter m r vs
                         | [] => x :: scatter m r []
                         end
  | false :: m, x :: r => x :: scatter m r vals
  | _, _ => l
  end.

(** [np.arange(n, dtype=float64)] *)
Definition arange (n : nat) : list fnum := map (fun k => Fin (inject_Z (Z.of_nat k))) (seq 0 n).

Definition nan_or (o : option fnum) : fnum := match o with Some v => v | None => NaN end.

(** [_transform_one_feature] (bin_number_transformer.py:147-177) on one column
    already converted to float64. The outer option is [None] only for failed
    searches, which the theorems exclude. *)
Definition transform_column (prop : N) (fit : fit_result) (xt : list fnum) : option (list fnum) :=
  match fit with
  | FitNone _ => Some (map (fun _ => MISSING) xt)
  | Fitted eps boundaries _ =>
      let mask := map (is_finite_prop prop) xt in
      let xf := select mask xt in
      let z := tl boundaries in
      let searched :=
        if is_continuous_set prop
        then match ge_multi z (map (fun x => fsub x eps) xf) true (length xf) with
             | Values l => Some (map (fun i => Fin (inject_Z i)) l)
             | _ => None
             end
        else match eq_multi z xf (arange (length z)) eps (length xf) with
             | Values l => Some (map nan_or l)
             | _ => None
             end in
      match searched with
      | Some vals =>
          let xt' := scatter mask xt vals in
          Some (map (fun x => if is_finite_prop prop x then x else MISSING) xt')
      | None => None
      end
  | _ => None
  end.

(** [_as_int_array_of_minimum_dtype] (bin_number_transformer.py:224-238) on
    a matrix of integer values; conversion to a k-bit integer type wraps. *)
Definition wrap (bits : Z) (x : Z) : Z :=
  (x + 2 ^ (bits - 1)) mod 2 ^ bits - 2 ^ (bits - 1).
Definition list_max (l : list Z) : Z := fold_left Z.max l (hd 0 l).
Definition list_min (l : list Z) : Z := fold_left Z.min l (hd 0 l).
Definition minimum_dtype_bits (l : list Z) : Z :=
  let maximum := match l with [] => 0 | _ => Z.max (list_max l) (Z.abs (list_min l)) end in
  if maximum <=? 2 ^ 7 - 1 then 8
  else if maximum <=? 2 ^ 15 - 1 then 16
  else if maximum <=? 2 ^ 31 - 1 then 32
  else 64.
Definition as_int_array_of_minimum_dtype (l : list Z) : list Z :=
  map (wrap (minimum_dtype_bits l)) l.

(** One column of [ECdfTransformer.transform] (ecdf_transformer.py:278-305)
    for a binning with finite boundaries; [None] elements are NaN. *)
Definition ecdf_transform_column (prop : N) (eps : Q) (boundaries cdf : list Q) (xt : list fnum)
  : option (list (option Q)) :=
  if is_continuous_set prop
  then map_opt (fun x => le_interp boundaries x cdf 0 eps) xt
  else match eq_multi (map Fin boundaries) xt cdf (Fin eps) (length xt) with
       | Values l => Some l
       | _ => None
       end.
