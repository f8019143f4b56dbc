(** Model of the smoothing of hazard maps: Utilities/smooth.py, its use in
    PlotInterface/AutoPlotHazard.py:97-131, and the argument check of
    Utilities/convolve.py.

    Arrays are functions of a row and a column number together with their
    numbers of rows [h] and columns [w].  Values are exact reals.
    [scipy.signal.convolve2d] is modelled by its documented result for
    mode='same', boundary='symm' and a kernel with an odd number of rows and
    columns: the sum of kernel times reflected image, the image being
    reflected at its edges (the edge row is repeated), again and again if the
    kernel reaches further. *)
From Coq Require Import Reals ZArith QArith String List Bool.
From Verif Require Import Base GenModel.
Import ListNotations.
Local Open Scope R_scope.

(** Sum of f 0 .. f (n-1). *)
Fixpoint sumn (f : nat -> R) (n : nat) : R :=
  match n with O => 0 | S n' => sumn f n' + f n' end.

(** Sum over the integers -n .. n, in the order of
    [numpy.mgrid[-size:size+1]], Utilities/smooth.py:28. *)
Definition zsum (n : nat) (f : Z -> R) : R :=
  sumn (fun k => f (Z.of_nat k - Z.of_nat n)%Z) (2 * n + 1).

(** The Gaussian before it is normalised, Utilities/smooth.py:29. *)
Definition gaussRaw (size : nat) (i j : Z) : R :=
  exp (- (IZR (i * i) / INR size + IZR (j * j) / INR size)).

(** gaussKern, Utilities/smooth.py:17-30.  None: for size 0 the quotient is
    0/0 and the kernel is NaN.  Negative sizes (an empty kernel) are not
    modelled. *)
Definition gaussKern (size : nat) : option (Z -> Z -> R) :=
  match size with
  | O => None
  | _ => Some (fun i j =>
           gaussRaw size i j / zsum size (fun a => zsum size (fun b => gaussRaw size a b)))
  end.

(** The row or column used for index k of an axis with L cells under
    boundary='symm'. *)
Definition reflect (L : nat) (k : Z) : nat :=
  let m := (k mod (2 * Z.of_nat L))%Z in
  if (m <? Z.of_nat L)%Z then Z.to_nat m else Z.to_nat (2 * Z.of_nat L - 1 - m).

(** signal.convolve2d(im, g, mode='same', boundary='symm') for a kernel with
    indices -n .. n in both directions. *)
Definition convolve2d (h w n : nat) (g : Z -> Z -> R) (im : nat -> nat -> R)
    (y x : nat) : R :=
  zsum n (fun i => zsum n (fun j =>
    g i j * im (reflect h (Z.of_nat y - i)) (reflect w (Z.of_nat x - j)))).

(** smooth, Utilities/smooth.py:32-45.  None: every value is NaN. *)
Definition smooth (h w : nat) (im : nat -> nat -> R) (n : nat)
  : option (nat -> nat -> R) :=
  option_map (fun g => convolve2d h w n g im) (gaussKern n).

(** The kernel size for a grid of spacing dx > 0, [int(1/dx)],
    PlotInterface/AutoPlotHazard.py:124-125. *)
Definition plotSize (dx : Q) : nat := Z.to_nat (trunc (1 / dx)).

(** A masked array: the stored value and whether it is masked.  The
    convolution takes [numpy.asarray] of its argument, that is, the stored
    values: PlotInterface/AutoPlotHazard.py:106-107 and :125. *)
Record masked := mkMasked { m_val : nat -> nat -> R; m_mask : nat -> nat -> bool }.
Definition smoothMap (h w : nat) (dx : Q) (im : masked) : option (nat -> nat -> R) :=
  smooth h w (m_val im) (plotSize dx).

(** The argument check of getKernel, Utilities/convolve.py:34-35: the name
    tested is [dir], the Python built-in function, not the parameter [d]. *)
Inductive pyobj := PyStr (s : string) | PyBuiltin (name : string).
Definition pyeq (a b : pyobj) : bool :=
  match a, b with
  | PyStr s, PyStr t => String.eqb s t
  | PyBuiltin s, PyBuiltin t => String.eqb s t
  | _, _ => false
  end.
Definition directions : list pyobj :=
  map PyStr ["N"; "NE"; "E"; "SE"; "S"; "SW"; "W"; "NW"]%string.
(** The result of the check: true when ValueError is raised.  The argument
    is the direction the caller passed. *)
Definition getKernelRaises (d : string) : bool :=
  negb (existsb (pyeq (PyBuiltin "dir")) directions).
