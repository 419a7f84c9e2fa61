(** Specification of convolution, independent of the model. *)
From Verif Require Import Util Rat Val Arr GridModel GridModel2 GridSpec.

(** The cell of the map that kernel cell [kx] of a kernel with [ns] cells per axis brings to map
    cell [jx].  On an axis being convolved ([true] in [act]) the kernel is centred on cell
    (n-1)/2; on an axis that is not, kernel and map cells must coincide (or the kernel has a
    single cell there).  Axes the kernel does not have are left alone. *)
Fixpoint lag (act : nat -> bool) (ns jx kx : list nat) : option (list nat) :=
  match ns, jx, kx with
  | [], _, [] => Some jx
  | n :: ns', j :: jx', k :: kx' =>
      match lag (fun i => act (S i)) ns' jx' kx' with
      | None => None
      | Some r =>
          if act 0%nat then (if (k <=? j + (n - 1) / 2)%nat then Some ((j + (n - 1) / 2 - k)%nat :: r) else None)
          else (if (k =? (if (n =? 1)%nat then 0 else j))%nat then Some (j :: r) else None)
      end
  | _, _, _ => None
  end.

(** value of a map outside of which there is nothing *)
Definition cell0 {A : Alg} (g : grid A) (jx : list nat) (p : nat) : A := if inb (g_npix g) jx then cell g jx p else v0.

(** the kernel property used for map property [p] *)
Definition kernel_prop {A : Alg} (g s : grid A) (p : nat) : nat :=
  if (g_nprop s =? 1)%nat then 0%nat else if (g_nprop g =? 1)%nat then ((g_nprop s - 1) / 2)%nat else p.

Definition conv_value {A : Alg} (act : nat -> bool) (g s : grid A) (jx : list nat) (p : nat) : A :=
  vsum (map (fun kx => match lag act (g_npix s) jx kx with
                       | Some lx => (cell0 g lx p * cell s kx (kernel_prop g s p))%V
                       | None => v0 end) (idxs (g_npix s))).

(** [axn] are the axes the call names: all axes of the kernel, or the given ones *)
Definition conv_named {A : Alg} (s : grid A) (ax : option (list Z)) (axn : list nat) : Prop :=
  match ax with None => axn = seq 0 (g_ndim s) | Some l => l = map Z.of_nat axn end.
(** the shapes fit: on axes that are not convolved the kernel has as many cells as the map, or
    one, and the properties match or one of the two has a single one *)
Definition conv_fits {A : Alg} (g s : grid A) (axn : list nat) : Prop :=
  (g_ndim s <= g_ndim g)%nat /\
  (forall i, (i < g_ndim s)%nat -> ~ In i axn -> nth i (g_npix s) 0%nat = nth i (g_npix g) 0%nat \/ nth i (g_npix s) 0%nat = 1%nat) /\
  (g_nprop s = g_nprop g \/ g_nprop s = 1 \/ g_nprop g = 1)%nat.
(** a [pad] argument and the number of cells it adds on each side of each named axis *)
Definition pad_amounts (axn : list nat) (pad : padarg) (pl : list Z) : Prop :=
  match pad with
  | PadNone => pl = repeat 0%Z (length axn)
  | PadInt z => pl = repeat z (length axn)
  | PadArr l => pl = l /\ length l = length axn
  | PadList l => False
  end.
(** a kernel is anything with data of the right shape *)
Definition kernel_ok {A : Alg} (s : grid A) : Prop :=
  length (g_npix s) = g_ndim s /\ Forall (fun n => (0 < n)%nat) (g_npix s) /\ (0 < g_nprop s)%nat /\
  exists k, g_data s = Some k /\ awf k /\ shape k = g_npix s ++ [g_nprop s].

(** a call that is meant to work: a real-space map with data, a kernel, distinct axes, fitting shapes *)
Definition conv_ready {A : Alg} (g s : grid A) (ax : option (list Z)) (axn : list nat) : Prop :=
  consistent g /\ floats g /\ g_data g <> None /\ existsb (fun b => b) (g_fsp g) = false /\ g_ispow g = false /\ kernel_ok s /\
  conv_named s ax axn /\ axn <> [] /\ NoDup axn /\ (forall a, In a axn -> (a < g_ndim g)%nat) /\ conv_fits g s axn.

(** the cell a kernel is centred on *)
Definition centre (ns : list nat) : list nat := map (fun n => ((n - 1) / 2)%nat) ns.
