(** Property theorems C11-C12: padding and cropping. *)
From Verif Require Import Util Rat Val Arr GridModel GridSpec GridAxis GridNew GridAdd GridCat GridSpectra GridSpecFunc GridEx GridPad GridCrop.
Open Scope Qc_scope.

(** * C11: padding.  The full claim quantifies over every list of named axes; the
    code reads [pad[ax[i]]] instead of the entry requested for axis [i], so the
    claim holds exactly when those two entries agree ([pads_agree]). *)
Theorem C11_pad_partial {A : Alg} (g : grid A) ax pad val : consistent g -> floats g -> pad_call_ok g ax pad ->
  let pad' := spread ax pad in
  pads_agree g ax pad' ->
  (forall i, (i < g_ndim g)%nat -> (2 <= Z.of_nat (nth i (g_npix g) 0%nat) + 2 * pad_of ax pad' i)%Z) ->
  exists g', grid_pad g (map Z.of_nat ax) pad val = (g', Ok tt) /\ consistent g' /\ floats g' /\
    g_nprop g' = g_nprop g /\ g_nobj g' = g_nobj g /\ g_ndim g' = g_ndim g /\ g_center g' = g_center g /\
    g_axu g' = g_axu g /\ g_faxu g' = g_faxu g /\ g_gru g' = g_gru g /\ g_fsp g' = g_fsp g /\ g_ispow g' = g_ispow g /\
    (forall i, (i < g_ndim g)%nat ->
       Z.of_nat (nth i (g_npix g') 0%nat) = (Z.of_nat (nth i (g_npix g) 0%nat) + 2 * pad_of ax pad' i)%Z /\
       (nth i (g_fsp g) false = false -> fnth (g_pix g') i = fnth (g_pix g) i) /\
       (nth i (g_fsp g) false = true -> fnth (g_side g') i = fnth (g_side g) i)) /\
    match g_data g, g_data g' with
    | None, None => True
    | Some d, Some d' => forall ix k, inb (g_npix g') ix = true -> (k < g_nprop g)%nat ->
        (forall jx, inb (g_npix g) jx = true -> shifted (pads g ax pad') jx ix = true ->
           getd v0 d' (ix ++ [k]) = getd v0 d (jx ++ [k])) /\
        ((forall jx, inb (g_npix g) jx = true -> shifted (pads g ax pad') jx ix = false) ->
           getd v0 d' (ix ++ [k]) = val)
    | _, _ => False
    end.
Proof. exact (c11_pad g ax pad val). Qed.
Print Assumptions C11_pad_partial.

(** padding by [pad] then by [-pad] gives back exactly the same grid *)
Theorem C11_round_trip_partial {A : Alg} (g : grid A) ax pad val val' : consistent g -> floats g -> pad_call_ok g ax pad ->
  pads_agree g ax (spread ax pad) ->
  (forall z, In z pad -> (0 <= z)%Z) ->
  exists g', grid_pad g (map Z.of_nat ax) pad val = (g', Ok tt) /\
             grid_pad g' (map Z.of_nat ax) (map Z.opp pad) val' = (g, Ok tt).
Proof. exact (c11_round_trip g ax pad val val'). Qed.
Print Assumptions C11_round_trip_partial.

(** two families of calls on which the entries agree: every axis named in order
    (or any self-inverse order), and one common pad on the leading axes *)
Theorem C11_agree_in_order {A : Alg} (g : grid A) ax pad : NoDup ax -> length pad = length ax ->
  (forall i a, nth_error ax i = Some a -> nth_error ax a = Some i) -> pads_agree g ax pad.
Proof. exact (agree_involutive g ax pad). Qed.
Theorem C11_agree_common {A : Alg} (g : grid A) ax p :
  (forall i, In i ax -> (i < length ax)%nat) -> pads_agree g ax (repeat p (length ax)).
Proof. exact (agree_uniform g ax p). Qed.
Print Assumptions C11_agree_in_order.

(** padding any single axis other than the first always fails *)
Theorem C11_single_axis_refuted {A : Alg} (g : grid A) i p val : (0 < i < g_ndim g)%nat -> p <> 0%Z ->
  (0 < Z.of_nat (nth i (g_npix g) 0%nat) + 2 * p)%Z ->
  grid_pad g [Z.of_nat i] [p] val = (g, Raise IndexError).
Proof. exact (c11_single_axis g i p val). Qed.
Print Assumptions C11_single_axis_refuted.

Example C11_nonvacuous : consistent ex_g /\ floats ex_g /\ pad_call_ok ex_g [1; 0]%nat [1; 2]%Z /\
  pads_agree ex_g [1; 0]%nat (spread [1; 0]%nat [1; 2]%Z) /\
  g_npix (fst (grid_pad ex_g [1; 0]%Z [1; 2]%Z (zq 5 : QcAlg))) = [8; 5]%nat.
Proof.
  split; [exact ex_consistent|]. split; [split; [|split]; vm_compute; reflexivity|].
  split; [|split].
  - repeat split.
    + repeat constructor; simpl; intuition discriminate.
    + discriminate.
    + rewrite ex_ndim. simpl. intros a [<-|[<-|[]]]; lia.
  - apply agree_involutive; [repeat constructor; simpl; intuition discriminate|reflexivity|].
    intros [|[|[|]]] a; simpl; intros [= <-]; reflexivity.
  - vm_compute. reflexivity.
Qed.

(** * C12: cropping.  The full claim is for every selected range; the code fails
    after changing the grid when the range holds fewer than two centres. *)
Theorem C12_crop_partial {A : Alg} (g : grid A) i omin omax : consistent g -> floats g -> (i < g_ndim g)%nat ->
  let lo := crop_lo g i omin in let hi := crop_hi g i omax in let sel := selected g i lo hi in
  nth i (g_fsp g) false = false -> lo < hi -> (2 <= length sel)%nat ->
  exists g', grid_crop g (Z.of_nat i) omin omax = (g', Ok tt) /\ consistent g' /\ floats g' /\
    g_nprop g' = g_nprop g /\ g_nobj g' = g_nobj g /\ g_ndim g' = g_ndim g /\ 
    g_axu g' = g_axu g /\ g_faxu g' = g_faxu g /\ g_gru g' = g_gru g /\ g_fsp g' = g_fsp g /\ g_ispow g' = g_ispow g /\
    others_same g g' i /\
    nth i (g_npix g') 0%nat = length sel /\ fnth (g_pix g') i = fnth (g_pix g) i /\
    nth i (g_centers g') [] = map (fun k => nth k (nth i (g_centers g) []) 0) sel /\
    (forall a k, nth_error sel a = Some k ->
        nth_error (nth i (g_axes g') []) a = nth_error (nth i (g_axes g) []) k /\
        nth_error (nth i (g_axes g') []) (S a) = nth_error (nth i (g_axes g) []) (S k)) /\
    match g_data g, g_data g' with
    | None, None => True
    | Some d, Some d' => forall ix k, inb (g_npix g') ix = true -> (k < g_nprop g)%nat ->
        getd v0 d' (ix ++ [k]) = getd v0 d (upd ix i (nth (nth i ix 0%nat) sel 0%nat) ++ [k])
    | _, _ => False
    end.
Proof. exact (grid_crop_spec g i omin omax). Qed.
Print Assumptions C12_crop_partial.

Theorem C12_raises_partial {A : Alg} (g g' : grid A) i omin omax e : consistent g -> (i < g_ndim g)%nat ->
  grid_crop g (Z.of_nat i) omin omax = (g', Raise e) ->
  g' = g \/ (nth i (g_fsp g) false = false /\ crop_lo g i omin < crop_hi g i omax /\
             (length (selected g i (crop_lo g i omin) (crop_hi g i omax)) < 2)%nat).
Proof. exact (grid_crop_raises g g' i omin omax e). Qed.
Print Assumptions C12_raises_partial.

Theorem C12_failed_crop_refuted : exists (g : grid QcAlg) i lo hi g' e,
  consistent g /\ lo < hi /\ grid_crop g i (Some lo) (Some hi) = (g', Raise e) /\
  length (selected g 0 lo hi) = 1%nat /\ nth 0 (g_npix g') 0%nat <> nth 0 (g_npix g) 0%nat.
Proof.
  exists ex_g, 0%Z, (frac 1 4), (frac 3 4), (fst (grid_crop ex_g 0 (Some (frac 1 4)) (Some (frac 3 4)))), IndexError.
  split; [exact ex_consistent|]. split; [apply qltb_lt; vm_compute; reflexivity|].
  split; [rewrite (surjective_pairing (grid_crop _ _ _ _)) at 1; f_equal; vm_compute; reflexivity|].
  split; [vm_compute; reflexivity|vm_compute; discriminate].
Qed.
Print Assumptions C12_failed_crop_refuted.

Theorem C12_empty_crop_refuted : exists (g : grid QcAlg) i lo hi g' e,
  consistent g /\ lo < hi /\ grid_crop g i (Some lo) (Some hi) = (g', Raise e) /\
  selected g 0 lo hi = [] /\ option_map (fun d => dat d) (g_data g') = Some [] /\ g_npix g' = g_npix g.
Proof.
  exists ex_g, 0%Z, (frac 1 4), (frac 1 3), (fst (grid_crop ex_g 0 (Some (frac 1 4)) (Some (frac 1 3)))), ValueError.
  split; [exact ex_consistent|]. split; [apply qltb_lt; vm_compute; reflexivity|].
  split; [rewrite (surjective_pairing (grid_crop _ _ _ _)) at 1; f_equal; vm_compute; reflexivity|].
  split; [vm_compute; reflexivity|]. split; vm_compute; reflexivity.
Qed.
Print Assumptions C12_empty_crop_refuted.

Example C12_nonvacuous : selected ex_g 0 (zq (-1)) (zq 2) = [1; 2; 3]%nat /\
  g_npix (fst (grid_crop ex_g 0 (Some (zq (-1))) (Some (zq 2)))) = [3; 3]%nat.
Proof. split; vm_compute; reflexivity. Qed.
