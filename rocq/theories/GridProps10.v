(** Property theorems for [convolve] (C16).  The specification is ConvSpec.v: [conv_value] is the
    convolution sum, [conv_ready] says that the call is meant to work, [pad_amounts] reads the
    [pad] argument. *)
From Verif Require Import Util Rat Val Arr GridModel GridModel2 GridSpec GridNew GridEx GridPad GridFT ConvSpec Conv.

Section C16.
Context {A : Alg}.
Notation grid := (grid A).

(** * C16: by default (all axes of the kernel; no padding or one non-negative number) the call
    returns, changes nothing but the data, and every cell holds the convolution sum. *)
Theorem C16_default : forall (g s : grid) pad, conv_ready g s None (seq 0 (g_ndim s)) ->
  (pad = PadNone \/ exists z, (0 <= z)%Z /\ pad = PadInt z) ->
  exists d, grid_convolve g s None pad = (with_data g (Some d), Ok tt) /\ consistent (with_data g (Some d)) /\
    forall jx p, inb (g_npix g) jx = true -> (p < g_nprop g)%nat ->
      cell (with_data g (Some d)) jx p = conv_value (fun i => (i <? g_ndim s)%nat) g s jx p.
Proof. exact c16_default. Qed.

(** For chosen axes the same holds when the amounts reach the axes they are meant for (C11). *)
Theorem C16_value_partial : forall (g s : grid) ax axn pad pl, conv_ready g s ax axn ->
  pad_amounts axn pad pl -> (forall z, In z pl -> (0 <= z)%Z) -> pads_agree g axn pl ->
  exists d, grid_convolve g s ax pad = (with_data g (Some d), Ok tt) /\ awf d /\ shape d = g_npix g ++ [g_nprop g] /\
    forall jx p, inb (g_npix g) jx = true -> (p < g_nprop g)%nat ->
      cell (with_data g (Some d)) jx p = conv_value (fun i => mem_nat i axn) g s jx p.
Proof. exact c16_main. Qed.

(** Zero padding is invisible: the result does not depend on the amounts. *)
Theorem C16_padding_default : forall (g s : grid) z, conv_ready g s None (seq 0 (g_ndim s)) -> (0 <= z)%Z ->
  grid_convolve g s None (PadInt z) = grid_convolve g s None PadNone.
Proof. exact c16_padding_default. Qed.

Theorem C16_padding_partial : forall (g s : grid) ax axn pad pl, conv_ready g s ax axn ->
  pad_amounts axn pad pl -> (forall z, In z pl -> (0 <= z)%Z) -> pads_agree g axn pl ->
  grid_convolve g s ax pad = grid_convolve g s ax PadNone.
Proof. exact c16_padding. Qed.

(** Convolving is linear in the data. *)
Theorem C16_linear : forall (g s : grid) ax axn (d1 d2 d3 : arr A) (a b : A),
  let g1 := with_data g (Some d1) in let g2 := with_data g (Some d2) in let g3 := with_data g (Some d3) in
  conv_ready g1 s ax axn -> conv_ready g2 s ax axn -> conv_ready g3 s ax axn ->
  (forall jx p, inb (g_npix g) jx = true -> (p < g_nprop g)%nat -> cell g3 jx p = (a * cell g1 jx p + b * cell g2 jx p)%V) ->
  exists h1 h2 h3, grid_convolve g1 s ax PadNone = (h1, Ok tt) /\ grid_convolve g2 s ax PadNone = (h2, Ok tt) /\ grid_convolve g3 s ax PadNone = (h3, Ok tt) /\
    forall jx p, inb (g_npix g) jx = true -> (p < g_nprop g)%nat -> cell h3 jx p = (a * cell h1 jx p + b * cell h2 jx p)%V.
Proof. exact c16_linear. Qed.

(** A kernel that is one at its centre and zero elsewhere, in particular a one-cell kernel
    holding one, leaves the grid exactly as it is. *)
Theorem C16_identity : forall (g s : grid) pad, conv_ready g s None (seq 0 (g_ndim s)) ->
  (pad = PadNone \/ exists z, (0 <= z)%Z /\ pad = PadInt z) ->
  (forall kx r, inb (g_npix s) kx = true -> (r < g_nprop s)%nat -> cell s kx r = if list_eq_dec Nat.eq_dec kx (centre (g_npix s)) then v1 else v0) ->
  grid_convolve g s None pad = (g, Ok tt).
Proof. exact c16_identity_default. Qed.

(** Out of place the same grid is returned, if the grid can be copied at all (C19). *)
Theorem C16_new_partial : forall (g s : grid) ax axn pad pl, conv_ready g s ax axn ->
  pad_amounts axn pad pl -> (forall z, In z pl -> (0 <= z)%Z) -> pads_agree g axn pl -> length (g_gru g) = g_nprop g ->
  exists g', grid_convolve g s ax pad = (g', Ok tt) /\ grid_convolve_new g s ax pad = Ok g'.
Proof. exact c16_new. Qed.

(** * False for a list of amounts: the call raises TypeError and leaves the padded grid behind. *)
Theorem C16_list_pad_refuted : forall (g s : grid) ax axn l, conv_ready g s ax axn ->
  length l = length axn -> (forall z, In z l -> (0 <= z)%Z) -> pads_agree g axn l ->
  exists g2, grid_convolve g s ax (PadList l) = (g2, Raise TypeError) /\
    forall i, (i < g_ndim g)%nat -> Z.of_nat (nth i (g_npix g2) 0%nat) = (Z.of_nat (nth i (g_npix g) 0%nat) + 2 * pad_of axn l i)%Z.
Proof. exact c16_list. Qed.

(** * False for a single axis other than the first: any padding raises IndexError. *)
Theorem C16_one_axis_refuted : forall (g s : grid) i z, conv_ready g s (Some [Z.of_nat i]) [i] -> (0 < i)%nat -> (0 < z)%Z ->
  grid_convolve g s (Some [Z.of_nat i]) (PadInt z) = (g, Raise IndexError).
Proof. exact c16_one_axis. Qed.
End C16.
Print Assumptions C16_default.
Print Assumptions C16_value_partial.
Print Assumptions C16_padding_default.
Print Assumptions C16_padding_partial.
Print Assumptions C16_linear.
Print Assumptions C16_identity.
Print Assumptions C16_new_partial.
Print Assumptions C16_list_pad_refuted.
Print Assumptions C16_one_axis_refuted.

(** a 4x3 map, a 3x2 kernel, and a kernel with a single one *)
Definition ex_map : grid QcAlg := with_fsp (exA QcAlg) [false; false].
Definition ex_kernel (f : list nat -> Qc) : grid QcAlg :=
  with_data (mk QcAlg 1 (fl [0; 0]%Z) (fl [3; 2]%Z) (fl [1; 1]%Z)) (Some (tab [3; 2; 1]%nat f : arr QcAlg)).
Definition ex_k : grid QcAlg := ex_kernel (fun ix => nq (nth 0 ix 0%nat + nth 1 ix 0%nat + 1)).
Definition ex_delta : grid QcAlg := ex_kernel (fun ix => if list_eq_dec Nat.eq_dec ix [1; 0; 0]%nat then 1 else 0).
Lemma ex_kernel_ok f : kernel_ok (ex_kernel f).
Proof.
  split; [vm_compute; reflexivity|]. split; [vm_compute; repeat constructor|]. split; [vm_compute; lia|].
  eexists. split; [reflexivity|]. split; [apply tab_wf|vm_compute; reflexivity].
Qed.
Lemma ex_conv_ready f ax axn : conv_named (ex_kernel f) ax axn -> axn <> [] -> NoDup axn -> (forall a, In a axn -> (a < 2)%nat) ->
  conv_fits ex_map (ex_kernel f) axn -> conv_ready ex_map (ex_kernel f) ax axn.
Proof.
  intros. split; [apply consistent_with2; [apply exA_consistent|vm_compute; reflexivity]|]. split; [vm_compute; auto|]. split; [discriminate|].
  split; [reflexivity|]. split; [reflexivity|]. split; [apply ex_kernel_ok|]. do 4 (split; [assumption|]). assumption.
Qed.
Example C16_nonvacuous : conv_ready ex_map ex_k None (seq 0 (g_ndim ex_k)) /\ conv_ready ex_map ex_delta None (seq 0 (g_ndim ex_delta)) /\
  cell (fst (grid_convolve ex_map ex_k None (PadInt 2))) [1; 1]%nat 0 <> cell ex_map [1; 1]%nat 0 /\
  grid_convolve ex_map ex_delta None (PadInt 2) = (ex_map, Ok tt).
Proof.
  assert (F : forall f, conv_fits ex_map (ex_kernel f) (seq 0 2)).
  { intros f. split; [vm_compute; lia|]. split; [|vm_compute; auto]. intros i Hi N. exfalso. apply N. apply in_seq. vm_compute in Hi. lia. }
  assert (R : forall f, conv_ready ex_map (ex_kernel f) None (seq 0 2)).
  { intros f. apply ex_conv_ready; auto; try discriminate; try reflexivity. apply seq_NoDup. intros a Ha. apply in_seq in Ha. lia. }
  split; [apply R|]. split; [apply R|]. split; [vm_compute; discriminate|].
  apply C16_identity; [apply R|right; exists 2%Z; split; [lia|reflexivity]|].
  intros kx r Hk Hr. apply in_idxs in Hk. vm_compute in Hr. assert (r = 0)%nat by lia. subst r. clear Hr.
  vm_compute in Hk. repeat (destruct Hk as [<-|Hk]; [vm_compute; reflexivity|]). destruct Hk.
Qed.
