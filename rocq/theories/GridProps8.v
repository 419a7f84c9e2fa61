(** Grid metadata through any history of calls: property C13. *)
From Verif Require Import Util Rat Val Arr GridModel GridSpec GridModel2 GridSpec2 GridNew GridEx GridFT GridHistory.
Open Scope Qc_scope.

(** * C13.  However many calls are made on a well-formed grid stored in floating point,
    with whatever arguments, the grid stays well formed: pixel counts equal the data
    shape, and edges, centres, centre point, side length and pixel size of every axis
    describe the same uniform cells.  [gcall_ok] asks that the [pad], [crop] and
    [scale_axis] calls in the history return normally, that scale factors are positive and
    that collapse weights have one of the supported shapes; the other calls may raise.
    Partial: float attributes, positive factors. *)
Theorem C13_history_partial {A : Alg} (w : nat -> A) (g : grid A) (calls : list gcall) :
  consistent g -> floats g -> gcalls_ok w g calls -> consistent (gdo_all w g calls) /\ floats (gdo_all w g calls).
Proof. exact (c13_history w calls g). Qed.
Print Assumptions C13_history_partial.

(** * False for grids built from integers: one successful [scale_axis] call truncates the
    pixel size to zero. *)
Theorem C13_integers_refuted : exists g : grid QcAlg, grid_new QcAlg 1 (il [0]%Z) (il [4]%Z) (il [1]%Z) None None = Ok g /\ consistent g /\
  gcalls_ok (fun _ => (1 : QcAlg)) g [CScale [0%Z] [frac 1 2] true] /\ ~ consistent (gdo_all (fun _ => (1 : QcAlg)) g [CScale [0%Z] [frac 1 2] true]).
Proof.
  exists (mk QcAlg 1 (il [0]%Z) (il [4]%Z) (il [1]%Z)).
  assert (E : grid_new QcAlg 1 (il [0]%Z) (il [4]%Z) (il [1]%Z) None None = Ok (mk QcAlg 1 (il [0]%Z) (il [4]%Z) (il [1]%Z))) by (apply ok_or_eq; vm_compute; reflexivity).
  split; [exact E|]. split; [eapply grid_new_consistent; [exact E|]; intros x [<-|[]]; reflexivity|]. split.
  - split; [|exact I]. split; [vm_compute; reflexivity|]. intros f [<-|[]]; reflexivity.
  - intros C. assert (H : 0 < fnth (g_pix (gdo_all (fun _ => (1 : QcAlg)) (mk QcAlg 1 (il [0]%Z) (il [4]%Z) (il [1]%Z)) [CScale [0%Z] [frac 1 2] true])) 0).
    { apply (ao_p _ _ _ _ _ _ _ _ (co_axis _ C 0%nat ltac:(vm_compute; lia))). }
    vm_compute in H. discriminate.
Qed.
Print Assumptions C13_integers_refuted.

(** * False when a crop that selects fewer than two cells raises: the centres have been cut
    but not the pixel count. *)
Theorem C13_failed_crop_refuted : exists g : grid QcAlg, consistent g /\ floats g /\
  snd (gdo (fun _ => (1 : QcAlg)) g (CCrop 0%Z (Some (frac 1 10)) (Some (frac 2 10)))) <> Ok tt /\
  ~ consistent (fst (gdo (fun _ => (1 : QcAlg)) g (CCrop 0%Z (Some (frac 1 10)) (Some (frac 2 10))))).
Proof.
  exists ex_g. split; [exact ex_consistent|]. split; [vm_compute; auto|]. split; [vm_compute; discriminate|]. intros C.
  pose proof (ao_clen _ _ _ _ _ _ _ _ (co_axis _ C 0%nat ltac:(vm_compute; lia))) as H. vm_compute in H. discriminate.
Qed.
Print Assumptions C13_failed_crop_refuted.

(** a history using every kind of call *)
Definition ex_history : list (@gcall QcAlg) :=
  [CInit; CAddCat (Pos2 2 [[0; 1]; [1; zq 2]]) ValNone false None; CPad [0; 1]%Z [1; 2]%Z (1 : QcAlg); CScale [0; 1]%Z [zq 2] true;
   CNewProp None; CAddArr (Pos2 1 [[1]]) [[1; 1; 1; 1; 1; 1] : list QcAlg] 0 true None;
   CAddSpec unit (Pos2 1 [[1]]) (fun ax args => map (fun _ => map (fun x => x : QcAlg) ax) args) [tt] 0 false false false false (Some [0%Z]);
   CSum None; CCrop 0%Z (Some (zq (-3))) (Some (zq 5)); CFourier (Some [0%Z]) true; CCollapse 1 None MAverage; CFourier None true; CCollapse 7 None MSum].
Example C13_nonvacuous : consistent ex_g /\ floats ex_g /\ gcalls_ok (fun _ => (1 : QcAlg)) ex_g ex_history /\
  g_npix (gdo_all (fun _ => (1 : QcAlg)) ex_g ex_history) = [5%nat] /\ g_nprop (gdo_all (fun _ => (1 : QcAlg)) ex_g ex_history) = 5%nat.
Proof.
  split; [exact ex_consistent|]. split; [vm_compute; auto|]. split; [|split; vm_compute; reflexivity].
  cbn [gcalls_ok ex_history gcall_ok weight_ok]. repeat split; try (intros f [<-|[]]; reflexivity); vm_compute; reflexivity.
Qed.
