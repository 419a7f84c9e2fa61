(** Snapshot shells and the redshift lookup: C37, C38. *)
From Verif Require Import Util RealUtil SnapModel SnapSpec Snap.
From Coq Require Import Reals Sorted Permutation Lra Lia.
Open Scope R_scope.

(** * C38: snapshot shells tile redshift, time and distance *)
Theorem C38_tile : forall C h l, good_cosmo C -> descending_z l -> l <> [] ->
  exists ms, make_meta C h l = Ok ms /\ map m_index ms = map c_index l /\ map m_z ms = map c_z l /\ tiles C h ms.
Proof. exact c38_tile. Qed.
Print Assumptions C38_tile.

(** snapshots in the wrong order are refused *)
Theorem C38_order : forall C h l i a b, nth_error l i = Some a -> nth_error l (S i) = Some b -> c_z a < c_z b ->
  make_meta C h l = Raise ValueError.
Proof. exact c38_unsorted. Qed.
Print Assumptions C38_order.

(** Illustris: when the server lists snapshots by number, exactly the requested ones
    get a row, and these tile *)
Theorem C38_illustris : forall C h asort raw snaps, good_cosmo C -> argsorts asort ->
  StronglySorted (fun a b => (fst a < fst b)%Z) raw -> StronglySorted (fun a b => snd b < snd a) raw ->
  Forall (fun a => 0 <= snd a) raw -> filter (fun nz => zmem (fst nz) snaps) raw <> [] ->
  exists ms, make_meta C h (illustris_classes asort raw snaps) = Ok ms /\ tiles C h ms /\
    map (fun m => (m_index m, m_z m)) ms = filter (fun nz => zmem (fst nz) snaps) raw.
Proof. exact c38_illustris. Qed.
Print Assumptions C38_illustris.

(** UniverseMachine and Uchuu: snapshot numbers count the higher redshifts, whatever
    the order of the files *)
Theorem C38_numbered : forall C h asort zs snaps,
  good_cosmo C -> argsorts asort -> Forall (fun z => 0 <= z) zs -> NoDup zs ->
  (exists z, In z zs /\ zmem (Z.of_nat (length (filter (fun w => rltb z w) zs))) snaps = true) ->
  exists ms, make_meta C h (numbered_classes asort zs snaps) = Ok ms /\ tiles C h ms /\
    (forall i z, In (i, z) (map (fun m => (m_index m, m_z m)) ms) <->
       In z zs /\ i = Z.of_nat (length (filter (fun w => rltb z w) zs)) /\ In i snaps).
Proof. exact c38_numbered. Qed.
Print Assumptions C38_numbered.

(** Illustris: listed in another order, the list is sorted twice. The whole run then
    raises, and a selection of one snapshot describes another one. *)
Theorem C38_illustris_refuted : forall asort, argsorts asort ->
  let raw := [(2%Z, 0); (0%Z, 3); (1%Z, 1)] in
  make_meta toy 1 (illustris_classes asort raw [0; 1; 2]%Z) = Raise ValueError /\
  map c_index (illustris_classes asort raw [0%Z]) = [1%Z].
Proof.
  intros asort HA raw.
  assert (E : asort (map (fun nz => IZR (fst nz)) raw) = [1; 2; 0]%nat).
  { apply order_unique; auto.
    - cbn. apply Permutation_cons_app with (l1 := [0%nat]). cbn. apply perm_swap.
    - repeat constructor; cbn; lra. }
  unfold illustris_classes. rewrite E. split; [|reflexivity].
  eapply (c38_unsorted _ _ _ 1); [reflexivity|reflexivity|]. cbn. lra.
Qed.
Print Assumptions C38_illustris_refuted.

Example C38_nonvacuous :
  let l := [new_snap 4 3; new_snap 5 1; new_snap 7 (1/2)] in
  good_cosmo toy /\ descending_z l /\ l <> [] /\
  exists a b c, make_meta toy 2 l = Ok [a; b; c] /\ m_zmin a = m_zmax b /\ 1 < m_zmin a < 3 /\
    0 < m_dmin b < m_dmax b /\ m_zmin c = 0.
Proof.
  intros l. split; [apply toy_good|].
  assert (D : descending_z l).
  { split; repeat constructor; cbn; lra. }
  split; [exact D|]. split; [discriminate|].
  destruct (c38_tile toy 2 l toy_good D ltac:(discriminate)) as (ms & E & Ei & Ez & T).
  destruct ms as [|a [|b [|c [|]]]]; try discriminate.
  exists a, b, c. split; [exact E|]. cbn in Ez. injection Ez as Za Zb Zc.
  destruct T as (T1 & T2 & T3 & T4).
  destruct (T1 0%nat a b eq_refl eq_refl) as (A1 & _). destruct (T2 c eq_refl) as (C1 & _).
  revert E. rewrite (make_meta_eq toy 2 l (new_snap 4 3) eq_refl). unfold l. cbn. unfold link. cbn.
  rdec. cbn. rdec. cbn. rdec. cbn. rdec. cbn. intros E. injection E as Ea Eb Ec.
  subst a b c. cbn in *. split; [exact A1|]. repeat split; lra.
Qed.

(** * C37: redshift lookup *)
(** In the redshift range of a generated table the lookup returns the one snapshot
    whose shell holds z; outside it raises ValueError. Partial: the upper end of the
    range is excluded, see C37_top_refuted. *)
Theorem C37_find_partial : forall C h l asort, good_cosmo C -> descending_z l -> l <> [] -> argsorts asort ->
  exists ms H m0, make_meta C h l = Ok ms /\ open_zhandler asort ms = Ok H /\ hd_error ms = Some m0 /\
    (forall z, 0 <= z < m_z m0 ->
       exists m, In m ms /\ m_zmin m <= z < m_zmax m /\ z_to_snap H z = Ok (m_index m) /\
         forall m', In m' ms -> m_zmin m' <= z < m_zmax m' -> m' = m) /\
    (forall z, z < 0 \/ m_z m0 < z -> z_to_snap H z = Raise ValueError).
Proof.
  intros C h l asort HC HD Hl HA. destruct (c37_find C h l asort HC HD Hl HA) as (ms & H & m0 & A & B & D & E & F & _).
  exists ms, H, m0. auto.
Qed.
Print Assumptions C37_find_partial.

(** the redshift of the first snapshot itself is always an IndexError, although the
    range check lets it pass *)
Theorem C37_top_refuted : forall C h l asort, good_cosmo C -> descending_z l -> l <> [] -> argsorts asort ->
  exists ms H m0, make_meta C h l = Ok ms /\ open_zhandler asort ms = Ok H /\ hd_error ms = Some m0 /\
    m_zmin m0 <= m_z m0 <= m_zmax m0 /\ z_to_snap H (m_z m0) = Raise IndexError.
Proof.
  intros C h l asort HC HD Hl HA. destruct (c37_find C h l asort HC HD Hl HA) as (ms & H & m0 & A & B & D & E & F & G).
  destruct (c38_tile C h l HC HD Hl) as (ms' & A' & _ & _ & T). rewrite A in A'. injection A' as <-.
  exists ms, H, m0. split; [exact A|]. split; [exact B|]. split; [exact D|]. split; [|exact G].
  apply T. destruct ms; [discriminate|]. injection D as ->. left. reflexivity.
Qed.
Print Assumptions C37_top_refuted.

Example C37_nonvacuous :
  let l := [new_snap 4 3; new_snap 5 1; new_snap 7 (1/2)] in
  good_cosmo toy /\ descending_z l /\ l <> [] /\ argsorts argsort0.
Proof.
  intros l. split; [apply toy_good|]. split; [split; repeat constructor; cbn; lra|].
  split; [discriminate|apply argsort0_ok].
Qed.
