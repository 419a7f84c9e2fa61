(** Vocabulary for the statements about snapshot metadata (C37, C38). *)
From Verif Require Import Util RealUtil SnapModel.
From Coq Require Import Reals Sorted.
Open Scope R_scope.

(** age falls with redshift, z_at_age inverts it, distances grow from 0 *)
Record good_cosmo (C : cosmo) : Prop := {
  g_age : forall a b, 0 <= a < b -> age C b < age C a;
  g_inv : forall z t, 0 <= z -> age C z <= t <= age C 0 -> 0 <= z_at_age C t /\ age C (z_at_age C t) = t;
  g_cd : forall a b, 0 <= a < b -> cdist C a < cdist C b;
  g_td : forall a b, 0 <= a < b -> tdist C a < tdist C b;
  g_cd0 : cdist C 0 = 0;
  g_td0 : tdist C 0 = 0 }.

(** fresh snapshots, highest redshift first *)
Definition descending_z (l : list snapc) : Prop :=
  StronglySorted (fun a b => c_z b < c_z a) l /\ Forall (fun a => 0 <= c_z a) l.

(** in the table [ms] (highest redshift first) neighbouring shells share their
    boundary, the last one ends at redshift 0, the first at its own redshift, and the
    shells contain their snapshots *)
Definition tiles (C : cosmo) (h : R) (ms : list meta) : Prop :=
  (forall i m m', nth_error ms i = Some m -> nth_error ms (S i) = Some m' ->
     m_zmin m = m_zmax m' /\ m_tend m = m_tstart m' /\ m_dmin m = m_dmax m' /\ m_tdmin m = m_tdmax m') /\
  (forall m, nth_error ms (length ms - 1) = Some m ->
     m_zmin m = 0 /\ m_tend m = age C 0 /\ m_dmin m = 0 /\ m_tdmin m = 0) /\
  (forall m, nth_error ms 0 = Some m -> m_zmax m = m_z m) /\
  (forall m, In m ms -> m_zmin m <= m_z m <= m_zmax m /\
     m_dmin m = cdist C (m_zmin m) * h /\ m_dmax m = cdist C (m_zmax m) * h /\
     m_tdmin m = tdist C (m_zmin m) * h /\ m_tdmax m = tdist C (m_zmax m) * h /\
     m_tend m = age C (m_zmin m) /\ m_tstart m = age C (m_zmax m)).
