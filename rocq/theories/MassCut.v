(** Lemmas about the mass cut of light cones. *)
From Coq Require Import Reals Permutation Sorted.
From Verif Require Import Dict Util RealUtil SnapModel SnapSpec Snap FormatModel FormatSpec Format LcModel LcSpec Lc Lc2 Lc3 Lc4 Lc5 Lc6 Lc7 Lc8 Lc9 Lc10 Lc11 Lc12 Lc13 MassCutModel MassCutSpec.
From Coq Require Import Lra Lia.
Open Scope string_scope.
Open Scope list_scope.
Open Scope nat_scope.

Definition heaviest_first (v : list R) : Prop := StronglySorted (fun a b => (b <= a)%R) v.
Lemma format_sorted asort ct a w of s : argsorts asort -> runnable ct a w of -> own_rows ct -> In s (todo ct a w) ->
  let w' := fst (format asort ct a w) in
  exists f g, formatted w' s f g /\ In s (map m_index (table w')) /\ cuts_stored g /\ heaviest_first (masses g).
Proof.
  intros HA HR HO Hs w'. destruct (format_row asort ct a w of s HA HR HO Hs) as (f & g & E1 & E2 & E3 & E4). exists f, g. split; [split; assumption|]. split; [exact E3|]. split; [exact E4|].
  destruct (format_ok asort ct a w of HA HR) as (h & G & gone' & E & _ & HT & _). destruct (HT s Hs) as (g' & Eg & sub & n & _ & _ & _ & _ & HS & _).
  unfold w' in E1. rewrite E in E1. cbn [fst w_file] in E1. injection E1 as <-. cbn [set_groups f_groups] in E2. rewrite Eg in E2. injection E2 as <-. exact HS.
Qed.
Lemma firstn_firstn_min {A} (l : list A) a b : firstn a (firstn b l) = firstn (min a b) l.
Proof. apply firstn_firstn. Qed.
Lemma sorted_firstn v k : heaviest_first v -> heaviest_first (firstn k v).
Proof.
  intros H. revert k. induction H as [|x v Hv IH Hx]; intros [|k]; cbn; try constructor; [apply IH|]. rewrite Forall_forall in *. intros y Hy. apply Hx. clear -Hy. revert k Hy.
  induction v as [|a v IH]; intros [|k] Hy; cbn in *; try tauto. destruct Hy as [->|Hy]; [left; reflexivity|right; apply (IH k Hy)].
Qed.
(** loading: the rows below the cut and below the minimum mass go *)
Lemma load_rows mi sd s g pos mmin k0 c : reads sd s g pos -> heaviest_first (masses g) -> mi s = Ok k0 -> cut_ok (masses g) c k0 ->
  exists k, snap_load mi sd mmin s = Ok (firstn k (masses g), firstn k pos) /\
    forall r x, nth_error (masses g) r = Some x -> (r < k <-> (c <= x)%R /\ (mmin <= x)%R).
Proof.
  intros [E L] HS Ek Hc. unfold snap_load. rewrite E, Ek. cbn [bind]. set (v := masses g) in *. pose proof (cut_index_ok (firstn k0 v) mmin (sorted_firstn _ k0 HS)) as Hi.
  set (n := cut_index (firstn k0 v) mmin) in *. assert (Ln : n <= length (firstn k0 v)).
  { destruct Hi as [-> _]. clear. induction (firstn k0 v) as [|a l IH]; cbn; [lia|]. destruct (rleb mmin a); cbn; lia. }
  exists n. rewrite firstn_length in Ln. rewrite firstn_firstn_min, Nat.min_l by lia. split; [reflexivity|]. intros r x Hx. rewrite <- (cut_rows _ _ _ _ _ Hc Hx).
  destruct (Nat.lt_ge_cases r k0) as [Lr|Lr].
  - assert (Hx' : nth_error (firstn k0 v) r = Some x) by (rewrite nth_error_firstn; destruct (Nat.ltb_spec r k0); [exact Hx|lia]).
    rewrite (cut_rows _ _ _ _ _ Hi Hx'). tauto.
  - split; [lia|intros [H _]; lia].
Qed.
Lemma none_rows mi sd s g pos mmin : reads sd s g pos -> mi s = Ok 0 -> snap_load mi sd mmin s = Ok ([], []).
Proof. intros [E L] Ek. unfold snap_load. rewrite E, Ek. cbn [bind firstn]. unfold cut_index, where_ge. reflexivity. Qed.

(** the halos of snapshot [s] in a finished build *)
Lemma built_rows asort az mi sd c pts w w' i p s g pos k : argsorts asort -> build asort az mi sd c pts w = (w', Ok tt) -> nth_error pts i = Some p -> good_pt p -> (0 < lc_box c)%R ->
  reads sd s g pos -> snap_load mi sd (lc_mass c) s = Ok (firstn k (masses g), firstn k pos) ->
  exists f rows, w' i = Some f /\ holds_rows f p rows /\
    forall r, In r rows -> r_snap r = s -> r_index r < k /\ nth_error (masses g) (r_index r) = Some (r_mass r).
Proof.
  intros HA E Hp HG HB [HR L] EL. destruct (proj1 (build_done _ _ _ _ _ _ _ _ E) i p Hp) as (f & rows & Ef & _ & (rss & -> & HF) & HH).
  exists f, (concat rss). split; [exact Ef|]. split; [exact HH|]. intros r Hr Hs. apply in_concat in Hr. destruct Hr as (rs & Hrs & Hr).
  destruct (Forall2_in_r _ _ _ _ HF Hrs) as (m & _ & ma & po & slabs & E1 & E2 & ->).
  assert (Em : m_index m = s) by (rewrite <- Hs; symmetry; exact (proj1 (snap_row _ _ _ _ _ _ _ _ _ E2 Hr))).
  rewrite Em, EL in E1. injection E1 as <- <-.
  destruct (c42_parent asort az c p m (firstn k (masses g)) (firstn k pos) slabs r HA HG) as (x & n & _ & Em' & _); [rewrite !firstn_length, L; reflexivity|exact HB|exact E2|exact Hr|].
  rewrite nth_error_firstn in Em'. destruct (Nat.ltb_spec (r_index r) k) as [Lk|Lk]; [split; [exact Lk|exact Em']|discriminate].
Qed.

(** ** A catalogue with a light halo *)
Definition light (snaps : list Z) : catalog := mkCat snaps [("box_edge", 50%R)] (Some 100%Z) (map demo_meta snaps) (1/2)%R
  [("SubhaloMass", (fun x _ => x * Rpower 10 8)%R)]
  [("SubhaloMass", [mkFS "mass" "Msun" (-1)]); ("SubhaloPos", [mkFS "pos_x" "Mpc" (-1); mkFS "pos_y" "Mpc" (-1)])]
  [("SubhaloVmax", [mkFS "vmax" "km/s" 0])]
  [("SubhaloPhot", [mkFS "mag_u" "mag" 0; mkFS "none1" "" 0; mkFS "mag_b" "mag" 0])]
  (fun s _ => Ok ([("SubhaloMass", Col1 [1 / 1000; 6; 3]%R); ("SubhaloPos", Col2 [[1; 2]; [3; 4]; [5; 6]]%R);
                   ("SubhaloVmax", Col1 [10; 30; 20]%R); ("SubhaloPhot", Col2 [[7; 0; 4]; [8; 0; 5]; [9; 0; 6]]%R)], 3)).
Lemma light_runnable snaps gone : NoDup snaps -> runnable (light snaps) demo_args (mkW None gone) demo_others.
Proof.
  intros HN. split; [reflexivity|]. split; [exact (demo_fields snaps demo_others (or_introl eq_refl))|]. split; [cbn; repeat constructor; auto|]. split; [exact HN|].
  split; [|left; reflexivity]. intros s _. eexists _, 3. split; [reflexivity|]. right. intros key specs H. cbn in H.
  intuition; match goal with E : (_, _) = _ |- _ => injection E as <- <- end; eexists; (split; [reflexivity|]); (split; [reflexivity|]); cbn; eexists; try reflexivity; (split; [reflexivity|]);
    repeat constructor.
Qed.
Lemma light_own snaps : StronglySorted Z.lt snaps -> own_rows (light snaps).
Proof. exact (demo_own snaps). Qed.
Lemma cut_least c : In c cut_masses -> (Rpower 10 6 <= c)%R.
Proof.
  intros Hc. destruct (In_nth_error _ _ Hc) as [i Hi]. assert (i < 141) by (rewrite <- cuts_length; apply nth_error_Some; congruence).
  destruct (Nat.eq_dec i 140) as [->|]; [rewrite cuts_last in Hi; injection Hi as <-; lra|]. left.
  apply (SS_nth _ _ cuts_descending i 140 c (Rpower 10 6)); [lia|exact Hi|exact cuts_last].
Qed.

(** ** Light cones of one snapshot, with any minimum mass *)
Definition mass_conf (m : R) : lcconf := mkLC Circle (1 / 50)%R 1%R m 100%R 1 10%R (101 / 10)%R [diag_meta].
Lemma mass_build mi sd m ms ps w : snap_load mi sd m 7 = Ok (ms, ps) -> exists w', build argsort0 toy_az mi sd (mass_conf m) [diag_pt] w = (w', Ok tt).
Proof.
  intros EL. unfold build. rewrite build_gen. destruct (diag_runs argsort0 toy_az ms ps) as (rows & E & L); [intros d; eexists; reflexivity|].
  change (snap_slabs argsort0 toy_az (mass_conf m) diag_pt diag_meta ms ps = Ok (map Ok rows)) in E. apply gen_runs.
  - intros m' Hm. cbn in Hm. destruct Hm as [<-|[]]. unfold cone_F. change (m_index diag_meta) with 7%Z. cbn [mass_conf lc_mass]. rewrite EL. cbn [bind]. eexists. reflexivity.
  - intros p Hp. cbn in Hp. destruct Hp as [<-|[]]. exists [rows]. split.
    + constructor; [|constructor]. eexists. unfold cone_F. change (m_index diag_meta) with 7%Z. cbn [mass_conf lc_mass]. rewrite EL. cbn [bind fst snd]. split; [reflexivity|exact E].
    + cbn. destruct rows; [discriminate|]. cbn. discriminate.
Qed.

(** ** Every raw halo is among the masses of the group *)
Lemma find_name l d : NoDup (map d_name l) -> In d l -> find (fun x => String.eqb (d_name x) (d_name d)) l = Some d.
Proof.
  induction l as [|a l IH]; intros N Hd; [destruct Hd|]. destruct Hd as [->|Hd]; cbn.
  - rewrite String.eqb_refl. reflexivity.
  - inversion N as [|? ? Hn N']; subst. destruct (String.eqb_spec (d_name a) (d_name d)) as [E|_]; [|apply IH; assumption].
    exfalso. apply Hn. rewrite E. apply in_map. exact Hd.
Qed.
Lemma mass_in asort ct a w of s f g sub n key sp i c x : argsorts asort -> runnable ct a w of -> In s (todo ct a w) -> formatted (fst (format asort ct a w)) s f g ->
  ct_load ct s (dkeys (dmerge (ct_basic ct) of)) = Ok (sub, n) -> In (key, 0, sp) (out_fields (ct_basic ct) of) -> fs_name sp = "mass" -> i < n ->
  dget sub key = Some c -> entry c 0 i = Some x -> exists r, nth_error (masses g) r = Some (conv ct key x).
Proof.
  intros HA HR Hs [F1 F2] EL Hin Hm Hi Ec Ex. destruct (c35 asort ct a w of HA HR) as (w' & E & HH). destruct (HH s sub n Hs EL) as (g' & Eg & p & HP & HN & HD & HM).
  rewrite E in F1. cbn [fst] in F1. unfold group_of in Eg. rewrite F1, F2 in Eg. injection Eg as <-. destruct (HD key 0 sp Hin) as (d & Hd & Dn & _ & _ & Dr & Dc). rewrite Hm in Dn.
  destruct HR as (_ & (ND & _) & _). destruct (HM d Hd Dn) as (v & Ev & _).
  assert (EM : masses g = v). { unfold masses. rewrite <- Dn, (find_name (g_data g) d); [rewrite Ev; reflexivity|rewrite HN; exact ND|exact Hd]. }
  assert (Ip : In i p) by (apply (Permutation_in _ (Permutation_sym HP)), in_seq; lia). destruct (In_nth_error _ _ Ip) as [r Hr]. destruct (Dc r i Hr) as (c' & x' & Ec' & Ex' & En).
  rewrite Ec in Ec'. injection Ec' as <-. rewrite Ex in Ex'. injection Ex' as <-. exists r. rewrite EM. rewrite Ev in En. cbn [entry] in En. exact En.
Qed.
