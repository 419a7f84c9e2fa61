(** Lemmas on gridder_function. *)
From Verif Require Import Dict Util Rat Val Arr HandlerModel Handler GridModel GridModel2 GridSpec GridAxis GridNew GridAdd GridCat GridEx GridMore HGridModel HGridSpec HGrid GfModel GfSpec.
Open Scope Qc_scope.

Section G.
Context {A : Alg}.
Notation grid := (grid A).
Add Ring ARing : (v_rt A).

Lemma per_axis_bval a i : per_axis a i = bval a i.
Proof.
  unfold per_axis, bval, fnth, flen. destruct (fv a) as [|x [|y l]]; cbn [length Nat.eqb]; reflexivity.
Qed.

Lemma col_vals (vals : @valarg A) (rows : list (list Qc)) k : (k < val_cols vals)%nat ->
  map (fun row => nth k row v0) (match vals with ValNone => map (fun _ => [v1]) rows | Val1 l => map (fun v => [v]) l | Val2 _ r => r end) = val_col vals (length rows) k.
Proof.
  intros H. destruct vals as [|l|n r]; cbn [val_cols] in H; cbn [val_col].
  - replace k with 0%nat by lia. clear. induction rows; [reflexivity|]. cbn. f_equal. exact IHrows.
  - replace k with 0%nat by lia. rewrite map_map. cbn. apply map_id.
  - reflexivity.
Qed.

(** what a call of Gridder that returns has done *)
Lemma gridder_cells nc rows vals center side pix au gu nd (g : grid) :
  gridder (Pos2 nc rows) vals center side pix au gu nd = Ok g -> rows_ok nc rows -> (forall x, In x (fv pix) -> 0 < x) ->
  exists c s g0 d, (rows <> [] -> flen c = nc) /\ (center = None \/ center = Some c) /\
    grid_new A (val_cols vals) c s pix au gu = Ok g0 /\ same_geometry g0 g /\ g_nprop g = val_cols vals /\ consistent g /\
    val_rows vals (length rows) = length rows /\
    g_data g = Some d /\
    forall ix k, inb (g_npix g) ix = true -> (k < val_cols vals)%nat ->
      getd v0 d (ix ++ [k]) = cell_total g ix rows (val_col vals (length rows) k).
Proof.
  intros H R Pp. unfold gridder in H.
  match type of H with bind ?x _ = _ => destruct x as [n|] eqn:En; cbn [bind] in H; [|discriminate] end.
  set (vr := match vals with ValNone => (1%nat, map (fun _ => [v1]) rows) | Val1 l => (1%nat, map (fun v => [v]) l) | Val2 nc vr => (nc, vr) end) in H.
  assert (Ev : vr = (val_cols vals, match vals with ValNone => map (fun _ => [v1]) rows | Val1 l => map (fun v => [v]) l | Val2 _ r => r end)) by (unfold vr; destruct vals; auto).
  rewrite Ev in H. clear vr Ev.
  set (vrows := match vals with ValNone => map (fun _ => [v1]) rows | Val1 l => map (fun v => [v]) l | Val2 _ r => r end) in H.
  assert (Lvv : length vrows = val_rows vals (length rows)) by (unfold vrows; destruct vals; cbn; rewrite ?map_length; reflexivity).
  destruct (Nat.eqb_spec (length vrows) (length rows)) as [Lv|]; [|discriminate]. cbn [check bind] in H.
  match type of H with bind ?x _ = _ => destruct x as [[]|] eqn:Ee; cbn [bind] in H; [|discriminate] end.
  match type of H with bind ?x _ = _ => destruct x as [c|] eqn:Ec; cbn [bind] in H; [|discriminate] end.
  match type of H with bind ?x _ = _ => destruct x as [s|] eqn:Es; cbn [bind] in H; [|discriminate] end.
  assert (Hn : rows <> [] -> n = nc).
  { intros Rn. destruct (Nat.eqb_spec (length rows) 0) as [L0|L0]; [destruct rows; [tauto|discriminate]|].
    destruct nd as [k|]; [destruct (Nat.eqb_spec k nc); congruence|congruence]. }
  assert (Hc : rows <> [] -> flen c = nc).
  { intros Rn. destruct center as [c'|].
    - destruct (Nat.eqb_spec (flen c') n) as [Q|]; cbn [check bind] in Ec; [|discriminate]. injection Ec as <-. rewrite Q. apply Hn, Rn.
    - injection Ec as <-. unfold flen. cbn [fv]. rewrite map_length, combine_length, !map_length, seq_length, Nat.min_id. reflexivity. }
  destruct (grid_new A (val_cols vals) c s pix au gu) as [g0|] eqn:Eg; cbn [bind] in H; [|discriminate].
  pose proof (grid_new_consistent _ _ _ _ _ _ _ _ Eg Pp) as C0.
  pose proof (grid_new_inv _ _ _ _ _ _ _ _ Eg) as I. cbv zeta in I.
  destruct I as (s1 & p1 & _ & _ & Inp & Ino & Ind & Ic & _ & _ & _ & _ & _ & _ & _ & _ & _ & _ & _ & If & _ & _ & _).
  assert (Rd : ready (init_grid g0) (full (g_npix g0 ++ [g_nprop g0]) v0)).
  { apply init_ready. rewrite If. clear. induction (flen c); simpl; auto. }
  pose proof (init_consistent g0 C0) as CI.
  destruct (list_eq_dec (list_eq_dec Qc_eq_dec) rows []) as [->|Rn].
  - assert (Eg' : g = init_grid g0).
    { unfold add_from_cat in H. cbn [g_data g_fsp init_grid with_nobj with_data] in H. rewrite If in H.
      assert (X : existsb (fun b => b) (repeat false (flen c)) = false) by (clear; induction (flen c); simpl; auto). rewrite X in H. congruence. }
    subst g. exists c, s, g0, (full (g_npix g0 ++ [g_nprop g0]) v0). split; [exact Hc|].
    split. { destruct center as [c'|]; [right|left; reflexivity]. destruct (flen c' =? n)%nat; cbn [check bind] in Ec; [congruence|discriminate]. }
    split; [exact Eg|]. split; [repeat split|]. split; [exact Inp|]. split; [exact CI|]. split; [congruence|]. split; [reflexivity|].
    intros ix k Hix Hk. unfold cell_total. cbn [combine filter map]. change (vsum []) with (v0 : A).
    apply getd_full. rewrite inb_snoc by (apply inb_length, Hix). rewrite Inp. cbn in Hix. rewrite Hix. apply Nat.ltb_lt, Hk.
  - specialize (Hc Rn). rewrite Hc in Ind.
    destruct (add_from_cat_existing (init_grid g0) _ rows (Val2 (val_cols vals) vrows) None (seq 0 (g_nprop g0)) CI Rd) as (d' & E1 & W & Sh & V).
    + cbn [g_ndim init_grid with_nobj with_data]. rewrite Ind. exact R.
    + cbn [val_rows]. exact Lv.
    + reflexivity.
    + right. cbn [val_cols]. rewrite seq_length, Inp. split; auto. apply Forall_forall. intros x Hx. apply in_seq in Hx. lia.
    + cbn [g_ndim init_grid with_nobj with_data] in E1. rewrite Ind in E1. rewrite E1 in H. injection H as <-.
      exists c, s, g0, d'. split; [auto|].
      split. { destruct center as [c'|]; [right|left; reflexivity]. destruct (flen c' =? n)%nat; cbn [check bind] in Ec; [congruence|discriminate]. }
      split; [exact Eg|]. split; [repeat split|]. split; [exact Inp|]. split.
      { assert (Cd : consistent (with_data (init_grid g0) (Some d'))) by (destruct CI; constructor; auto; cbn; split; auto).
        destruct Cd; constructor; auto. }
      split; [congruence|]. split; [reflexivity|].
      intros ix k Hix Hk. rewrite V by (cbn; rewrite ?Inp; auto). rewrite times_seq by (rewrite Inp; exact Hk). rewrite scaled_1.
      assert (Z : getd v0 (full (g_npix g0 ++ [g_nprop g0]) v0) (ix ++ [k]) = (v0 : A)) by (apply getd_full; rewrite inb_snoc by (apply inb_length, Hix); rewrite Inp; cbn in Hix; rewrite Hix; apply Nat.ltb_lt, Hk).
      rewrite Z. cbn [val_col]. rewrite <- (col_vals vals rows k Hk). fold vrows.
      replace (used_col (Val2 (val_cols vals) vrows) k) with k; [unfold cell_total, in_cell; cbn; ring|].
      unfold used_col. cbn [val_cols]. destruct (Nat.eqb_spec (val_cols vals) 1); lia.
Qed.

Lemma gf_inv pos vals center side pix nd cube edges : gridder_function (A:=A) pos vals center side pix nd = Ok (cube, edges) ->
  exists g, gridder pos vals center side pix None None nd = Ok g /\ g_data g = Some cube /\ g_axes g = edges.
Proof.
  unfold gridder_function. intros H. destruct (gridder pos vals center side pix None None nd) as [g|]; cbn [bind] in H; [|discriminate].
  exists g. destruct (g_data g) as [d|]; [|discriminate]. injection H as -> ->. auto.
Qed.
Lemma gf_always pos vals center side pix nd (g : grid) : gridder pos vals center side pix None None nd = Ok g -> g_data g <> None.
Proof.
  intros H. unfold gridder in H. destruct (match pos with Pos1 l => (1%nat, map (fun x => [x]) l) | Pos2 nc r => (nc, r) end) as [nc rows].
  match type of H with bind ?x _ = _ => destruct x as [n|] eqn:En; cbn [bind] in H; [|discriminate] end.
  destruct (match vals with ValNone => (1%nat, map (fun _ => [v1]) rows) | Val1 l => (1%nat, map (fun v => [v]) l) | Val2 nc vr => (nc, vr) end) as [vc vrows].
  match type of H with bind ?x _ = _ => destruct x as [[]|] eqn:Ek; cbn [bind] in H; [|discriminate] end.
  match type of H with bind ?x _ = _ => destruct x as [[]|] eqn:Ee; cbn [bind] in H; [|discriminate] end.
  match type of H with bind ?x _ = _ => destruct x as [c|] eqn:Ec; cbn [bind] in H; [|discriminate] end.
  match type of H with bind ?x _ = _ => destruct x as [s|] eqn:Es; cbn [bind] in H; [|discriminate] end.
  destruct (grid_new A vc c s pix None None) as [g0|] eqn:Eg; cbn [bind] in H; [|discriminate].
  destruct (add_from_cat (init_grid g0) (Pos2 nc rows) (Val2 vc vrows) false None) as [g' [[]|]] eqn:E; [|discriminate]. injection H as <-.
  revert E. unfold add_from_cat. cbn [g_data init_grid with_nobj with_data].
  destruct (existsb _ _); [discriminate|]. destruct rows; [intros E; injection E as <-; discriminate|]. intros E.
  repeat match type of E with
         | (if ?b then _ else _) = _ => destruct b; try discriminate
         | match ?b with _ => _ end = _ => destruct b; try discriminate
         end; injection E as <-; discriminate.
Qed.

Lemma cells_npix (g : grid) : consistent g -> cells_of (g_axes g) = g_npix g.
Proof.
  intros C. apply (nth_ext _ _ 0%nat 0%nat); unfold cells_of; rewrite map_length.
  - rewrite (co_ax _ C), (co_n _ C). reflexivity.
  - rewrite (co_ax _ C). intros i Hi. rewrite (nth_map' _ _ i []) by (rewrite (co_ax _ C); exact Hi).
    rewrite (ao_elen _ _ _ _ _ _ _ _ (co_axis _ C i Hi)). lia.
Qed.

Lemma gf_cells nc rows vals center side pix nd cube edges :
  gridder_function (A:=A) (Pos2 nc rows) vals center side pix nd = Ok (cube, edges) -> rows_ok nc rows -> (forall x, In x (fv pix) -> 0 < x) ->
  (rows <> [] -> length edges = nc) /\ shape cube = cells_of edges ++ [val_cols vals] /\
  forall ix k, inb (cells_of edges) ix = true -> (k < val_cols vals)%nat ->
    get cube (ix ++ [k]) = Some (total_between edges ix rows (val_col vals (length rows) k)).
Proof.
  intros H R Pp. apply gf_inv in H as (g & H & Ed & <-).
  destruct (gridder_cells _ _ _ _ _ _ _ _ _ _ H R Pp) as (c & s & g0 & d & Hc & _ & Eg & SG & Np & C & _ & Ed' & V).
  rewrite Ed in Ed'. injection Ed' as <-. rewrite (cells_npix g C).
  pose proof (co_data _ C) as K. rewrite Ed in K. destruct K as [W Sh].
  split. { intros Rn. rewrite (co_ax _ C). destruct SG as [-> _]. pose proof (grid_new_inv _ _ _ _ _ _ _ _ Eg) as I. cbv zeta in I.
    destruct I as (s1 & p1 & _ & _ & _ & _ & -> & _). apply Hc, Rn. }
  split; [rewrite Sh, Np; reflexivity|].
  intros ix k Hix Hk. specialize (V ix k Hix Hk). change (total_between (g_axes g) ix rows (val_col vals (length rows) k)) with (cell_total g ix rows (val_col vals (length rows) k)).
  rewrite <- V. unfold getd. destruct (get cube (ix ++ [k])) eqn:E; [reflexivity|]. exfalso. 
  assert (Ib : inb (shape cube) (ix ++ [k]) = true) by (rewrite Sh, inb_snoc by (apply inb_length, Hix); rewrite Hix, Np; apply Nat.ltb_lt, Hk).
  apply (get_inb_some cube (ix ++ [k]) W) in Ib as [x Ex]. congruence.
Qed.

Lemma gf_edges nc rows vals center side pix nd cube edges i :
  gridder_function (A:=A) (Pos2 nc rows) vals center side pix nd = Ok (cube, edges) -> rows_ok nc rows -> (forall x, In x (fv pix) -> 0 < x) ->
  (i < length edges)%nat ->
  let e := nth i edges [] in
  (3 <= length e)%nat /\ (forall k, (k < length e)%nat -> nth k e 0 = nth 0 e 0 + nq k * per_axis pix i) /\
  (forall c, center = Some c -> nth 0 e 0 + last e 0 = fnth c i + fnth c i).
Proof.
  intros H R Pp Hi e. apply gf_inv in H as (g & H & Ed & E).
  destruct (gridder_cells _ _ _ _ _ _ _ _ _ _ H R Pp) as (c & s & g0 & d & Hc & Hcen & Eg & SG & Np & C & _ & Ed' & V).
  rewrite <- E in Hi. rewrite (co_ax _ C) in Hi. unfold e. rewrite <- E. clear e E.
  pose proof (co_axis _ C i Hi) as AO. pose proof (ao_n _ _ _ _ _ _ _ _ AO) as N2. pose proof (ao_elen _ _ _ _ _ _ _ _ AO) as L.
  pose proof (ao_edge _ _ _ _ _ _ _ _ AO) as Q. pose proof (ao_s _ _ _ _ _ _ _ _ AO) as S0.
  pose proof (grid_new_inv _ _ _ _ _ _ _ _ Eg) as I. cbv zeta in I. destruct I as (s1 & p1 & _ & _ & _ & _ & Ind & Ic & _).
  destruct SG as (G1 & G2 & G3 & G4 & _). rewrite G1, Ind in Hi.
  assert (Pq : fnth (g_pix g) i = per_axis pix i).
  { rewrite per_axis_bval, G4. apply (grid_new_side _ _ _ _ _ _ _ _ i Eg); [exact Hi|].
    pose proof (grid_new_success A (val_cols vals) c s pix None None Pp) as GS. destruct GS as [GS _]. destruct GS as (_ & Lx & _); [eauto|].
    apply Pp. unfold bval, fnth. destruct (Nat.eqb_spec (flen pix) 1); apply nth_In; unfold flen in *; unfold lens_ok in Lx; lia. }
  assert (Qn : forall k, (k <= nth i (g_npix g) 0)%nat -> nth k (nth i (g_axes g) []) 0 = fnth (g_center g) i - fnth (g_side g) i / zq 2 + nq k * fnth (g_pix g) i).
  { intros k Hk. apply nth_error_nth. apply Q, Hk. }
  split; [lia|]. split.
  - intros k Hk. rewrite !Qn by lia. rewrite Pq. replace (nq 0) with 0 by reflexivity. ring.
  - intros c' Ec'. destruct Hcen as [Hcen|Hcen]; [congruence|]. replace c' with c by congruence.
    assert (La : last (nth i (g_axes g) []) 0 = nth (nth i (g_npix g) 0%nat) (nth i (g_axes g) []) 0).
    { rewrite GridAdd.last_nth. f_equal. lia. }
    rewrite La, !Qn by lia. rewrite G2, Ic. rewrite S0. replace (zq 2) with (1 + 1) by reflexivity. replace (nq 0) with 0 by reflexivity. field. discriminate.
Qed.

Lemma gf_total nc rows vals center side pix nd cube edges k :
  gridder_function (A:=A) (Pos2 nc rows) vals center side pix nd = Ok (cube, edges) -> rows_ok nc rows -> (forall x, In x (fv pix) -> 0 < x) ->
  (k < val_cols vals)%nat ->
  vsum (map (fun ix => getd v0 cube (ix ++ [k])) (idxs (cells_of edges))) = total_within edges rows (val_col vals (length rows) k).
Proof.
  intros H R Pp Hk. destruct (gf_cells _ _ _ _ _ _ _ _ _ H R Pp) as (Ln & _ & V). apply gf_inv in H as (g & H & Ed & E).
  destruct (gridder_cells _ _ _ _ _ _ _ _ _ _ H R Pp) as (c & s & g0 & d & Hc & _ & Eg & SG & Np & C & _ & Ed' & _).
  assert (Rg : rows_ok (g_ndim g) rows).
  { unfold rows_ok. apply Forall_forall. intros r Hr. unfold rows_ok in R. rewrite Forall_forall in R. rewrite (R r Hr).
    rewrite <- (co_ax _ C), E, Ln; [reflexivity|intros ->; destruct Hr]. }
  pose proof (cell_total_sum g rows (val_col vals (length rows) k) C Rg) as T. rewrite <- E. rewrite (cells_npix g C).
  change (total_within (g_axes g) rows (val_col vals (length rows) k)) with (inside_total g rows (val_col vals (length rows) k)). rewrite <- T.
  apply vsum_ext. intros ix Hix. apply in_idxs in Hix. unfold getd. rewrite V; [rewrite <- E; reflexivity| |exact Hk]. rewrite <- E, (cells_npix g C). exact Hix.
Qed.

Lemma gf_returns nc rows vals c s pix nd : rows_ok nc rows -> (forall x, In x (fv pix) -> 0 < x) ->
  (exists r, gridder_function (A:=A) (Pos2 nc rows) vals (Some c) (Some s) pix nd = Ok r) <->
  exists n, dims_for nc rows nd n /\ val_rows vals (length rows) = length rows /\ flen c = n /\ one_or n (flen s) /\ one_or n (flen pix) /\
    forall i, (i < n)%nat -> frac 21 20 * per_axis pix i < per_axis s i.
Proof.
  intros R Pp.
  assert (Lvv : length (match vals with ValNone => map (fun _ => [v1]) rows | Val1 l => map (fun v => [v]) l | Val2 _ r => r end) = val_rows vals (length rows))
    by (destruct vals; cbn; rewrite ?map_length; reflexivity).
  assert (Ev : (match vals with ValNone => (1%nat, map (fun _ => [v1]) rows) | Val1 l => (1%nat, map (fun v => [v]) l) | Val2 nc vr => (nc, vr) end)
     = (val_cols vals, match vals with ValNone => map (fun _ => [v1]) rows | Val1 l => map (fun v => [v]) l | Val2 _ r => r end)) by (destruct vals; auto).
  split.
  - intros [[cube edges] H]. apply gf_inv in H as (g & H & _ & _). unfold gridder in H. rewrite Ev in H.
    match type of H with bind ?x _ = _ => destruct x as [n|] eqn:En; cbn [bind] in H; [|discriminate] end.
    rewrite Lvv in H. destruct (Nat.eqb_spec (val_rows vals (length rows)) (length rows)) as [Lv|]; [|discriminate]. cbn [check bind] in H.
    destruct (Nat.eqb_spec (flen c) n) as [Lc|]; [|discriminate]. cbn [check bind] in H.
    destruct (bcast_side n s) as [s'|] eqn:Es; cbn [bind] in H; [|discriminate].
    destruct (grid_new A (val_cols vals) c s' pix None None) as [g0|] eqn:Eg; cbn [bind] in H; [|discriminate].
    destruct (bcast_side_ok _ _ _ Es) as [Ls Qs].
    destruct (proj1 (grid_new_success A (val_cols vals) c s' pix None None Pp) (ex_intro _ g0 Eg)) as (_ & Lp & _ & _ & Big).
    exists n. split.
    { destruct rows as [|r rows]; cbn [length Nat.eqb] in En; cbn [dims_for].
      - destruct nd; [congruence|discriminate].
      - destruct nd as [k|]; [|split; [congruence|auto]]. destruct (Nat.eqb_spec k nc) as [->|]; [|discriminate]. split; [congruence|auto]. }
    split; [exact Lv|]. split; [exact Lc|]. split; [apply bcast_side_iff; eauto|]. split; [rewrite <- Lc; exact Lp|].
    intros i Hi. rewrite !per_axis_bval. replace (bval s i) with (bval s' i); [apply Big; lia|].
    unfold bval at 1. rewrite Ls. destruct (Nat.eqb_spec n 1) as [E1|E1]; [replace i with 0%nat in * by lia|]; rewrite Qs by lia; reflexivity.
  - intros (n & Hd & Lv & Lc & Hs & Hp & Big). 
    assert (En : match nd with None => if (length rows =? 0)%nat then Raise ValueError else Ok nc
             | Some k => if (length rows =? 0)%nat then Ok k else if (k =? nc)%nat then Ok nc else Raise ValueError end = Ok n).
    { destruct rows as [|r rows]; cbn [dims_for] in Hd; cbn [length Nat.eqb].
      - rewrite Hd. reflexivity.
      - destruct Hd as [-> [->| ->]]; [reflexivity|]. rewrite Nat.eqb_refl. reflexivity. }
    destruct (proj2 (bcast_side_iff n s) Hs) as [s' Es]. destruct (bcast_side_ok _ _ _ Es) as [Ls Qs].
    destruct (proj2 (grid_new_success A (val_cols vals) c s' pix None None Pp)) as [g0 Eg].
    { rewrite Lc. split; [left; exact Ls|]. split; [exact Hp|]. split; [exact I|]. split; [exact I|].
      intros i Hi. specialize (Big i Hi). rewrite !per_axis_bval in Big. replace (bval s' i) with (bval s i); [exact Big|].
      symmetry. unfold bval at 1. rewrite Ls. destruct (Nat.eqb_spec n 1) as [E1|E1]; [replace i with 0%nat in * by lia|]; rewrite Qs by lia; reflexivity. }
    assert (X : exists g, gridder (A:=A) (Pos2 nc rows) vals (Some c) (Some s) pix None None nd = Ok g).
    { unfold gridder. rewrite En. cbn [bind]. rewrite Ev, Lvv, Lv, Nat.eqb_refl. cbn [check bind]. rewrite Lc, Nat.eqb_refl. cbn [check bind]. rewrite Es. cbn [bind]. rewrite Eg. cbn [bind].
      pose proof (grid_new_consistent _ _ _ _ _ _ _ _ Eg Pp) as C0.
      pose proof (grid_new_inv _ _ _ _ _ _ _ _ Eg) as I. cbv zeta in I.
      destruct I as (s1 & p1 & _ & _ & Inp & Ino & Ind & Ic & _ & _ & _ & _ & _ & _ & _ & _ & _ & _ & _ & If & _ & _ & _).
      assert (Fa : existsb (fun b => b) (g_fsp g0) = false) by (rewrite If; clear; induction (flen c); simpl; auto).
      pose proof (init_ready g0 Fa) as Rd.
      destruct rows as [|r rows].
      - unfold add_from_cat. cbn [g_data g_fsp init_grid with_nobj with_data]. rewrite Fa. eauto.
      - destruct Hd as [Hn _]. 
        match goal with |- context[Val2 (val_cols vals) ?v] => destruct (add_from_cat_existing (init_grid g0) _ (r :: rows) (Val2 (val_cols vals) v) None (seq 0 (g_nprop g0)) (init_consistent g0 C0) Rd) as (d' & E1 & _) end.
        + cbn [g_ndim init_grid with_nobj with_data]. rewrite Ind, Lc, Hn. exact R.
        + cbn [val_rows]. congruence.
        + reflexivity.
        + right. cbn [val_cols]. rewrite seq_length, Inp. split; auto. apply Forall_forall. intros x Hx. apply in_seq in Hx. lia.
        + cbn [g_ndim init_grid with_nobj with_data] in E1. rewrite Ind, Lc, Hn in E1. rewrite E1. eauto. }
    destruct X as [g Hg]. pose proof (gf_always _ _ _ _ _ _ _ Hg) as Na. unfold gridder_function. rewrite Hg. cbn [bind]. destruct (g_data g); [eauto|congruence].
Qed.
End G.
