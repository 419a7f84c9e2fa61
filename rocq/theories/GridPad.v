(** pad: C11. *)
From Verif Require Import Util Rat Val Arr GridModel GridSpec GridAxis GridNew GridAdd GridCat GridSpectra GridSpecFunc GridEx.
Open Scope Qc_scope.

(** reduce attribute accesses on updated grids, nothing else *)
Ltac gcbn := cbn [with_data with_geom with_nobj with_nprop with_fsp with_ispow g_nprop g_nobj g_ndim g_center g_side g_pix
   g_npix g_axu g_faxu g_gru g_axes g_centers g_faxes g_fcenters g_fsp g_ispow g_data option_map fst snd].
Ltac gcbn_in H := cbn [with_data with_geom with_nobj with_nprop with_fsp with_ispow g_nprop g_nobj g_ndim g_center g_side g_pix
   g_npix g_axu g_faxu g_gru g_axes g_centers g_faxes g_fcenters g_fsp g_ispow g_data option_map fst snd] in H.

Lemma qdiv_pos a p : 0 < a -> 0 < p -> 0 < a / p.
Proof.
  intros Ha Hp. apply Qcnot_le_lt. intros L. apply (Qcmult_pos_le _ _ p Hp) in L.
  replace (a / p * p) with a in L by (field; apply Qc_pos_neq0; auto). qlra.
Qed.

Lemma combine_app_eq {X Y} (a c : list X) (b d : list Y) : length a = length b ->
  combine (a ++ c) (b ++ d) = combine a b ++ combine c d.
Proof. revert b; induction a as [|x a IH]; intros [|y b] H; simpl in *; try discriminate; auto. rewrite IH by lia. reflexivity. Qed.

Section Pad.
Context {A : Alg}.
Notation grid := (grid A).

(** ** index bookkeeping *)
Definition wpos (p : list Z) : list nat := map Z.to_nat p.
Definition wneg (p : list Z) : list nat := map (fun z => Z.to_nat (- z)) p.
Definition addw (ix w : list nat) : list nat := map (fun q => (fst q + snd q)%nat) (combine ix w).

Lemma shifted_shift p jx ix : shifted p jx ix = true -> shift_ix (wpos p) (addw ix (wneg p)) = Some jx.
Proof.
  revert jx ix; induction p as [|a p IH]; intros [|j jx] [|i ix] H; simpl in *; try discriminate; auto.
  apply andb_prop in H as [H1 H2]. apply Z.eqb_eq in H1.
  change (map (fun q => (fst q + snd q)%nat) (combine ix (wneg p))) with (addw ix (wneg p)).
  rewrite (IH _ _ H2). destruct (Nat.ltb_spec (i + Z.to_nat (- a)) (Z.to_nat a)); [lia|]. simpl. do 2 f_equal. lia.
Qed.

Lemma shift_shifted p jx ix : length ix = length p ->
  shift_ix (wpos p) (addw ix (wneg p)) = Some jx -> shifted p jx ix = true.
Proof.
  revert jx ix; induction p as [|a p IH]; intros jx [|i ix] L H; simpl in *; try discriminate.
  - inversion H; reflexivity.
  - change (map (fun q => (fst q + snd q)%nat) (combine ix (wneg p))) with (addw ix (wneg p)) in H.
    destruct (Nat.ltb_spec (i + Z.to_nat (- a)) (Z.to_nat a)); [discriminate|].
    destruct (shift_ix (wpos p) (addw ix (wneg p))) as [jx'|] eqn:E; [|discriminate].
    simpl in H. inversion H; subst. simpl. rewrite (IH jx' ix) by (auto; lia). rewrite andb_true_r. apply Z.eqb_eq. lia.
Qed.

Definition newn (n : nat) (p : Z) : nat := Z.to_nat (Z.of_nat n + 2 * p).
Definition newsh (sh : list nat) (p : list Z) : list nat := map (fun q => newn (fst q) (snd q)) (combine sh p).
Definition roomy (sh : list nat) (p : list Z) : Prop := Forall (fun q => (0 <= Z.of_nat (fst q) + 2 * snd q)%Z) (combine sh p).

Lemma pad_shape sh p : length p = length sh -> roomy sh p ->
  map (fun q => (fst q - 2 * snd q)%nat) (combine (map (fun q => (fst q + 2 * snd q)%nat) (combine sh (wpos p))) (wneg p)) = newsh sh p.
Proof.
  revert p; induction sh as [|n sh IH]; intros [|a p] L R; simpl in *; try discriminate; auto.
  inversion R as [|? ? R1 R2]; subst. cbn [fst snd] in R1. rewrite IH by (auto; lia). unfold newsh. simpl. f_equal. unfold newn; cbn [fst snd]. lia.
Qed.

Lemma addw_inb sh p ix : length p = length sh -> roomy sh p -> inb (newsh sh p) ix = true ->
  inb (map (fun q => (fst q + 2 * snd q)%nat) (combine sh (wpos p))) (addw ix (wneg p)) = true.
Proof.
  revert p ix; induction sh as [|n sh IH]; intros [|a p] [|i ix] L R H; simpl in *; try discriminate; auto.
  inversion R as [|? ? R1 R2]; subst; cbn [fst snd] in *. apply andb_prop in H as [H1 H2]. apply Nat.ltb_lt in H1. unfold newn in H1.
  apply andb_true_intro; split; [apply Nat.ltb_lt; cbn [fst snd] in *; lia|]. apply IH; auto.
Qed.

Lemma shifted_length p jx ix : shifted p jx ix = true -> length jx = length p /\ length ix = length p.
Proof.
  revert jx ix; induction p as [|a p IH]; intros [|j jx] [|i ix] H; simpl in *; try discriminate; auto.
  apply andb_prop in H as [_ H]. apply IH in H as [-> ->]. auto.
Qed.

Lemma pad_data (d : arr A) p val : awf d -> length p = length (shape d) -> roomy (shape d) p ->
  let d' := np_unpad (wneg p) (np_pad (wpos p) val d) in
  awf d' /\ shape d' = newsh (shape d) p /\
  (forall jx ix, inb (shape d) jx = true -> inb (newsh (shape d) p) ix = true -> shifted p jx ix = true ->
     getd v0 d' ix = getd v0 d jx) /\
  (forall ix, inb (newsh (shape d) p) ix = true -> (forall jx, inb (shape d) jx = true -> shifted p jx ix = false) ->
     getd v0 d' ix = val).
Proof.
  intros W L R d'. assert (S : shape d' = newsh (shape d) p) by (apply pad_shape; auto).
  assert (G : forall ix, inb (newsh (shape d) p) ix = true ->
     getd v0 d' ix = match shift_ix (wpos p) (addw ix (wneg p)) with Some jx => getd val d jx | None => val end).
  { intros ix H. unfold d', np_unpad. rewrite getd_tab by (simpl; rewrite pad_shape; auto).
    change (map (fun p0 => (fst p0 + snd p0)%nat) (combine ix (wneg p))) with (addw ix (wneg p)).
    unfold np_pad. rewrite getd_tab by (apply addw_inb; auto). reflexivity. }
  split; [apply tab_wf|]. split; [auto|]. split.
  - intros jx ix Hj Hi Hs. rewrite G by auto. rewrite (shifted_shift _ _ _ Hs).
    unfold getd. destruct (get_inb_some d jx W Hj) as [x ->]. reflexivity.
  - intros ix Hi Hn. rewrite G by auto. destruct (shift_ix _ _) as [jx|] eqn:E; auto.
    apply shift_shifted in E.
    2:{ apply inb_length in Hi. rewrite Hi. unfold newsh. rewrite map_length, combine_length. lia. }
    unfold getd, get. destruct (inb (shape d) jx) eqn:Ej; auto. rewrite (Hn jx Ej) in E. discriminate.
Qed.

(** ** one axis *)
Definition pad_side (g : grid) (i : nat) (p : Z) : Qc :=
  if (p =? 0)%Z then fnth (g_side g) i else
  if nth i (g_fsp g) false then fnth (g_side g) i else nq (newn (nth i (g_npix g) 0%nat) p) * fnth (g_pix g) i.
Definition pad_pix (g : grid) (i : nat) (p : Z) : Qc :=
  if (p =? 0)%Z then fnth (g_pix g) i else
  if nth i (g_fsp g) false then fnth (g_side g) i / nq (newn (nth i (g_npix g) 0%nat) p) else fnth (g_pix g) i.

Lemma pad_axis_ok (g : grid) ax pad i : consistent g -> floats g -> pads_agree g ax pad ->
  (i < g_ndim g)%nat -> (2 <= Z.of_nat (nth i (g_npix g) 0%nat) + 2 * pad_of ax pad i)%Z ->
  let p := pad_of ax pad i in
  exists pa, pad_axis g ax pad i = Ok pa /\
    pa_pad pa = Z.to_nat p /\ pa_unpad pa = Z.to_nat (- p) /\ pa_n pa = newn (nth i (g_npix g) 0%nat) p /\
    pa_side pa = pad_side g i p /\ pa_pix pa = pad_pix g i p /\
    axis_ok (pa_n pa) (fnth (g_center g) i) (pa_side pa) (pa_pix pa) (pa_axes pa) (pa_centers pa) (pa_faxes pa) (pa_fcenters pa).
Proof.
  intros C (F1 & F2 & F3) Ag Hi H2 p. pose proof (co_axis _ C i Hi) as O.
  assert (K : p = 0%Z -> let pa := pad_keep g i in
    pa_pad pa = Z.to_nat p /\ pa_unpad pa = Z.to_nat (- p) /\ pa_n pa = newn (nth i (g_npix g) 0%nat) p /\
    pa_side pa = pad_side g i p /\ pa_pix pa = pad_pix g i p /\
    axis_ok (pa_n pa) (fnth (g_center g) i) (pa_side pa) (pa_pix pa) (pa_axes pa) (pa_centers pa) (pa_faxes pa) (pa_fcenters pa)).
  { intros ->. simpl. unfold newn, pad_side, pad_pix. simpl. repeat match goal with |- _ /\ _ => split end; auto. lia. }
  assert (Ei : p = pad_of ax pad i) by reflexivity. clearbody p. unfold pad_axis. unfold pad_of in Ei.
  destruct (index_nat i ax) as [ip|] eqn:Eip.
  2:{ exists (pad_keep g i). split; [reflexivity|apply K; auto]. }
  rewrite <- Ei. destruct (Z.eqb_spec p 0) as [Hz|Hnz].
  { exists (pad_keep g i). split; [reflexivity|apply K; auto]. }
  assert (Ep : pad_of ax pad i = p) by (unfold pad_of; rewrite Eip; auto).
  destruct (Ag i Hi) as (a & Ea & Epa); [rewrite Ep; auto|]. rewrite Ea, Epa, Ep.
  rewrite Ep in H2.
  set (n := nth i (g_npix g) 0%nat) in *.
  unfold fstore. rewrite F2, F3.
  set (px := if nth i (g_fsp g) false then _ / _ else _). set (side := if nth i (g_fsp g) false then _ else _).
  assert (Hzn : zq (Z.of_nat n + 2 * p) = nq (newn n p)) by (unfold nq, newn; f_equal; lia).
  assert (Hside : side = pad_side g i p).
  { unfold side, pad_side. destruct (Z.eqb_spec p 0); [congruence|]. rewrite Hzn. fold n. reflexivity. }
  assert (Hpx : px = pad_pix g i p).
  { unfold px, pad_pix. destruct (Z.eqb_spec p 0); [congruence|]. rewrite Hzn. fold n. reflexivity. }
  pose proof (ao_p _ _ _ _ _ _ _ _ O) as Pp. pose proof (ao_s _ _ _ _ _ _ _ _ O) as Ps. pose proof (ao_n _ _ _ _ _ _ _ _ O) as Pn.
  assert (Hnn : 0 < zq (Z.of_nat n + 2 * p)) by (replace 0 with (zq 0) by reflexivity; apply zq_lt; lia).
  assert (Hs0 : 0 < fnth (g_side g) i).
  { rewrite Ps. fold n. replace 0 with (0 * fnth (g_pix g) i) by ring. apply Qcmult_pos_lt; auto.
    replace 0 with (zq 0) by reflexivity. unfold nq. apply zq_lt. fold n in Pn. lia. }
  assert (Hpos : 0 < px).
  { unfold px. destruct (nth i (g_fsp g) false); auto.
    apply qdiv_pos; auto. }
  assert (Hsp : side = zq (Z.of_nat n + 2 * p) * px).
  { unfold side, px. destruct (nth i (g_fsp g) false); auto. field. apply Qc_pos_neq0; auto. }
  destruct (fourier_axis_ok (Z.of_nat n + 2 * p) px) as (fe & Ef & _); [auto|]. rewrite Ef. cbn [bind].
  eexists. split; [reflexivity|]. cbn [pa_pad pa_unpad pa_n pa_side pa_pix pa_axes pa_centers pa_faxes pa_fcenters].
  repeat match goal with |- _ /\ _ => split end; auto.
  apply axis_ok_built; auto.
Qed.

Lemma mapM_seq_spec {X} (f : nat -> exc X) n (P : nat -> X -> Prop) :
  (forall i, (i < n)%nat -> exists x, f i = Ok x /\ P i x) ->
  exists r, mapM f (seq 0 n) = Ok r /\ length r = n /\ forall i x, nth_error r i = Some x -> P i x.
Proof.
  intros H. destruct (mapM_all_ok f (seq 0 n)) as [r E].
  { intros i Hi. apply in_seq in Hi. destruct (H i) as (x & Ex & _); [lia|eauto]. }
  exists r. split; [auto|]. pose proof (mapM_ok_length _ _ _ E) as L. rewrite seq_length in L. split; [auto|].
  intros i x Hx. assert (Hi : (i < n)%nat) by (apply nth_error_Some_lt in Hx; lia).
  destruct (mapM_ok_nth _ _ _ i i E) as (y & Ey & Hy).
  { rewrite (nth_error_nth' _ 0%nat) by (rewrite seq_length; auto). rewrite seq_nth; auto. }
  rewrite Hx in Ey. inversion Ey; subst. destruct (H i Hi) as (z & Ez & Pz). congruence.
Qed.

Lemma nth_map_default {X Y} (f : X -> Y) l i dx dy : (i < length l)%nat -> nth i (map f l) dy = f (nth i l dx).
Proof. intros H. rewrite (nth_indep _ dy (f dx)) by (rewrite map_length; auto). apply map_nth. Qed.

Definition pad0 : padax := mkPad 0 0 0 0 0 [] [] [] [].

Lemma grid_pad_ok (g : grid) axz padz ax pad val : consistent g -> floats g ->
  pad_args g axz padz = Ok (ax, pad) -> pads_agree g ax pad ->
  (forall i, (i < g_ndim g)%nat -> (2 <= Z.of_nat (nth i (g_npix g) 0%nat) + 2 * pad_of ax pad i)%Z) ->
  existsb (fun ap => (snd ap <? 0)%Z && (Z.of_nat (nth (fst ap) (g_npix g) 0%nat) <=? -2 * snd ap)%Z) (combine ax pad) = false ->
  exists g',
    grid_pad g axz padz val = (g', Ok tt) /\ consistent g' /\ floats g' /\
    g_nprop g' = g_nprop g /\ g_nobj g' = g_nobj g /\ g_ndim g' = g_ndim g /\ g_center g' = g_center g /\
    g_axu g' = g_axu g /\ g_faxu g' = g_faxu g /\ g_gru g' = g_gru g /\ g_fsp g' = g_fsp g /\ g_ispow g' = g_ispow g /\
    g_npix g' = newsh (g_npix g) (pads g ax pad) /\
    (forall i, (i < g_ndim g)%nat -> fnth (g_side g') i = pad_side g i (pad_of ax pad i) /\
                                    fnth (g_pix g') i = pad_pix g i (pad_of ax pad i)) /\
    match g_data g, g_data g' with
    | None, None => True
    | Some d, Some d' =>
        d' = np_unpad (wneg (pads g ax pad ++ [0%Z])) (np_pad (wpos (pads g ax pad ++ [0%Z])) val d)
    | _, _ => False
    end.
Proof.
  intros C F Ea Ag Hroom Hex. unfold grid_pad. rewrite Ea, Hex.
  destruct (mapM_seq_spec (pad_axis g ax pad) (g_ndim g) (fun i pa =>
      pa_pad pa = Z.to_nat (pad_of ax pad i) /\ pa_unpad pa = Z.to_nat (- pad_of ax pad i) /\
      pa_n pa = newn (nth i (g_npix g) 0%nat) (pad_of ax pad i) /\
      pa_side pa = pad_side g i (pad_of ax pad i) /\ pa_pix pa = pad_pix g i (pad_of ax pad i) /\
      axis_ok (pa_n pa) (fnth (g_center g) i) (pa_side pa) (pa_pix pa) (pa_axes pa) (pa_centers pa) (pa_faxes pa) (pa_fcenters pa)))
    as (ps & E & Lp & HP).
  { intros i Hi. apply pad_axis_ok; auto. }
  rewrite E.
  assert (Lpads : length (pads g ax pad) = g_ndim g) by (unfold pads; rewrite map_length, seq_length; auto).
  assert (Npads : forall i, (i < g_ndim g)%nat -> nth_error (pads g ax pad) i = Some (pad_of ax pad i)).
  { intros i Hi. unfold pads. rewrite nth_error_map_seq. destruct (Nat.ltb_spec i (g_ndim g)); [auto|lia]. }
  assert (Hmap : forall {Y} (f : padax -> Y) (h : Z -> Y),
     (forall i pa, nth_error ps i = Some pa -> f pa = h (pad_of ax pad i)) -> map f ps = map h (pads g ax pad)).
  { intros Y f h Hf. apply nth_error_ext. intros i. rewrite !nth_error_map_some.
    destruct (nth_error ps i) as [pa|] eqn:Ei.
    - assert (Hi : (i < g_ndim g)%nat) by (apply nth_error_Some_lt in Ei; lia).
      rewrite Npads by auto. simpl. f_equal. auto.
    - apply nth_error_None in Ei. rewrite (proj2 (nth_error_None _ _)); [reflexivity|lia]. }
  assert (Mpad : map pa_pad ps = wpos (pads g ax pad)).
  { apply Hmap. intros i pa Hx. apply HP in Hx. tauto. }
  assert (Mun : map pa_unpad ps = wneg (pads g ax pad)).
  { apply (Hmap _ pa_unpad (fun z => Z.to_nat (- z))). intros i pa Hx. apply HP in Hx. tauto. }
  assert (Mn : map pa_n ps = newsh (g_npix g) (pads g ax pad)).
  { apply nth_error_ext. intros i. unfold newsh. rewrite !nth_error_map_some.
    destruct (nth_error ps i) as [pa|] eqn:Ei.
    - assert (Hi : (i < g_ndim g)%nat) by (apply nth_error_Some_lt in Ei; lia).
      rewrite nth_error_combine, Npads by auto. rewrite (nth_error_nth' (g_npix g) 0%nat) by (rewrite (co_n _ C); auto).
      simpl. f_equal. apply HP in Ei. tauto.
    - apply nth_error_None in Ei. rewrite (proj2 (nth_error_None _ _)); [reflexivity|].
      rewrite combine_length, (co_n _ C). lia. }
  rewrite Mpad, Mun.
  assert (Hroomy : roomy (g_npix g ++ [g_nprop g]) (pads g ax pad ++ [0%Z])).
  { unfold roomy. rewrite Forall_forall. intros [n p] Hin. cbn [fst snd].
    apply In_nth_error in Hin as [i Hi]. 
    destruct (Nat.lt_ge_cases i (g_ndim g)) as [Hlt|Hge].
    - rewrite nth_error_combine in Hi. destruct (nth_error (g_npix g ++ _) i) as [n'|] eqn:H1; [|discriminate].
      destruct (nth_error (pads g ax pad ++ _) i) as [p'|] eqn:H2; [|discriminate]. inversion Hi; subst n' p'.
      rewrite nth_error_app1 in H1 by (rewrite (co_n _ C); auto). rewrite nth_error_app1 in H2 by lia.
      rewrite Npads in H2 by auto. inversion H2; subst. specialize (Hroom i Hlt). rewrite (nth_error_nth _ _ _ H1) in Hroom. lia.
    - rewrite nth_error_combine in Hi. destruct (nth_error (g_npix g ++ _) i) as [n'|] eqn:H1; [|discriminate].
      destruct (nth_error (pads g ax pad ++ _) i) as [p'|] eqn:H2; [|discriminate]. inversion Hi; subst n' p'. rewrite nth_error_app2 in H2 by lia.
      destruct (i - length (pads g ax pad))%nat as [|[|]]; simpl in H2; inversion H2; subst. lia. }
  set (g' := with_data _ _).
  assert (Hnsh : newsh (g_npix g ++ [g_nprop g]) (pads g ax pad ++ [0%Z]) = newsh (g_npix g) (pads g ax pad) ++ [g_nprop g]).
  { unfold newsh. rewrite combine_app_eq by (rewrite (co_n _ C); auto). rewrite map_app. simpl. f_equal. f_equal. unfold newn. lia. }
  assert (Hdat : match g_data g with Some d => awf d /\ shape d = g_npix g ++ [g_nprop g] | None => True end) by apply C.
  exists g'. 
  assert (C' : consistent g').
  { destruct C. constructor; simpl; auto; try (rewrite map_length; auto; fail).
    - unfold flen; simpl. rewrite map_length; auto.
    - unfold flen; simpl. rewrite map_length; auto.
    - intros i Hi. assert (Hps : nth_error ps i = Some (nth i ps pad0)) by (apply nth_error_nth'; lia).
      apply HP in Hps as (_ & _ & _ & _ & _ & O). unfold fnth at 2 3. simpl.
      rewrite !(nth_map_default _ ps i pad0) by lia. exact O.
    - destruct (g_data g) as [d|]; auto. destruct Hdat as [W S].
      destruct (pad_data d (pads g ax pad ++ [0%Z]) val) as (W' & S' & _); auto.
      { rewrite S, !app_length, Lpads, co_n. reflexivity. } { rewrite S; auto. }
      unfold wpos, wneg in *. rewrite !map_app in *. split; [exact W'|]. rewrite Mn. rewrite <- Hnsh, <- S. exact S'. }
  split; [|split; [exact C'|]].
  - pose proof (co_data _ C') as D. destruct (g_data g) as [d|].
    + cbn [g' with_data g_data g_npix g_nprop] in D. destruct D as [_ S']. rewrite S', removelast_last.
      destruct (list_eq_dec _ _ _) as [|N]; [reflexivity|]. exfalso. apply N. reflexivity.
    + reflexivity.
  - split; [exact F|]. simpl. repeat match goal with |- _ /\ _ => split end; auto.
    + intros i Hi. assert (Hps : nth_error ps i = Some (nth i ps pad0)) by (apply nth_error_nth'; lia).
      apply HP in Hps as (_ & _ & _ & H1 & H2 & _). unfold fnth; simpl.
      rewrite !(nth_map_default _ ps i pad0) by lia. auto.
    + destruct (g_data g); auto. unfold wpos, wneg. rewrite !map_app. reflexivity.
Qed.

(** grids with the same parameters are equal *)
Lemma farr_eq (a b : farr) : fint a = fint b -> flen a = flen b -> (forall i, (i < flen a)%nat -> fnth a i = fnth b i) -> a = b.
Proof.
  destruct a as [ba la], b as [bb lb]; unfold flen, fnth; simpl. intros -> L H. f_equal.
  apply (nth_ext _ _ 0 0); auto.
Qed.

Lemma consistent_eq (g h : grid) : consistent g -> consistent h -> floats g -> floats h ->
  g_ndim h = g_ndim g -> g_nprop h = g_nprop g -> g_nobj h = g_nobj g -> g_center h = g_center g ->
  g_npix h = g_npix g ->
  (forall i, (i < g_ndim g)%nat -> fnth (g_side h) i = fnth (g_side g) i /\ fnth (g_pix h) i = fnth (g_pix g) i) ->
  g_axu h = g_axu g -> g_gru h = g_gru g -> g_fsp h = g_fsp g -> g_ispow h = g_ispow g -> g_data h = g_data g -> h = g.
Proof.
  intros C D (F1 & F2 & F3) (G1 & G2 & G3) En Ep Eo Ec Enp Es Ea Eg Ef Ei Ed.
  assert (Eside : g_side h = g_side g).
  { apply farr_eq; [congruence|rewrite (co_s _ C), (co_s _ D); auto|]. intros i Hi. rewrite (co_s _ D), En in Hi. apply Es; auto. }
  assert (Epix : g_pix h = g_pix g).
  { apply farr_eq; [congruence|rewrite (co_p _ C), (co_p _ D); auto|]. intros i Hi. rewrite (co_p _ D), En in Hi. apply Es; auto. }
  assert (Efu : g_faxu h = g_faxu g) by (rewrite (co_fu _ C), (co_fu _ D), Ea; auto).
  assert (X : forall i, (i < g_ndim g)%nat -> nth i (g_axes h) [] = nth i (g_axes g) [] /\ nth i (g_centers h) [] = nth i (g_centers g) []
     /\ nth i (g_faxes h) [] = nth i (g_faxes g) [] /\ nth i (g_fcenters h) [] = nth i (g_fcenters g) []).
  { intros i Hi. pose proof (co_axis _ C i Hi) as O1. assert (Hi' : (i < g_ndim h)%nat) by lia. pose proof (co_axis _ D i Hi') as O2.
    rewrite Enp, Ec, Eside, Epix in O2. exact (axis_ok_det _ _ _ _ _ _ _ _ _ _ _ _ O2 O1). }
  assert (Y1 : g_axes h = g_axes g) by (apply (nth_ext _ _ [] []); [rewrite (co_ax _ C), (co_ax _ D); auto|intros i Hi; apply X; rewrite (co_ax _ D) in Hi; lia]).
  assert (Y2 : g_centers h = g_centers g) by (apply (nth_ext _ _ [] []); [rewrite (co_ce _ C), (co_ce _ D); auto|intros i Hi; apply X; rewrite (co_ce _ D) in Hi; lia]).
  assert (Y3 : g_faxes h = g_faxes g) by (apply (nth_ext _ _ [] []); [rewrite (co_fa _ C), (co_fa _ D); auto|intros i Hi; apply X; rewrite (co_fa _ D) in Hi; lia]).
  assert (Y4 : g_fcenters h = g_fcenters g) by (apply (nth_ext _ _ [] []); [rewrite (co_fc _ C), (co_fc _ D); auto|intros i Hi; apply X; rewrite (co_fc _ D) in Hi; lia]).
  clear X Es C D F1 F2 F3 G1 G2 G3. destruct g, h; cbn in *. subst. reflexivity.
Qed.

Lemma pad_of_opp ax pad i : pad_of ax (map Z.opp pad) i = (- pad_of ax pad i)%Z.
Proof.
  unfold pad_of. destruct (index_nat i ax) as [j|]; [|reflexivity].
  destruct (Nat.lt_ge_cases j (length pad)).
  - apply (nth_map_default Z.opp); auto.
  - rewrite !nth_overflow by (rewrite ?map_length; auto). reflexivity.
Qed.

Lemma pad_args_opp (g : grid) axz padz ax pad : pad_args g axz padz = Ok (ax, pad) ->
  pad_args g axz (map Z.opp padz) = Ok (ax, map Z.opp pad) /\ length pad = length ax.
Proof.
  unfold pad_args. destruct (check _ ValueError); [|discriminate]. cbn [bind]. rewrite map_length.
  destruct ((length padz =? 1)%nat && (1 <? length axz)%nat)%bool eqn:E.
  - intros H; inversion H; subst. rewrite map_length, repeat_length. split; auto. do 2 f_equal.
    destruct padz; [discriminate|]. simpl. clear. induction (length axz); simpl; auto. rewrite <- IHn. reflexivity.
  - destruct (Nat.eqb_spec (length padz) (length axz)); [|discriminate]. cbn [check bind]. intros H; inversion H; subst.
    rewrite map_length. auto.
Qed.

Lemma pads_agree_opp (g h : grid) ax pad : g_ndim h = g_ndim g -> pads_agree g ax pad -> pads_agree h ax (map Z.opp pad).
Proof.
  intros En Ag i Hi Hz. rewrite pad_of_opp in *. rewrite En in Hi.
  destruct (Ag i Hi) as (a & E1 & E2); [lia|]. exists a. split; auto. rewrite nth_error_map_some, E2. reflexivity.
Qed.

Lemma newn_back n p : (0 <= Z.of_nat n + 2 * p)%Z -> newn (newn n p) (- p) = n.
Proof. unfold newn. lia. Qed.

(** nothing removed: the check at 274-276 passes *)
Lemma pad_nonneg_check (g : grid) ax pad : (forall z, In z pad -> (0 <= z)%Z) ->
  existsb (fun ap => (snd ap <? 0)%Z && (Z.of_nat (nth (fst ap) (g_npix g) 0%nat) <=? -2 * snd ap)%Z) (combine ax pad) = false.
Proof.
  intros H. apply not_true_is_false. intros E. apply existsb_exists in E as ([a z] & Hin & E). simpl in E.
  apply in_combine_r in Hin. apply H in Hin. lia.
Qed.

Lemma pad_of_nonneg ax pad i : (forall z, In z pad -> (0 <= z)%Z) -> (0 <= pad_of ax pad i)%Z.
Proof.
  intros H. unfold pad_of. destruct (index_nat i ax) as [j|]; [|lia].
  destruct (nth_in_or_default j pad 0%Z) as [Hin|E]; [auto|rewrite E; lia].
Qed.


Lemma pad_args_ok (g : grid) ax pad : pad_call_ok g ax pad -> pad_args g (map Z.of_nat ax) pad = Ok (ax, spread ax pad).
Proof.
  intros (_ & Hne & Hlt & Hl). unfold pad_args.
  replace (forallb _ (map Z.of_nat ax)) with true.
  2:{ symmetry. apply forallb_forall. intros z Hz. apply in_map_iff in Hz as (a & <- & Ha). apply Hlt in Ha. lia. }
  cbn [check bind]. rewrite map_map, map_length. rewrite (map_ext _ id), map_id by (intros; apply Nat2Z.id).
  destruct pad as [|p [|q pad]]; simpl length in *.
  - destruct ax; [tauto|discriminate].
  - destruct ax as [|a [|b ax]]; [tauto|reflexivity|reflexivity].
  - simpl in Hl. destruct (Nat.eqb_spec (S (S (length pad))) 1); [lia|]. cbn [andb].
    destruct (Nat.eqb_spec (S (S (length pad))) (length ax)); [reflexivity|lia].
Qed.

Lemma index_nat_nth ax j a : NoDup ax -> nth_error ax j = Some a -> index_nat a ax = Some j.
Proof.
  intros N H. destruct (index_nat_in a ax) as [i Hi]; [eapply nth_error_In; eauto|].
  rewrite Hi. apply index_nat_some in Hi. f_equal. eapply NoDup_nth_error; eauto; [apply nth_error_Some_lt in Hi; auto|congruence].
Qed.

Lemma room_check (g : grid) ax pad : NoDup ax -> length pad = length ax ->
  (forall a, In a ax -> (a < g_ndim g)%nat) ->
  (forall i, (i < g_ndim g)%nat -> (2 <= Z.of_nat (nth i (g_npix g) 0%nat) + 2 * pad_of ax pad i)%Z) ->
  existsb (fun ap => (snd ap <? 0)%Z && (Z.of_nat (nth (fst ap) (g_npix g) 0%nat) <=? -2 * snd ap)%Z) (combine ax pad) = false.
Proof.
  intros N L Hlt H. apply not_true_is_false. intros E. apply existsb_exists in E as ([a z] & Hin & E). cbn [fst snd] in E.
  apply In_nth_error in Hin as [j Hj]. rewrite nth_error_combine in Hj.
  destruct (nth_error ax j) as [a'|] eqn:Ea; [|discriminate]. destruct (nth_error pad j) as [z'|] eqn:Ez; [|discriminate].
  inversion Hj; subst a' z'. pose proof (nth_error_In _ _ Ea) as Ia. specialize (H a (Hlt a Ia)).
  unfold pad_of in H. rewrite (index_nat_nth _ _ _ N Ea), (nth_error_nth _ _ _ Ez) in H.
  apply andb_prop in E as [_ E]. apply Z.leb_le in E. lia.
Qed.

Lemma shifted_snoc p jx ix k k' : length jx = length p -> length ix = length p ->
  shifted (p ++ [0%Z]) (jx ++ [k]) (ix ++ [k']) = (shifted p jx ix && (k =? k')%nat)%bool.
Proof.
  revert jx ix; induction p as [|a p IH]; intros [|j jx] [|i ix] H1 H2; simpl in *; try discriminate.
  - rewrite andb_true_r. apply eq_iff_eq_true. rewrite Z.eqb_eq, Nat.eqb_eq. lia.
  - rewrite IH by lia. apply andb_assoc.
Qed.

Definition pad_result (g g' : grid) (p : list Z) (val : A) : Prop :=
  consistent g' /\ floats g' /\ 
  g_nprop g' = g_nprop g /\ g_nobj g' = g_nobj g /\ g_ndim g' = g_ndim g /\ g_center g' = g_center g /\
  g_axu g' = g_axu g /\ g_faxu g' = g_faxu g /\ g_gru g' = g_gru g /\ g_fsp g' = g_fsp g /\ g_ispow g' = g_ispow g.

Lemma newsh_nth sh p i z : length p = length sh -> nth_error p i = Some z ->
  nth i (newsh sh p) 0%nat = newn (nth i sh 0%nat) z.
Proof.
  intros L H. unfold newsh. apply nth_error_nth. rewrite nth_error_map_some, nth_error_combine, H.
  rewrite (nth_error_nth' sh 0%nat) by (apply nth_error_Some_lt in H; lia). reflexivity.
Qed.

Lemma c11_pad (g : grid) ax pad val : consistent g -> floats g -> pad_call_ok g ax pad ->
  let pad' := spread ax pad in
  pads_agree g ax pad' ->
  (forall i, (i < g_ndim g)%nat -> (2 <= Z.of_nat (nth i (g_npix g) 0%nat) + 2 * pad_of ax pad' i)%Z) ->
  exists g', grid_pad g (map Z.of_nat ax) pad val = (g', Ok tt) /\ consistent g' /\ floats g' /\
    g_nprop g' = g_nprop g /\ g_nobj g' = g_nobj g /\ g_ndim g' = g_ndim g /\ g_center g' = g_center g /\
    g_axu g' = g_axu g /\ g_faxu g' = g_faxu g /\ g_gru g' = g_gru g /\ g_fsp g' = g_fsp g /\ g_ispow g' = g_ispow g /\
    (forall i, (i < g_ndim g)%nat ->
       Z.of_nat (nth i (g_npix g') 0%nat) = (Z.of_nat (nth i (g_npix g) 0%nat) + 2 * pad_of ax pad' i)%Z /\
       (nth i (g_fsp g) false = false -> fnth (g_pix g') i = fnth (g_pix g) i) /\
       (nth i (g_fsp g) false = true -> fnth (g_side g') i = fnth (g_side g) i)) /\
    match g_data g, g_data g' with
    | None, None => True
    | Some d, Some d' => forall ix k, inb (g_npix g') ix = true -> (k < g_nprop g)%nat ->
        (forall jx, inb (g_npix g) jx = true -> shifted (pads g ax pad') jx ix = true ->
           getd v0 d' (ix ++ [k]) = getd v0 d (jx ++ [k])) /\
        ((forall jx, inb (g_npix g) jx = true -> shifted (pads g ax pad') jx ix = false) ->
           getd v0 d' (ix ++ [k]) = val)
    | _, _ => False
    end.
Proof.
  intros C F K pad' Ag Hroom. pose proof (pad_args_ok g ax pad K) as Ea. destruct K as (Nd & Hne & Hlt & Hl). fold pad' in Ea, Hl.
  assert (Hex := room_check g ax pad' Nd Hl Hlt Hroom).
  destruct (grid_pad_ok g (map Z.of_nat ax) pad ax pad' val C F Ea Ag Hroom Hex) as (g' & E & C' & F' & E1 & E2 & E3 & E4 & E5 & E6 & E7 & E8 & E9 & E10 & E11 & E12).
  exists g'. assert (Lp : length (pads g ax pad') = length (g_npix g)) by (unfold pads; rewrite map_length, seq_length, (co_n _ C); auto).
  assert (Np : forall i, (i < g_ndim g)%nat -> nth_error (pads g ax pad') i = Some (pad_of ax pad' i)).
  { intros i Hi. unfold pads. rewrite nth_error_map_seq. destruct (Nat.ltb_spec i (g_ndim g)); [auto|lia]. }
  do 12 (split; [assumption|]). split.
  - intros i Hi. split.
    + rewrite E10, (newsh_nth _ _ _ (pad_of ax pad' i)) by auto. specialize (Hroom i Hi). unfold newn. lia.
    + destruct (E11 i Hi) as [H1 H2]. rewrite H1, H2. unfold pad_side, pad_pix.
      destruct (pad_of ax pad' i =? 0)%Z; [auto|]. split; intros ->; auto.
  - pose proof (co_data _ C) as D. destruct (g_data g) as [d|], (g_data g') as [d'|]; auto. destruct D as [W S].
    assert (Hroomy : roomy (g_npix g) (pads g ax pad')).
    { unfold roomy. rewrite Forall_forall. intros [n p] Hin. cbn [fst snd].
      apply In_nth_error in Hin as [i Hi]. rewrite nth_error_combine in Hi.
      destruct (nth_error (g_npix g) i) as [n'|] eqn:H1; [|discriminate].
      assert (Hlt' : (i < g_ndim g)%nat) by (rewrite <- (co_n _ C); eapply nth_error_Some_lt; eauto).
      rewrite Np in Hi by auto. inversion Hi; subst. specialize (Hroom i Hlt'). rewrite (nth_error_nth _ _ _ H1) in Hroom. lia. }
    assert (Hsh : newsh (shape d) (pads g ax pad' ++ [0%Z]) = g_npix g' ++ [g_nprop g]).
    { rewrite S, E10. unfold newsh. rewrite combine_app_eq by auto. rewrite map_app. cbn. do 2 f_equal. unfold newn. lia. }
    destruct (pad_data d (pads g ax pad' ++ [0%Z]) val) as (W' & S' & P1 & P2); auto.
    { rewrite S, !app_length, Lp. reflexivity. }
    { rewrite S. unfold roomy. rewrite combine_app_eq by auto. apply Forall_app. split; [exact Hroomy|]. constructor; [|constructor]. cbn. lia. }
    rewrite Hsh in *. rewrite S in *. rewrite <- E12 in *.
    intros ix k Hix Hk. 
    assert (Lix : length ix = length (pads g ax pad')).
    { apply inb_length in Hix. rewrite Hix, E10. unfold newsh. rewrite map_length, combine_length. lia. }
    assert (Hn : length (g_npix g') = length (pads g ax pad')) by (apply inb_length in Hix; congruence).
    split.
    + intros jx Hjx Hs. assert (Ljx : length jx = length (pads g ax pad')) by (apply inb_length in Hjx; congruence).
      apply P1.
      * rewrite inb_snoc by congruence. rewrite Hjx. apply Nat.ltb_lt; auto.
      * rewrite inb_snoc by congruence. rewrite Hix. apply Nat.ltb_lt; auto.
      * rewrite shifted_snoc, Hs, Nat.eqb_refl by auto. reflexivity.
    + intros Hno. apply P2.
      * rewrite inb_snoc by congruence. rewrite Hix. apply Nat.ltb_lt; auto.
      * intros jx Hjx. destruct (shifted (pads g ax pad' ++ [0%Z]) jx (ix ++ [k])) eqn:Es; auto. exfalso.
        pose proof (inb_length _ _ Hjx) as Ljx. rewrite app_length in Ljx. simpl in Ljx.
        destruct (@exists_last _ jx) as (jx' & k' & ->). { intros ->; simpl in Ljx; lia. }
        rewrite app_length in Ljx; simpl in Ljx. rewrite inb_snoc in Hjx by lia. apply andb_prop in Hjx as [Hjx _].
        rewrite shifted_snoc in Es by lia. rewrite (Hno jx' Hjx) in Es. discriminate.
Qed.

Lemma newsh_back sh p : length p = length sh -> roomy sh p -> newsh (newsh sh p) (map Z.opp p) = sh.
Proof.
  revert p; induction sh as [|n sh IH]; intros [|a p] L R; simpl in *; try discriminate; auto.
  inversion R as [|? ? R1 R2]; subst. cbn [fst snd] in R1. unfold newsh in *. cbn. rewrite IH by (auto; lia). f_equal. apply newn_back; auto.
Qed.

Lemma shifted_self_opp p jx : Forall (fun z => (0 <= z)%Z) p -> length jx = length p ->
  exists ix, shifted p jx ix = true /\ shifted (map Z.opp p) ix jx = true /\ (forall sh, length sh = length p -> inb sh jx = true -> inb (newsh sh p) ix = true).
Proof.
  revert jx; induction p as [|a p IH]; intros [|j jx] P L; simpl in *; try discriminate.
  - exists []. repeat split; auto. intros [|] H; [auto|discriminate].
  - inversion P as [|? ? P1 P2]; subst. destruct (IH jx P2) as (ix & H1 & H2 & H3); [lia|].
    exists (Z.to_nat (Z.of_nat j + a) :: ix). repeat split.
    + rewrite H1, andb_true_r. apply Z.eqb_eq. lia.
    + rewrite H2, andb_true_r. apply Z.eqb_eq. lia.
    + intros [|n sh] Hl H; [discriminate|]. simpl in *. apply andb_prop in H as [Ha Hb].
      change (map (fun q => newn (fst q) (snd q)) (combine sh p)) with (newsh sh p).
      rewrite (H3 sh) by (auto; lia). rewrite andb_true_r. apply Nat.ltb_lt in Ha. apply Nat.ltb_lt. unfold newn. lia.
Qed.

Lemma spread_opp ax pad : spread ax (map Z.opp pad) = map Z.opp (spread ax pad).
Proof.
  destruct pad as [|p [|q pad]]; simpl; auto. clear. induction (length ax); simpl; auto. rewrite IHn. reflexivity.
Qed.

Lemma c11_round_trip (g : grid) ax pad val val' : consistent g -> floats g -> pad_call_ok g ax pad ->
  pads_agree g ax (spread ax pad) ->
  (forall z, In z pad -> (0 <= z)%Z) ->
  exists g', grid_pad g (map Z.of_nat ax) pad val = (g', Ok tt) /\
             grid_pad g' (map Z.of_nat ax) (map Z.opp pad) val' = (g, Ok tt).
Proof.
  intros C F K Ag Hpos.
  assert (Hpos' : forall z, In z (spread ax pad) -> (0 <= z)%Z).
  { intros z Hz. destruct pad as [|p [|q pad]]; simpl in Hz; try tauto. apply repeat_spec in Hz. subst. apply Hpos. left; auto. apply Hpos; auto. }
  assert (Hpn : forall i, (0 <= pad_of ax (spread ax pad) i)%Z) by (intros; apply pad_of_nonneg; auto).
  assert (Hroom : forall i, (i < g_ndim g)%nat -> (2 <= Z.of_nat (nth i (g_npix g) 0%nat) + 2 * pad_of ax (spread ax pad) i)%Z).
  { intros i Hi. pose proof (ao_n _ _ _ _ _ _ _ _ (co_axis _ C i Hi)). specialize (Hpn i). lia. }
  destruct (c11_pad g ax pad val C F K Ag Hroom) as (g' & E & C' & F' & E1 & E2 & E3 & E4 & E5 & E6 & E7 & E8 & E9 & E10 & E11).
  exists g'. split; [exact E|].
  pose proof K as (Nd & Hne & Hlt & Hl).
  assert (K' : pad_call_ok g' ax (map Z.opp pad)).
  { unfold pad_call_ok. rewrite spread_opp, map_length, E3. auto. }
  destruct (c11_pad g' ax (map Z.opp pad) val' C' F' K') as (h & H & Ch & Fh & H1 & H2 & H3 & H4 & H5 & H6 & H7 & H8 & H9 & H10 & H11).
  { rewrite spread_opp. apply (pads_agree_opp g); auto. }
  { intros i Hi. rewrite E3 in Hi. rewrite spread_opp, pad_of_opp. destruct (E10 i Hi) as (-> & _).
    pose proof (ao_n _ _ _ _ _ _ _ _ (co_axis _ C i Hi)). lia. }
  rewrite H. f_equal. rewrite spread_opp in H10, H11.
  assert (Enp : g_npix h = g_npix g).
  { apply (nth_ext _ _ 0%nat 0%nat); [rewrite (co_n _ Ch), (co_n _ C); congruence|]. intros i Hi. rewrite (co_n _ Ch), H3, E3 in Hi.
    destruct (H10 i ltac:(lia)) as (Q & _). destruct (E10 i Hi) as (Q' & _). rewrite pad_of_opp in Q. lia. }
  apply consistent_eq; auto; try congruence.
  - intros i Hi. destruct (H10 i ltac:(lia)) as (_ & Q1 & Q2). destruct (E10 i Hi) as (_ & Q3 & Q4). rewrite E8 in Q1, Q2.
    pose proof (co_axis _ C i Hi) as O1. pose proof (co_axis _ Ch i ltac:(lia)) as O2. rewrite Enp in O2.
    pose proof (ao_s _ _ _ _ _ _ _ _ O1) as S1. pose proof (ao_s _ _ _ _ _ _ _ _ O2) as S2.
    destruct (nth i (g_fsp g) false) eqn:Ef.
    + assert (X : fnth (g_side h) i = fnth (g_side g) i) by (rewrite Q2, Q4; auto). split; [auto|].
      rewrite X, S1 in S2. pose proof (ao_n _ _ _ _ _ _ _ _ O1) as N1.
      assert (Hn0 : 0 < nq (nth i (g_npix g) 0%nat)) by (unfold nq; replace 0 with (zq 0) by reflexivity; apply zq_lt; lia).
      apply Qc_pos_neq0 in Hn0. symmetry in S2.
      transitivity (nq (nth i (g_npix g) 0%nat) * fnth (g_pix h) i / nq (nth i (g_npix g) 0%nat)); [field; auto|].
      rewrite S2. field; auto.
    + assert (X : fnth (g_pix h) i = fnth (g_pix g) i) by (rewrite Q1, Q3; auto). split; [congruence|auto].
  - pose proof (co_data _ C) as D. pose proof (co_data _ Ch) as Dh. 
    destruct (g_data g) as [d|], (g_data g') as [d'|], (g_data h) as [d''|]; try tauto.
    destruct D as [W S], Dh as [Wh Sh]. f_equal. apply arr_eq_cells with (npix := g_npix g) (m := g_nprop g); auto.
    { rewrite Sh, Enp, H1, E1. auto. }
    intros jx k Hjx Hk.
    destruct (shifted_self_opp (pads g ax (spread ax pad)) jx) as (ix & S1 & S2 & S3).
    { unfold pads. rewrite Forall_forall. intros z Hz. apply in_map_iff in Hz as (i & <- & _). auto. }
    { apply inb_length in Hjx. rewrite Hjx. unfold pads. rewrite map_length, seq_length, (co_n _ C). auto. }
    assert (Hix : inb (g_npix g') ix = true).
    { replace (g_npix g') with (newsh (g_npix g) (pads g ax (spread ax pad))).
      - apply S3; auto. unfold pads. rewrite map_length, seq_length, (co_n _ C). auto.
      - apply (nth_ext _ _ 0%nat 0%nat).
        + unfold newsh, pads. rewrite map_length, combine_length, map_length, seq_length, (co_n _ C), (co_n _ C'). lia.
        + intros i Hi. unfold newsh, pads in Hi. rewrite map_length, combine_length, map_length, seq_length, (co_n _ C), Nat.min_id in Hi.
          rewrite (newsh_nth _ _ _ (pad_of ax (spread ax pad) i)).
          * destruct (E10 i Hi) as (Q & _). unfold newn. lia.
          * unfold pads. rewrite map_length, seq_length, (co_n _ C). auto.
          * unfold pads. rewrite nth_error_map_seq. destruct (Nat.ltb_spec i (g_ndim g)); [auto|lia]. }
    destruct (H11 jx k) as [P _]; [rewrite Enp; auto|lia|].
    rewrite (P ix); auto.
    + destruct (E11 ix k Hix Hk) as [P' _]. apply P'; auto.
    + replace (pads g' ax (map Z.opp (spread ax pad))) with (map Z.opp (pads g ax (spread ax pad))); auto.
      unfold pads. rewrite map_map, E3. apply map_ext. intros i. symmetry. apply pad_of_opp.
Qed.

(** which requests agree *)
Lemma agree_involutive (g : grid) ax pad : NoDup ax -> length pad = length ax ->
  (forall i a, nth_error ax i = Some a -> nth_error ax a = Some i) -> pads_agree g ax pad.
Proof.
  intros N L H i Hi Hz. unfold pad_of in *. destruct (index_nat i ax) as [j|] eqn:E; [|congruence].
  apply index_nat_some in E. exists j. split; [apply H; auto|]. apply nth_error_nth'. apply nth_error_Some_lt in E. lia.
Qed.

Lemma agree_uniform (g : grid) ax p : (forall i, In i ax -> (i < length ax)%nat) -> pads_agree g ax (repeat p (length ax)).
Proof.
  intros H i Hi Hz. unfold pad_of in *. destruct (index_nat i ax) as [j|] eqn:E; [|congruence].
  pose proof (index_nat_some _ _ _ E) as Ej. pose proof (nth_error_Some_lt _ _ _ Ej) as Lj.
  assert (Hi' : (i < length ax)%nat) by (apply (H i); eapply nth_error_In; eauto).
  destruct (nth_error_lt_Some ax i Hi') as [a Ea]. exists a. split; auto.
  assert (La : (a < length ax)%nat) by (apply (H a); eapply nth_error_In; eauto).
  rewrite (nth_indep _ 0%Z p) by (rewrite repeat_length; auto). rewrite nth_repeat.
  apply nth_error_repeat; auto.
Qed.

Lemma c11_single_axis (g : grid) i p val : (0 < i < g_ndim g)%nat -> p <> 0%Z ->
  (0 < Z.of_nat (nth i (g_npix g) 0%nat) + 2 * p)%Z ->
  grid_pad g [Z.of_nat i] [p] val = (g, Raise IndexError).
Proof.
  intros Hi Hp Hr. unfold grid_pad, pad_args. cbn [forallb map length].
  replace ((Z.of_nat i <? Z.of_nat (g_ndim g))%Z && (0 <=? Z.of_nat i)%Z && true)%bool with true by lia.
  cbn [check bind Nat.eqb andb Nat.ltb Nat.leb]. rewrite Nat2Z.id. cbn [combine existsb fst snd].
  replace ((p <? 0)%Z && (Z.of_nat (nth i (g_npix g) 0%nat) <=? -2 * p)%Z || false)%bool with false by lia.
  destruct (mapM _ _) as [ps|e] eqn:E.
  - exfalso. pose proof (mapM_ok_nth _ _ _ i i E) as [x [_ Hx]].
    { rewrite nth_error_seq. destruct (Nat.ltb_spec i (g_ndim g)); [auto|lia]. }
    unfold pad_axis in Hx. cbn [index_nat] in Hx. rewrite Nat.eqb_refl in Hx. cbn [nth] in Hx.
    destruct (Z.eqb_spec p 0); [lia|]. destruct i as [|i]; [lia|]. cbn [nth_error] in Hx. destruct i; discriminate.
  - f_equal. f_equal.
    assert (forall k, pad_axis g [i] [p] k = Ok (pad_keep g k) \/ pad_axis g [i] [p] k = Raise IndexError) as Hk.
    { intros k. unfold pad_axis. cbn [index_nat]. destruct (Nat.eqb_spec k i); [|auto]. subst k. cbn [nth].
      destruct (Z.eqb_spec p 0); [lia|]. destruct i as [|i]; [lia|]. cbn [nth_error]. destruct i; auto. }
    revert E. generalize (seq 0 (g_ndim g)). intros l. revert e. induction l as [|k l IH]; intros e E; [discriminate|].
    cbn [mapM] in E. destruct (Hk k) as [Ek|Ek]; rewrite Ek in E; cbn [bind] in E; [|congruence].
    destruct (mapM _ l); cbn [bind] in E; [discriminate|]. apply IH. congruence.
Qed.

End Pad.
