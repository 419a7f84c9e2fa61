(** What setting a response does, which property of a field is mapped, and arguments that never
    work: proofs (C49, C54, C62, C63). *)
From Verif Require Import Dict Util Rat Val Arr GridModel GridModel2 GridSpec GridSpec2 ConvSpec GridAdd GridCat GridOps GridFiles InstModel InstSpec Inst Inst2 Inst3 Inst4 Inst5 Inst6 Inst7 Inst8.
Open Scope string_scope.
Open Scope list_scope.
Open Scope Qc_scope.

(** * set_response *)
Lemma set_effect m names r k s s' : tables_ok s -> set_response m names r k s = (s', Ok tt) ->
  forall d x, dget (i_dets s) d = Some x ->
  (names_det names s d -> exists f kk, means m r f /\ kw_given k [] kk /\ exists x', dget (i_dets s') d = Some x' /\ resp_of m x' = Some (f, kk) /\
     (forall m', m' <> m -> resp_of m' x' = resp_of m' x) /\ d_off x' = d_off x) /\
  (~ names_det names s d -> dget (i_dets s') d = Some x).
Proof.
  intros T E d x Hx. destruct (set_response_ok m names r k s s' (t_names _ T) E) as (ds & f & kk & N & Hds & Hin & Er & Ek & Hf & ->).
  cbv zeta.
  assert (D : forall s2 c, i_dets (if smem "instrument" names then set_default s2 m c else s2) = i_dets s2) by (intros; destruct (smem "instrument" names); auto; destruct m; reflexivity).
  rewrite D. clear D.
  assert (D : i_dets match ds with [] => match f with Some f0 => set_dets s (fold_left (dalter (set_resp m (f0, match kk with Some d0 => d0 | None => [] end))) ds (i_dets s)) (i_names s) | None => s end
                     | _ => all_stale match f with Some f0 => set_dets s (fold_left (dalter (set_resp m (f0, match kk with Some d0 => d0 | None => [] end))) ds (i_dets s)) (i_names s) | None => s end end
              = match f with Some f0 => fold_left (dalter (set_resp m (f0, match kk with Some d0 => d0 | None => [] end))) ds (i_dets s) | None => i_dets s end).
  { destruct ds, f; reflexivity. }
  rewrite D. clear D. split.
  - intros Hn. apply Hds in Hn. destruct f as [f|]; [|destruct ds; [destruct Hn|destruct Hf; [discriminate|auto]]].
    exists f, (match kk with Some d0 => d0 | None => [] end). split; [eapply resolve_means; eauto|]. split.
    { unfold kw_given. destruct k; cbn in Ek; try discriminate; injection Ek as <-; auto. }
    rewrite dget_dalters by auto. apply smem_In in Hn. rewrite Hn, Hx. cbn [option_map]. eexists. split; [reflexivity|].
    destruct m; cbn; (split; [reflexivity|]; split; [|reflexivity]; intros [] Hm; auto; congruence).
  - intros Hn. destruct f as [f|]; auto. rewrite dget_dalters by auto.
    destruct (smem d ds) eqn:E2; auto. apply smem_In in E2. apply Hds in E2. contradiction.
Qed.

(** * Copies of one property *)
Lemma copy_one (g g' : G) z : observable g -> grid_copy g (Some [z]) = Ok g' -> g_nprop g = 1%nat /\ z = 0%Z /\ g' = g.
Proof.
  intros (C & F & D & _ & _ & _ & P & L) E.
  assert (Hz : (0 <= z < Z.of_nat (g_nprop g))%Z).
  { unfold grid_copy, check_props in E. cbn [forallb] in E.
    destruct (0 <=? z)%Z eqn:E1; [|discriminate]. destruct (z <? Z.of_nat (g_nprop g))%Z eqn:E2; [|discriminate].
    apply Z.leb_le in E1. apply Z.ltb_lt in E2. lia. }
  assert (Dn : g_data g = None -> g_nobj g = 0%nat) by congruence.
  destruct (Nat.eq_dec (g_nprop g) 1) as [N|N].
  - assert (z = 0)%Z as -> by lia. split; auto. split; auto.
    pose proof (copy_all g C F L Dn) as H. rewrite (copy_eq g None (seq 0 (g_nprop g)) C F eq_refl Dn) in H.
    rewrite N in H. cbn [seq] in H.
    rewrite (copy_eq g (Some [0%Z]) [0%nat] C F) in E; [congruence| |exact Dn].
    exact (props_of_args g [0%nat] (fun p Hp => match Hp with or_introl e => eq_ind 0%nat (fun q => (q < g_nprop g)%nat) P p e | or_intror f => match f with end end)).
  - exfalso. pose proof (copy_subset_raises g [Z.to_nat z] C F Dn) as H. cbn [map length] in H. rewrite Z2Nat.id in H by lia.
    rewrite H in E; [discriminate| | |]; [|lia..]. intros p [<-|[]]. lia.
Qed.

Lemma added_field g name oz ip chk s s' : observable g -> add_field g name oz ip chk s = (s', Ok tt) ->
  exists nm, nm = match name with Some n => n | None => str_nat (i_fcount s) end /\ ~ In nm (map fst (i_fields s)) /\ In nm (i_fnames s') /\ dget (i_fields s') nm = Some g /\
    i_names s' = i_names s /\ i_dets s' = i_dets s /\ i_bres s' = i_bres s /\
    (ip = false -> g_nprop g = 1%nat /\ match oz with Some z => z | None => 0%Z end = 0%Z).
Proof.
  intros O E. destruct (add_field_ok _ _ _ _ _ _ _ _ E) as [(e & H & _)|(_ & nm & g' & z & En & Hn & -> & K)]; [discriminate|].
  exists nm. split; [exact En|]. split.
  { intros H. apply in_map_iff in H. destruct H as ([k v] & Hk & Hi). cbn in Hk. subst k. revert Hn. clear - Hi. induction (i_fields s) as [|[k w] l IH]; [destruct Hi|]. cbn. destruct (String.eqb_spec nm k); [discriminate|].
    destruct Hi as [Hi|Hi]; [congruence|auto]. }
  split; [cbn; apply in_or_app; right; left; auto|].
  assert (g' = g /\ (ip = false -> g_nprop g = 1%nat /\ match oz with Some z => z | None => 0%Z end = 0%Z)) as [-> B].
  { destruct K as [(-> & -> & _)|(-> & K & _)]; [split; auto; discriminate|]. destruct (copy_one g g' _ O K) as (A & B & C). auto. }
  cbn. rewrite dget_dset, String.eqb_refl. auto 10.
Qed.

(** property [idx] of a field copied in, or property 0 of any field, is what is mapped *)
Lemma index_mapped sp sc (Rok : responses_ok sp sc) g name oz ip chk s s' names a s2 : tables_ok s -> observable g -> add_field g name oz ip chk s = (s', Ok tt) ->
  (ip = false \/ match oz with Some z => z | None => 0%Z end = 0%Z) -> plain_pad (m_pad a) -> beam_fits g a ->
  let nm := match name with Some n => n | None => str_nat (i_fcount s) end in
  map_fields sp sc names a s' = (s2, Ok tt) -> (names = [] \/ In nm names) ->
  exists m, dget (i_maps s2) nm = Some m /\ flat_map_of g (length (i_names s)) m /\
            layers_of sp sc s g a (Z.to_nat match oz with Some z => z | None => 0%Z end) m.
Proof.
  intros T O E Hz Hp Hb nm Em Hn. destruct (added_field g name oz ip chk s s' O E) as (nm' & -> & _ & Hi & Hg & H1 & H2 & H3 & H4).
  fold nm in Hi, Hg. pose proof (step_tables sp sc (OAddField g name oz ip chk) s T) as T'. cbn [istep] in T'. rewrite E in T'. cbn [fst] in T'.
  assert (Hz0 : match oz with Some z => z | None => 0%Z end = 0%Z) by (destruct Hz as [->|]; [apply H4; auto|auto]). rewrite Hz0.
  destruct (map_seen sp sc Rok s' a names s2 nm g T' Em) as (m & M1 & M2 & M3 & M4 & M5); auto.
  { destruct Hn as [->|Hn]; [left|right]; auto. }
  exists m. split; auto. rewrite H1 in M3. split; auto. unfold layers_of in *. rewrite H1, H2, H3 in M5. exact M5.
Qed.
(** ... whatever the index asked for *)
Lemma zero_mapped sp sc (Rok : responses_ok sp sc) g name oz ip chk s s' names a s2 : tables_ok s -> observable g -> add_field g name oz ip chk s = (s', Ok tt) ->
  plain_pad (m_pad a) -> beam_fits g a ->
  let nm := match name with Some n => n | None => str_nat (i_fcount s) end in
  map_fields sp sc names a s' = (s2, Ok tt) -> (names = [] \/ In nm names) ->
  exists m, dget (i_maps s2) nm = Some m /\ layers_of sp sc s g a 0 m.
Proof.
  intros T O E Hp Hb nm Em Hn. destruct (added_field g name oz ip chk s s' O E) as (nm' & -> & _ & Hi & Hg & H1 & H2 & H3 & H4).
  fold nm in Hi, Hg. pose proof (step_tables sp sc (OAddField g name oz ip chk) s T) as T'. cbn [istep] in T'. rewrite E in T'. cbn [fst] in T'.
  destruct (map_seen sp sc Rok s' a names s2 nm g T' Em) as (m & M1 & M2 & M3 & M4 & M5); auto.
  { destruct Hn as [->|Hn]; [left|right]; auto. }
  exists m. split; auto. unfold layers_of in *. rewrite H1, H2, H3 in M5. exact M5.
Qed.

(** indices out of the range of the axes are refused *)
Lemma index_refused g name z ip chk s : observable g -> (z < 0 \/ 3 <= z)%Z -> add_field g name (Some z) ip chk s = (s, Raise ValueError).
Proof.
  intros (_ & _ & _ & _ & _ & D & _) Hz. unfold add_field. rewrite D.
  replace (negb _) with false; [reflexivity|]. symmetry. apply negb_false_iff, orb_true_iff. change (Z.of_nat 3 - 1)%Z with 2%Z.
  destruct Hz; [right; apply Z.ltb_lt; auto|left; apply Z.ltb_lt; lia].
Qed.
(** any index of an axis is accepted in place without a check, whatever the number of properties *)
Lemma index_accepted g n z s : observable g -> (0 <= z < 3)%Z -> dget (i_fields s) n = None -> i_bres s = None -> i_bspec s = None ->
  exists s', add_field g (Some n) (Some z) true false s = (s', Ok tt).
Proof.
  intros (_ & _ & _ & _ & _ & D & _) Hz Hn Hb Hs. unfold add_field. cbv zeta. rewrite D, Hb, Hs.
  replace (negb _) with true. 2:{ symmetry. apply negb_true_iff, orb_false_iff. change (Z.of_nat 3 - 1)%Z with 2%Z. split; apply Z.ltb_ge; lia. }
  cbn [check bind]. rewrite dmem_get, Hn. cbn [negb check bind]. eauto.
Qed.

(** * Fields with several properties (C62) *)
Lemma multi_copy g name oz chk s : observable g -> (2 <= g_nprop g)%nat -> exists e, add_field g name oz false chk s = (s, Raise e).
Proof.
  intros O N. destruct (add_field g name oz false chk s) as [s' r] eqn:E.
  destruct (add_field_ok _ _ _ _ _ _ _ _ E) as [(e & -> & ->)|(_ & nm & g' & z & _ & _ & _ & K)]; [eauto|].
  destruct K as [(K & _)|(_ & K & _)]; [discriminate|]. destruct (copy_one g g' _ O K) as (H & _). lia.
Qed.
Lemma multi_check g name oz ip s u v : observable g -> (2 <= g_nprop g)%nat -> i_funit s = Some u ->
  nth_error (g_gru g) (Z.to_nat match oz with Some z => z | None => 0%Z end) = Some (Some v) -> exists e, add_field g name oz ip true s = (s, Raise e).
Proof.
  intros (_ & _ & _ & _ & _ & _ & _ & L) N Hu Hv.
  assert (C : forall w, check_compatible s g (Z.to_nat match oz with Some z => z | None => 0%Z end) <> Ok w).
  { intros w. unfold check_compatible. repeat (match goal with |- bind ?x _ <> _ => lazymatch x with uat (g_gru _) _ => fail | _ => destruct x; cbn [bind]; [|discriminate] end end).
    destruct (uat (g_gru g) _) as [o|] eqn:Eu; cbn [bind]; [|discriminate]. unfold uat in Eu. rewrite Hv in Eu. injection Eu as <-. rewrite Hu.
    destruct (g_gru g) as [|u0 [|u1 us]]; cbn in L; try lia. discriminate. }
  unfold add_field. cbv zeta. destruct (check _ _); cbn [bind]; [|eauto].
  destruct (check_compatible _ _ _) as [w|e]; [destruct (C w); auto|]. cbn [bind]. eauto.
Qed.
Lemma multi_beam sp bres f r n ks b : observable f -> (2 <= g_nprop f)%nat -> setup_beam sp bres f r n ks <> Ok b.
Proof.
  intros (_ & _ & _ & _ & _ & _ & _ & L) N. unfold setup_beam.
  repeat (match goal with |- bind ?x _ <> _ => lazymatch x with grid_new _ _ _ _ _ _ _ => fail | _ => destruct x; cbn [bind]; [|discriminate] end end).
  unfold grid_new.
  repeat (match goal with |- context [bind (bind ?x _) _] => lazymatch x with bcast_units 1 _ => fail | _ => destruct x; cbn [bind]; [|discriminate] end end).
  cbn [bcast_units]. destruct (g_gru f) as [|u0 [|u1 us]]; cbn in L; try lia.
  cbn. discriminate.
Qed.

(** a field whose map of any kind cannot be made, first in the list, makes the call fail *)
Lemma map_blocked sp sc s a names f g : tables_ok s -> covers names s f -> dget (i_fields s) f = Some g ->
  (forall gs, map_groups s a = Ok gs -> forall m, map_one sp sc s gs a g <> Ok m) -> forall s', map_fields sp sc names a s <> (s', Ok tt).
Proof.
  intros T Cv Hf Hm s' E. destruct (map_fields_spec sp sc _ _ _ _ _ E) as [(e & H & _)|(_ & gs & fs & Hg & Hfs & L)]; [discriminate|].
  assert (Hin : In f fs). { destruct Cv as [[-> Hn]|Hn]; [destruct Hfs as [[_ ->]|(H & _)]; [auto|congruence]|]. destruct Hfs as [[-> _]|(_ & -> & _)]; [destruct Hn|auto]. }
  destruct (loop_last sp sc gs a fs s s' f g L Hin Hf) as (m & _ & M2). eapply Hm; eauto.
Qed.
(** no detector's beam can be made: no map *)
Lemma no_beam sp sc s a g : (forall r b, setup_beam sp (i_bres s) g r (m_norm a) (m_ks a) <> Ok b) -> m_beam a = None ->
  forall gs, map_groups s a = Ok gs -> forall m, map_one sp sc s gs a g <> Ok m.
Proof.
  intros Hb Hn gs Hg m. unfold map_one. destruct gs as [|gr gs].
  - cbn [all_groups bind fst snd]. unfold stack_maps. destruct (mapM _ (i_names s)); cbn [bind]; [|discriminate]. destruct a0; [discriminate|].
    destruct (check _ _); cbn [bind]; [|discriminate]. destruct (shape a0) as [|? [|? [|? [|]]]]; try discriminate. destruct (check _ _); discriminate.
  - cbn [all_groups]. unfold group_beam. rewrite Hn. destruct gr as [|d gr]; [discriminate|]. destruct (spat_of s d) as [r|]; cbn [bind]; [|discriminate].
    destruct (setup_beam sp (i_bres s) g r (m_norm a) (m_ks a)) as [b|] eqn:E; [destruct (Hb r b); auto|discriminate].
Qed.
Lemma multi_map sp sc s a names f g : tables_ok s -> covers names s f -> dget (i_fields s) f = Some g -> observable g -> (2 <= g_nprop g)%nat -> m_beam a = None ->
  forall s', map_fields sp sc names a s <> (s', Ok tt).
Proof.
  intros T Cv Hf O N Hn. apply (map_blocked sp sc s a names f g T Cv Hf). apply no_beam; auto. intros r b. apply multi_beam; auto.
Qed.

(** * A beam size given as one number (C63) *)
Lemma int_size sp bres f r n z b : setup_beam sp bres f r n (KsInt z) <> Ok b.
Proof. unfold setup_beam. cbn [bind]. destruct (check _ _); cbn [bind]; [|discriminate]. destruct (fat _ _); cbn [bind]; discriminate. Qed.
Lemma int_map sp sc s a names f z : tables_ok s -> covers names s f -> m_ks a = KsInt z -> forall s', map_fields sp sc names a s <> (s', Ok tt).
Proof.
  intros T Cv Hk s' E. destruct (m_beam a) as [b|] eqn:Hb.
  - unfold map_fields in E. rewrite Hb, Hk in E. destruct (match names with [] => _ | _ => _ end) in E; [|discriminate]. discriminate.
  - assert (exists g, dget (i_fields s) f = Some g) as [g Hg].
    { destruct Cv as [[_ H]|H]; [apply (t_fields _ T); auto|].
      destruct (map_fields_spec sp sc _ _ _ _ _ E) as [(e & H0 & _)|(_ & gs & fs & _ & Hfs & _)]; [discriminate|].
      destruct Hfs as [[-> _]|(_ & _ & _ & H2)]; [destruct H|]. auto. }
    revert E. apply (map_blocked sp sc s a names f g T Cv Hg). apply no_beam; auto. intros r b. rewrite Hk. apply int_size.
Qed.

(** * Lemmas behind InstProps.v *)
Lemma c49_del names s : tables_ok s ->
  (forall s', del_detectors names s = (s', Ok tt) -> (forall d, In d names -> In d (i_names s)) /\ i_names s' = filter (fun d => negb (smem d names)) (i_names s) /\
     (forall d, dget (i_dets s') d = if smem d names then None else dget (i_dets s) d) /\ same_fields s s' /\ same_defaults s s' /\
     (names <> [] -> forall f, In f (i_fnames s) -> dget (i_cons s') f = Some false)) /\
  (forall s' e, del_detectors names s = (s', Raise e) -> s' = s /\ e = ValueError) /\
  (NoDup names -> (forall d, In d names -> In d (i_names s)) -> exists s', del_detectors names s = (s', Ok tt)).
Proof.
  intros T. split; [|split].
  - intros s' E. destruct (del_ok names s s' T E) as (_ & A & [D _] & B & C & _ & F & H). auto 10.
  - apply del_raise.
  - intros N H. unfold del_detectors. rewrite check_det_do by auto. eauto.
Qed.
Lemma c49_set m names r k s : tables_ok s ->
  (forall s' e, set_response m names r k s = (s', Raise e) -> s' = s /\ e = ValueError) /\
  (forall s', set_response m names r k s = (s', Ok tt) -> i_names s' = i_names s /\ same_fields s s' /\
     forall d x, dget (i_dets s) d = Some x ->
     (names_det names s d -> exists f kk, means m r f /\ kw_given k [] kk /\ exists x', dget (i_dets s') d = Some x' /\ resp_of m x' = Some (f, kk) /\
        (forall m', m' <> m -> resp_of m' x' = resp_of m' x) /\ d_off x' = d_off x) /\
     (~ names_det names s d -> dget (i_dets s') d = Some x)).
Proof.
  intros T. split; [apply set_response_raise|]. intros s' E. destruct (set_response_step m names r k s s' (t_names _ T) E) as ([D _] & N & _).
  split; auto. split; auto. intros d x Hx. exact (set_effect m names r k s s' T E d x Hx).
Qed.
Lemma c49_fields s : tables_ok s ->
  (forall g name idx ip chk s' r, add_field g name idx ip chk s = (s', r) -> (exists e, r = Raise e /\ s' = s) \/
     r = Ok tt /\ exists nm g', nm = match name with Some n => n | None => str_nat (i_fcount s) end /\ ~ In nm (i_fnames s) /\ i_fnames s' = i_fnames s ++ [nm] /\
       (forall f, dget (i_fields s') f = if String.eqb f nm then Some g' else dget (i_fields s) f) /\ dget (i_cons s') nm = Some false /\ i_dets s' = i_dets s /\ i_names s' = i_names s) /\
  (forall names s' r, del_fields names s = (s', r) -> (exists e, r = Raise e /\ s' = s) \/
     r = Ok tt /\ i_fnames s' = filter (fun f => negb (smem f names)) (i_fnames s) /\ i_dets s' = i_dets s /\ i_names s' = i_names s /\
       forall f, ~ In f names -> dget (i_fields s') f = dget (i_fields s) f /\ dget (i_maps s') f = dget (i_maps s) f /\ dget (i_cons s') f = dget (i_cons s) f).
Proof.
  intros T. split.
  - intros g name idx ip chk s' r E. destruct (add_field_ok _ _ _ _ _ _ _ _ E) as [H|(-> & nm & g' & z & En & Hn & -> & _)]; [left; exact H|right].
    split; auto. exists nm, g'. split; [exact En|]. split. { intros H. apply (t_fields _ T) in H. destruct H; congruence. }
    cbn. split; auto. split; [intros f; apply dget_dset|]. rewrite dget_dset, String.eqb_refl. auto.
  - intros names s' r E. destruct (del_fields_ok names s s' r T E) as (_ & A & B & _ & _ & C & D). destruct r as [[]|e]; [right|left; eauto].
    destruct (C eq_refl) as [C1 C2]. auto.
Qed.
Lemma c50_fresh sp sc nz su pu fu br bs a1 k1 a2 k2 a3 k3 s0 : new_inst su pu fu br bs a1 k1 a2 k2 a3 k3 = Ok s0 ->
  forall os pos names signal noise dt out f, let s := irun sp sc os s0 in
  sample_fields nz pos names signal noise dt s = Ok out -> covers names s f ->
  exists ns a m, In (OMap ns a) os /\ (ns = [] \/ In f ns) /\ map_fields sp sc [f] a s = (s, Ok tt) /\ dget (i_maps s) f = Some m /\ g_nprop m = length (i_names s).
Proof.
  intros H os pos names signal noise dt out f s Hs Hf. destruct (new_tables _ _ _ _ _ _ _ _ _ _ _ _ H) as (T & _ & V).
  destruct (sample_fresh sp sc nz s0 os pos names signal noise dt out f T (V sp sc) Hs Hf) as (ns & a & A & B & C). fold s in C.
  destruct (map_layers sp sc [f] a s s f C) as (m & D & E); [apply run_tables; auto|right; left; auto|]. exists ns, a, m. auto.
Qed.
Lemma clones_keys s gs : tables_ok s -> spatial_clones s = Ok gs -> forall d, In d (i_names s) -> exists k, spat_of s d = Ok k.
Proof.
  intros T E d Hd. unfold spatial_clones in E. apply (clones_spec spat_eqb spat_eqb_spec (spat_of s)) in E; [|apply T|lia].
  destruct E as (_ & P & K). apply P in Hd. apply in_concat in Hd. destruct Hd as (g & Hg & Hdg). destruct (K g Hg) as (d0 & r & k & _ & _ & Hk).
  exists k. apply Hk; auto. apply P. apply in_concat. eauto.
Qed.
Lemma c52_groups s gs : tables_ok s -> spatial_clones s = Ok gs ->
  NoDup (concat gs) /\ (forall d, In d (concat gs) <-> In d (i_names s)) /\
  forall d d' x x', dget (i_dets s) d = Some x -> dget (i_dets s) d' = Some x' -> (exists g, In g gs /\ In d g /\ In d' g) <-> d_spat x = d_spat x' /\ d_spat x <> None.
Proof.
  intros T E. pose proof (clones_keys s gs T E) as Kx. unfold spatial_clones in E. apply (clones_spec spat_eqb spat_eqb_spec (spat_of s)) in E; [|apply T|lia].
  destruct E as (N & P & K). split; auto. split; auto. intros d d' x x' Hx Hx'.
  assert (Hd : In d (i_names s)) by (apply (t_dets _ T); eauto). assert (Hd' : In d' (i_names s)) by (apply (t_dets _ T); eauto).
  pose proof (spat_at s d x Hx) as S1. pose proof (spat_at s d' x' Hx') as S2. split.
  - intros (g & Hg & H1 & H2). destruct (K g Hg) as (d0 & r & k & _ & _ & Hk). apply Hk in H1; auto. apply Hk in H2; auto. rewrite S1 in H1. rewrite S2 in H2.
    destruct (d_spat x), (d_spat x'); try discriminate. split; congruence.
  - intros [H1 H2]. assert (Hc : In d (concat gs)) by (apply P; auto). apply in_concat in Hc. destruct Hc as (g & Hg & Hdg). exists g. split; auto. split; auto.
    destruct (K g Hg) as (d0 & r & k & _ & _ & Hk). apply Hk; auto. apply Hk in Hdg; auto. rewrite S2, <- H1, <- S1. exact Hdg.
Qed.
Lemma c53_observed sp sc nz : responses_ok sp sc -> forall s ns a s' f g, tables_ok s -> map_fields sp sc ns a s = (s', Ok tt) -> covers ns s f -> dget (i_fields s) f = Some g ->
  observable g -> plain_pad (m_pad a) -> beam_fits g a ->
  forall rows names signal noise dt out, sample_fields nz (Pos2 2 rows) names signal noise dt s' = Ok out -> covers names s' f ->
  exists tab m, dget out f = Some tab /\ flat_map_of g (length (i_names s)) m /\ layers_of sp sc s g a 0 m /\ length tab = length rows /\
    forall k r, nth_error rows k = Some r -> exists o, nth_error tab k = Some o /\ length o = length (i_names s) /\
    forall i d x, nth_error (i_names s) i = Some d -> dget (i_dets s) d = Some x -> exists v, nth_error o i = Some v /\ sampled nz m f d x rows k r signal noise dt i v.
Proof.
  intros R s ns a s' f g T E Cv Hg O Hp Hb rows names signal noise dt out Hs Cv'.
  destruct (map_seen sp sc R s a ns s' f g T E Cv Hg O Hp Hb) as (m & M1 & _ & M3 & M4 & M5).
  pose proof (step_tables sp sc (OMap ns a) s T) as T'. cbn [istep] in T'. rewrite E in T'. cbn [fst] in T'.
  assert (Sm : i_names s' = i_names s /\ i_dets s' = i_dets s).
  { destruct (map_fields_spec sp sc _ _ _ _ _ E) as [(e & H & _)|(_ & gs & fs & _ & _ & L)]; [discriminate|].
    destruct (loop_spec _ _ _ _ _ _ _ _ L) as (E1 & E2 & _). auto. }
  destruct Sm as [Sn Sd]. destruct (sample_cols nz s' rows names signal noise dt out T' Hs f Cv') as (tab & m' & D1 & D2 & D3).
  assert (m' = m) as -> by congruence. exists tab, m. split; auto. split; auto. split; auto. destruct M3 as (A & B & C & _).
  rewrite Sn, Sd in D3. apply D3; auto.
Qed.
Lemma c62_one g n s : observable g -> g_nprop g = 1%nat -> dget (i_fields s) n = None -> i_bres s = None -> i_bspec s = None ->
  exists s', add_field g (Some n) None false false s = (s', Ok tt) /\ dget (i_fields s') n = Some g.
Proof.
  intros O N Hn Hb Hs. assert (C : grid_copy g (Some [0%Z]) = Ok g).
  { destruct O as (C & F & D & _ & _ & _ & P & L). assert (Dn : g_data g = None -> g_nobj g = 0%nat) by congruence.
    pose proof (copy_all g C F L Dn) as H. rewrite (copy_eq g None (seq 0 (g_nprop g)) C F eq_refl Dn) in H. rewrite N in H. cbn [seq] in H.
    rewrite (copy_eq g (Some [0%Z]) [0%nat] C F); [exact H| |exact Dn]. cbn [check_props forallb]. rewrite N. reflexivity. }
  destruct O as (_ & _ & _ & _ & _ & D & _). unfold add_field. cbv zeta. rewrite D, Hb, Hs, dmem_get, Hn, C.
  change (negb _) with true at 1. cbn [check bind negb]. eexists. split; [reflexivity|]. cbn. rewrite dget_dset, String.eqb_refl. reflexivity.
Qed.
Lemma size_map sp sc s a names kx ky : responses_ok sp sc -> tables_ok s -> i_names s <> [] -> m_ks a = KsSeq [kx; ky] -> (2 <= kx)%Z -> (2 <= ky)%Z -> m_beam a = None -> m_norm a <> NOther -> plain_pad (m_pad a) ->
  (names = [] -> i_fnames s <> []) -> NoDup names ->
  (forall f, covers names s f -> exists g, dget (i_fields s) f = Some g /\ observable g /\ g_nprop g = 1%nat /\ forall d x, dget (i_dets s) d = Some x ->
     exists r v r' w, d_spat x = Some r /\ d_spec x = Some r' /\ sc (fst r') (snd r') (nth 2 (g_centers g) []) = Ok w /\
       sp (fst r) (snd r) (beam_axis (Z.to_nat kx) (fnth (g_pix g) 0)) (beam_axis (Z.to_nat ky) (fnth (g_pix g) 1)) (nth 2 (g_centers g) []) = Ok v /\ shape v = [Z.to_nat kx; Z.to_nat ky; nth 2 (g_npix g) 0%nat]) ->
  exists s', map_fields sp sc names a s = (s', Ok tt).
Proof.
  intros R T Ne Hk H1 H2 Hb Hn Hp Hf Nd H. apply map_ok; auto. { unfold args_ok. rewrite Hb, Hk. exact I. }
  intros f Cv. destruct (H f Cv) as (g & Hg & O & N1 & Hd). exists g. split; auto. split; auto. split; auto. split; [intros b0; congruence|].
  intros d x Hx. destruct (Hd d x Hx) as (r & v & r' & w & A & B & C & D & E). split; [|eauto 10].
  intros _. split; auto. split; auto. exists r, (Z.to_nat kx), (Z.to_nat ky), v. split; auto. split; [lia|]. split; [lia|]. rewrite Hk.
  split; [exists kx; auto|]. split; [exists ky; auto|]. auto.
Qed.
Lemma no_spat_map sp sc s d x names a : tables_ok s -> dget (i_dets s) d = Some x -> d_spat x = None -> m_beam a = None -> forall s', map_fields sp sc names a s <> (s', Ok tt).
Proof.
  intros T Hx Hd Hb s' E. destruct (map_fields_spec sp sc _ _ _ _ _ E) as [(e & H & _)|(_ & gs & fs & Hg & _)]; [discriminate|].
  unfold map_groups in Hg. rewrite Hb in Hg. destruct (clones_keys s gs T Hg d) as [k Hk]; [apply (t_dets _ T); eauto|].
  rewrite (spat_at s d x Hx), Hd in Hk. discriminate.
Qed.
