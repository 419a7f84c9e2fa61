(** C115: the units of axes under [scale_axis]. *)
From Coq Require Import String.
From Verif Require Import Util Rat Val Arr GridModel GridSpec GridEx GridCrop UnitModel Unit.
Open Scope Qc_scope.

(** ** C115: after scale_axis(ax, factor, axunits=u) the axes in [ax] have the unit u, their Fourier axes u^-1, and the other
    axes keep theirs. True, after any calls of scale_axis before, for grids made without units, with None among their units,
    or with a unit at least as long as u. *)
Theorem C115_unit_partial {A : Alg} n c sd p axu gru s0 calls (s s' : ugrid A) ax factor u a :
  ugrid_new A n c sd p axu gru = Ok s0 -> s = urun calls s0 -> uscale_axis s ax factor (UStr u) true = (s', Ok tt) -> u <> "same"%string ->
  match axu with None => True | Some l => In None l \/ exists v, In (Some v) l /\ (String.length u <= String.length v)%nat end ->
  (In (Z.of_nat a) ax -> nth a (g_axu (ug s')) None = Some u /\ nth a (g_faxu (ug s')) None = Some (String.append u "^-1")) /\
  (~ In (Z.of_nat a) ax -> nth a (g_axu (ug s')) None = nth a (g_axu (ug s)) None /\ nth a (g_faxu (ug s')) None = nth a (g_faxu (ug s)) None).
Proof.
  intros H0 Es H Hu F. destruct (new_units _ _ _ _ _ _ _ H0) as (au & Eb & E1 & E2 & E3 & E4 & E5).
  destruct (kept_run calls s0) as (K1 & K2 & K3 & K4 & K5). rewrite <- Es in *.
  destruct (axis_ok_inv _ _ _ _ _ _ H) as (V & _).
  assert (La : length au = flen c) by (unfold bcast_units in Eb; destruct axu as [l|]; [|injection Eb as <-; apply repeat_length];
    destruct (length l =? 1)%nat; [rewrite repeat_length, Nat.eqb_refl in Eb; injection Eb as <-; apply repeat_length|];
    destruct (Nat.eqb_spec (length l) (flen c)); [injection Eb as <-; auto|discriminate]).
  destruct (axis_units s s' ax factor (UStr u) (flen c) H) as (_ & _ & U & W); [split; rewrite ?K4, ?K5, E1 || rewrite K5, E2, map_length; auto|congruence|].
  split; [|apply W]. intros Ha. destruct (U a Ha (Some u) (Some (String.append u "^-1"))) as [G1 G2].
  { cbn [given]. destruct (String.eqb_spec u "same"); [contradiction|reflexivity]. }
  rewrite G1, G2, K1, K2, E4, E5. specialize (V _ Ha). rewrite K3, E3 in V.
  assert (D : (0 < flen c)%nat) by lia.
  assert (N : In None au \/ (forall x, In x au -> x <> None) /\ exists v, In (Some v) au /\ (String.length u <= String.length v)%nat).
  { destruct axu as [l|].
    - destruct (bcast_in _ _ _ Eb D) as [_ B]. destruct (existsb (fun x => match x with None => true | Some _ => false end) au) eqn:X.
      + left. apply existsb_exists in X. destruct X as ([|] & X1 & X2); [discriminate|exact X1].
      + right. split.
        * intros x Hx ->. assert (existsb (fun x : option string => match x with None => true | Some _ => false end) au = true); [|congruence].
          apply existsb_exists. exists None. auto.
        * destruct F as [F|(v & Hv & Lv)].
          -- exfalso. assert (existsb (fun x : option string => match x with None => true | Some _ => false end) au = true); [|congruence].
             apply existsb_exists. exists None. split; [apply B; exact F|reflexivity].
          -- exists v. split; [apply B; exact Hv|exact Lv].
    - left. cbn [bcast_units] in Eb. injection Eb as <-. destruct (flen c); [lia|left; reflexivity]. }
  destruct N as [N|(N & v & Hv & Lv)].
  - rewrite (udt_none au N), (udt_none (map hat_inv au)) by (apply in_map_iff; exists None; auto). split; reflexivity.
  - rewrite (udt_strings au N), (udt_strings (map hat_inv au)).
    + cbn [ustore]. assert (W1 := widest_le au v Hv). destruct (widest_inv au N) as [_ W2]; [intros ->; destruct Hv|]. specialize (W2 v Hv).
      rewrite !substring_all; [split; reflexivity| |lia]. rewrite append_len. change (String.length "^-1") with 3%nat. lia.
    + intros x Hx. apply in_map_iff in Hx. destruct Hx as (y & <- & Hy). specialize (N y Hy). destruct y; [discriminate|congruence].
Qed.
Print Assumptions C115_unit_partial.

(** Refuted for a longer unit: whatever was called before, only its first characters are kept. *)
Theorem C115_long_refuted {A : Alg} n c sd p l gru s0 calls (s s' : ugrid A) ax factor u a :
  ugrid_new A n c sd p (Some l) gru = Ok s0 -> s = urun calls s0 -> uscale_axis s ax factor (UStr u) true = (s', Ok tt) -> u <> "same"%string ->
  (1 < String.length u)%nat -> (forall x, In x l -> exists v, x = Some v /\ (String.length v < String.length u)%nat) -> In (Z.of_nat a) ax ->
  exists t r, nth a (g_axu (ug s')) None = Some t /\ u = String.append t r /\ t <> u.
Proof.
  intros H0 Es H Hu L1 Hl Ha. destruct (new_units _ _ _ _ _ _ _ H0) as (au & Eb & E1 & E2 & E3 & E4 & E5).
  destruct (kept_run calls s0) as (K1 & K2 & K3 & K4 & K5). rewrite <- Es in *.
  destruct (axis_ok_inv _ _ _ _ _ _ H) as (V & _). specialize (V _ Ha). rewrite K3, E3 in V. assert (D : (0 < flen c)%nat) by lia.
  destruct (bcast_in _ _ _ Eb D) as [La B].
  destruct (axis_units s s' ax factor (UStr u) (flen c) H) as (_ & _ & U & _); [split; [rewrite K4, E1; exact La|rewrite K5, E2, map_length; exact La]|congruence|].
  destruct (U a Ha (Some u) (Some (String.append u "^-1"))) as [G1 _].
  { cbn [given]. destruct (String.eqb_spec u "same"); [contradiction|reflexivity]. }
  rewrite G1, K1, E4, udt_strings.
  - cbn [ustore]. destruct (substring_prefix u (widest au)) as [r Er]. exists (substring 0 (widest au) u), r. repeat split; auto.
    intros X. apply (f_equal String.length) in X. rewrite substring_len in X.
    assert (W := widest_lt au (String.length u) L1). enough (widest au < String.length u)%nat by lia. apply W.
    intros v Hv. apply B in Hv. destruct (Hl _ Hv) as (v' & Ev & Lv). injection Ev as <-. exact Lv.
  - intros x Hx. apply B in Hx. destruct (Hl _ Hx) as (v & -> & _). discriminate.
Qed.
Print Assumptions C115_long_refuted.

(** Refuted for axunits=None on a grid with units: the axis gets the word None, or its first letters, for a unit. *)
Theorem C115_none_refuted {A : Alg} n c sd p l gru s0 calls (s s' : ugrid A) ax factor a :
  ugrid_new A n c sd p (Some l) gru = Ok s0 -> s = urun calls s0 -> uscale_axis s ax factor UNone true = (s', Ok tt) ->
  ~ In None l -> In (Z.of_nat a) ax -> exists t r, nth a (g_axu (ug s')) None = Some t /\ "None"%string = String.append t r /\ t <> ""%string.
Proof.
  intros H0 Es H Hl Ha. destruct (new_units _ _ _ _ _ _ _ H0) as (au & Eb & E1 & E2 & E3 & E4 & E5).
  destruct (kept_run calls s0) as (K1 & K2 & K3 & K4 & K5). rewrite <- Es in *.
  destruct (axis_ok_inv _ _ _ _ _ _ H) as (V & _). specialize (V _ Ha). rewrite K3, E3 in V. assert (D : (0 < flen c)%nat) by lia.
  destruct (bcast_in _ _ _ Eb D) as [La B].
  destruct (axis_units s s' ax factor UNone (flen c) H) as (_ & _ & U & _); [split; [rewrite K4, E1; exact La|rewrite K5, E2, map_length; exact La]|congruence|].
  destruct (U a Ha None None eq_refl) as [G1 _]. rewrite G1, K1, E4, udt_strings.
  - cbn [ustore]. destruct (substring_prefix "None" (widest au)) as [r Er]. exists (substring 0 (widest au) "None"), r. repeat split; auto.
    intros X. apply (f_equal String.length) in X. rewrite substring_len in X. cbn [String.length] in X.
    assert (W := widest_pos au). lia.
  - intros x Hx ->. apply Hl. apply B. exact Hx.
Qed.
Print Assumptions C115_none_refuted.

(** A list of units, one for each axis in [ax]: a call that succeeds gives axis a the entry at a (not the one at the place of
    a in [ax]), so it is right when [ax] lists 0, 1, 2, .. in this order. *)
Theorem C115_list_partial {A : Alg} n c sd p axu gru s0 calls (s s' : ugrid A) ax factor l u a :
  ugrid_new A n c sd p axu gru = Ok s0 -> match axu with None => True | Some w => In None w end ->
  s = urun calls s0 -> uscale_axis s ax factor (UList l) true = (s', Ok tt) -> In (Z.of_nat a) ax -> nth_error l a = Some (Some u) ->
  nth a (g_axu (ug s')) None = Some u /\ nth a (g_faxu (ug s')) None = Some (String.append u "^-1").
Proof.
  intros H0 F Es H Ha El. destruct (new_units _ _ _ _ _ _ _ H0) as (au & Eb & E1 & E2 & E3 & E4 & E5).
  destruct (kept_run calls s0) as (K1 & K2 & K3 & K4 & K5). rewrite <- Es in *.
  destruct (axis_ok_inv _ _ _ _ _ _ H) as (V & _). specialize (V _ Ha). rewrite K3, E3 in V. assert (D : (0 < flen c)%nat) by lia.
  assert (N : In None au /\ length au = flen c).
  { destruct axu as [w|]; [destruct (bcast_in _ _ _ Eb D) as [La B]; split; [apply B; exact F|exact La]|].
    cbn [bcast_units] in Eb. injection Eb as <-. rewrite repeat_length. split; [|reflexivity]. destruct (flen c); [lia|left; reflexivity]. }
  destruct N as [N La].
  destruct (axis_units s s' ax factor (UList l) (flen c) H) as (_ & _ & U & _); [split; [rewrite K4, E1; exact La|rewrite K5, E2, map_length; exact La]|congruence|].
  destruct (U a Ha (Some u) (Some (String.append u "^-1"))) as [G1 G2]; [cbn [given]; rewrite El; reflexivity|].
  rewrite G1, G2, K1, K2, E4, E5, (udt_none au N), (udt_none (map hat_inv au)) by (apply in_map_iff; exists None; auto). split; reflexivity.
Qed.
Print Assumptions C115_list_partial.

(** Refuted for other orders: with ax=[1,0] and a list of two units, the axes get each other's. *)
Theorem C115_order_refuted {A : Alg} n c sd p gru s0 calls (s s' : ugrid A) factor u v :
  ugrid_new A n c sd p None gru = Ok s0 -> s = urun calls s0 -> uscale_axis s [1; 0]%Z factor (UList [Some u; Some v]) true = (s', Ok tt) ->
  nth 1 (g_axu (ug s')) None = Some v /\ nth 0 (g_axu (ug s')) None = Some u.
Proof.
  intros H0 Es H. split.
  - exact (proj1 (C115_list_partial _ _ _ _ _ _ _ _ _ _ _ _ _ v 1%nat H0 I Es H (or_introl eq_refl) eq_refl)).
  - exact (proj1 (C115_list_partial _ _ _ _ _ _ _ _ _ _ _ _ _ u 0%nat H0 I Es H (or_intror (or_introl eq_refl)) eq_refl)).
Qed.
Print Assumptions C115_order_refuted.

(** Refuted for a list with one unit: every such call raises, and leaves a grid whose side length is scaled and whose axes are not. *)
Theorem C115_list_refuted {A : Alg} (s : ugrid A) a ax f v sc : floats (ug s) -> consistent (ug s) ->
  (forall b, In b (a :: ax) -> (b < g_ndim (ug s))%nat) -> (a <= length ax)%nat ->
  exists s' e, uscale_axis s (map Z.of_nat (a :: ax)) [f] (UList [v]) sc = (s', Raise e) /\ (e = TypeError \/ e = ValueError) /\
    fnth (g_side (ug s')) a = fnth (g_side (ug s)) a * f /\ g_axes (ug s') = g_axes (ug s).
Proof.
  intros (F1 & F2 & F3) C Ha La. unfold uscale_axis.
  assert (X : forallb (fun z => (z <? Z.of_nat (g_ndim (ug s)))%Z && (0 <=? z)%Z) (map Z.of_nat (a :: ax)) = true).
  { apply forallb_forall. intros z Hz. apply in_map_iff in Hz. destruct Hz as (b & <- & Hb). specialize (Ha b Hb).
    apply andb_true_intro. split; [apply Z.ltb_lt|apply Z.leb_le]; lia. }
  rewrite X. cbn [negb length Nat.eqb hd]. cbn [map]. rewrite Nat2Z.id. cbn [uscale_loop]. unfold uscale_one.
  assert (E : nth_error (repeat f (length (Z.of_nat a :: map Z.of_nat ax))) a = Some f).
  { rewrite (nth_error_nth' _ f) by (rewrite repeat_length; cbn [length]; rewrite map_length; lia). rewrite nth_repeat. reflexivity. }
  rewrite E. cbn [scale_units].
  eexists. eexists. split; [reflexivity|]. split; [cbn [ug_t]; destruct (ug_t s); auto|]. split; [|reflexivity].
  cbn [ug scale_geom with_geom g_side]. apply fnth_fset_eq; [exact F2|]. rewrite (co_s _ C). apply Ha. left. reflexivity.
Qed.
Print Assumptions C115_list_refuted.

(** With axunits='same' (the default) the units stay, and the geometry is what it is without them (C23 says what). Whatever the
    units, a call that succeeds changes the geometry in the same way. *)
Theorem C115_same {A : Alg} (s : ugrid A) ax factor sc : uscale_axis s ax factor (UStr "same") sc =
  (mkUG (fst (grid_scale_axis (ug s) ax factor sc)) (ug_t s) (ug_ft s), snd (grid_scale_axis (ug s) ax factor sc)).
Proof.
  unfold uscale_axis, grid_scale_axis. destruct (negb _); [destruct s; reflexivity|].
  destruct (if (length factor =? 1)%nat then _ else _); [apply loop_same|destruct s; reflexivity].
Qed.
Print Assumptions C115_same.
Theorem C115_geometry {A : Alg} (s s' : ugrid A) ax factor u : uscale_axis s ax factor u true = (s', Ok tt) ->
  exists g', grid_scale_axis (ug s) ax factor true = (g', Ok tt) /\
    g_ndim (ug s') = g_ndim g' /\ g_center (ug s') = g_center g' /\ g_side (ug s') = g_side g' /\ g_pix (ug s') = g_pix g' /\ g_npix (ug s') = g_npix g' /\
    g_axes (ug s') = g_axes g' /\ g_centers (ug s') = g_centers g' /\ g_faxes (ug s') = g_faxes g' /\ g_fcenters (ug s') = g_fcenters g' /\ g_data (ug s') = g_data g'.
Proof.
  unfold uscale_axis, grid_scale_axis. destruct (negb _); [discriminate|].
  destruct (if (length factor =? 1)%nat then _ else _) as [fl|]; [|discriminate]. intros H.
  assert (G := loop_geom _ _ _ _ _ _ H (g_axu (ug s)) (g_faxu (ug s))). rewrite with_axu_id in G. rewrite G. eexists. split; [reflexivity|]. repeat split.
Qed.
Print Assumptions C115_geometry.

(** a 2 x 3 grid in Mpc whose first axis is turned into minutes of arc and whose second axis keeps its unit *)
Example C115_nonvacuous :
  match ugrid_new QcAlg 1 (mkF false [0; 0]) (mkF false [zq 2; zq 3]) (mkF false [1; 1]) (Some [Some "Mpc"%string]) None with
  | Ok s => match uscale_axis s [0; 1]%Z [zq 2; 1] (UStr "min") true with
            | (s1, Ok _) => (g_axu (ug s1), g_faxu (ug s1)) = ([Some "min"; Some "min"], [Some "min^-1"; Some "min^-1"])%string
            | _ => False end /\
            match uscale_axis s [0]%Z [zq 2] (UStr "arcmin") true with
            | (s1, Ok _) => (g_axu (ug s1), g_faxu (ug s1)) = ([Some "arc"; Some "Mpc"], [Some "arcmin"; Some "Mpc^-1"])%string
            | _ => False end /\
            match uscale_axis s [0]%Z [zq 2] UNone true with
            | (s1, Ok _) => g_axu (ug s1) = [Some "Non"; Some "Mpc"]%string
            | _ => False end /\
            snd (uscale_axis s [0]%Z [zq 2] (UList [Some "Mpc"%string]) true) = Raise ValueError
  | Raise _ => False
  end /\
  match ugrid_new QcAlg 1 (mkF false [0; 0]) (mkF false [zq 2; zq 3]) (mkF false [1; 1]) None None with
  | Ok s => match uscale_axis s [1; 0]%Z [zq 2; 1] (UList [Some "deg"; Some "Mpc"]%string) true with
            | (s1, Ok _) => g_axu (ug s1) = [Some "deg"; Some "Mpc"]%string
            | _ => False end
  | Raise _ => False
  end.
Proof. vm_compute. repeat split. Qed.
