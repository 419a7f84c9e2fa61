(** Lemmas about the units of axes (UnitModel.v). *)
From Coq Require Import String.
From Verif Require Import Util Rat Val Arr GridModel GridSpec GridAxis GridNew GridAdd GridCat GridSpectra GridSpecFunc GridEx GridPad GridCrop GridOps UnitModel.
Open Scope Qc_scope.

(** ** Strings of limited length *)
Lemma substring_all s : forall w, (String.length s <= w)%nat -> substring 0 w s = s.
Proof.
  induction s as [|a s IH]; intros [|w] H; cbn [substring String.length] in *; auto; [lia|]. f_equal. apply IH. lia.
Qed.
Lemma substring_len s : forall w, String.length (substring 0 w s) = Nat.min w (String.length s).
Proof. induction s as [|a s IH]; intros [|w]; cbn [substring String.length Nat.min]; auto. Qed.
Lemma substring_prefix s : forall w, exists r, s = String.append (substring 0 w s) r.
Proof.
  induction s as [|a s IH]; intros [|w]; cbn [substring]; try (eexists; reflexivity).
  destruct (IH w) as [r E]. exists r. cbn [String.append]. rewrite <- E. reflexivity.
Qed.
Lemma append_len a b : String.length (String.append a b) = (String.length a + String.length b)%nat.
Proof. induction a as [|c a IH]; cbn; auto. Qed.

Definition widest (l : units) : nat :=
  fold_right Nat.max 1%nat (map (fun u => match u with Some s => String.length s | None => 0%nat end) l).
Lemma widest_le l u : In (Some u) l -> (String.length u <= widest l)%nat.
Proof. induction l as [|x l IH]; [intros []|]. intros [->|H]; unfold widest in *; cbn [map fold_right]; [lia|]. specialize (IH H). lia. Qed.
Lemma widest_lt l n : (1 < n)%nat -> (forall u, In (Some u) l -> (String.length u < n)%nat) -> (widest l < n)%nat.
Proof.
  intros Hn. induction l as [|x l IH]; intros H; unfold widest in *; cbn [map fold_right]; [lia|].
  assert (H1 := IH (fun u Hu => H u (or_intror Hu))). destruct x as [s|]; [|lia]. specialize (H s (or_introl eq_refl)). lia.
Qed.
Lemma widest_pos l : (1 <= widest l)%nat.
Proof. induction l as [|x l IH]; unfold widest in *; cbn [map fold_right]; lia. Qed.
Lemma udt_strings l : (forall u, In u l -> u <> None) -> udt_of l = Chars (widest l).
Proof.
  intros H. unfold udt_of. destruct (forallb _ l) eqn:E; [reflexivity|].
  assert (forallb (fun u : option string => match u with Some _ => true | None => false end) l = true) as X; [|congruence].
  apply forallb_forall. intros u Hu. specialize (H u Hu). destruct u; congruence.
Qed.
Lemma udt_none l : In None l -> udt_of l = Objects.
Proof.
  intros H. unfold udt_of. destruct (forallb _ l) eqn:E; [|reflexivity].
  rewrite forallb_forall in E. specialize (E _ H). discriminate.
Qed.

Section U.
Context {A : Alg}.
Notation ugrid := (ugrid A).

(** ** One pass *)
Definition given (u : uarg) (i : nat) : option (option string * option string) :=
  match u with
  | UNone => Some (None, None)
  | UStr x => if String.eqb x "same" then None else Some (Some x, Some (String.append x "^-1"))
  | UList l => match nth_error l i with Some (Some x) => Some (Some x, Some (String.append x "^-1")) | _ => None end
  end.
Definition set_u (s : ugrid) (u : uarg) (i : nat) : ugrid :=
  match given u i with Some (a, b) => put_fu (put_u s i a) i b | None => s end.

Lemma scale_units_ok u n (s s' : ugrid) i : scale_units u n s i = (s', Ok tt) -> s' = set_u s u i.
Proof.
  unfold scale_units, set_u, given. destruct u as [|x|l].
  - congruence.
  - destruct (String.eqb x "same"); congruence.
  - destruct l as [|a [|b l]]; try discriminate.
    + destruct (length [] =? n)%nat; [|discriminate]. destruct i; discriminate.
    + destruct (length (a :: b :: l) =? n)%nat; [|discriminate]. destruct (nth_error _ i) as [[x|]|]; congruence.
Qed.

Lemma uscale_one_ok fs u n (s s' : ugrid) i : uscale_one true fs u n s i = (s', Ok tt) -> exists f, nth_error fs i = Some f /\
  s' = (let s1 := set_u (mkUG (scale_geom true f (ug s) i) (ug_t s) (ug_ft s)) u i in mkUG (scale_lines f (ug s1) i) (ug_t s1) (ug_ft s1)).
Proof.
  unfold uscale_one. destruct (nth_error fs i) as [f|]; [|discriminate].
  destruct (scale_units u n _ i) as [s1 [[]|]] eqn:E; [|discriminate]. intros H. injection H as <-. exists f. split; [reflexivity|].
  rewrite (scale_units_ok _ _ _ _ _ E). reflexivity.
Qed.

Definition unit_len (s : ugrid) d := length (g_axu (ug s)) = d /\ length (g_faxu (ug s)) = d.

Lemma one_units fs u n (s s' : ugrid) i d : uscale_one true fs u n s i = (s', Ok tt) -> unit_len s d -> (i < d)%nat ->
  unit_len s' d /\ ug_t s' = ug_t s /\ ug_ft s' = ug_ft s /\
  (forall j, nth j (g_axu (ug s')) None = if (j =? i)%nat then match given u i with Some (a, _) => ustore (ug_t s) a | None => nth j (g_axu (ug s)) None end
                                        else nth j (g_axu (ug s)) None) /\
  (forall j, nth j (g_faxu (ug s')) None = if (j =? i)%nat then match given u i with Some (_, b) => ustore (ug_ft s) b | None => nth j (g_faxu (ug s)) None end
                                         else nth j (g_faxu (ug s)) None).
Proof.
  intros H [L1 L2] Hi. destruct (uscale_one_ok _ _ _ _ _ _ H) as (f & _ & ->). unfold set_u, unit_len.
  destruct (given u i) as [[a b]|]; cbn [put_u put_fu ug ug_t ug_ft scale_lines scale_geom with_geom with_axu g_axu g_faxu].
  - rewrite !upd_length. repeat split; auto; intros j; destruct (Nat.eqb_spec j i) as [->|Ne]; rewrite ?nth_upd_eq by lia; rewrite ?nth_upd_ne by auto; reflexivity.
  - repeat split; auto; intros j; destruct (Nat.eqb_spec j i) as [->|Ne]; reflexivity.
Qed.

Lemma loop_units fs u n d ax : forall s s' : ugrid, uscale_loop true fs u n s ax = (s', Ok tt) -> unit_len s d -> (forall i, In i ax -> (i < d)%nat) ->
  unit_len s' d /\ ug_t s' = ug_t s /\ ug_ft s' = ug_ft s /\
  (forall j, nth j (g_axu (ug s')) None = if mem_nat j ax then match given u j with Some (a, _) => ustore (ug_t s) a | None => nth j (g_axu (ug s)) None end
                                        else nth j (g_axu (ug s)) None) /\
  (forall j, nth j (g_faxu (ug s')) None = if mem_nat j ax then match given u j with Some (_, b) => ustore (ug_ft s) b | None => nth j (g_faxu (ug s)) None end
                                         else nth j (g_faxu (ug s)) None).
Proof.
  induction ax as [|i ax IH]; intros s s' H L V; cbn [uscale_loop] in H; [injection H as <-; auto|].
  destruct (uscale_one _ _ _ _ _ _) as [s1 [[]|]] eqn:E; [|discriminate].
  destruct (one_units _ _ _ _ _ _ d E L (V i (or_introl eq_refl))) as (L1 & T1 & F1 & U1 & W1).
  destruct (IH s1 s' H L1 (fun k Hk => V k (or_intror Hk))) as (L2 & T2 & F2 & U2 & W2).
  repeat split; try (apply L2); try congruence; intros j; rewrite ?U2, ?W2, ?T1, ?F1, ?U1, ?W1; unfold mem_nat; cbn [existsb];
    destruct (Nat.eqb_spec j i) as [->|Ne]; cbn [orb]; destruct (existsb (Nat.eqb _) ax); destruct (given u _) as [[a b]|]; reflexivity.
Qed.

(** ** The geometry does not depend on the units *)
Lemma one_geom fs u n (s s' : ugrid) i : uscale_one true fs u n s i = (s', Ok tt) -> forall au fu,
  scale_one true fs (with_axu (ug s) au fu) i = (with_axu (ug s') au fu, Ok tt).
Proof.
  intros H au fu. destruct (uscale_one_ok _ _ _ _ _ _ H) as (f & E & ->). unfold scale_one. rewrite E. unfold set_u.
  destruct (given u i) as [[a b]|]; reflexivity.
Qed.
Lemma loop_geom fs u n ax : forall s s' : ugrid, uscale_loop true fs u n s ax = (s', Ok tt) -> forall au fu,
  scale_loop true fs (with_axu (ug s) au fu) ax = (with_axu (ug s') au fu, Ok tt).
Proof.
  induction ax as [|i ax IH]; intros s s' H au fu; cbn [uscale_loop scale_loop] in *; [injection H as <-; reflexivity|].
  destruct (uscale_one _ _ _ _ _ _) as [s1 [[]|]] eqn:E; [|discriminate].
  rewrite (one_geom _ _ _ _ _ _ E). apply IH. exact H.
Qed.
Lemma with_axu_id (g : grid A) : with_axu g (g_axu g) (g_faxu g) = g. Proof. destruct g; reflexivity. Qed.

(** ** 'same' *)
Lemma one_same sc fs n (s : ugrid) i : uscale_one sc fs (UStr "same") n s i =
  (mkUG (fst (scale_one sc fs (ug s) i)) (ug_t s) (ug_ft s), snd (scale_one sc fs (ug s) i)).
Proof.
  unfold uscale_one, scale_one. destruct (nth_error fs i) as [f|]; [|destruct s; reflexivity]. cbn [scale_units String.eqb Ascii.eqb Bool.eqb].
  destruct sc; reflexivity.
Qed.
Lemma loop_same sc fs n ax : forall s : ugrid, uscale_loop sc fs (UStr "same") n s ax =
  (mkUG (fst (scale_loop sc fs (ug s) ax)) (ug_t s) (ug_ft s), snd (scale_loop sc fs (ug s) ax)).
Proof.
  induction ax as [|i ax IH]; intros s; cbn [uscale_loop scale_loop]; [destruct s; reflexivity|].
  rewrite one_same. destruct (scale_one sc fs (ug s) i) as [g1 [[]|]]; cbn [fst snd]; [|reflexivity]. rewrite IH. reflexivity.
Qed.

(** ** The whole call *)
Lemma axis_ok_inv (s s' : ugrid) ax factor u sc : uscale_axis s ax factor u sc = (s', Ok tt) ->
  (forall a, In a ax -> (0 <= a < Z.of_nat (g_ndim (ug s)))%Z) /\ exists fl, uscale_loop sc fl u (length ax) s (map Z.to_nat ax) = (s', Ok tt).
Proof.
  unfold uscale_axis. destruct (forallb _ ax) eqn:E; cbn [negb]; [|discriminate].
  destruct (if (length factor =? 1)%nat then _ else _) as [fl|]; [|discriminate]. intros H. split; [|eauto].
  intros a Ha. rewrite forallb_forall in E. specialize (E a Ha). apply andb_prop in E. destruct E as [E1 E2].
  apply Z.ltb_lt in E1. apply Z.leb_le in E2. lia.
Qed.
Lemma In_mem_nat a l : In a l -> mem_nat a l = true. Proof. apply mem_nat_spec. Qed.
Lemma mem_nat_not a l : ~ In a l -> mem_nat a l = false. Proof. apply mem_nat_false. Qed.

(** the units of the axes after a call that succeeds *)
Lemma axis_units (s s' : ugrid) ax factor u d : uscale_axis s ax factor u true = (s', Ok tt) -> unit_len s d -> g_ndim (ug s) = d ->
  ug_t s' = ug_t s /\ ug_ft s' = ug_ft s /\
  (forall a, In (Z.of_nat a) ax -> forall x y, given u a = Some (x, y) -> nth a (g_axu (ug s')) None = ustore (ug_t s) x /\ nth a (g_faxu (ug s')) None = ustore (ug_ft s) y) /\
  (forall a, ~ In (Z.of_nat a) ax -> nth a (g_axu (ug s')) None = nth a (g_axu (ug s)) None /\ nth a (g_faxu (ug s')) None = nth a (g_faxu (ug s)) None).
Proof.
  intros H L D. destruct (axis_ok_inv _ _ _ _ _ _ H) as (V & fl & E).
  assert (V' : forall i, In i (map Z.to_nat ax) -> (i < d)%nat).
  { intros i Hi. apply in_map_iff in Hi. destruct Hi as (z & <- & Hz). specialize (V z Hz). lia. }
  destruct (loop_units _ _ _ d _ _ _ E L V') as (_ & T & F & U & W). repeat split; auto.
  - rewrite U, In_mem_nat by (apply in_map_iff; exists (Z.of_nat a); split; [lia|auto]). rewrite H1. reflexivity.
  - rewrite W, In_mem_nat by (apply in_map_iff; exists (Z.of_nat a); split; [lia|auto]). rewrite H1. reflexivity.
  - rewrite U, mem_nat_not; [reflexivity|]. intros Hi. apply in_map_iff in Hi. destruct Hi as (z & Ez & Hz). apply H0.
    specialize (V z Hz). rewrite <- Ez, Z2Nat.id by lia. exact Hz.
  - rewrite W, mem_nat_not; [reflexivity|]. intros Hi. apply in_map_iff in Hi. destruct Hi as (z & Ez & Hz). apply H0.
    specialize (V z Hz). rewrite <- Ez, Z2Nat.id by lia. exact Hz.
Qed.

(** ** Histories *)
Definition shape_kept (s s' : ugrid) : Prop :=
  ug_t s' = ug_t s /\ ug_ft s' = ug_ft s /\ g_ndim (ug s') = g_ndim (ug s) /\
  length (g_axu (ug s')) = length (g_axu (ug s)) /\ length (g_faxu (ug s')) = length (g_faxu (ug s)).
Lemma kept_refl s : shape_kept s s. Proof. repeat split. Qed.
Lemma kept_trans s1 s2 s3 : shape_kept s1 s2 -> shape_kept s2 s3 -> shape_kept s1 s3.
Proof. unfold shape_kept. intuition congruence. Qed.
Lemma kept_put s i x : shape_kept s (put_u s i x).
Proof. unfold shape_kept, put_u; cbn [ug ug_t ug_ft with_axu g_ndim g_axu g_faxu]. rewrite upd_length. repeat split. Qed.
Lemma kept_putf s i x : shape_kept s (put_fu s i x).
Proof. unfold shape_kept, put_fu; cbn [ug ug_t ug_ft with_axu g_ndim g_axu g_faxu]. rewrite upd_length. repeat split. Qed.
Lemma kept_units u n s i : shape_kept s (fst (scale_units u n s i)).
Proof.
  unfold scale_units. destruct u as [|x|l].
  - cbn [fst]. eapply kept_trans; [apply kept_put|apply kept_putf].
  - destruct (String.eqb x "same"); cbn [fst]; [apply kept_refl|]. eapply kept_trans; [apply kept_put|apply kept_putf].
  - destruct l as [|a [|b l]]; cbn [fst]; try apply kept_refl.
    + destruct (_ =? n)%nat; [|apply kept_refl]. destruct i; apply kept_refl.
    + destruct (_ =? n)%nat; [|apply kept_refl]. destruct (nth_error _ i) as [[x|]|]; cbn [fst]; [|apply kept_put|apply kept_refl].
      eapply kept_trans; [apply kept_put|apply kept_putf].
Qed.
Lemma kept_one sc fs u n s i : shape_kept s (fst (uscale_one sc fs u n s i)).
Proof.
  unfold uscale_one. destruct (nth_error fs i) as [f|]; [|apply kept_refl].
  assert (K := kept_units u n (mkUG (scale_geom sc f (ug s) i) (ug_t s) (ug_ft s)) i).
  destruct (scale_units u n _ i) as [s1 [[]|e]]; [destruct sc|]; exact K.
Qed.
Lemma kept_loop sc fs u n ax : forall s, shape_kept s (fst (uscale_loop sc fs u n s ax)).
Proof.
  induction ax as [|i ax IH]; intros s; cbn [uscale_loop]; [apply kept_refl|].
  assert (K := kept_one sc fs u n s i). destruct (uscale_one sc fs u n s i) as [s1 [[]|e]]; [|exact K].
  eapply kept_trans; [exact K|apply IH].
Qed.
Lemma kept_axis s ax factor u sc : shape_kept s (fst (uscale_axis s ax factor u sc)).
Proof.
  unfold uscale_axis. destruct (negb _); [apply kept_refl|]. destruct (if (length factor =? 1)%nat then _ else _); [|apply kept_refl]. apply kept_loop.
Qed.
Lemma kept_run calls : forall s, shape_kept s (urun calls s).
Proof.
  induction calls as [|c calls IH]; intros s; [apply kept_refl|]. cbn [urun fold_left]. eapply kept_trans; [apply kept_axis|apply IH].
Qed.

(** ** New grids *)
Lemma bcast_in d l r : bcast_units d (Some l) = Ok r -> (0 < d)%nat -> (length r = d) /\ (forall u, In u r <-> In u l).
Proof.
  unfold bcast_units. destruct (Nat.eqb_spec (length l) 1) as [L|L].
  - cbn [bind]. rewrite repeat_length, Nat.eqb_refl. cbn [check bind]. intros H Hd. injection H as <-. rewrite repeat_length. split; [reflexivity|].
    destruct l as [|x [|]]; try (cbn in L; lia). cbn [hd]. destruct d as [|d]; [lia|]. intros u. split.
    + intros H. apply repeat_spec in H. left. auto.
    + intros [<-|[]]. left. reflexivity.
  - destruct (Nat.eqb_spec (length l) d); cbn [check bind]; [|discriminate]. intros H _. injection H as <-. split; [auto|tauto].
Qed.
Lemma new_units n c sd p axu gru s : ugrid_new A n c sd p axu gru = Ok s -> exists au, bcast_units (flen c) axu = Ok au /\
  g_axu (ug s) = au /\ g_faxu (ug s) = map hat_inv au /\ g_ndim (ug s) = flen c /\ ug_t s = udt_of au /\ ug_ft s = udt_of (map hat_inv au).
Proof.
  unfold ugrid_new, grid_new. destruct (bcast_side _ _); [|discriminate]. cbn [bind]. destruct (bcast_pix _ _); [|discriminate]. cbn [bind].
  destruct (bcast_units (flen c) axu) as [au|]; [|discriminate]. cbn [bind]. destruct (bcast_units n gru); [|discriminate]. cbn [bind].
  destruct (mapM _ _); [|discriminate]. cbn [bind]. intros H. injection H as <-. exists au. cbn. repeat split.
Qed.
Lemma widest_inv l : (forall u, In u l -> u <> None) -> l <> [] -> (forall v, In (Some v) (map hat_inv l) -> (String.length v <= widest l + 3)%nat) /\
  forall v, In (Some v) l -> (String.length v + 3 <= widest (map hat_inv l))%nat.
Proof.
  intros H N. split.
  - intros v Hv. apply in_map_iff in Hv. destruct Hv as ([s|] & E & Hs); [|discriminate]. injection E as <-. rewrite append_len.
    assert (K := widest_le l s Hs). change (String.length "^-1") with 3%nat. lia.
  - intros v Hv. assert (K := widest_le (map hat_inv l) (String.append v "^-1")). rewrite append_len in K. change (String.length "^-1") with 3%nat in K.
    apply K. apply in_map_iff. exists (Some v). auto.
Qed.
End U.
