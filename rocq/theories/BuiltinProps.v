(** Property C114: the predefined properties. *)
From Verif Require Import Dict Util Rat HandlerModel HandlerSpec Handler Handler2 HandlerProps BuiltinModel Builtin.
Open Scope string_scope.
Open Scope list_scope.
Open Scope nat_scope.

(** * C114 *)
(** Every predefined property can be constructed: it asks for exactly the parameters the relation has no default for, its
    inputs and values are without h, and every name has the unit *)
Theorem C114_made rel b : In b builtins -> exists p, builtin_prop rel b = Ok p /\ p_names p = b_names b /\
  (forall k, In k (p_kwargs p) <-> In k (g_req (header (b_rel b)))) /\ p_give_h p = false /\ p_ret_h p = false /\
  exists hd, p_hdep p = Some hd /\ forall name, In name (p_names p) -> dget (p_units p) name = Some (UStr (b_unit b)) /\ dget hd name = Some 0%Z.
Proof.
  intros B. destruct (builtin_ok rel b B) as (p & hd & E & N & K & G & R & H & _ & U). destruct (builtin_shape b B) as (_ & _ & S & _).
  exists p. rewrite K, S, N. split; [exact E|]. repeat split; auto. exists hd. auto.
Qed.
Print Assumptions C114_made.
(** luminosities are in Lsun, star formation rates in Msun/yr and masses in Msun *)
Definition quantity_unit (name : string) : string :=
  match name with "sfr" => "Msun/yr" | "stellar mass" => "Msun" | _ => "Lsun" end.
Theorem C114_unit rel b p name : In b builtins -> builtin_prop rel b = Ok p -> In name (p_names p) -> dget (p_units p) name = Some (UStr (quantity_unit name)).
Proof.
  intros B Bp I. destruct (C114_made rel b B) as (p' & E & N & _ & _ & _ & hd & _ & U). assert (p' = p) by congruence. subst p'. rewrite (proj1 (U name I)). rewrite N in I. clear -B I.
  do 2 f_equal. cbn in B. repeat (destruct B as [<-|B]; [cbn in I; repeat (destruct I as [<-|I]; [reflexivity|]); destruct I|]). destruct B.
Qed.
Print Assumptions C114_unit.

(** Making one gives every halo selected the value of the relation, whose arguments are the properties of those halos
    without h, or what the handler has for all halos (the redshift of a snapshot, the cosmology), and the other keywords; the values
    are the same with and without h, carry the unit, and everything else is as before *)
Theorem C114_value n rel b p nanint a s s' : reachable n s -> h_h (fst s) <> 0%Qc -> In b builtins -> builtin_prop rel b = Ok p ->
  make_property nanint p a s = (s', Ok tt) -> m_write a = false -> NoDup (new_names p a) ->
  let inds := if m_all a then seq 0 n else h_act (fst s) in
  exists args vals, rel (b_rel b) args = Ok vals /\ length vals = length (b_names b) /\
    (forall k, arg_spec s (g_req (header (b_rel b))) (m_remap a) (m_all a) false (m_kws a) k (dget args k)) /\
    (forall j name v, nth_error (new_names p a) j = Some name -> nth_error vals j = Some v ->
       dget (h_units (fst s')) name = Some (UStr (b_unit b)) /\
       exists c, (forall inh, return_property s' name true inh = Ok (Some c)) /\
         (forall k i, nth_error inds k = Some i -> nth_error (c_val c) i = val_at v k) /\
         (forall i, i < n -> ~ In i inds -> nth_error (c_val c) i = Some None)) /\
    (forall q ua inh, ~ In q (new_names p a) -> return_property s' q ua inh = return_property s q ua inh).
Proof.
  intros Rc Hh B Bp M Hw Nd inds. destruct (builtin_ok rel b B) as (p' & hd & E & N & K & G & R & H & F & U).
  assert (p' = p) by congruence. subst p'. destruct (builtin_shape b B) as (_ & _ & S & _).
  destruct (c29 n nanint p a s s' Rc Hh M Hw Nd) as (args & vals & P1 & P2 & P3 & P4 & P5 & _).
  destruct (make_split _ _ _ _ _ M Hw) as (names & vals' & Nn & Ln & _ & _).
  exists args, vals. rewrite F in P1. unfold pycall in P1. destruct (_ && _) eqn:C; [|discriminate].
  rewrite K, S, G in P3. split; [exact P1|]. split; [rewrite P2, <- Nn, Ln, N; reflexivity|]. split; [exact P3|]. split; [|exact P5].
  intros j name v Hj Hv. destruct (P4 j name v Hj Hv) as (c & R1 & R2 & R3). rewrite R in R1.
  destruct (made_meta _ _ _ _ _ _ _ M Hw Nd Hj) as (on & u & hd' & e & A1 & A2 & A3 & A4 & A5 & A6 & _).
  rewrite N in A1. apply nth_error_In in A1. destruct (U on A1) as (U1 & U2).
  assert (hd' = hd) by congruence. subst hd'. assert (e = 0%Z) by congruence. subst e. assert (u = UStr (b_unit b)) by congruence. subst u.
  split; [exact A5|]. exists c. split; [apply return_h0; assumption|]. auto.
Qed.
Print Assumptions C114_value.

(** The unit setting of the handler makes no difference to the values *)
Theorem C114_units rel b p s ua kws u : In b builtins -> builtin_prop rel b = Ok p ->
  evaluate_all p (set_in_h_units (fst s) u, snd s) ua [] kws = evaluate_all p s ua [] kws.
Proof.
  intros B Bp. destruct (builtin_ok rel b B) as (p' & hd & E & _ & K & _). assert (p' = p) by congruence. subst p'.
  apply evaluate_inh. rewrite K. intros k Hk. apply (builtin_shape b B), Hk.
Qed.
Print Assumptions C114_units.

(** A handler without one of the inputs is refused with a ValueError and left as it is *)
Theorem C114_missing n rel b p nanint a s k : reachable n s -> In b builtins -> builtin_prop rel b = Ok p ->
  let name := match dget (m_remap a) k with Some q => q | None => k end in
  In k (g_req (header (b_rel b))) -> has_property (fst s) name = false -> dget (h_extra (fst s)) name = None ->
  make_property nanint p a s = (s, Raise ValueError).
Proof.
  intros Rc B Bp name Hk Hp Hx. destruct (builtin_ok rel b B) as (p' & hd & E & _ & K & G & _). assert (p' = p) by congruence. subst p'.
  destruct (builtin_shape b B) as (_ & _ & S & _).
  destruct (make_before nanint p a s ValueError) as [M|M]; [|exact M|exact M].
  intros ua _. unfold evaluate_all. rewrite (gather_missing n s _ _ _ _ _ k (reachable_inv _ _ Rc)); [reflexivity| |exact Hp|exact Hx]. rewrite K, S. exact Hk.
Qed.
Print Assumptions C114_missing.

(** Only the other parameters of the relation may be given as keywords: anything else is refused, and nothing changes *)
Theorem C114_keywords rel b p nanint a s q v : In b builtins -> builtin_prop rel b = Ok p -> dget (m_kws a) q = Some v ->
  ~ In q (g_opt (header (b_rel b))) -> exists e, make_property nanint p a s = (s, Raise e).
Proof.
  intros B Bp Hq No. destruct (builtin_ok rel b B) as (p' & hd & E & _ & K & G & _ & _ & F & _). assert (p' = p) by congruence. subst p'.
  destruct (builtin_shape b B) as (_ & _ & S & _).
  assert (X : exists e, evaluate_all p s (m_all a) (m_remap a) (m_kws a) = Raise e).
  { unfold evaluate_all. destruct (gather ValueError s (p_kwargs p) (m_remap a) (m_all a) (Some (p_give_h p)) []) as [args|e] eqn:Ga; cbn [bind]; [|eauto].
    destruct (existsb (fun k => dmem args k) (dkeys (m_kws a))) eqn:Ex; [eauto|]. rewrite F. unfold pycall.
    assert (Kq : In q (dkeys (m_kws a))). { apply smem_In. change (dmem (m_kws a) q = true). apply dmem_some. eauto. }
    assert (Nq : ~ In q (g_req (header (b_rel b)))).
    { intros Rq. rewrite <- S, <- K in Rq. apply smem_In in Rq. pose proof (gather_mem _ _ _ _ _ _ _ _ Ga q) as Mq. rewrite Rq in Mq. cbn in Mq.
      assert (existsb (fun k => dmem args k) (dkeys (m_kws a)) = true) by (apply existsb_exists; eauto). congruence. }
    assert (Fa : forallb (fun k => smem k (g_req (header (b_rel b)) ++ g_opt (header (b_rel b)))) (dkeys (args ++ m_kws a)) = false).
    { destruct (forallb _ _) eqn:Fb; [|reflexivity]. rewrite forallb_forall in Fb. specialize (Fb q). exfalso.
      assert (In q (dkeys (args ++ m_kws a))) as Iq by (unfold dkeys in *; rewrite map_app; apply in_or_app; right; exact Kq).
      apply Fb, smem_In, in_app_or in Iq. tauto. }
    rewrite Fa, andb_false_r. cbn [bind]. eauto. }
  destruct X as (e & X). destruct (make_before nanint p a s e) as [M|M]; eauto. intros ua ->. exact X.
Qed.
Print Assumptions C114_keywords.

(** Star formation rates of Behroozi et al. made first are the rates the line luminosities are made from *)
Theorem C114_chain n rel b p1 p2 nanint a1 a2 s s1 s2 : reachable n s -> h_h (fst s) <> 0%Qc -> In b builtins -> In "sfr" (g_req (header (b_rel b))) ->
  builtin_prop rel prop_behroozi_sfr = Ok p1 -> builtin_prop rel b = Ok p2 ->
  m_all a1 = true -> m_all a2 = true -> m_write a1 = false -> m_write a2 = false -> m_rename a1 = None -> m_remap a2 = [] ->
  NoDup (new_names p2 a2) ->
  make_property nanint p1 a1 s = (s1, Ok tt) -> make_property nanint p2 a2 s1 = (s2, Ok tt) ->
  exists args1 v c args2 vals, rel BehrooziSfr args1 = Ok [v] /\ rel (b_rel b) args2 = Ok vals /\ dget args2 "sfr" = Some (VCol c) /\
    forall i, i < n -> nth_error (c_val c) i = val_at v i.
Proof.
  intros Rc Hh B Sf Bp1 Bp2 A1 A2 W1 W2 Rn Rm Nd M1 M2.
  assert (B1 : In prop_behroozi_sfr builtins) by (cbn; tauto).
  assert (Nn : new_names p1 a1 = ["sfr"]).
  { unfold new_names. rewrite Rn. destruct (builtin_ok rel _ B1) as (p' & hd & E & N & _). assert (p' = p1) by congruence. subst p'. exact N. }
  assert (Rc1 : reachable n s1).
  { replace s1 with (fst (make_property nanint p1 a1 s)) by (rewrite M1; reflexivity). apply reach_make; auto; [|rewrite Rn; discriminate].
    unfold new_names in Nn. rewrite Rn in Nn. rewrite Nn. cbn. intuition discriminate. }
  assert (Hh1 : h_h (fst s1) <> 0%Qc) by (rewrite (make_h _ _ _ _ _ M1 W1); exact Hh).
  assert (Nd1 : NoDup (new_names p1 a1)) by (rewrite Nn; repeat constructor; intros []).
  destruct (C114_value n rel _ p1 nanint a1 s s1 Rc Hh B1 Bp1 M1 W1 Nd1) as (args1 & vals1 & V1 & V2 & _ & V4 & _). rewrite A1 in V4.
  destruct (C114_value n rel b p2 nanint a2 s1 s2 Rc1 Hh1 B Bp2 M2 W2 Nd) as (args2 & vals2 & X1 & _ & X3 & _).
  destruct vals1 as [|v [|v' vs]]; cbn in V2; try discriminate. rewrite Nn in V4.
  destruct (V4 0 "sfr" v eq_refl eq_refl) as (_ & c & C1 & C2 & _). exists args1, v, c, args2, vals2. split; [exact V1|]. split; [exact X1|].
  specialize (X3 "sfr"). unfold arg_spec in X3. apply smem_In in Sf. rewrite Sf, Rm in X3. cbn [dget] in X3.
  pose proof (C1 (Some false)) as C0. assert (Hp : has_property (fst s1) "sfr" = true).
  { rewrite return_source in C0. unfold has_property. destruct (smem "sfr" (h_all (fst s1))); [reflexivity|discriminate]. }
  rewrite Hp, A2 in X3. destruct X3 as (o & O1 & O2). rewrite C0 in O1. injection O1 as <-. split; [exact O2|].
  intros i Hi. apply C2. rewrite nth_error_nth' with (d := 0) by (rewrite seq_length; exact Hi). rewrite seq_nth by exact Hi. reflexivity.
Qed.
Print Assumptions C114_chain.

(** Several predefined properties have the same name: after one of them is made, another, or the same, is refused unless
    renamed or told to overwrite *)
Theorem C114_clash_refuted rel b b' p p' nanint a a' s s' name : In b builtins -> In b' builtins -> builtin_prop rel b = Ok p -> builtin_prop rel b' = Ok p' ->
  In name (b_names b) -> In name (b_names b') -> m_rename a = None -> m_rename a' = None -> m_write a = false -> m_ow a' = false ->
  make_property nanint p a s = (s', Ok tt) -> make_property nanint p' a' s' = (s', Raise ValueError).
Proof.
  intros B B' Bp Bp' I I' Rn Rn' W Ow M. destruct (builtin_ok rel b B) as (q & hd & E & N & _). assert (q = p) by congruence. subst q.
  destruct (builtin_ok rel b' B') as (q & hd' & E' & N' & _). assert (q = p') by congruence. subst q.
  destruct (builtin_shape b B) as (Nd & _). destruct (In_nth_error _ _ I) as (j & Hj).
  assert (Nn : new_names p a = b_names b) by (unfold new_names; rewrite Rn; exact N).
  destruct (made_meta _ _ _ _ _ j name M W) as (_ & _ & _ & _ & _ & _ & _ & _ & _ & _ & Al); [rewrite Nn; exact Nd|rewrite Nn; exact Hj|].
  unfold make_property. cbv zeta. destruct (_ && negb (covers _ _)); [reflexivity|]. rewrite Rn', Ow, N'.
  assert (X : existsb (fun b => b) (map (fun k => smem k (h_all (fst s'))) (b_names b')) = true).
  { apply existsb_exists. exists true. split; [|reflexivity]. apply in_map_iff. exists name. split; [apply smem_In, Al|exact I']. }
  rewrite X. reflexivity.
Qed.
Print Assumptions C114_clash_refuted.

(** a relation: the column it is given *)
Definition ex_rel (r : relation) (args : dict pyval) : exc (list col) :=
  match dget args "mass", dget args "sfr" with Some (VCol c), _ => Ok [c] | _, Some (VCol c) => Ok [c] | _, _ => Raise TypeError end.
Definition ex_make (b : builtin) (a : mkargs) (s : st) : st * exc unit :=
  match builtin_prop ex_rel b with Ok p => make_property 0%Qc p a s | Raise e => (s, Raise e) end.
Definition ex_all : mkargs := mkMA None [] [] false true false false None false.
Example C114_nonvacuous :
  reachable 3 ex_s /\ h_h (fst ex_s) <> 0%Qc /\
  (let (s1, r1) := ex_make prop_behroozi_sfr ex_all ex_s in let (s2, r2) := ex_make prop_li_co ex_all s1 in
   r1 = Ok tt /\ r2 = Ok tt /\ snd (ex_make prop_lidz_co ex_all s2) = Raise ValueError /\ snd (ex_make prop_li_co ex_all ex_s) = Raise ValueError /\
   snd (ex_make prop_lidz_co (mkMA None [] [("line", VNone)] false true false false None false) s1) = Raise TypeError /\
   match return_property s2 "LCO" true None with Ok (Some c) => map (option_map this) (c_val c) | _ => [] end =
     [Some (this (frac 50 7)); Some (this (frac 30 7)); Some (this (frac 80 7))]).
Proof.
  split; [exact ex_reach0|]. split; [discriminate|]. vm_compute. repeat split.
Qed.
