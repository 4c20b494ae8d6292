(* C69: files written for other codes. *)
From Coq Require Import String Ascii.
From Verif Require Import Base ModelCluster ModelOps ModelEnergy ModelStars ModelLoad ModelOutput
  SpecUnits SpecFrame SpecStars SpecLoad SpecOutput SpecEnergy ProofsOutput ProofsProfiles PropUnits PropFrame PropProfiles PropDynamics.
Open Scope list_scope. Open Scope R_scope.

(* C69: fortout writes mass, position and velocity of every star relative to the centre of the cluster, in N-body units (and,
   with sse=True, initial mass, type, mass in Msun, epoch, spin), and leaves the cluster as it was *)
Theorem C69_fortout :
  forall (G : galpy) (sse proj : bool) (k : catalog) (u : usys) (o : osys) (n : nat),
    ready G (g_c k) u o -> SpecFrame.aligned (g_c k) -> analyze true true (g_c k) = g_c k -> length (p_m (c_ph (g_c k))) = n ->
    (sse = true -> length (g_m0 k) = n /\ length (e_kw (g_sse k)) = n /\ length (e_ep (g_sse k)) = n /\ length (e_ospin (g_sse k)) = n) ->
    exists rows q c', fortout G None sse proj k = Ok (rows, q, set_cluster k c') /\ restored (g_c k) c' /\ length rows = n /\
      (forall i, (i < n)%nat -> length (nth i rows []) = 7%nat /\
         row_shows (unit_size G (c_sc (g_c k)) Unbody) (sun_mass_of G (g_c k) i)
           (relative6 (galactic_star G (g_c k) i) (galactic_centre G (g_c k))) (nth i rows [])) /\
      (sse = true -> exists t, q = Some t /\ length t = n /\ forall i, (i < n)%nat ->
         nth i t [] = [nth i (g_m0 k) 0; nth i (e_kw (g_sse k)) 0; sun_mass_of G (g_c k) i; nth i (e_ep (g_sse k)) 0; nth i (e_ospin (g_sse k)) 0]).
Proof. intros G sse proj k u o n. apply fortout_ok. Qed.
Print Assumptions C69_fortout.
(* C69: sseout *)
Theorem C69_sseout :
  forall (G : galpy) (k : catalog) (u : usys) (o : osys) (n : nat),
    ready G (g_c k) u o -> SpecFrame.aligned (g_c k) -> analyze true true (g_c k) = g_c k -> length (p_m (c_ph (g_c k))) = n ->
    length (g_m0 k) = n -> length (e_kw (g_sse k)) = n -> length (e_ep (g_sse k)) = n -> length (e_ospin (g_sse k)) = n ->
    exists rows c', sseout G k = Ok (rows, set_cluster k c') /\ restored (g_c k) c' /\ length rows = n /\
      forall i, (i < n)%nat ->
         nth i rows [] = [nth i (g_m0 k) 0; nth i (e_kw (g_sse k)) 0; sun_mass_of G (g_c k) i; nth i (e_ep (g_sse k)) 0; nth i (e_ospin (g_sse k)) 0].
Proof. intros G k u o n. apply sseout_ok. Qed.
Print Assumptions C69_sseout.
(* C69: gyrout writes galactocentric positions in kpc, masses in the unit of gyrfalcON, softening lengths in kpc, and leaves
   the cluster as it was.  Missing from the full claim (velocities in kpc/Gyr): velocities are in the unit gyr_vcon km/s,
   which is not 1 kpc/Gyr, see below. *)
Theorem C69_gyrout_partial :
  forall (G : galpy) (k : catalog) (u : usys) (o : osys) (n : nat) (eps : option (softening * option usys)),
    ready G (g_c k) u o -> SpecFrame.aligned (g_c k) -> analyze true true (g_c k) = g_c k -> length (p_m (c_ph (g_c k))) = n ->
    velocity_in_kpcGyr G solar_vo solar_ro <> 0 ->
    (forall l v, eps = Some (Softs l, v) -> length l = n) -> (forall e v, eps = Some (e, Some v) -> linear v) ->
    exists rows c', gyrout G eps k = Ok (rows, set_cluster k c') /\ restored (g_c k) c' /\ length rows = n /\
      forall i, (i < n)%nat ->
        row_shows (mkSize 1000 wd_mass_in_msun 1000 (220 / velocity_in_kpcGyr G solar_vo solar_ro)) (sun_mass_of G (g_c k) i)
          (galactic_star G (g_c k) i) (nth i rows []) /\
        length (nth i rows []) = (match eps with None => 7 | Some _ => 8 end)%nat /\
        (forall e v, eps = Some (e, v) -> let w := match v with Some w => w | None => u end in
           nth 7 (nth i rows []) 0 * 1000 = match e with Soft x => x | Softs l => nth i l 0 end * in_pc (unit_size G (c_sc (g_c k)) w)).
Proof.
  intros G k u o n eps H1 H2 H3 H4 H5 H6 H7. destruct (@gyrout_ok G k u o n eps H1 H2 H3 H4 H5 H6 H7) as [rows [c' [E [Rs [L Q]]]]].
  exists rows, c'. split; [exact E|]. split; [exact Rs|]. split; [exact L|]. intros i Hi. destruct (Q i Hi) as [Q1 [Q2 Q3]].
  split; [|split; [exact Q2|exact Q3]]. replace (mkSize 1000 wd_mass_in_msun 1000 (220 / velocity_in_kpcGyr G solar_vo solar_ro)) with (gyr_size G); [exact Q1|].
  unfold gyr_size, gyr_vcon. f_equal. unfold gyr_mcon, wd_mass_in_msun. lra.
Qed.
Print Assumptions C69_gyrout_partial.
(* finding: when velocity_in_kpcGyr(vo, ro) is vo times the factor from km/s to kpc/Gyr, the velocities written are those in
   kpc/Gyr multiplied by (8.275*30.39-12.24)/220, about 1.087 *)
Theorem C69_gyrout_velocity_refuted :
  forall (G : galpy) (k : catalog) (u : usys) (o : osys) (n : nat) (factor : R),
    ready G (g_c k) u o -> SpecFrame.aligned (g_c k) -> analyze true true (g_c k) = g_c k -> length (p_m (c_ph (g_c k))) = n ->
    factor <> 0 -> (forall v r, velocity_in_kpcGyr G v r = v * factor) ->
    exists rows c', gyrout G None k = Ok (rows, set_cluster k c') /\
      forall i, (i < n)%nat -> nth 4 (nth i rows []) 0 = svx (galactic_star G (g_c k) i) * factor * (23923725 / 22000000).
Proof.
  intros G k u o n fa H1 H2 H3 H4 Hf HV.
  assert (E0 : solar_vo = 23923725 / 100000) by (unfold solar_vo, solar_ro; lra).
  assert (NZ : velocity_in_kpcGyr G solar_vo solar_ro <> 0).
  { rewrite HV E0. apply Rmult_integral_contrapositive. split; [lra|exact Hf]. }
  destruct (@gyrout_ok G k u o n None H1 H2 H3 H4 NZ) as [rows [c' [E [_ [_ Q]]]]]; [discriminate|discriminate|].
  exists rows, c'. split; [exact E|]. intros i Hi. destruct (Q i Hi) as [[_ [_ [_ [_ [V _]]]]] _].
  rewrite -V. change (in_kms (gyr_size G)) with (gyr_vcon G). unfold gyr_vcon. rewrite HV E0. field. exact Hf.
Qed.
Print Assumptions C69_gyrout_velocity_refuted.

(* ---- the hypotheses are met: five evolved stars in pc and km/s relative to the cluster *)
Definition demo_out : catalog :=
  mkCat (five Ocluster 0) [2; 2; 3; 1; 1] [1; 1; 1; 1; 1]%Z init_pairs
    (mkSse [1; 13; 1; 14; 0] [0; 0; 0; 0; 0] [0; 0; 0; 0; 0] [1; 1; 1; 1; 1] [0; 3; 0; 2; 0] [7; 0; 1; 1; 5] 5) init_bse 5 0.
Example C69_hypotheses_met : let k := demo_out in
  ready demo_galpy (g_c k) Upckms Ocluster /\ SpecFrame.aligned (g_c k) /\ analyze true true (g_c k) = g_c k /\
  length (p_m (c_ph (g_c k))) = 5%nat /\
  length (g_m0 k) = 5%nat /\ length (e_kw (g_sse k)) = 5%nat /\ length (e_ep (g_sse k)) = 5%nat /\ length (e_ospin (g_sse k)) = 5%nat /\
  velocity_in_kpcGyr demo_galpy solar_vo solar_ro <> 0 /\
  (forall l v, Some (Softs [1; 2; 3; 4; 5], Some Unbody) = Some (Softs l, v) -> length l = 5%nat) /\ linear Unbody /\
  (exists factor, factor <> 0 /\ forall v r, velocity_in_kpcGyr demo_galpy v r = v * factor).
Proof.
  destruct (C42_hypotheses_met Ocluster (or_introl eq_refl)) as [A1 [A2 [A3 [A4 _]]]]. cbn zeta in *. cbn [oosys_eqb] in *.
  split; [exact A1|]. split; [exact A3|]. split; [exact A4|]. split; [change (nstars (five Ocluster 0) = 5%nat); now rewrite five_n|].
  do 4 (split; [reflexivity|]). split; [|split; [|split]].
  - unfold solar_vo, solar_ro. cbn. lra.
  - intros l v H. injection H as <- _. reflexivity.
  - unfold linear; repeat split; discriminate.
  - exists (1022712 / 1000000). split; [lra|reflexivity].
Qed.
Print Assumptions C69_hypotheses_met.
