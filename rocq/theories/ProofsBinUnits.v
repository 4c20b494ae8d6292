From Verif Require Import Base ModelCluster ModelOps SpecUnits SpecFrame SpecBinUnits ProofsUnits ProofsFrame.
Set Implicit Arguments. Unset Strict Implicit.

Section B.
Variable G : galpy.

Definition bready (c : cluster) (b : busys) (z : bsize) : Prop :=
  (exists u, c_units c = Some u /\ linear u) /\ good_scales G (c_sc c) /\ good_bin_scales (c_sc c) /\
  (0 < c_nb c)%nat /\ c_bunits c = Some b /\ bin_size (c_sc c) b = Some z.

Lemma brun1_view c b z a : bready c b z ->
  exists z', bready (brun1 G c a) (bop_units a) z' /\ bin_view z' (c_bin (brun1 G c a)) = bin_view z (c_bin c) /\
             c_sc (brun1 G c a) = c_sc c.
Proof.
  move=> [[u [Hu Hl]] [HS [HB [Hn [Hb Hz]]]]].
  have HB' := HB. destruct HB' as [N1 [N2 [N3 N4]]].
  have [z' Hz'] : exists z', bin_size (c_sc c) (bop_units a) = Some z' by destruct a; eexists.
  exists z'.
  have X : c_sc (brun1 G c a) = c_sc c /\ c_bunits (brun1 G c a) = Some (bop_units a) /\
           (exists u, c_units (brun1 G c a) = Some u /\ linear u) /\ c_nb (brun1 G c a) = c_nb c /\
           bin_view z' (c_bin (brun1 G c a)) = bin_view z (c_bin c).
  { have V : forall f g : R -> R, (forall x, f x = g x) -> forall l, map f l = map g l by move=> f g H l; apply map_ext.
    destruct a; simpl in Hz' |- *.
    - rewrite /to_sudays Hb. destruct b as [v| |]; simpl in Hz; [destruct v; try discriminate|..];
        case: Hz => <-; case: Hz' => <-; rewrite /= ?Hb /=; repeat split; eauto;
        rewrite /bin_view /bin_mul /bin_div /vmul /vdiv /= ?map_map; f_equal; apply V => x; field; repeat split; assumption.
    - rewrite /to_audays Hb. destruct b as [v| |]; simpl in Hz; [destruct v; try discriminate|..];
        case: Hz => <-; case: Hz' => <-; rewrite /= ?Hb /=; repeat split; eauto;
        rewrite /bin_view /bin_mul /bin_div /vmul /vdiv /= ?map_map; f_equal; apply V => x; field; repeat split; assumption.
    - have E := to_units_lin HS Hu Hl (u' := Unbody) ltac:(discriminate).
      have [F1 [F2 [F3 [F4 [F5 [F6 [F7 [F8 F9]]]]]]]] := skel_eq_fields E.
      rewrite F6 F3 F1 F4 F7 /= /bin_to_nbody Hb.
      have Hn' : Nat.ltb 0 (c_nb c) = true by apply Nat.ltb_lt.
      case: Hz' => <-.
      destruct b as [v| |]; simpl in Hz; [destruct v; try discriminate|..]; rewrite ?Hn' /=; case: Hz => <-;
        repeat split; eauto; try (by exists Unbody; split => //; discriminate);
        rewrite /bin_view /vdiv /= ?map_map; f_equal; apply V => x; field; repeat split; assumption. }
  destruct X as [X1 [X2 [X3 [X4 X5]]]]. rewrite /bready X1 X2 X4. repeat split => //; try apply HS; apply HB.
Qed.

Lemma brun_view ops : forall c b z, bready c b z ->
  exists z', bready (brun G ops c) (last (map bop_units ops) b) z' /\
     bin_view z' (c_bin (brun G ops c)) = bin_view z (c_bin c) /\ c_sc (brun G ops c) = c_sc c.
Proof.
  induction ops as [|a ops IH] => c b z H; [by exists z|].
  have [z1 [H1 [H2 H3]]] := brun1_view a H.
  have [z2 [K1 [K2 K3]]] := IH _ _ _ H1. exists z2. rewrite /brun /= -/(brun G ops (brun1 G c a)) K2 K3 H2 H3.
  split; [|split; reflexivity].
  have -> : match map bop_units ops with [] => bop_units a | _ :: _ => last (map bop_units ops) b end
          = last (map bop_units ops) (bop_units a).
  { clear. destruct ops as [|x us] => //. cbn [map]. generalize (bop_units x). induction (map bop_units us) as [|y l IH] => d //. exact: IH. }
  exact K1.
Qed.

Lemma bin_view_inj s b z x y : good_bin_scales s -> bin_size s b = Some z -> bin_view z x = bin_view z y -> x = y.
Proof.
  move=> [N1 [N2 [N3 N4]]] Hz.
  have [M1 [M2 M3]] : bs_len z <> 0 /\ bs_time z <> 0 /\ bs_mass z <> 0.
  { destruct b as [v| |]; simpl in Hz; [destruct v; try discriminate|..]; case: Hz => <- /=;
    repeat split; try lra; by apply inv_nz. }
  destruct x, y; rewrite /bin_view /=. case=> E1 E2 E3 E4.
  f_equal; (eapply map_inj; [|eassumption]) => p q /= E; eapply Rmult_eq_reg_r; eauto.
Qed.

Lemma brun_round_trip ops c b z : bready c b z -> last (map bop_units ops) b = b ->
  c_bin (brun G ops c) = c_bin c /\ c_bunits (brun G ops c) = Some b.
Proof.
  move=> H HL. have [z' [[_ [_ [_ [_ [H1 H1']]]]] [H2 H3]]] := brun_view ops H. rewrite HL in H1 H1'.
  split; [|exact H1]. destruct H as [_ [_ [HB [_ [_ Hz]]]]].
  have E : z' = z. { rewrite H3 Hz in H1'. by case: H1'. }
  subst. exact: (bin_view_inj HB Hz).
Qed.
End B.
