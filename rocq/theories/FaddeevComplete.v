(* Without breakup cells the iterative solver never ends early, with breakup on or off. *)
From Coq Require Import Reals ZArith Lia List.
From Verif Require Import Common ArrayLib PWModel SwpModel PWSpec KernelModel KernelSpec ResolventModel FaddeevModel FaddeevSpec DetModel FaddeevLink FaddeevStepProofs FaddeevPadeProofs FaddeevSolveProofs FaddeevStatements.
Open Scope nat_scope.
Lemma complete s tensor iso Jm mx c states V C (Hsys : channel_system s tensor iso Jm mx c states V C) (HD : (1 <= zn (s_D s) <= 2 ^ 28)%Z) det f fb nc nch v :
  s_nBU s = 0 -> chunking (zn (s_D s)) = Ok (nc, nch) -> pade_run det (Some f, Some fb) s (Z.to_nat nc) (Z.to_nat nch) = Ok v ->
  (forall e, elastic s e -> nth (e_idx e) (p_conv (v_el v)) false = true) /\ forall e, ~ breakup s e.
Proof.
  intros H0 Ec E. split.
  - destruct (chunking_ok (zn (s_D s)) HD) as [Ec' Hn]. rewrite Ec' in Ec.
    assert (nc = (2 ^ 28 / zn (s_D s))%Z /\ nch = (zn (s_D s) / (2 ^ 28 / zn (s_D s)) + 1)%Z) as [-> ->] by (split; congruence).
    assert (Ench : Z.to_nat (zn (s_D s) / (2 ^ 28 / zn (s_D s)) + 1) = s_D s / ncn s + 1).
    { unfold ncn, zn in *. rewrite Z2Nat.inj_add by (try apply Z.div_pos; lia). rewrite Z2Nat.inj_div by lia. rewrite Nat2Z.id. reflexivity. }
    rewrite Ench in E.
    destruct (run_ok s (kernel_matrix s tensor iso states V C) (HG _ _ _ _ _ _ _ _ _ Hsys) (link_col _ _ _ _ _ _ _ _ _ Hsys) (link_ends _ _ _ _ _ _ _ _ _ Hsys) (link_rows _ _ _ _ _ _ _ _ _ Hsys)
      (Hq _ _ _ _ _ _ _ _ _ Hsys) (Hd _ _ _ _ _ _ _ _ _ Hsys) (HNp _ _ _ _ _ _ _ _ _ Hsys) (link_cells _ _ _ _ _ _ _ _ _ Hsys) det f fb (ncn s) (ncn_pos _ _ _ _ _ _ _ _ _ Hsys HD)) as (v' & m & E' & Hm & [K1 K2 K3 K4 K5 K6 K7] & Hor).
    assert (v' = v) as -> by (unfold ncn in *; congruence).
    destruct (gel _ _ _ _ _ _ _ _ _ Hsys) as [R1 J1].
    intros e He. apply (elastic_in _ _ _ _ _ _ _ _ _ Hsys) in He.
    destruct Hor as [Hx|Hx]; [ apply K7; assumption | ]. destruct K1 as (_ & _ & L3). destruct K2 as (_ & _ & L3').
    assert (Z0 : nBU s = 0) by (unfold nBU; destruct (s_breakup s); [ rewrite H0; lia | reflexivity ]).
    pose proof (ct_le (p_conv (v_bu v))) as Hle. rewrite L3', Z0 in Hle.
    apply ct_all; [ rewrite L3; lia | ]. rewrite L3. apply R1; exact He.
  - intros e He. apply (breakup_in _ _ _ _ _ _ _ _ _ Hsys) in He. destruct (gbu _ _ _ _ _ _ _ _ _ Hsys) as [R2 J2]. destruct (R2 e He) as [Hi _].
    unfold nBU in Hi. rewrite H0, Nat.mul_0_r in Hi. destruct (s_breakup s); lia.
Qed.
