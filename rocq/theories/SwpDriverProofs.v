From Coq Require Import Reals Permutation Sorted.
From Verif Require Import Common ArrayLib PWModel PWSpec PWChnProofs PWPropsLemmas SwpModel.
Open Scope Z_scope.

Definition first_with {A} (f : A -> bool) (l : list A) : option A := find f l.

Lemma find_app {A} (f : A -> bool) a b : find f (a ++ b) = match find f a with Some x => Some x | None => find f b end.
Proof. induction a as [|x a IH]; cbn; [ reflexivity | ]. destruct (f x); [ reflexivity | exact IH ]. Qed.

Definition pair_110 (s : pw) : bool := (S_2N s =? 1) && (J_2N s =? 1) && (T_2N s =? 0).

Lemma first_110 Jm mx iso : 1 <= Jm -> 1 <= mx ->
  exists s, find pair_110 (ss_states (tables Jm mx iso)) = Some s /\ L_2N s = 0.
Proof.
  intros HJ Hm. cbn [tables ss_states]. unfold bsof, blocks.
  assert (Hk : exists r, chn_keys mx = (1, 0) :: r).
  { assert (Hq : exists q, for_range 1 (mx + 1) 2 = 1 :: q).
    { unfold for_range. destruct (Z.to_nat ((mx + 1 - 1 + 2 - 1) / 2)) as [|k] eqn:E.
      - exfalso. assert (1 <= (mx + 1 - 1 + 2 - 1) / 2); [ | lia ]. apply Z.div_le_lower_bound; lia.
      - eexists. cbn [seq map]. reflexivity. }
    destruct Hq as [q Hq]. unfold chn_keys. rewrite Hq. eexists. reflexivity. }
  destruct Hk as [r Hk]. rewrite Hk. cbn [map concat fst snd]. rewrite find_app.
  assert (Hf : exists s, find pair_110 (chn_states Jm iso 1 0) = Some s /\ L_2N s = 0).
  { unfold chn_states.
    assert (Ht : exists q, for_range 1 (two_T_3N_max iso + 1) 2 = 1 :: q) by (destruct iso; eexists; reflexivity).
    destruct Ht as [q ->]. cbn [flat_map]. rewrite find_app.
    assert (Hj : exists q, for_range 0 (Jm + 1) 1 = 0 :: 1 :: q).
    { unfold for_range. destruct (Z.to_nat ((Jm + 1 - 0 + 1 - 1) / 1)) as [|[|k]] eqn:E;
        try (rewrite Z.div_1_r in E; lia). eexists. cbn [seq map]. reflexivity. }
    destruct Hj as [q' ->]. cbn [flat_map]. rewrite !find_app.
    match goal with |- context [find pair_110 ?x] => let v := eval vm_compute in (find pair_110 x) in
      change (find pair_110 x) with v end.
    cbn match.
    match goal with |- context [find pair_110 ?x] => let v := eval vm_compute in (find pair_110 x) in
      change (find pair_110 x) with v end.
    cbn match. eexists. split; [ reflexivity | ]. reflexivity. }
  destruct Hf as (s & Hs & HL). rewrite Hs. exists s. auto.
Qed.

(* one pair *)
Lemma pair_facts iso r c : physical r -> physical c -> swp_pair_ok r c = true ->
  coupled_via_L_2N true r c && coupled_via_T_3N iso r = false /\
  coupled_matrix true iso r c = coupled_matrix true iso r r.
Proof.
  intros Hr Hc H. apply phys_cases in Hr, Hc. rewrite odd_mod in *.
  unfold swp_pair_ok, L_close, coupled_matrix, coupled_via_L_2N, coupled_via_T_3N in *. split; destruct iso; lia.
Qed.

Definition has_key (cm : bool) (i : Z) (evs : list event) : bool :=
  existsb (fun e => Bool.eqb (fst (ev_key e)) cm && (snd (ev_key e) =? i)) evs.
Lemma has_key_in cm i evs : has_key cm i evs = true <-> In (cm, i) (map ev_key evs).
Proof.
  unfold has_key. rewrite existsb_exists, in_map_iff. split; intros (e & H1 & H2); exists e.
  - apply andb_true_iff in H2. destruct H2 as [Ha Hb]. apply eqb_prop in Ha. apply Z.eqb_eq in Hb.
    destruct (ev_key e); cbn in *; subst; auto.
  - split; [ exact H2 | ]. rewrite H1. cbn. rewrite eqb_reflx, Z.eqb_refl. reflexivity.
Qed.

Definition add_state (iso : bool) (evs : list event) (r : pw) : list event :=
  match snd (mat_id true iso r) with
  | Ok i => if has_key (fst (mat_id true iso r)) i evs then evs
            else evs ++ [(fst (mat_id true iso r), i, chn_3S1_flag r)]
  | _ => evs
  end.

Section Drive.
Variables (iso : bool) (Jm : Z).
Let step := swp_step true iso (num_2N_unco_states true iso Jm) (num_2N_coup_states true iso Jm).

Lemma step_eq evs r c : physical r -> physical c -> J_2N r <= Jm ->
  step evs (r, c) = Ok (if swp_pair_ok r c then add_state iso evs r else evs).
Proof.
  intros Hr Hc HJ. unfold step, swp_step. destruct (swp_pair_ok r c) eqn:E; [ | reflexivity ].
  destruct (pair_facts iso r c Hr Hc E) as [H1 H2]. rewrite H1, H2.
  destruct (unique_range_tensor iso Jm r Hr HJ) as (i & Hi & Hb).
  unfold add_state. rewrite Hi. unfold mat_id in Hi, Hb |- *. cbn [fst snd] in *. rewrite Hi. cbn [obind].
  replace ((i <? 0) || ((if coupled_matrix true iso r r then num_2N_coup_states true iso Jm
      else num_2N_unco_states true iso Jm) <=? i)) with false by (destruct (coupled_matrix true iso r r); lia).
  unfold has_key. destruct (existsb _ evs); reflexivity.
Qed.

Lemma add_state_idem evs r : add_state iso (add_state iso evs r) r = add_state iso evs r.
Proof.
  unfold add_state. destruct (snd (mat_id true iso r)); try reflexivity.
  destruct (has_key (fst (mat_id true iso r)) z evs) eqn:E; [ rewrite E; reflexivity | ].
  replace (has_key _ z (evs ++ _)) with true; [ reflexivity | ]. symmetry. apply has_key_in.
  rewrite map_app, in_app_iff. right. left. reflexivity.
Qed.

Lemma row_eq r cs : physical r -> J_2N r <= Jm -> (forall c, In c cs -> physical c) ->
  forall evs, ofold step (map (fun c => (r, c)) cs) evs
    = Ok (if existsb (swp_pair_ok r) cs then add_state iso evs r else evs).
Proof.
  intros Hr HJ. induction cs as [|c cs IH]; intros Hc evs; [ reflexivity | ].
  cbn [map ofold existsb]. rewrite (step_eq evs r c Hr (Hc c (or_introl eq_refl)) HJ). cbn [obind].
  rewrite IH by (intros; apply Hc; right; assumption). f_equal.
  destruct (swp_pair_ok r c); cbn [orb]; [ | reflexivity ].
  destruct (existsb (swp_pair_ok r) cs); [ apply add_state_idem | reflexivity ].
Qed.

Lemma self_ok r : swp_pair_ok r r = true.
Proof. unfold swp_pair_ok, L_close. rewrite !Z.eqb_refl, Z.sub_diag. reflexivity. Qed.

Lemma rows_eq cs : (forall c, In c cs -> physical c /\ J_2N c <= Jm) ->
  forall rs evs, (forall r, In r rs -> In r cs) ->
  ofold step (flat_map (fun r => map (fun c => (r, c)) cs) rs) evs = Ok (fold_left (add_state iso) rs evs).
Proof.
  intros Hc rs. induction rs as [|r rs IH]; intros evs Hr; [ reflexivity | ].
  cbn [flat_map]. rewrite ofold_app. destruct (Hc r (Hr r (or_introl eq_refl))) as [Hp HJ].
  rewrite row_eq by (try assumption; intros c Hin; apply Hc, Hin). cbn [obind fold_left].
  replace (existsb (swp_pair_ok r) cs) with true.
  - apply IH. intros; apply Hr; right; assumption.
  - symmetry. apply existsb_exists. exists r. split; [ apply Hr; left; reflexivity | apply self_ok ].
Qed.

(* events after the fold *)
Definition has_mat (cm : bool) (i : Z) (s : pw) : bool :=
  match mat_id true iso s with (cm', Ok i') => Bool.eqb cm cm' && (i =? i') | _ => false end.
Lemma has_mat_eq cm i s : has_mat cm i s = true <-> mat_id true iso s = (cm, Ok i).
Proof.
  unfold has_mat. destruct (mat_id true iso s) as [cm' [i'| | |]]; split; intros H; try discriminate.
  - apply andb_true_iff in H. destruct H as [Ha Hb]. apply eqb_prop in Ha. apply Z.eqb_eq in Hb. congruence.
  - assert (cm = cm' /\ i = i') as [-> ->] by (split; congruence). rewrite eqb_reflx, Z.eqb_refl. reflexivity.
Qed.

Lemma fold_events rs : (forall r, In r rs -> exists i, snd (mat_id true iso r) = Ok i) ->
  let evs := fold_left (add_state iso) rs [] in
  NoDup (map ev_key evs) /\
  (forall cm i b, In (cm, i, b) evs <-> exists r, find (has_mat cm i) rs = Some r /\ b = chn_3S1_flag r).
Proof.
  induction rs as [|r rs IH] using rev_ind; intros Hi.
  - cbn. split; [ constructor | ]. intros cm i b. split; [ intros [] | intros (r & H & _); discriminate ].
  - destruct IH as [ND IH]. { intros x Hx. apply Hi, in_or_app. left; exact Hx. }
    cbv zeta in *. rewrite fold_left_app. cbn [fold_left]. set (evs := fold_left (add_state iso) rs []) in *.
    destruct (Hi r) as [i0 Ei0]; [ apply in_or_app; right; left; reflexivity | ].
    assert (Hm : mat_id true iso r = (fst (mat_id true iso r), Ok i0))
      by (rewrite <- Ei0; apply surjective_pairing).
    set (cm0 := fst (mat_id true iso r)) in *.
    assert (Hk : has_key cm0 i0 evs = true <-> exists x, find (has_mat cm0 i0) rs = Some x).
    { rewrite has_key_in, in_map_iff. split.
      - intros ([[cm i] b] & He & Hin). cbn in He. apply IH in Hin. destruct Hin as (x & Hx & _).
        exists x. injection He as -> ->. exact Hx.
      - intros (x & Hx). exists (cm0, i0, chn_3S1_flag x). split; [ reflexivity | ]. apply IH. exists x. auto. }
    unfold add_state. fold cm0. rewrite Ei0. destruct (has_key cm0 i0 evs) eqn:Eh.
    + split; [ exact ND | ]. intros cm i b. rewrite IH. split.
      * intros (x & Hx & Hb). exists x. rewrite find_app, Hx. auto.
      * intros (x & Hx & Hb). rewrite find_app in Hx. destruct (find (has_mat cm i) rs) as [y|] eqn:Ef.
        -- exists y. injection Hx as <-. auto.
        -- cbn [find] in Hx. destruct (has_mat cm i r) eqn:Er; [ | discriminate Hx ]. apply has_mat_eq in Er.
           rewrite Hm in Er. assert (cm0 = cm /\ i0 = i) as [<- <-] by (split; congruence).
           destruct (proj1 Hk eq_refl) as [y Hy]. congruence.
    + split.
      * rewrite map_app. cbn [map ev_key fst]. apply NoDup_Add with (a := (cm0, i0)) (l := map ev_key evs).
        -- rewrite <- (app_nil_r (map ev_key evs)) at 1. apply Add_app.
        -- split; [ exact ND | ]. intros Hin. apply has_key_in in Hin. congruence.
      * intros cm i b. rewrite in_app_iff, IH, find_app. split.
        -- intros [(x & Hx & Hb)|[He|[]]].
           ++ exists x. rewrite Hx. auto.
           ++ injection He as <- <- <-. exists r. split; [ | reflexivity ].
              destruct (find (has_mat cm0 i0) rs) as [y|] eqn:Ef.
              ** destruct Hk as [_ Hk]. assert (false = true) by (apply Hk; exists y; reflexivity). discriminate.
              ** cbn [find]. assert (has_mat cm0 i0 r = true) as -> by (apply has_mat_eq; exact Hm). reflexivity.
        -- intros (x & Hx & Hb). destruct (find (has_mat cm i) rs) as [y|] eqn:Ef.
           ++ left. exists y. injection Hx as <-. auto.
           ++ right. left. cbn [find] in Hx. destruct (has_mat cm i r) eqn:Er; [ | discriminate Hx ].
              apply has_mat_eq in Er. rewrite Hm in Er. injection Hx as <-. congruence.
Qed.
End Drive.

Lemma chn_3S1_flag_spec s : chn_3S1_flag s = true <-> is_deuteron s.
Proof. unfold chn_3S1_flag, is_deuteron. lia. Qed.

Lemma find_split {A} (f g : A -> bool) l x : find f l = Some x -> find g l = Some x \/
  (exists y, find g l = Some y /\ g y = true /\ f y = false) \/ g x = false.
Proof.
  induction l as [|a l IH]; cbn; [ discriminate | ]. destruct (f a) eqn:Ef.
  - intros H; injection H as ->. destruct (g x) eqn:Eg; auto.
  - intros H. destruct (g a) eqn:Eg; [ right; left; exists a; auto | apply IH, H ].
Qed.

Lemma driver_spec g Jm mx iso ss : 1 <= mx ->
  construct_symmetric_pw_states_g g Jm mx iso = Ok ss ->
  exists evs, swp_driver true iso Jm (ss_states ss) = Ok evs /\
    NoDup (map ev_key evs) /\
    (forall cm i, In (cm, i) (map ev_key evs) <-> exists s, In s (ss_states ss) /\ matrix_of true iso s = (cm, Ok i)) /\
    (forall cm i b, In (cm, i, b) evs ->
       (b = true <-> exists s, In s (ss_states ss) /\ matrix_of true iso s = (cm, Ok i) /\ is_deuteron s)).
Proof.
  intros Hmx H. apply construct_g_inv in H. destruct H as [HJ ->].
  set (st := ss_states (tables Jm mx iso)).
  assert (Hst : forall c, In c st -> physical c /\ J_2N c <= Jm).
  { intros c Hc. apply in_tables in Hc. destruct Hc as [Hp [Hj _ _]]. auto. }
  unfold swp_driver. rewrite (rows_eq iso Jm st Hst st []) by auto.
  assert (Hid : forall r, In r st -> exists i, snd (mat_id true iso r) = Ok i).
  { intros r Hr. destruct (Hst r Hr) as [Hp Hj]. destruct (unique_range_tensor iso Jm r Hp Hj) as (i & Hi & _). eauto. }
  destruct (fold_events iso st Hid) as [ND Hev]. cbv zeta in *.
  eexists. split; [ reflexivity | ]. split; [ exact ND | ]. split.
  - intros cm i. rewrite in_map_iff. split.
    + intros ([[cm' i'] b] & He & Hin). cbn in He. injection He as -> ->. apply Hev in Hin.
      destruct Hin as (r & Hr & _). apply find_some in Hr. destruct Hr as [Hr Hm]. exists r.
      split; [ exact Hr | ]. rewrite matrix_of_id. apply has_mat_eq, Hm.
    + intros (s & Hs & Hm). rewrite matrix_of_id in Hm. apply has_mat_eq in Hm.
      destruct (find (has_mat iso cm i) st) as [r|] eqn:Ef.
      * exists (cm, i, chn_3S1_flag r). split; [ reflexivity | ]. apply Hev. exists r. auto.
      * pose proof (find_none _ _ Ef s Hs). congruence.
  - intros cm i b Hin. apply Hev in Hin. destruct Hin as (r & Hr & ->).
    pose proof (find_some _ _ Hr) as [Hrs Hrm]. apply has_mat_eq in Hrm.
    rewrite chn_3S1_flag_spec. split.
    + intros Hd. exists r. rewrite matrix_of_id. auto.
    + intros (s & Hs & Hm & Hd). rewrite matrix_of_id in Hm.
      destruct (Hst r Hrs) as [Hpr _]. destruct (Hst s Hs) as [Hps HJs].
      assert (HJ1 : 1 <= Jm) by (destruct Hd as (_ & _ & Hd & _); lia).
      destruct (first_110 Jm mx iso HJ1 Hmx) as (f & Hf & HL). fold st in Hf.
      assert (Hsame : same_2N_channel true r s) by (apply (unique_inj_tensor iso); [ assumption.. | congruence ]).
      assert (Hagree : forall x, In x st -> has_mat iso cm i x = pair_110 x).
      { intros x Hx. destruct (Hst x Hx) as [Hpx _]. destruct (pair_110 x) eqn:Ep.
        - apply has_mat_eq. rewrite <- Hm. apply unique_inj_tensor; try assumption.
          apply phys_cases in Hpx. rewrite odd_mod in Hpx. destruct Hd as (H1 & H2 & H3 & H4). unfold pair_110 in Ep.
          unfold same_2N_channel. repeat split; try lia. right. split; [ reflexivity | ].
          exists ((L_2N x + L_2N s) / 2). lia.
        - destruct (has_mat iso cm i x) eqn:Em; [ | reflexivity ]. apply has_mat_eq in Em.
          assert (Hx2 : same_2N_channel true x s) by (apply (unique_inj_tensor iso); [ assumption.. | congruence ]).
          destruct Hx2 as (Ha & Hb & Hc & _). destruct Hd as (H1 & H2 & H3 & H4). unfold pair_110 in Ep. lia. }
      assert (Hext : forall l, (forall x, In x l -> In x st) -> find (has_mat iso cm i) l = find pair_110 l).
      { induction l as [|x l IH]; intros Hl; [ reflexivity | ]. cbn [find]. rewrite Hagree by (apply Hl; left; reflexivity).
        destruct (pair_110 x); [ reflexivity | ]. apply IH. intros; apply Hl; right; assumption. }
      rewrite Hext in Hr by auto. rewrite Hf in Hr. injection Hr as ->.
      destruct Hsame as (Ha & Hb & Hc & _). destruct Hd as (H1 & H2 & H3 & H4).
      unfold is_deuteron. repeat split; congruence.
Qed.
