From Coq Require Import Permutation Sorted String.
From Verif Require Import Common ArrayLib PWModel NameModel PioModel PioSpec PioProofs PRunModel PRunProofs PRunSpec PRunFinal.
Open Scope nat_scope.
Open Scope list_scope.

Lemma fetch_read V veqb folder (sp : space V) J2 fs : well_formed sp ->
  fst (run V (fetch_P123 V veqb folder sp J2) fs) = read_h5 V veqb fs sp (final_name folder sp J2).
Proof.
  intros W. destruct (head_key V sp J2 W) as (J & P & Eh & Ek). unfold fetch_P123, final_name. rewrite Eh, Ek. reflexivity.
Qed.
Lemma read_broken V veqb (sp : space V) fs n : well_formed sp -> name_fits n = true -> fs n = Some (broken V) -> read_h5 V veqb fs sp n = Err.
Proof.
  intros W Hn Hf. destruct (head_JP_wf V sp W) as (s & Hs & Eh). unfold read_h5. rewrite Eh. cbn [obind]. rewrite Hn, Hf. cbn [negb broken h_Nalpha].
  destruct (sp_pw V sp); [ destruct Hs | reflexivity ].
Qed.
Lemma read_ext V veqb (sp : space V) fs fs' n : fs n = fs' n -> read_h5 V veqb fs sp n = read_h5 V veqb fs' sp n.
Proof. intros E. unfold read_h5. rewrite E. reflexivity. Qed.
Lemma space_dec V (veqb : V -> V -> bool) : decides_eq veqb -> forall a b : space V, a = b \/ a <> b.
Proof.
  intros H. assert (DV : forall x y : V, {x = y} + {x <> y}).
  { intros x y. destruct (veqb x y) eqn:E; [ left; apply H, E | right; intros ->; assert (veqb y y = true) by (apply H; reflexivity); congruence ]. }
  intros a b. assert (D : {a = b} + {a <> b}) by (repeat decide equality). destruct D; auto.
Qed.

Lemma stored_history V veqb (vzero : V -> bool) folder ovl value fs0 h :
  decides_eq veqb ->
  (forall rs sched, In (rs, sched) h -> (forall r, In r rs -> computes vzero folder r (ovl r) (value r)) /\ NoDup (map run_key rs)) ->
  let fs := fst (play V veqb folder fs0 h) in
  let log := snd (play V veqb folder fs0 h) in
  (forall r o, In (r, Ret o) log -> exists res, o = Ok res /\ matrix_of vzero (r_sp V r) (ovl r) (value r) res) /\
  forall sp J2, well_formed sp -> String.length (final_name folder sp J2) < 300 ->
    let read fs := fst (run V (fetch_P123 V veqb folder sp J2) fs) in
    let mine (r : crun V) := run_key r = key_of sp J2 in
    (forall before r res after, log = before ++ (r, Ret (Ok res)) :: after -> mine r -> (forall r' p, In (r', p) after -> ~ mine r') ->
       (r_sp V r = sp -> read fs = Ok res) /\ (r_sp V r <> sp -> read fs = Err)) /\
    ((forall r p, In (r, p) log -> ~ mine r) -> read fs = read fs0) /\
    (forall res, read fs = Ok res ->
       (exists before r after, log = before ++ (r, Ret (Ok res)) :: after /\ mine r /\ r_sp V r = sp /\
          forall r' res', In (r', Ret (Ok res')) after -> ~ mine r') \/
       (read fs0 = Ok res /\ forall r' res', In (r', Ret (Ok res')) log -> ~ mine r')).
Proof.
  intros Heq Hh fs log. destruct (history V veqb vzero Heq folder ovl value h fs0 Hh) as [H1 H2]. fold fs log in H1, H2. split.
  { intros r o Hin. destruct (H1 r (Ret o) Hin) as (res & E & M); [ eexists; reflexivity | ]. exists res. split; [ congruence | exact M ]. }
  intros sp J2 W Hn read mine. destruct (H2 sp J2) as (A & B & C). cbv zeta in A, B, C.
  assert (Hf : name_fits (final_name folder sp J2) = true) by (apply Nat.ltb_lt, Hn).
  assert (ER : forall f, read f = read_h5 V veqb f sp (final_name folder sp J2)) by (intros f; apply fetch_read, W).
  assert (Wlog : forall r p, In (r, p) log -> well_formed (r_sp V r)).
  { intros r p Hin. assert (Hr : exists rs sched, In (rs, sched) h /\ In r rs).
    { clear -Hin. unfold log in Hin. clear log. revert fs0 Hin. induction h as [|[rs sc] h IH]; intros fs0 Hin; [ destruct Hin | ]. cbn in Hin.
      apply in_app_or in Hin. destruct Hin as [Hin|Hin]; [ exists rs, sc; split; [ left; reflexivity | exact (in_combine_l _ _ _ _ Hin) ] | ].
      destruct (IH _ Hin) as (rs' & sc' & I1 & I2). exists rs', sc'. split; [ right; exact I1 | exact I2 ]. }
    destruct Hr as (rs & sc & I1 & I2). exact (co_sp _ _ _ _ _ (proj1 (Hh rs sc I1) r I2)). }
  split; [ | split ].
  - intros l1 r res l2 E Hm Hl. assert (Ef := A l1 r res l2 E Hm Hl). rewrite ER.
    assert (Wr : well_formed (r_sp V r)) by (apply (Wlog r (Ret (Ok res))); rewrite E; apply in_or_app; right; left; reflexivity).
    destruct (read_stored V veqb Heq fs _ (r_sp V r) sp res Wr W Hf Ef) as [R1 R2]. split; intros Es; [ apply R1; congruence | apply R2; congruence ].
  - intros Hno. rewrite !ER. apply read_ext, B, Hno.
  - intros res E. rewrite ER in E. destruct C as [C|[(l1 & r & res' & l2 & El & Hm & Hl & Ef)|(Hno & Ef)]].
    + rewrite (read_broken V veqb sp fs _ W Hf C) in E. discriminate.
    + assert (Wr : well_formed (r_sp V r)) by (apply (Wlog r (Ret (Ok res'))); rewrite El; apply in_or_app; right; left; reflexivity).
      destruct (read_stored V veqb Heq fs _ (r_sp V r) sp res' Wr W Hf Ef) as [R1 R2].
      destruct (space_dec V veqb Heq sp (r_sp V r)) as [Es|Es]; [ | rewrite (R2 Es) in E; discriminate ].
      left. exists l1, r, l2. assert (res' = res) by (rewrite (R1 Es) in E; congruence). subst res'. auto.
    + right. split; [ rewrite ER, <- E; apply read_ext; symmetry; exact Ef | exact Hno ].
Qed.

Lemma quadrature_unchecked V veqb (vzero : V -> bool) folder (value : nat * nat -> nat -> nat -> nat -> nat -> nat -> nat -> V) ovl fs0 r sched res Q Q' :
  decides_eq veqb -> computes vzero folder r ovl (value Q) ->
  snd (play V veqb folder fs0 [([r], sched)]) = [(r, Ret (Ok res))] ->
  (exists ap qp pp a q p, ap < length (sp_pw V (r_sp V r)) /\ qp < sp_Nq V (r_sp V r) /\ pp < sp_Np V (r_sp V r) /\
     a < length (sp_pw V (r_sp V r)) /\ q < sp_Nq V (r_sp V r) /\ p < sp_Np V (r_sp V r) /\ ovl qp pp q p = true /\
     value Q ap qp pp a q p <> value Q' ap qp pp a q p /\ vzero (value Q ap qp pp a q p) = false) ->
  fst (run V (fetch_P123 V veqb folder (r_sp V r) (r_J2 V r)) (fst (play V veqb folder fs0 [([r], sched)]))) = Ok res /\
  matrix_of vzero (r_sp V r) ovl (value Q) res /\ ~ matrix_of vzero (r_sp V r) ovl (value Q') res.
Proof.
  intros Heq Hc El (ap & qp & pp & a & q & p & B1 & B2 & B3 & B4 & B5 & B6 & Ho & Hd & Hz).
  destruct (stored_history V veqb vzero folder (fun _ => ovl) (fun _ => value Q) fs0 [([r], sched)] Heq) as [H1 H2].
  { intros rs sc [E|[]]. injection E as <- <-. split; [ intros r' [<-|[]]; exact Hc | ]. constructor; [ intros [] | constructor ]. }
  cbv zeta in H1, H2. rewrite El in H1, H2.
  destruct (H1 r (Ok res) (or_introl eq_refl)) as (res' & E & M). assert (res' = res) by congruence. subst res'.
  destruct (H2 (r_sp V r) (r_J2 V r) (co_sp _ _ _ _ _ Hc) (co_final _ _ _ _ _ Hc)) as (A & _ & _).
  destruct (A [] r res [] eq_refl eq_refl) as [A1 _]; [ intros r' p' [] | ].
  split; [ exact (A1 eq_refl) | ]. split; [ exact M | ]. intros [_ M']. destruct M as [_ M].
  assert (I := proj2 (M _ _ _) (ex_intro _ ap (ex_intro _ qp (ex_intro _ pp (ex_intro _ a (ex_intro _ q (ex_intro _ p
    (conj B1 (conj B2 (conj B3 (conj B4 (conj B5 (conj B6 (conj eq_refl (conj eq_refl (conj eq_refl (conj Ho Hz))))))))))))))))).
  apply M' in I. destruct I as (ap' & qp' & pp' & a' & q' & p' & C1 & C2 & C3 & C4 & C5 & C6 & Er & Ec & Ev & _).
  assert (E1 := P123_idx_inj V vzero (sp_Np V (r_sp V r)) (sp_Nq V (r_sp V r)) ovl (value Q) ap qp pp ap' qp' pp' B2 B3 C2 C3 (Nat2Z.inj _ _ Er)). 
  assert (E2 := P123_idx_inj V vzero (sp_Np V (r_sp V r)) (sp_Nq V (r_sp V r)) ovl (value Q) a q p a' q' p' B5 B6 C5 C6 (Nat2Z.inj _ _ Ec)). 
  injection E1 as -> -> ->. injection E2 as -> -> ->. exact (Hd Ev).
Qed.

Lemma same_quadrature V veqb (vzero : V -> bool) folder ovl value fs0 h :
  decides_eq veqb ->
  (forall rs sched, In (rs, sched) h -> (forall r, In r rs -> computes vzero folder r (ovl r) (value r)) /\ NoDup (map run_key rs)) ->
  forall sp J2 ovl' value', well_formed sp -> String.length (final_name folder sp J2) < 300 ->
  (forall r res, In (r, Ret (Ok res)) (snd (play V veqb folder fs0 h)) -> r_sp V r = sp -> ovl r = ovl' /\ value r = value') ->
  fs0 (final_name folder sp J2) = None ->
  forall res, fst (run V (fetch_P123 V veqb folder sp J2) (fst (play V veqb folder fs0 h))) = Ok res -> matrix_of vzero sp ovl' value' res.
Proof.
  intros Heq Hh sp J2 ovl' value' W Hn Hs H0 res E. destruct (stored_history V veqb vzero folder ovl value fs0 h Heq Hh) as [H1 H2].
  destruct (H2 sp J2 W Hn) as (_ & _ & C). destruct (C res E) as [(l1 & r & l2 & El & _ & Es & _)|(E0 & _)].
  - assert (Hin : In (r, Ret (Ok res)) (snd (play V veqb folder fs0 h))) by (rewrite El; apply in_or_app; right; left; reflexivity).
    destruct (H1 r (Ok res) Hin) as (res' & Er & M). assert (res' = res) by congruence. subst res'.
    destruct (Hs r res Hin Es) as [Eo Ev]. rewrite Es, Eo, Ev in M. exact M.
  - rewrite fetch_read in E0 by exact W. unfold read_h5 in E0. destruct (head_JP_wf V sp W) as (s & _ & Eh). rewrite Eh in E0. cbn [obind] in E0.
    destruct (negb (name_fits (final_name folder sp J2))); [ discriminate | ]. rewrite H0 in E0. discriminate.
Qed.
