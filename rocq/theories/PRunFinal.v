From Coq Require Import Permutation Sorted String.
From Verif Require Import Common ArrayLib PWModel NameModel NameProofs PioModel PioSpec PioProofs PioPropsLemmas PRunModel PRunProofs PRunSpec.
Open Scope nat_scope.
Open Scope list_scope.

Lemma sub_final folder J P Np Nq J2 t k J' P' Np' Nq' J2' : subarray_file_name folder J P Np Nq J2 t k <> P123_file_name folder J' P' Np' Nq' J2'.
Proof. unfold subarray_file_name, P123_file_name. intros H. apply app_inj_l in H. cbn in H. discriminate. Qed.
Lemma sub_inj folder J P Np Nq J2 t k J' P' Np' Nq' J2' t' k' :
  subarray_file_name folder J P Np Nq J2 t k = subarray_file_name folder J' P' Np' Nq' J2' t' k' -> (J, P, Np, Nq, J2) = (J', P', Np', Nq', J2').
Proof.
  unfold subarray_file_name. intros H. do 2 apply app_inj_l in H. cbn [append] in H.
  apply num_split in H; [ | reflexivity ]. destruct H as [-> H].
  apply num_split in H; [ | reflexivity ]. destruct H as [-> H]. injection H as H.
  apply num_split in H; [ | reflexivity ]. destruct H as [-> H]. injection H as H.
  apply num_split in H; [ | reflexivity ]. destruct H as [-> H]. injection H as H.
  apply num_split in H; [ | reflexivity ]. destruct H as [-> _]. reflexivity.
Qed.
Lemma split_app {X} (a : list X) : forall b l1 x l2, l1 ++ x :: l2 = a ++ b ->
  (exists m, b = m ++ x :: l2 /\ l1 = a ++ m) \/ (exists m, a = l1 ++ x :: m /\ l2 = m ++ b).
Proof.
  induction a as [|y a IH]; intros b l1 x l2 E; [ left; exists l1; cbn in E; auto | ].
  destruct l1 as [|z l1]; cbn in E.
  - injection E as -> ->. right. exists a. auto.
  - injection E as -> E. destruct (IH b l1 x l2 E) as [(m & -> & ->)|(m & -> & ->)]; [ left | right ]; exists m; auto.
Qed.

Section F.
Variable V : Type.
Variables (veqb : V -> V -> bool) (vzero : V -> bool).
Hypothesis Heq : decides_eq veqb.
Variable folder : string.
Variables (ovl : crun V -> nat -> nat -> nat -> nat -> bool) (value : crun V -> nat -> nat -> nat -> nat -> nat -> nat -> V).
Notation fsys := (fsys V).
Notation fill := (fill_P123 V veqb folder).
Notation names_of r := (fun n => n = final_name folder (r_sp V r) (r_J2 V r) \/ exists t k, n = thread_name folder r t k).

Lemma keys_disjoint (r r' : crun V) n : run_key r <> run_key r' -> names_of r n -> ~ names_of r' n.
Proof.
  unfold final_name, thread_name, run_key. destruct (key_of (r_sp V r) (r_J2 V r)) as [[[[J P] Np] Nq] J2], (key_of (r_sp V r') (r_J2 V r')) as [[[[J' P'] Np'] Nq'] J2'].
  intros Hk [->|(t & k & ->)] [E|(t' & k' & E)].
  - apply P123_name_inj in E. congruence.
  - symmetry in E. apply sub_final in E. exact E.
  - apply sub_final in E. exact E.
  - apply sub_inj in E. congruence.
Qed.
Lemma head_key (sp : space V) J2 : well_formed sp -> exists J P, head_JP (sp_pw V sp) = Ok (J, P) /\ key_of sp J2 = (J, P, Z.of_nat (sp_Np V sp), Z.of_nat (sp_Nq V sp), J2).
Proof. intros (_ & _ & Hne & _). unfold head_JP, key_of. destruct (sp_pw V sp) as [|s l]; [ congruence | ]. eexists _, _. split; reflexivity. Qed.

Lemma fill_touches r : well_formed (r_sp V r) -> touches V (names_of r) (fill r).
Proof.
  intros W. destruct (head_key (r_sp V r) (r_J2 V r) W) as (J & P & Eh & Ek). unfold fill_P123. rewrite Eh. cbn [lift bindp].
  assert (Hs : forall n, (exists t k, n = subarray_file_name folder J P (Z.of_nat (sp_Np V (r_sp V r))) (Z.of_nat (sp_Nq V (r_sp V r))) (r_J2 V r) (Z.of_nat t) (Z.of_nat k)) -> names_of r n).
  { intros n (t & k & ->). right. exists t, k. unfold thread_name, run_key. rewrite Ek. reflexivity. }
  apply touches_bind; [ apply (touches_mono V _ _ _ Hs), touch_elements | intros tfc ].
  apply touches_bind; [ apply (touches_mono V _ _ _ Hs), touch_merge | intros res ].
  apply touches_bind; [ | intros; exact I ]. apply touch_store. left. unfold final_name. rewrite Ek. reflexivity.
Qed.

(* a computing run alone, cut after n steps *)
Lemma fill_prefix r fs n : computes vzero folder r (ovl r) (value r) ->
  let F := final_name folder (r_sp V r) (r_J2 V r) in
  let c := steps V n (fill r, fs) in
  (exists res, fst c = Ret (Ok res) /\ snd c F = Some (file_of V (r_sp V r) res) /\ matrix_of vzero (r_sp V r) (ovl r) (value r) res) \/
  ((forall o, fst c <> Ret o) /\ (snd c F = fs F \/ snd c F = Some (broken V))).
Proof.
  intros [W HB Hs Hn Hf Hb Ht He] F c.
  destruct (head_key (r_sp V r) (r_J2 V r) W) as (J & P & Eh & Ek).
  assert (EF : F = P123_file_name folder J P (Z.of_nat (sp_Np V (r_sp V r))) (Z.of_nat (sp_Nq V (r_sp V r))) (r_J2 V r)) by (unfold F, final_name; rewrite Ek; reflexivity).
  set (name t k := subarray_file_name folder J P (Z.of_nat (sp_Np V (r_sp V r))) (Z.of_nat (sp_Nq V (r_sp V r))) (r_J2 V r) (Z.of_nat t) (Z.of_nat k)).
  assert (Hname : forall t k, t < r_T V r -> k <= length (r_evs V r) -> String.length (name t k) < 300).
  { intros t k H1 H2. specialize (Hn t k H1 H2). unfold thread_name, run_key in Hn. rewrite Ek in Hn. exact Hn. }
  destruct (build_in_matrix V veqb vzero (r_srt V r) (r_sp V r) folder J P (r_J2 V r) (ovl r) (value r) (r_B V r) (r_T V r) (r_buf0 V r) fs (r_evs V r) Heq Hs W HB Hname Hb Ht He)
    as (fs1 & res & tfc & EB & EC & _ & _ & _ & _ & _).
  fold name in EB, EC.
  destruct (merged_matrix V veqb vzero (r_srt V r) (r_sp V r) folder J P (r_J2 V r) (ovl r) (value r) (r_B V r) (r_T V r) (r_buf0 V r) fs (r_evs V r) Heq Hs W HB Hname Hb Ht He)
    as (fs2 & res2 & EB2 & S2 & M2). fold name in EB2.
  assert (Eq2 : fs2 = fs1 /\ res2 = res) by (split; congruence). destruct Eq2 as [-> ->]. clear EB2.
  assert (EM : merge_files V veqb name (r_sp V r) (r_srt V r) (Z.of_nat (length (sp_pw V (r_sp V r)) * sp_Nq V (r_sp V r) * sp_Np V (r_sp V r))) fs1 tfc = Ok res).
  { unfold build in EB. rewrite EC in EB. cbn [obind] in EB. destruct (merge_files _ _ _ _ _ _ _ _) as [x| | |]; cbn [obind] in EB; congruence. }
  set (Sub := fun m => exists t k, m = name t k).
  assert (HFS : ~ Sub F). { intros (t & k & E). rewrite EF in E. symmetry in E. exact (sub_final _ _ _ _ _ _ _ _ _ _ _ _ _ E). }
  unfold c, fill_P123. rewrite Eh. cbn [lift bindp]. fold name.
  match goal with |- context [bindp V (elements_p V name ?a ?b ?c' ?d ?e) ?g] => set (g1 := g); set (p1 := elements_p V name a b c' d e) end.
  assert (R1 : run V p1 fs = (Ok tfc, fs1)) by (apply run_elements, EC).
  assert (T1 : touches V Sub p1) by apply touch_elements.
  assert (F1 : fs1 F = fs F). { change fs1 with (snd (@Ok (list nat) tfc, fs1)). rewrite <- R1. apply (run_frame V Sub); assumption. }
  destruct (steps_bind_ok V g1 n p1 fs tfc fs1 R1) as [(p' & fs' & E1 & E2 & E3)|(m & E2)]; rewrite E2; clear E2.
  { right. split; [ exact E3 | ]. left. cbn [snd]. change fs' with (snd (p', fs')). rewrite <- E1. apply (steps_frame V Sub); assumption. }
  unfold g1. clear g1.
  match goal with |- context [bindp V (merge_p V veqb name ?a ?b ?c' ?d) ?g] => set (g2 := g); set (p2 := merge_p V veqb name a b c' d) end.
  assert (R2 : run V p2 fs1 = (Ok res, fs1)) by (apply run_merge, EM).
  assert (T2 : touches V Sub p2) by apply touch_merge.
  destruct (steps_bind_ok V g2 m p2 fs1 res fs1 R2) as [(p' & fs' & E1 & E2 & E3)|(m' & E2)]; rewrite E2; clear E2.
  { right. split; [ exact E3 | ]. left. cbn [snd]. rewrite <- F1. change fs' with (snd (p', fs')). rewrite <- E1. apply (steps_frame V Sub); assumption. }
  unfold g2. clear g2. rewrite <- EF.
  assert (Hfit : name_fits F = true) by (apply Nat.ltb_lt, Hf).
  assert (Es := store_ok V fs1 res (length res) (r_sp V r) F W Hfit (le_n _)). rewrite firstn_all in Es.
  unfold store_h5 in Es. unfold store_p. rewrite Eh in *. cbn [obind] in Es. rewrite Hfit in *. cbn [negb] in *. rewrite Nat.ltb_irrefl in *.
  destruct ((length (sp_pb V (r_sp V r)) <? sp_Np V (r_sp V r) + 1) || (length (sp_qb V (r_sp V r)) <? sp_Nq V (r_sp V r) + 1)); [ discriminate | ].
  cbn [bindp]. destruct m' as [|[|m']]; cbn [steps].
  - right. split; [ discriminate | left; exact F1 ].
  - right. split; [ discriminate | right ]. cbn [step fst snd]. unfold fs_write. rewrite String.eqb_refl. reflexivity.
  - left. exists res. cbn [step fst snd]. rewrite steps_ret. cbn [fst snd]. split; [ reflexivity | ]. split; [ | split; assumption ].
    assert (Es' : forall x y, @Ok fsys x = Ok y -> x F = y F) by congruence. apply Es' in Es. unfold fs_write in *. rewrite String.eqb_refl in *. exact Es.
Qed.

(* one session *)
Definition done (p : proc V (list (elem V))) : Prop := exists o, p = Ret o.
Lemma session fs rs sched : (forall r, In r rs -> computes vzero folder r (ovl r) (value r)) -> NoDup (map run_key rs) ->
  let st := interleave V sched (map fill rs, fs) in
  length (fst st) = length rs /\
  (forall r p, In (r, p) (combine rs (fst st)) -> done p -> exists res, p = Ret (Ok res) /\ matrix_of vzero (r_sp V r) (ovl r) (value r) res) /\
  forall (sp : space V) J2, let F := final_name folder sp J2 in
    (forall r, In r rs -> run_key r <> key_of sp J2) /\ snd st F = fs F \/
    exists r p, In (r, p) (combine rs (fst st)) /\ run_key r = key_of sp J2 /\
      (forall r' p', In (r', p') (combine rs (fst st)) -> run_key r' = key_of sp J2 -> r' = r /\ p' = p) /\
      ((exists res, p = Ret (Ok res) /\ snd st F = Some (file_of V (r_sp V r) res)) \/
       (~ done p /\ (snd st F = fs F \/ snd st F = Some (broken V)))).
Proof.
  intros Hc Nd st.
  assert (Hnth : forall i r, nth_error rs i = Some r -> nth_error (map fill rs) i = Some (fill r)) by (intros i r H; rewrite nth_error_map, H; reflexivity).
  destruct (interleave_solo V (fun i n => match nth_error rs i with Some r => names_of r n | None => False end) sched (map fill rs) fs) as (L & S1 & S2).
  { intros i p Hp. rewrite nth_error_map in Hp. destruct (nth_error rs i) as [r|] eqn:Er; [ | discriminate ]. injection Hp as <-.
    apply fill_touches. apply (Hc r (nth_error_In _ _ Er)). }
  { intros i j n Hi Hj Hij Hn. destruct (nth_error rs i) as [r|] eqn:Er; [ | contradiction ]. destruct (nth_error rs j) as [r'|] eqn:Er'; [ | tauto ].
    apply (keys_disjoint r r' n); [ | exact Hn ]. intros Ek. apply Hij. apply (proj1 (NoDup_nth_error (map run_key rs)) Nd i j).
    - rewrite map_length in *. exact Hi.
    - rewrite !nth_error_map, Er, Er'. cbn. rewrite Ek. reflexivity. }
  fold st in L, S1, S2. rewrite map_length in L.
  assert (Hin : forall r p, In (r, p) (combine rs (fst st)) -> exists i, nth_error rs i = Some r /\ nth_error (fst st) i = Some p).
  { intros r p H. apply In_nth_error in H. destruct H as (i & H). exists i. revert i H. clear. generalize (fst st). induction rs as [|x l IH]; intros ps [|i] H; destruct ps as [|y ps]; cbn in *; try discriminate.
    - injection H as -> ->. auto.
    - apply IH, H. }
  assert (Hin' : forall i r p, nth_error rs i = Some r -> nth_error (fst st) i = Some p -> In (r, p) (combine rs (fst st))).
  { clear. generalize (fst st). induction rs as [|x l IH]; intros ps [|i] r p H1 H2; destruct ps as [|y ps]; cbn in *; try discriminate.
    - left. congruence.
    - right. apply (IH _ i); assumption. }
  assert (Step : forall i r p, nth_error rs i = Some r -> nth_error (fst st) i = Some p ->
     let F := final_name folder (r_sp V r) (r_J2 V r) in
     (exists res, p = Ret (Ok res) /\ snd st F = Some (file_of V (r_sp V r) res) /\ matrix_of vzero (r_sp V r) (ovl r) (value r) res) \/
     (~ done p /\ (snd st F = fs F \/ snd st F = Some (broken V)))).
  { intros i r p Hr Hp F. destruct (S1 i (fill r) (Hnth i r Hr)) as (k & E1 & E2). rewrite Hp in E1. injection E1 as ->.
    assert (EF : snd (steps V k (fill r, fs)) F = snd st F) by (apply E2; rewrite Hr; left; reflexivity).
    destruct (fill_prefix r fs k (Hc r (nth_error_In _ _ Hr))) as [(res & A1 & A2 & A3)|(A1 & A2)].
    - left. exists res. rewrite <- EF. split; [ exact A1 | ]. split; assumption.
    - right. split; [ intros [o Ho]; exact (A1 o Ho) | ]. rewrite <- EF. exact A2. }
  split; [ exact L | ]. split.
  - intros r p Hrp Hd. destruct (Hin r p Hrp) as (i & Hr & Hp). destruct (Step i r p Hr Hp) as [(res & A1 & _ & A3)|(A1 & _)]; [ exists res; auto | contradiction ].
  - intros sp J2 F.
    assert (Dec : (exists i r, nth_error rs i = Some r /\ run_key r = key_of sp J2) \/ forall r, In r rs -> run_key r <> key_of sp J2).
    { clear. assert (D : forall x y : Z * Z * Z * Z * Z, {x = y} + {x <> y}) by (repeat decide equality).
      induction rs as [|r l [(i & r' & H1 & H2)|H]]; [ right; intros r [] | left; exists (S i), r'; auto | ].
      destruct (D (run_key r) (key_of sp J2)); [ left; exists 0, r; auto | right ]. intros r' [<-|Hr']; auto. }
    destruct Dec as [(i & r & Hr & Ek)|Hno].
    + right. assert (Hp : exists p, nth_error (fst st) i = Some p).
      { destruct (nth_error (fst st) i) as [p|] eqn:Ep; [ eauto | ]. apply nth_error_None in Ep. assert (i < length rs) by (apply nth_error_Some; congruence). lia. }
      destruct Hp as (p & Hp). exists r, p. split; [ exact (Hin' i r p Hr Hp) | ]. split; [ exact Ek | ].
      assert (EF : F = final_name folder (r_sp V r) (r_J2 V r)) by (unfold F, final_name; unfold run_key in Ek; rewrite Ek; reflexivity).
      split.
      * intros r' p' H' Ek'. destruct (Hin r' p' H') as (j & Hr' & Hp').
        assert (i = j). { apply (proj1 (NoDup_nth_error (map run_key rs)) Nd i j); [ rewrite map_length; apply nth_error_Some; congruence | ].
          rewrite !nth_error_map, Hr, Hr'. cbn. congruence. }
        subst j. split; congruence.
      * rewrite EF. destruct (Step i r p Hr Hp) as [(res & A1 & A2 & _)|A]; [ left; exists res; auto | right; exact A ].
    + left. split; [ exact Hno | ]. apply S2. intros i Hi. destruct (nth_error rs i) as [r|] eqn:Er; [ | tauto ].
      assert (Hk := Hno r (nth_error_In _ _ Er)). unfold F, final_name. unfold run_key in *.
      destruct (key_of sp J2) as [[[[J P] Np] Nq] J2'] eqn:Ek.
      intros [E|(t & k & E)]; [ unfold final_name in E | unfold thread_name, run_key in E ]; destruct (key_of (r_sp V r) (r_J2 V r)) as [[[[J' P'] Np'] Nq'] J2''].
      * apply P123_name_inj in E. congruence.
      * symmetry in E. apply sub_final in E. exact E.
Qed.

(* a whole history: the state of one final file *)
Lemma history h : forall fs,
  (forall rs sched, In (rs, sched) h -> (forall r, In r rs -> computes vzero folder r (ovl r) (value r)) /\ NoDup (map run_key rs)) ->
  let st := play V veqb folder fs h in
  (forall r p, In (r, p) (snd st) -> done p -> exists res, p = Ret (Ok res) /\ matrix_of vzero (r_sp V r) (ovl r) (value r) res) /\
  forall (sp : space V) J2, let F := final_name folder sp J2 in let k := key_of sp J2 in
    (forall l1 r res l2, snd st = l1 ++ (r, Ret (Ok res)) :: l2 -> run_key r = k -> (forall r' p', In (r', p') l2 -> run_key r' <> k) ->
       fst st F = Some (file_of V (r_sp V r) res)) /\
    ((forall r p, In (r, p) (snd st) -> run_key r <> k) -> fst st F = fs F) /\
    (fst st F = Some (broken V) \/
     (exists l1 r res l2, snd st = l1 ++ (r, Ret (Ok res)) :: l2 /\ run_key r = k /\
        (forall r' res', In (r', Ret (Ok res')) l2 -> run_key r' <> k) /\ fst st F = Some (file_of V (r_sp V r) res)) \/
     ((forall r' res', In (r', Ret (Ok res')) (snd st) -> run_key r' <> k) /\ fst st F = fs F)).
Proof.
  induction h as [|[rs sched] h IH]; intros fs Hh st.
  - cbn in st. split; [ intros r p [] | ]. intros sp J2 F k. split; [ intros l1 r res l2 E; destruct l1; discriminate | ].
    split; [ reflexivity | ]. right. right. split; [ intros r' res' [] | reflexivity ].
  - destruct (Hh rs sched (or_introl eq_refl)) as [Hc Nd]. destruct (session fs rs sched Hc Nd) as (L & S1 & S2).
    cbn in st. set (s1 := interleave V sched (map fill rs, fs)) in *.
    destruct (IH (snd s1) (fun rs' sc' H => Hh rs' sc' (or_intror H))) as [I1 I2].
    set (s2 := play V veqb folder (snd s1) h) in *. set (log1 := combine rs (fst s1)) in *.
    change (fst st) with (fst s2). change (snd st) with (log1 ++ snd s2). split.
    + intros r p Hin Hd. apply in_app_or in Hin. destruct Hin as [Hin|Hin]; [ exact (S1 r p Hin Hd) | exact (I1 r p Hin Hd) ].
    + intros sp J2 F k. destruct (I2 sp J2) as (A & B & C). fold F k in A, B, C. specialize (S2 sp J2). fold F k in S2. cbv zeta in S2.
      assert (Lk : forall r' p', In (r', p') log1 -> In r' rs) by (intros r' p' H; exact (in_combine_l _ _ _ _ H)).
      split; [ | split ].
      * intros l1 r res l2 E Ek Hl2. symmetry in E. destruct (split_app log1 (snd s2) l1 _ l2 E) as [(m & E1 & E2)|(m & E1 & E2)].
        -- exact (A m r res l2 E1 Ek Hl2).
        -- rewrite B; [ | intros r' p' H; apply (Hl2 r' p'); rewrite E2; apply in_or_app; right; exact H ].
           destruct S2 as [[Hno _]|(r0 & p0 & Hin & Ek0 & Hu & Hst)].
           ++ exfalso. apply (Hno r); [ apply (Lk r (Ret (Ok res))); rewrite E1; apply in_or_app; right; left; reflexivity | exact Ek ].
           ++ destruct (Hu r (Ret (Ok res))) as [<- <-]; [ rewrite E1; apply in_or_app; right; left; reflexivity | exact Ek | ].
              destruct Hst as [(res' & Er & Ef)|(Hnd & _)]; [ injection Er as ->; exact Ef | exfalso; apply Hnd; eexists; reflexivity ].
      * intros Hno. rewrite B by (intros r p H; apply (Hno r p), in_or_app; right; exact H).
        destruct S2 as [[_ E]|(r0 & p0 & Hin & Ek0 & _)]; [ exact E | ]. exfalso. apply (Hno r0 p0); [ apply in_or_app; left; exact Hin | exact Ek0 ].
      * destruct C as [C|[(l1 & r & res & l2 & E & Ek & Hl & Ef)|(Hn & Ef)]].
        -- left. exact C.
        -- right. left. exists (log1 ++ l1), r, res, l2. rewrite E, <- app_assoc. auto.
        -- rewrite Ef. destruct S2 as [[Hno E]|(r0 & p0 & Hin & Ek0 & Hu & Hst)].
           ++ right. right. split; [ | exact E ]. intros r' res' H. apply in_app_or in H. destruct H as [H|H]; [ apply Hno; exact (Lk _ _ H) | exact (Hn r' res' H) ].
           ++ destruct Hst as [(res' & Er & E)|(Hnd & [E|E])].
              ** right. left. subst p0. destruct (in_split _ _ Hin) as (m1 & m2 & Em). exists m1, r0, res', (m2 ++ snd s2). split; [ rewrite Em, <- app_assoc; reflexivity | ].
                 split; [ exact Ek0 | ]. split; [ | exact E ]. intros r' res'' H Ek'. apply in_app_or in H. destruct H as [H|H]; [ | exact (Hn r' res'' H Ek') ].
                 assert (Ndc : NoDup log1).
                 { unfold log1. apply (NoDup_map_inv (fun rp => run_key (fst rp))). replace (map (fun rp => run_key (fst rp)) (combine rs (fst s1))) with (map run_key rs); [ exact Nd | ].
                   clear -L. revert L. generalize (fst s1). induction rs as [|x l IH]; intros [|y ps] L; cbn in *; try discriminate; [ reflexivity | ]. f_equal. apply IH. congruence. }
                 destruct (Hu r' (Ret (Ok res''))) as [-> E2]; [ rewrite Em; apply in_or_app; right; right; exact H | exact Ek' | ].
                 rewrite Em in Ndc. apply NoDup_remove_2 in Ndc. apply Ndc. apply in_or_app. right. rewrite E2 in H. exact H.
              ** right. right. split; [ | exact E ]. intros r' res' H Ek'. apply in_app_or in H. destruct H as [H|H]; [ | exact (Hn r' res' H Ek') ].
                 destruct (Hu r' (Ret (Ok res')) H Ek') as [-> E2]. apply Hnd. eexists. symmetry. exact E2.
              ** left. exact E.
Qed.
End F.
