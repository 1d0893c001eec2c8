(* Property theorems about stored permutation matrices over the life of a folder (C78, C79). *)
From Coq Require Import Permutation Sorted String.
From Verif Require Import Common ArrayLib PWModel NameModel PioModel PioSpec PRunModel PRunSpec.
From Verif Require PRunLemmas PioProps PioPropsLemmas.
Open Scope nat_scope.
Open Scope list_scope.

(* C78: h is any history of one folder: sessions of simultaneous computing runs (different channels or grids in one session,
   so that their keys differ), whose file accesses are interleaved in any order, each of them possibly killed at any point,
   also between the truncation and the completion of a file; fs0: any earlier contents of the folder.
   - A run that ends hands over exactly its own matrix (it never fails, whatever the others do and whatever was there).
   - A later run that only solves, for model space sp and J_2N_max J2:
     if the last run with its key ended, it gets the matrix of that run when the model spaces agree, and stops otherwise;
     if no run had its key, it gets what was there before;
     and in any case what it gets is the matrix of the last run with its key that ended, computed for its own model space
     (or, when none ended, what was there before): a killed run can make it stop, never give it something else. *)
Theorem C78_history V veqb (vzero : V -> bool) folder ovl value fs0 h :
  decides_eq veqb ->
  (forall rs sched, In (rs, sched) h -> (forall r, In r rs -> computes vzero folder r (ovl r) (value r)) /\ NoDup (map run_key rs)) ->
  let fs := fst (play V veqb folder fs0 h) in
  let log := snd (play V veqb folder fs0 h) in
  (forall r o, In (r, Ret o) log -> exists res, o = Ok res /\ matrix_of vzero (r_sp V r) (ovl r) (value r) res) /\
  forall sp J2, well_formed sp -> String.length (final_name folder sp J2) < 300 ->
    let read fs := fst (run V (fetch_P123 V veqb folder sp J2) fs) in
    let mine (r : crun V) := run_key r = key_of sp J2 in
    (forall before r res after, log = before ++ (r, Ret (Ok res)) :: after -> mine r -> (forall r' p, In (r', p) after -> ~ mine r') ->
       (r_sp V r = sp -> read fs = Ok res) /\ (r_sp V r <> sp -> read fs = Err)) /\
    ((forall r p, In (r, p) log -> ~ mine r) -> read fs = read fs0) /\
    (forall res, read fs = Ok res ->
       (exists before r after, log = before ++ (r, Ret (Ok res)) :: after /\ mine r /\ r_sp V r = sp /\
          forall r' res', In (r', Ret (Ok res')) after -> ~ mine r') \/
       (read fs0 = Ok res /\ forall r' res', In (r', Ret (Ok res')) log -> ~ mine r')).
Proof. exact (PRunLemmas.stored_history V veqb vzero folder ovl value fs0 h). Qed.
Print Assumptions C78_history.

(* Non-vacuity: two channels in one session, the second process killed, its file accesses interleaved with those of the
   first; then a rerun of the second channel is killed while it writes its result. *)
Definition ex_pw2 : pw := mkpw 1 1 1 1 1 1 1 1 (-1).
Definition ex_run (s : pw) : crun Z := mkrun Z (mkspace Z 1 [0; 5]%Z 2 [0; 3; 9]%Z [s]) 1 1 2 (fun _ => [(7, 7, 7)]%Z) PioProps.ex_evs PioPropsLemmas.isort.
Definition r1 := ex_run PioProps.ex_pw.
Definition r2 := ex_run ex_pw2.
Lemma ex_computes s : (s = PioProps.ex_pw \/ s = ex_pw2) -> computes (Z.eqb 0) "d" (ex_run s) (fun _ _ _ _ => true) PioProps.ex_value.
Proof.
  intros Hs. destruct PioProps.C21_example as (S1 & _ & _ & Pm & _ & _). constructor.
  - split; [ reflexivity | split; [ reflexivity | split; [ discriminate | intros x y [<-|[]] [<-|[]]; auto ] ] ].
  - apply le_n.
  - exact S1.
  - destruct Hs as [-> | ->]; intros [|[|t]] [|[|[|[|k]]]] H1 H2; cbn in H1, H2; try lia; cbv; lia.
  - destruct Hs as [-> | ->]; cbv; lia.
  - reflexivity.
  - intros ev [<-|[<-|[<-|[]]]]; cbn; lia.
  - exact Pm.
Qed.
(* 27 steps finish a run: 2 for each of the three full buffers and the two final ones, 5 + 5 looks, 2 for the result *)
Definition ex_h : list (list (crun Z) * list nat) := [([r1; r2], [0; 1; 0; 0; 1; 1; 1; 0; 1] ++ repeat 0 23); ([r2], repeat 0 21)].
Definition ex_old : fsys Z := fun n => if String.eqb n (final_name "d" (r_sp Z r2) 1) then Some (PioProofs.file_of Z (r_sp Z r2) [(0, 0, 1)]%Z) else None.
Example C78_example : decides_eq Z.eqb /\
  (forall rs sched, In (rs, sched) ex_h -> (forall r, In r rs -> computes (Z.eqb 0) "d" r (fun _ _ _ _ => true) PioProps.ex_value) /\ NoDup (map run_key rs)) /\
  let st := play Z Z.eqb "d" ex_old ex_h in
  (exists p2 p2', snd st = [(r1, Ret (Ok [(0, 1, 1); (1, 0, 10); (1, 1, 11)]%Z)); (r2, p2); (r2, p2')]) /\
  fst (run Z (fetch_P123 Z Z.eqb "d" (r_sp Z r1) 1) (fst st)) = Ok [(0, 1, 1); (1, 0, 10); (1, 1, 11)]%Z /\
  fst (run Z (fetch_P123 Z Z.eqb "d" (r_sp Z r2) 1) ex_old) = Ok [(0, 0, 1)]%Z /\
  fst (run Z (fetch_P123 Z Z.eqb "d" (r_sp Z r2) 1) (fst st)) = Err.
Proof.
  split; [ intros a b; apply Z.eqb_eq | ]. split.
  - intros rs sched [E|[E|[]]]; injection E as <- _; (split; [ intros r Hr | ]).
    + destruct Hr as [<-|[<-|[]]]; apply ex_computes; auto.
    + constructor; [ intros [E|[]]; vm_compute in E; discriminate | constructor; [ intros [] | constructor ] ].
    + destruct Hr as [<-|[]]; apply ex_computes; auto.
    + constructor; [ intros [] | constructor ].
  - split; [ do 2 eexists; vm_compute; reflexivity | ]. split; [ vm_compute; reflexivity | ]. split; vm_compute; reflexivity.
Qed.

(* C79 is false: the quadrature (Nphi, Nx) is neither in the file name nor in the file.  A run that computes the elements
   [value Q] of quadrature Q and ends, followed by a solving run for the same model space that asks for quadrature Q': the
   latter gets the matrix of Q without complaint, and that is not the matrix of Q' as soon as one element differs. *)
Theorem C79_refuted V veqb (vzero : V -> bool) folder (value : nat * nat -> nat -> nat -> nat -> nat -> nat -> nat -> V) ovl fs0 r sched res Q Q' :
  decides_eq veqb -> computes vzero folder r ovl (value Q) ->
  snd (play V veqb folder fs0 [([r], sched)]) = [(r, Ret (Ok res))] ->
  (exists ap qp pp a q p, ap < length (sp_pw V (r_sp V r)) /\ qp < sp_Nq V (r_sp V r) /\ pp < sp_Np V (r_sp V r) /\
     a < length (sp_pw V (r_sp V r)) /\ q < sp_Nq V (r_sp V r) /\ p < sp_Np V (r_sp V r) /\ ovl qp pp q p = true /\
     value Q ap qp pp a q p <> value Q' ap qp pp a q p /\ vzero (value Q ap qp pp a q p) = false) ->
  fst (run V (fetch_P123 V veqb folder (r_sp V r) (r_J2 V r)) (fst (play V veqb folder fs0 [([r], sched)]))) = Ok res /\
  matrix_of vzero (r_sp V r) ovl (value Q) res /\ ~ matrix_of vzero (r_sp V r) ovl (value Q') res.
Proof. exact (PRunLemmas.quadrature_unchecked V veqb vzero folder value ovl fs0 r sched res Q Q'). Qed.
Print Assumptions C79_refuted.
Example C79_refuted_example :
  let value (Q : nat * nat) ap qp pp a q p := (PioProps.ex_value ap qp pp a q p + Z.of_nat (snd Q) - 5)%Z in
  computes (Z.eqb 0) "d" r1 (fun _ _ _ _ => true) (value (1, 5)) /\
  snd (play Z Z.eqb "d" (fun _ => None) [([r1], repeat 0 30)]) = [(r1, Ret (Ok [(0, 1, 1); (1, 0, 10); (1, 1, 11)]%Z))] /\
  exists ap qp pp a q p, ap < 1 /\ qp < 2 /\ pp < 1 /\ a < 1 /\ q < 2 /\ p < 1 /\ true = true /\
     value (1, 5) ap qp pp a q p <> value (1, 6) ap qp pp a q p /\ Z.eqb 0 (value (1, 5) ap qp pp a q p) = false.
Proof.
  intros value. split.
  - destruct (ex_computes PioProps.ex_pw (or_introl eq_refl)) as [A B C D E F G H]. constructor; assumption.
  - split; [ vm_compute; reflexivity | ]. exists 0, 1, 0, 0, 1, 0. repeat split; try lia; vm_compute; congruence.
Qed.
(* C79, the part that holds: if all runs of the folder that ended for this model space used the same quadrature, and no
   older file was there, a solving run that gets a matrix gets the one of that quadrature *)
Theorem C79_partial V veqb (vzero : V -> bool) folder ovl value fs0 h :
  decides_eq veqb ->
  (forall rs sched, In (rs, sched) h -> (forall r, In r rs -> computes vzero folder r (ovl r) (value r)) /\ NoDup (map run_key rs)) ->
  forall sp J2 ovl' value', well_formed sp -> String.length (final_name folder sp J2) < 300 ->
  (forall r res, In (r, Ret (Ok res)) (snd (play V veqb folder fs0 h)) -> r_sp V r = sp -> ovl r = ovl' /\ value r = value') ->
  fs0 (final_name folder sp J2) = None ->
  forall res, fst (run V (fetch_P123 V veqb folder sp J2) (fst (play V veqb folder fs0 h))) = Ok res -> matrix_of vzero sp ovl' value' res.
Proof. exact (PRunLemmas.same_quadrature V veqb vzero folder ovl value fs0 h). Qed.
Print Assumptions C79_partial.
Example C79_partial_example : 
  (forall r res, In (r, Ret (Ok res)) (snd (play Z Z.eqb "d" (fun _ => None) [([r1], repeat 0 30)])) -> r_sp Z r = r_sp Z r1 ->
     (fun _ : crun Z => PioProps.ex_value) r = PioProps.ex_value) /\
  exists res, fst (run Z (fetch_P123 Z Z.eqb "d" (r_sp Z r1) 1) (fst (play Z Z.eqb "d" (fun _ => None) [([r1], repeat 0 30)]))) = Ok res /\ length res = 3.
Proof. split; [ reflexivity | ]. eexists. split; vm_compute; reflexivity. Qed.
