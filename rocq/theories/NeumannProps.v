(* C98, C99: the file of Neumann terms the iterative solver writes. *)
From Coq Require Import Reals String Ascii.
From Verif Require Import Common ArrayLib PWModel PWSpec SwpModel ResolventModel KernelModel KernelSpec FaddeevModel FaddeevSpec DetModel DenseModel PadeSpec FaddeevExample.
From Verif Require Import NameModel ParamsModel TextModel TextSpec NeumannModel NeumannSpec.
From Verif Require NeumannFinal DetExists.
Open Scope nat_scope.
Open Scope list_scope.

(* C98.  [bl] is the list of the blocks written, in the order of writing: their number n and, for every elastic element, a
   complex number.  They are numbered 0, 1, ..., 2L without gap, L <= 14, and the amplitude reported for an element is the
   approximant, of an order accepted by the rule, of the numbers the file gives for it: it can be recomputed from the file.
   What the file gives for the element is its Neumann term up to n = 2k and that same last term in the blocks behind. *)
Theorem C98_terms s tensor iso J_2N_max two_J_3N_max c states V C getrf f fb U UBU U' UBU' bl :
  channel_system s tensor iso J_2N_max two_J_3N_max c states V C -> (1 <= zn (s_D s) <= 2 ^ 28)%Z -> getrf_contract getrf ->
  pade_method_traced (determinant getrf) (Some f, Some fb) s U UBU = Ok (U', UBU', bl) ->
  let A := kernel_matrix s tensor iso states V C in
  exists L, L <= 14 /\ map fst bl = seq 0 (2 * L + 1) /\ (forall n v, In (n, v) bl -> length v = s_nd s * s_nd s * s_nq s) /\
    forall e, elastic s e -> exists k b, k <= L /\ accepted (fun n => term s A n e) b k /\
      (forall n, n <= 2 * L -> recorded bl n (e_idx e) = term s A (min n (2 * k)) e) /\
      nth (e_idx e) U' c0 = approximant (fun n => recorded bl n (e_idx e)) b c1.
Proof. exact (fun H1 H2 H3 => NeumannFinal.terms_recorded s tensor iso J_2N_max two_J_3N_max c states V C H1 H2 getrf H3 f fb U UBU U' UBU' bl). Qed.
Print Assumptions C98_terms.
(* The run that writes the file is the run whose amplitudes C44 and C45 speak of. *)
Theorem C98_same s tensor iso J_2N_max two_J_3N_max c states V C getrf f fb U UBU U' UBU' :
  channel_system s tensor iso J_2N_max two_J_3N_max c states V C -> (1 <= zn (s_D s) <= 2 ^ 28)%Z ->
  (pade_method_solve (determinant getrf) (Some f, Some fb) s U UBU = Ok (U', UBU') <->
   exists bl, pade_method_traced (determinant getrf) (Some f, Some fb) s U UBU = Ok (U', UBU', bl)).
Proof. exact (fun H1 H2 => NeumannFinal.trace_solve s tensor iso J_2N_max two_J_3N_max c states V C H1 H2 getrf f fb U UBU U' UBU'). Qed.
Print Assumptions C98_same.
(* The file on disk: comment lines with the numbers of the blocks; for each block one row per element (deuteron states dr, dc,
   energy k), from which the two doubles can be recovered, followed by the partial waves and the momentum bin it belongs to.
   [re], [im] are the doubles in memory.  Nothing is left of a file of that name from before, no other file is touched. *)
Theorem C98_file (re im : cdouble -> double) s name bl fs :
  bl <> [] -> (forall n v, In (n, v) bl -> length v = s_nd s * s_nd s * s_nq s) ->
  exists com text, comment_array s = Ok com /\ put_blocks re im name com bl fs name = Some text /\
    (forall g, g <> name -> put_blocks re im name com bl fs g = fs g) /\
    filter TextSpec.comment (lines text) = map (fun b => "# n = " ++ to_string (Z.of_nat (fst b)))%string bl /\
    length (table text) = length bl * (s_nd s * s_nd s * s_nq s) /\
    forall j n v dr dc k, nth_error bl j = Some (n, v) -> dr < s_nd s -> dc < s_nd s -> k < s_nq s ->
      let i := dr * s_nd s * s_nq s + dc * s_nq s + k in
      exists row, nth_error (table text) (j * (s_nd s * s_nd s * s_nq s) + i) = Some row /\ length row = 6 /\
        (finite (re (nth i v c0)) -> shows_real (nth_error row 0) (re (nth i v c0))) /\
        (finite (im (nth i v c0)) -> shows_real (nth_error row 1) (im (nth i v c0))) /\
        skipn 2 row = ["#"; "alpha'-idx=" ++ to_string (Z.of_nat (nth dr (s_d s) 0)); "alpha-idx=" ++ to_string (Z.of_nat (nth dc (s_d s) 0));
                       "q-idx=" ++ to_string (Z.of_nat (nth k (s_q s) 0))]%string.
Proof. exact (NeumannFinal.file_written re im s name bl fs). Qed.
Print Assumptions C98_file.
(* a system of ten partial waves, two deuteron channels and one energy: the solver runs, the hypotheses hold *)
Example C98_example fb : exists getrf CT VC U' bl,
  let s := sys10 CT VC 1 0 (1 / 10 ^ 8) 0 false [] [] in
  getrf_contract getrf /\ channel_system s true false 1 1 0 (states_of 1) (unit_mats 4 1) (unit_mats 4 1) /\ (1 <= zn (s_D s) <= 2 ^ 28)%Z /\
  pade_method_traced (determinant getrf) (Some (fun _ => rc (1 + 5 / 10 ^ 8)), Some fb) s (repeat c0 4) [] = Ok (U', [], bl) /\ 1 < length bl /\ elastic s (mkelt 0 0 4).
Proof.
  destruct DetExists.getrf_exists as [getrf Hg]. destruct (NeumannFinal.stale getrf Hg fb) as (CT & VC & U' & bl & H1 & H2 & H3 & H4 & H5 & _).
  exists getrf, CT, VC, U', bl. cbv zeta. split; [ exact Hg | ]. split; [ exact H1 | ]. split; [ exact H2 | ]. split; [ exact H3 | ]. split; [ | exact H4 ].
  destruct (C98_terms _ _ _ _ _ _ _ _ _ getrf _ _ _ _ _ _ _ H1 H2 Hg H3) as (L & _ & HN & _).
  rewrite <- (map_length fst), HN, seq_length. destruct L; [ | lia ]. rewrite HN in H5. cbn in H5. destruct H5 as [H5|[]]. discriminate.
Qed.
Definition ex_re (x : cdouble) : double := Fin true 7205759403792794 (-56).
Definition ex_im (x : cdouble) : double := Zer true.
Example C98_example_text CT VC : exists com, comment_array (sys10 CT VC 1 0 0 0 false [] []) = Ok com /\ nth_error com 1 = Some (String "009" "#" ++ String "009" " alpha'-idx=4" ++ String "009" " alpha-idx=5" ++ String "009" " q-idx=0")%string /\
  number_line ex_re ex_im c0 (nth 1 com "") = ("-1.00000000000000006e-01 -0.00000000000000000e+00 " ++ nth 1 com "")%string.
Proof. eexists. split; [ vm_compute; reflexivity | ]. split; vm_compute; reflexivity. Qed.

(* C99.  The block numbered n does not hold the n-th term of every element: an element that has been accepted is skipped
   from then on, and the place it has in the block keeps its last value, without a mark.  Here the first element is
   accepted at order 0; block 1 gives 1 for it, its term of order 1 is 1e-8. *)
Theorem C99_refuted getrf fb : getrf_contract getrf -> exists CT VC U' bl,
  let s := sys10 CT VC 1 0 (1 / 10 ^ 8) 0 false [] [] in
  channel_system s true false 1 1 0 (states_of 1) (unit_mats 4 1) (unit_mats 4 1) /\ (1 <= zn (s_D s) <= 2 ^ 28)%Z /\
  pade_method_traced (determinant getrf) (Some (fun _ => rc (1 + 5 / 10 ^ 8)), Some fb) s (repeat c0 4) [] = Ok (U', [], bl) /\
  elastic s (mkelt 0 0 4) /\ In 1 (map fst bl) /\ recorded bl 1 0 = rc 1 /\
  term s (kernel_matrix s true false (states_of 1) (unit_mats 4 1) (unit_mats 4 1)) 1 (mkelt 0 0 4) = rc (1 / 10 ^ 8).
Proof. exact (fun H => NeumannFinal.stale getrf H fb). Qed.
Print Assumptions C99_refuted.
(* And the name of the file contains grids, channel and subsystem cut, but not the parameter set: what one set wrote is
   gone after the next. *)
Theorem C99_refuted_sets (re im : cdouble -> double) name com1 com2 bl1 bl2 fs : bl1 <> [] -> bl2 <> [] ->
  put_blocks re im name com2 bl2 (put_blocks re im name com1 bl1 fs) name = put_blocks re im name com2 bl2 fs name.
Proof. exact (NeumannFinal.last_wins re im name com1 com2 bl1 bl2 fs). Qed.
Print Assumptions C99_refuted_sets.
(* What is true: for every element, the blocks up to twice the order at which it was accepted hold its terms. *)
Theorem C99_partial s tensor iso J_2N_max two_J_3N_max c states V C getrf f fb U UBU U' UBU' bl e :
  channel_system s tensor iso J_2N_max two_J_3N_max c states V C -> (1 <= zn (s_D s) <= 2 ^ 28)%Z -> getrf_contract getrf ->
  pade_method_traced (determinant getrf) (Some f, Some fb) s U UBU = Ok (U', UBU', bl) -> elastic s e ->
  let A := kernel_matrix s tensor iso states V C in
  exists k b, accepted (fun n => term s A n e) b k /\ In (2 * k) (map fst bl) /\
    (forall n, n <= 2 * k -> recorded bl n (e_idx e) = term s A n e) /\
    (forall n, 2 * k <= n -> In n (map fst bl) -> recorded bl n (e_idx e) = term s A (2 * k) e).
Proof.
  intros H1 H2 H3 H4 H5 A. destruct (NeumannFinal.terms_recorded s tensor iso J_2N_max two_J_3N_max c states V C H1 H2 getrf H3 f fb U UBU U' UBU' bl H4) as (L & HL & HN & _ & He).
  destruct (He e H5) as (k & b & K1 & K2 & K3 & _). exists k, b. split; [ exact K2 | ]. rewrite HN.
  split; [ apply in_seq; lia | ]. split; intros n Hn.
  - rewrite K3 by lia. rewrite Nat.min_l by lia. reflexivity.
  - intros Hi. apply in_seq in Hi. rewrite K3 by lia. rewrite Nat.min_r by lia. reflexivity.
Qed.
Print Assumptions C99_partial.
