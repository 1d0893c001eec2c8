(* The loops over rows and columns of the permutation matrix: make_permutation_matrix.cpp l.737-905, combining the
   geometric function (GeoModel), the overlap table and the element integral (PermModel). *)
From Coq Require Import Reals.
From Verif Require Import Common ArrayLib PWModel SwpModel PermModel GeoModel PioModel.
Open Scope nat_scope.

(* One iteration qp of the parallel loop, l.740-905: the elements it emits, in order.  The emitted elements go to the
   thread buffers (PioModel.push).  [G0]: contents of the thread's Gtilde_subarray when the iteration starts.
   production_run = true and use_dense_format = false, as set by the callers (l.1171, make_permutation_matrix.h). *)
Definition row_work (legsize : Z -> Z) (states : list pw) (t : gtabs) (roots : list R) (Np Nq : nat) (pb qb phi wphi xs wxs : list R)
    (tab : list bool) (qp : nat) (G0 : list R) : outcome (list (elem R)) :=
  let Nphi := length roots in
  let Nalpha := length states in
  do r <- ofold (fun st pp => ofold (fun st ap => ofold (fun st a =>
      do G <- gtilde_subarray legsize states t Np Nphi xs qp pp (zn ap) (zn a) (snd st);
      do acc <- ofold (fun acc q => ofold (fun acc p =>
          do o <- aread tab (pq_idx Np Nq qp pp q p);
          if o : bool then
            do v <- P123_element roots G p q pp qp pb qb xs wxs
                      (slice (map sin phi) ((qp * Np + pp) * Nphi) Nphi) (slice (map cos phi) ((qp * Np + pp) * Nphi) Nphi)
                      (slice wphi ((qp * Np + pp) * Nphi) Nphi);
            if Req_EM_T v 0 then Ok acc
            else Ok (acc ++ [(Z.of_nat (P123_idx Np Nq ap qp pp), Z.of_nat (P123_idx Np Nq a q p), v)])
          else Ok acc) (seq 0 Np) acc) (seq 0 Nq) (fst st);
      Ok (acc, G)) (seq 0 Nalpha) st) (seq 0 Nalpha) st) (seq 0 Np) ([], G0);
  Ok (fst r).
