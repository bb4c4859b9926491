(** Model of the infall redshift and of the time since infall of a subhalo that was never asked before: Halos/halo_base.py
    130-158 and 185-192, on top of the infall models (InfallModel.v: Halos/accretion.py, Halos/lens_cosmo.py 75-140) and of the
    age table of Cosmology/cosmology.py 103-125 (SpaceModel.v), with the vectorised version Halos/batch_halo_util.py 175-217. *)
From Verif Require Import Prelude MassFnModel Interp InfallModel SpaceModel.
Local Open Scope R_scope.
Local Open Scope list_scope.

(** the answer of the cosmology object after the queries [qs] *)
Definition cosmo_answer (a : astro) (qs : list query) (q : query) : result R := snd (ask a (fst (ask_all a (cosmo_init a) qs)) q).
(** what a subhalo reports: its infall redshift, whether the warning of halo_base.py 140-142 was printed, the time since infall *)
Record infall_report := { ir_z : R; ir_warned : bool; ir_time : R }.
(** halo_base.py 130-144 and 146-158: [m], [z] are the mass and redshift of the subhalo, [v] the random number, [qs] the queries
    the cosmology object has answered before *)
Definition ask_subhalo (a : astro) (qs : list query) (st : lc_state) (m z v : R) : result infall_report :=
  do zi <- z_accreted st m v;
  let warned := Rltb zi z in
  do t <- cosmo_answer a qs (QAge z zi);
  if Rltb t 0 then Err EAssertionError else Ok {| ir_z := zi; ir_warned := warned; ir_time := t |}.
(** halo_base.py 185-192: the age of a halo that formed at redshift 10 *)
Definition age_from_10 (a : astro) (qs : list query) (z : R) : result R := cosmo_answer a qs (QAge z 10).

(** One new subhalo: mass, redshift, random number *)
Record newcomer := { nc_m : R; nc_z : R; nc_v : R }.
(** batch_halo_util.py 188-217: infall redshifts first, then both interpolations for the whole array, then one assertion and one
    assignment per subhalo.  The warning of halo_base.py is not printed here. *)
Definition age_of (a : astro) (z : R) : result R := interp1d (age_table a) z.
Fixpoint set_times (l : list (R * R)) : result (list (R * R)) :=
  match l with
  | [] => Ok []
  | (zi, dt) :: t => if Rltb dt 0 then Err EAssertionError else do r <- set_times t; Ok ((zi, dt) :: r)
  end.
Definition np_where_age (z zi t ti : R) : R := if Rltb zi z then 0 else t - ti.
Definition batch_times (a : astro) (st : lc_state) (hs : list newcomer) : result (list (R * R)) :=
  do zis <- sample_infall_redshifts st (map (fun h => (nc_m h, nc_v h)) hs);
  do ts <- mapM (fun h => age_of a (nc_z h)) hs;
  do tis <- mapM (age_of a) zis;
  set_times (map (fun q => (snd (fst q), np_where_age (fst (fst (fst q))) (snd (fst q)) (snd (fst (fst q))) (snd q)))
    (combine (combine (combine (map nc_z hs) ts) zis) tis)).
