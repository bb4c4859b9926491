(** Specification of halo loading, independent of the control flow of [_load_halo_model]:
    the documented table of mass definitions and what "the halo of a row" means. *)
From Verif Require Import Prelude LoaderModel.

(** mass definition, class for subhalos, class for field halos *)
Definition class_table : list (string * (string * string)) :=
  [ ("NFW", ("NFWSubhhalo", "NFWFieldHalo"));
    ("TNFW", ("TNFWSubhalo", "TNFWFieldHalo"));
    ("PT_MASS", ("BlackHole", "BlackHole"));
    ("PJAFFE", ("PJaffeSubhalo", "PJaffeSubhalo"));
    ("ULDM", ("ULDMSubhalo", "ULDMFieldHalo"));
    ("GAUSSIAN_KAPPA", ("GaussianHalo", "GaussianHalo"));
    ("GNFW", ("GeneralNFWSubhalo", "GeneralNFWFieldHalo"));
    ("SPL_CORE", ("PowerLawSubhalo", "PowerLawFieldHalo")) ]%string.

(** [cl] is the class documented for [mdef] in the population [sub]. *)
Definition documented (mdef : string) (sub : bool) (cl : string) : Prop :=
  exists s f, In (mdef, (s, f)) class_table /\ cl = if sub then s else f.

Definition supported (mdef : string) : Prop := In mdef (map fst class_table).

(** The model handle of a population: a global entry wins, otherwise the population's own entry. *)
Definition population_model (d : dict) (glob subs field : string) (sub : bool) (h : Z) : Prop :=
  dget glob d = Some h \/
  (dget glob d = None /\ dget (if sub then subs else field) d = Some h).

(** [h] is the halo that row [w] with mass definition [mdef] should produce. *)
Definition halo_of_row (d : dict) (w : Row) (mdef : string) (h : Loaded) : Prop :=
  documented mdef (w_sub w) (ld_class h) /\
  ld_mass h = w_mass w /\ ld_x h = w_x w /\ ld_y h = w_y w /\ ld_r3d h = w_r3d w /\
  ld_z h = w_z w /\ ld_sub h = w_sub w /\
  population_model d "truncation_model" "truncation_model_subhalos" "truncation_model_field_halos"
    (w_sub w) (ld_trunc h) /\
  population_model d "concentration_model" "concentration_model_subhalos" "concentration_model_field_halos"
    (w_sub w) (ld_conc h) /\
  dget "kwargs_density_profile" d = Some (ld_args h).

(** All the entries the loader needs for population [sub] are in the dictionary. *)
Definition complete_for (d : dict) (sub : bool) : Prop :=
  (exists h, population_model d "truncation_model" "truncation_model_subhalos" "truncation_model_field_halos" sub h) /\
  (exists h, population_model d "concentration_model" "concentration_model_subhalos"
               "concentration_model_field_halos" sub h) /\
  (exists h, dget "kwargs_density_profile" d = Some h).
