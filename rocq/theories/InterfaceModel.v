(** What each halo class hands to the ray-tracing package: lenstronomy_ID and the keys of lenstronomy_params (C107).
    Simplification: the numbers are arguments, a value for each keyword of each component; they are modelled in NfwModel.v,
    CompositeModel.v, GalaxyModel.v, TidalModel.v and others.  Caching is modelled in RescaleModel.v. *)
From Coq Require Import String.
From Verif Require Import Prelude RealizationModel.
Import ListNotations.
Open Scope string_scope.

(** the halo classes; a subclass that inherits both properties is not listed again *)
Inductive hclass :=
| HNFW         (* NFW.py 5, also NFWSubhhalo 110 *)
| HCNFW        (* NFW_core.py 5 *)
| HTNFWC       (* NFW_core_trunc.py 9, also TNFWCHaloEvolving 209 *)
| HHybrid      (* NFW_core_trunc.py 274 *)
| HPJaffe      (* PsuedoJaffe.py 5, also PJaffeFieldhalo 119 *)
| HTNFW        (* TNFW.py 8, also TNFWSubhalo 267 *)
| HTNFWParams  (* TNFWFromParams.py 4 *)
| HEmulator    (* TNFWemulator.py 49 *)
| HULDM        (* ULDM.py 8, also ULDMSubhalo 240 *)
| HBlackHole   (* blackhole.py 4 *)
| HCollapsed   (* core_collapsed_halo.py 9 *)
| HCollapsedBH (* core_collapsed_halo.py 267 *)
| HGaussian    (* gaussianhalo.py 5 *)
| HGNFW        (* generalized_nfw.py 5, also GeneralNFWFieldHalo 137 *)
| HCluster     (* globular_cluster.py 5 *)
| HPowerLaw    (* powerlaw.py 5, also PowerLawFieldHalo 94 *)
| HSIS         (* sis.py 6 *)
| HGalaxy.     (* sis.py 72 *)

(** lenstronomy_ID: NFW.py 44, NFW_core.py 50, NFW_core_trunc.py 122, 373, PsuedoJaffe.py 105, TNFW.py 171, TNFWemulator.py 147,
    ULDM.py 31, blackhole.py 34, core_collapsed_halo.py 179, 356, gaussianhalo.py 34, generalized_nfw.py 78, globular_cluster.py 112,
    powerlaw.py 61, sis.py 56, 164; TNFWFromParams.py inherits TNFW.py 171 *)
Definition lens_id (c : hclass) : list string :=
  match c with
  | HNFW => ["NFW"]
  | HCNFW => ["CNFW"]
  | HTNFWC => ["TNFWC"]
  | HHybrid => ["TNFW"; "TNFWC"]
  | HPJaffe => ["PJAFFE"]
  | HTNFW | HTNFWParams | HEmulator => ["TNFW"]
  | HULDM => ["CNFW"; "ULDM"]
  | HBlackHole => ["POINT_MASS"]
  | HCollapsed => ["CORE_COLLAPSED_HALO"]
  | HCollapsedBH => ["CORE_COLLAPSED_HALO_BH"]
  | HGaussian => ["GAUSSIAN"]
  | HGNFW | HGalaxy => ["PSEUDO_DPL"]
  | HCluster | HPowerLaw => ["SPL_CORE"]
  | HSIS => ["SIS"]
  end.

(** a dictionary display: keys in the order written *)
Definition disp (v : string -> R) (ks : list string) : kw := map (fun k => (k, v k)) ks.

(** lenstronomy_params: NFW.py 61-62, NFW_core.py 73-74, NFW_core_trunc.py 136-140, PsuedoJaffe.py 79-83, TNFW.py 213-214,
    TNFWFromParams.py 66-93, TNFWemulator.py 93-112, ULDM.py 55-61 with 157-171, blackhole.py 47, core_collapsed_halo.py 168-171, 345-348,
    gaussianhalo.py 41-44, generalized_nfw.py 69-70, globular_cluster.py 88-89, powerlaw.py 51-52, sis.py 68, 153-156; the hybrid
    (NFW_core_trunc.py 347-351) copies the dictionaries of its two constituents and multiplies an entry of each.  [v i k] is the value
    under the key k of the i-th component. *)
Definition lens_dicts (v : nat -> string -> R) (c : hclass) : list kw :=
  match c with
  | HNFW => [disp (v 0%nat) ["alpha_Rs"; "Rs"; "center_x"; "center_y"]]
  | HCNFW => [disp (v 0%nat) ["alpha_Rs"; "Rs"; "r_core"; "center_x"; "center_y"]]
  | HTNFWC => [disp (v 0%nat) ["alpha_Rs"; "Rs"; "center_x"; "center_y"; "r_trunc"; "r_core"]]
  | HHybrid => [disp (v 0%nat) ["alpha_Rs"; "Rs"; "center_x"; "center_y"; "r_trunc"];
                disp (v 1%nat) ["alpha_Rs"; "Rs"; "center_x"; "center_y"; "r_trunc"; "r_core"]]
  | HPJaffe => [disp (v 0%nat) ["center_x"; "center_y"; "Ra"; "Rs"; "sigma0"]]
  | HTNFW | HTNFWParams | HEmulator => [disp (v 0%nat) ["alpha_Rs"; "Rs"; "center_x"; "center_y"; "r_trunc"]]
  | HULDM => [disp (v 0%nat) ["alpha_Rs"; "Rs"; "center_x"; "center_y"; "r_core"];
              disp (v 1%nat) ["theta_c"; "kappa_0"; "center_x"; "center_y"]]
  | HBlackHole => [disp (v 0%nat) ["center_x"; "center_y"; "theta_E"]]
  | HCollapsed => [disp (v 0%nat) ["center_x"; "center_y"; "Rs_inner"; "Rs_outer"; "alpha_Rs_inner"; "alpha_Rs_outer"; "r_trunc";
                                   "gamma_inner"; "gamma_outer"]]
  | HCollapsedBH => [disp (v 0%nat) ["center_x"; "center_y"; "Rs_outer"; "theta_E_inner"; "alpha_Rs_outer"; "r_trunc"]]
  | HGaussian => [disp (v 0%nat) ["amp"; "sigma"; "center_x"; "center_y"]]
  | HGNFW | HGalaxy => [disp (v 0%nat) ["alpha_Rs"; "Rs"; "gamma_inner"; "center_x"; "center_y"; "gamma_outer"]]
  | HCluster | HPowerLaw => [disp (v 0%nat) ["sigma0"; "gamma"; "center_x"; "center_y"; "r_core"]]
  | HSIS => [disp (v 0%nat) ["theta_E"; "center_x"; "center_y"]]
  end.
