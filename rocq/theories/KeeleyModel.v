(** Model of InterpGalacticusKeeley24 (Halos/galacticus_truncation/interp_mass_loss.py 5-73) with the tables it ships. *)
From Verif Require Import Prelude Interp MassFnModel InfallModel MassLossTables MassLossModel KeeleyTables.
Local Open Scope R_scope.

(** interp_mass_loss.py 13-19: the axes *)
Definition k_time : axis := mkAxis 0 7.658449372663094 20.
Definition k_host : axis := mkAxis 2 8 20.
Definition k_logc : axis := mkAxis 0.3010299956639812 2.3010299956639813 20.
(** interp_mass_loss.py 20-25 and 41-56: the interpolated mean; points outside are extrapolated (fill_value=None) *)
Definition k_mean (t chost logc : R) : R := rgi3 k_time k_host k_logc (entry keeley_mean_table 20) t chost logc.
(** interp_mass_loss.py 20-25 and 58-73 *)
Definition k_scatter (t chost logc : R) : R := rgi3 k_time k_host k_logc (entry keeley_scatter_table 20) t chost logc.
(** interp_mass_loss.py 27-39: [g] is one standard normal draw *)
Definition keeley24 (g logc t chost : R) : R := keeley_loss k_mean k_scatter g logc t chost.
