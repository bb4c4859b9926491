(** The two tables of Halos/galacticus_truncation/tabulated_mass_loss_Keeley24.py, in thousandths (the file gives two decimals). *)
From Coq Require Import ZArith List.
Import ListNotations.
Open Scope Z_scope.
(** tabulated_mass_loss_Keeley24.py: _log10_mbound_over_minfall *)
Definition keeley_mean_table : list Z :=
  [0; 0; 0; 0; 0; 0; 0; 0; 0; 0; 0; 0; 0; 0; 0; 0; 0; 0; 0; 0; 0; 0; 0; 0; 0; 0; 0; 0; 0; 0; 0; 0; 0; 0; 0; 0; 0; 0; 0; 0; 
   0; 0; 0; 0; 0; 0; 0; 0; 0; 0; 0; 0; 0; 0; 0; 0; 0; 0; 0; 0; 0; 0; 0; 0; 0; 0; 0; 0; 0; 0; 0; 0; 0; 0; 0; 0; 0; 0; 0; 0; 
   0; 0; 0; 0; 0; 0; 0; 0; 0; 0; 0; 0; 0; 0; 0; 0; 0; 0; 0; 0; 0; 0; 0; 0; 0; 0; 0; 0; 0; 0; 0; 0; 0; 0; 0; 0; 0; 0; 0; 0; 
   0; 0; 0; 0; 0; 0; 0; 0; 0; 0; 0; 0; 0; 0; 0; 0; 0; 0; 0; 0; 0; 0; 0; 0; 0; 0; 0; 0; 0; 0; 0; 0; 0; 0; 0; 0; 0; 0; 0; 0; 
   0; 0; 0; 0; 0; 0; 0; 0; 0; 0; 0; 0; 0; 0; 0; 0; 0; 0; 0; 0; 0; 0; 0; 0; 0; 0; 0; 0; 0; 0; 0; 0; 0; 0; 0; 0; 0; 0; 0; 0; 
   0; 0; 0; 0; 0; 0; 0; 0; 0; 0; 0; 0; 0; 0; 0; 0; 0; 0; 0; 0; 0; 0; 0; 0; 0; 0; 0; 0; 0; 0; 0; 0; 0; 0; 0; 0; 0; 0; 0; 0; 
   0; 0; 0; 0; 0; 0; 0; 0; 0; 0; 0; 0; 0; 0; 0; 0; 0; 0; 0; 0; 0; 0; 0; 0; 0; 0; 0; 0; 0; 0; 0; 0; 0; 0; 0; 0; 0; 0; 0; 0; 
   0; 0; 0; 0; 0; 0; 0; 0; 0; 0; 0; 0; 0; 0; 0; 0; 0; 0; 0; 0; 0; 0; 0; 0; 0; 0; 0; 0; 0; 0; 0; 0; 0; 0; 0; 0; 0; 0; 0; 0; 
   0; 0; 0; 0; 0; 0; 0; 0; 0; 0; 0; 0; 0; 0; 0; 0; 0; 0; 0; 0; 0; 0; 0; 0; 0; 0; 0; 0; 0; 0; 0; 0; 0; 0; 0; 0; 0; 0; 0; 0; 
   0; 0; 0; 0; 0; 0; 0; 0; 0; 0; 0; 0; 0; 0; 0; 0; 0; 0; 0; 0; 0; 0; 0; 0; 0; 0; 0; 0; 0; 0; 0; 0; 0; 0; 0; 0; 0; 0; 0; 0; 
   (-50); (-50); (-30); (-30); (-30); (-30); (-20); (-20); (-20); (-20); (-10); (-10); (-10); (-10); (-10); (-10); (-10); 
   (-10); (-10); (-10); (-80); (-50); (-50); (-50); (-50); (-30); (-20); (-30); (-30); (-30); (-10); (-10); (-10); (-10); 
   (-10); (-10); (-10); (-10); (-10); (-10); (-100); (-50); (-50); (-50); (-50); (-30); (-20); (-30); (-30); (-30); (-10); 
   (-10); (-10); (-10); (-10); (-10); (-10); (-10); (-10); (-10); (-100); (-50); (-50); (-50); (-50); (-30); (-30); (-30); 
   (-30); (-30); (-20); (-10); (-10); (-10); (-10); (-10); (-10); (-10); (-10); (-10); (-100); (-50); (-50); (-50); (-50); 
   (-30); (-40); (-30); (-30); (-30); (-20); (-10); (-10); (-10); (-10); (-10); (-10); (-10); (-10); (-10); (-100); (-50); 
   (-50); (-50); (-50); (-40); (-40); (-30); (-30); (-30); (-30); (-10); (-10); (-10); (-10); (-10); (-10); (-10); (-10); 
   (-10); (-100); (-50); (-50); (-50); (-50); (-50); (-40); (-30); (-30); (-30); (-30); (-10); (-10); (-10); (-10); (-10); 
   (-10); (-10); (-10); (-10); (-100); (-50); (-50); (-50); (-50); (-50); (-40); (-30); (-30); (-30); (-30); (-10); (-10); 
   (-20); (-10); (-10); (-10); (-10); (-10); (-10); (-100); (-50); (-50); (-50); (-50); (-50); (-40); (-30); (-30); (-30); 
   (-30); (-10); (-10); (-20); (-10); (-10); (-10); (-10); (-10); (-10); (-100); (-50); (-50); (-50); (-50); (-50); (-40); 
   (-30); (-30); (-30); (-30); (-20); (-20); (-20); (-10); (-10); (-10); (-10); (-10); (-10); (-100); (-100); (-100); 
   (-100); (-90); (-50); (-40); (-30); (-30); (-30); (-30); (-30); (-20); (-20); (-20); (-20); (-10); (-10); (-10); (-10); 
   (-100); (-100); (-100); (-100); (-90); (-40); (-40); (-30); (-30); (-30); (-30); (-30); (-20); (-20); (-20); (-20); 
   (-10); (-10); (-10); (-10); (-100); (-100); (-100); (-100); (-90); (-50); (-40); (-30); (-30); (-30); (-30); (-30); 
   (-20); (-20); (-20); (-20); (-10); (-10); (-10); (-10); (-100); (-100); (-100); (-100); (-90); (-40); (-40); (-30); 
   (-30); (-30); (-30); (-30); (-20); (-20); (-20); (-20); (-20); (-10); (-10); (-10); (-100); (-100); (-100); (-100); 
   (-90); (-50); (-40); (-30); (-30); (-30); (-30); (-30); (-20); (-20); (-20); (-20); (-20); (-10); (-10); (-10); (-100); 
   (-100); (-100); (-100); (-90); (-50); (-40); (-30); (-30); (-30); (-30); (-30); (-20); (-20); (-20); (-20); (-20); 
   (-10); (-10); (-10); (-100); (-100); (-100); (-100); (-90); (-50); (-40); (-30); (-30); (-30); (-30); (-30); (-20); 
   (-20); (-20); (-20); (-20); (-10); (-10); (-10); (-100); (-100); (-100); (-100); (-90); (-40); (-50); (-30); (-30); 
   (-30); (-30); (-30); (-30); (-20); (-20); (-20); (-20); (-20); (-10); (-10); (-110); (-110); (-110); (-110); (-90); 
   (-50); (-50); (-40); (-40); (-30); (-30); (-30); (-30); (-20); (-20); (-20); (-20); (-20); (-10); (-10); (-150); 
   (-150); (-150); (-140); (-120); (-50); (-50); (-50); (-50); (-30); (-30); (-30); (-30); (-20); (-20); (-20); (-20); 
   (-20); (-20); (-20); (-90); (-90); (-80); (-70); (-60); (-50); (-40); (-40); (-40); (-40); (-30); (-30); (-20); (-20); 
   (-20); (-20); (-20); (-20); (-20); (-10); (-130); (-100); (-100); (-100); (-80); (-60); (-60); (-50); (-50); (-40); 
   (-30); (-30); (-20); (-20); (-20); (-20); (-20); (-20); (-20); (-20); (-170); (-100); (-100); (-100); (-100); (-60); 
   (-90); (-60); (-50); (-50); (-30); (-30); (-20); (-20); (-30); (-20); (-20); (-20); (-20); (-20); (-200); (-130); 
   (-110); (-110); (-110); (-70); (-80); (-60); (-60); (-60); (-30); (-30); (-20); (-20); (-30); (-30); (-30); (-30); 
   (-30); (-20); (-200); (-130); (-110); (-110); (-110); (-60); (-80); (-60); (-60); (-60); (-40); (-30); (-20); (-30); 
   (-30); (-30); (-30); (-30); (-30); (-20); (-200); (-130); (-110); (-110); (-110); (-70); (-80); (-60); (-60); (-60); 
   (-50); (-30); (-20); (-30); (-30); (-30); (-30); (-30); (-30); (-20); (-200); (-130); (-110); (-110); (-110); (-80); 
   (-80); (-60); (-60); (-60); (-50); (-30); (-20); (-30); (-30); (-30); (-30); (-30); (-30); (-20); (-200); (-130); 
   (-110); (-110); (-110); (-100); (-80); (-70); (-60); (-60); (-50); (-30); (-20); (-30); (-30); (-30); (-30); (-30); 
   (-30); (-20); (-200); (-130); (-110); (-110); (-110); (-100); (-80); (-70); (-60); (-60); (-50); (-40); (-30); (-40); 
   (-30); (-30); (-30); (-30); (-30); (-20); (-200); (-130); (-110); (-110); (-110); (-100); (-80); (-70); (-60); (-60); 
   (-50); (-40); (-30); (-40); (-30); (-30); (-30); (-30); (-30); (-20); (-200); (-200); (-200); (-200); (-140); (-100); 
   (-80); (-70); (-60); (-60); (-50); (-50); (-40); (-40); (-40); (-30); (-30); (-30); (-20); (-20); (-200); (-200); 
   (-200); (-200); (-140); (-90); (-80); (-70); (-60); (-60); (-50); (-50); (-40); (-40); (-40); (-30); (-30); (-20); 
   (-20); (-20); (-200); (-200); (-200); (-200); (-140); (-90); (-80); (-70); (-60); (-60); (-50); (-60); (-40); (-40); 
   (-40); (-40); (-30); (-30); (-20); (-20); (-200); (-200); (-200); (-200); (-140); (-100); (-80); (-70); (-60); (-60); 
   (-60); (-60); (-40); (-40); (-40); (-40); (-30); (-20); (-20); (-20); (-200); (-200); (-200); (-200); (-150); (-100); 
   (-80); (-70); (-60); (-60); (-60); (-60); (-50); (-40); (-40); (-40); (-30); (-20); (-20); (-20); (-200); (-200); 
   (-200); (-200); (-140); (-90); (-80); (-70); (-60); (-60); (-60); (-60); (-50); (-50); (-40); (-40); (-40); (-30); 
   (-20); (-20); (-200); (-200); (-200); (-200); (-150); (-100); (-90); (-70); (-60); (-60); (-60); (-60); (-50); (-50); 
   (-40); (-40); (-30); (-20); (-20); (-20); (-220); (-220); (-220); (-220); (-150); (-100); (-90); (-70); (-70); (-60); 
   (-60); (-60); (-60); (-50); (-50); (-40); (-40); (-30); (-20); (-20); (-260); (-260); (-250); (-240); (-150); (-100); 
   (-100); (-80); (-80); (-60); (-60); (-60); (-60); (-50); (-50); (-50); (-40); (-30); (-30); (-30); (-290); (-280); 
   (-270); (-270); (-180); (-100); (-100); (-100); (-90); (-70); (-60); (-60); (-60); (-50); (-50); (-50); (-40); (-30); 
   (-30); (-30); (-140); (-140); (-140); (-120); (-90); (-80); (-70); (-60); (-50); (-50); (-40); (-40); (-30); (-30); 
   (-30); (-20); (-20); (-20); (-20); (-20); (-180); (-150); (-140); (-120); (-100); (-80); (-70); (-70); (-60); (-60); 
   (-40); (-40); (-30); (-30); (-30); (-30); (-30); (-30); (-30); (-20); (-210); (-150); (-150); (-150); (-120); (-80); 
   (-100); (-80); (-70); (-70); (-40); (-40); (-30); (-30); (-40); (-30); (-30); (-30); (-30); (-30); (-250); (-180); 
   (-160); (-150); (-140); (-80); (-110); (-80); (-80); (-80); (-40); (-40); (-30); (-40); (-40); (-40); (-40); (-40); 
   (-40); (-30); (-290); (-220); (-160); (-180); (-160); (-100); (-130); (-80); (-90); (-90); (-50); (-40); (-30); (-40); 
   (-40); (-40); (-40); (-40); (-40); (-30); (-290); (-230); (-160); (-170); (-160); (-140); (-140); (-80); (-90); (-90); 
   (-60); (-40); (-30); (-40); (-40); (-40); (-40); (-40); (-40); (-30); (-300); (-230); (-160); (-160); (-160); (-130); 
   (-130); (-90); (-90); (-90); (-70); (-40); (-30); (-50); (-40); (-40); (-40); (-40); (-40); (-30); (-290); (-230); 
   (-160); (-160); (-160); (-150); (-130); (-110); (-80); (-90); (-80); (-50); (-40); (-50); (-40); (-40); (-40); (-40); 
   (-40); (-30); (-290); (-230); (-160); (-160); (-160); (-150); (-120); (-110); (-90); (-90); (-80); (-60); (-50); (-50); 
   (-50); (-40); (-40); (-40); (-40); (-30); (-290); (-230); (-160); (-160); (-160); (-150); (-120); (-110); (-90); (-90); 
   (-80); (-70); (-50); (-50); (-50); (-40); (-40); (-40); (-40); (-30); (-290); (-290); (-290); (-260); (-190); (-140); 
   (-120); (-110); (-90); (-90); (-80); (-70); (-60); (-60); (-50); (-50); (-40); (-40); (-40); (-40); (-290); (-290); 
   (-290); (-260); (-190); (-140); (-120); (-110); (-90); (-90); (-80); (-80); (-60); (-60); (-50); (-50); (-40); (-40); 
   (-30); (-30); (-290); (-290); (-290); (-260); (-200); (-150); (-120); (-110); (-90); (-90); (-80); (-80); (-70); (-60); 
   (-50); (-50); (-40); (-40); (-30); (-30); (-290); (-290); (-300); (-260); (-190); (-140); (-120); (-110); (-90); (-90); 
   (-90); (-80); (-70); (-60); (-60); (-50); (-40); (-40); (-30); (-30); (-290); (-290); (-290); (-270); (-200); (-140); 
   (-120); (-110); (-90); (-90); (-90); (-90); (-80); (-70); (-60); (-50); (-40); (-40); (-40); (-30); (-300); (-300); 
   (-300); (-270); (-200); (-140); (-130); (-110); (-100); (-90); (-90); (-90); (-80); (-70); (-60); (-60); (-50); (-40); 
   (-40); (-30); (-330); (-330); (-330); (-280); (-210); (-150); (-130); (-120); (-110); (-90); (-100); (-90); (-80); 
   (-70); (-60); (-60); (-50); (-40); (-40); (-40); (-370); (-370); (-350); (-300); (-210); (-160); (-140); (-120); 
   (-120); (-100); (-100); (-90); (-90); (-70); (-70); (-70); (-50); (-40); (-40); (-40); (-400); (-400); (-390); (-330); 
   (-220); (-160); (-140); (-130); (-120); (-100); (-100); (-90); (-90); (-80); (-70); (-70); (-50); (-50); (-40); (-40); 
   (-440); (-430); (-400); (-350); (-240); (-160); (-140); (-140); (-130); (-100); (-90); (-90); (-90); (-80); (-80); 
   (-70); (-60); (-50); (-40); (-40); (-180); (-190); (-190); (-140); (-120); (-110); (-90); (-80); (-70); (-70); (-60); 
   (-50); (-40); (-40); (-40); (-40); (-30); (-30); (-30); (-20); (-230); (-190); (-190); (-170); (-130); (-110); (-110); 
   (-90); (-80); (-80); (-60); (-50); (-40); (-40); (-40); (-40); (-40); (-30); (-30); (-30); (-260); (-200); (-200); 
   (-190); (-160); (-110); (-120); (-90); (-90); (-80); (-60); (-50); (-40); (-40); (-50); (-40); (-40); (-40); (-40); 
   (-30); (-300); (-230); (-210); (-200); (-170); (-130); (-140); (-90); (-100); (-100); (-60); (-50); (-40); (-50); 
   (-50); (-50); (-50); (-50); (-40); (-40); (-330); (-260); (-210); (-230); (-200); (-150); (-160); (-100); (-110); 
   (-100); (-70); (-50); (-40); (-50); (-50); (-50); (-50); (-50); (-50); (-40); (-370); (-300); (-240); (-210); (-230); 
   (-170); (-170); (-110); (-110); (-80); (-80); (-60); (-50); (-60); (-50); (-50); (-60); (-60); (-50); (-40); (-390); 
   (-330); (-260); (-220); (-240); (-190); (-180); (-120); (-110); (-110); (-90); (-70); (-50); (-60); (-60); (-60); 
   (-60); (-60); (-50); (-50); (-390); (-330); (-260); (-230); (-240); (-200); (-170); (-120); (-110); (-110); (-100); 
   (-70); (-60); (-70); (-60); (-60); (-60); (-60); (-50); (-40); (-390); (-320); (-260); (-240); (-240); (-210); (-160); 
   (-130); (-120); (-120); (-100); (-80); (-70); (-70); (-60); (-60); (-60); (-60); (-50); (-40); (-390); (-330); (-280); 
   (-260); (-250); (-200); (-160); (-140); (-120); (-120); (-110); (-90); (-70); (-70); (-60); (-60); (-60); (-60); (-50); 
   (-50); (-400); (-400); (-380); (-310); (-250); (-190); (-160); (-150); (-120); (-120); (-110); (-90); (-80); (-70); 
   (-70); (-70); (-60); (-50); (-50); (-40); (-390); (-400); (-390); (-310); (-250); (-200); (-160); (-150); (-120); 
   (-120); (-110); (-100); (-80); (-80); (-70); (-70); (-60); (-50); (-50); (-40); (-390); (-390); (-380); (-320); (-250); 
   (-190); (-160); (-150); (-120); (-120); (-120); (-100); (-90); (-80); (-70); (-70); (-60); (-50); (-50); (-50); (-400); 
   (-390); (-390); (-320); (-250); (-190); (-160); (-150); (-120); (-120); (-120); (-110); (-90); (-80); (-80); (-70); 
   (-60); (-50); (-50); (-40); (-410); (-410); (-400); (-330); (-250); (-200); (-170); (-150); (-130); (-130); (-120); 
   (-110); (-100); (-80); (-80); (-70); (-60); (-50); (-50); (-50); (-440); (-450); (-430); (-330); (-270); (-200); 
   (-170); (-160); (-140); (-130); (-130); (-120); (-100); (-90); (-80); (-80); (-60); (-60); (-50); (-50); (-480); 
   (-480); (-460); (-340); (-270); (-210); (-180); (-160); (-150); (-130); (-130); (-120); (-110); (-90); (-90); (-80); 
   (-70); (-60); (-50); (-50); (-510); (-510); (-480); (-390); (-270); (-220); (-180); (-170); (-160); (-130); (-130); 
   (-120); (-110); (-100); (-90); (-80); (-70); (-60); (-50); (-50); (-540); (-540); (-500); (-420); (-300); (-220); 
   (-190); (-180); (-160); (-130); (-130); (-120); (-110); (-100); (-100); (-90); (-70); (-60); (-60); (-60); (-570); 
   (-560); (-540); (-430); (-310); (-220); (-200); (-200); (-170); (-130); (-130); (-120); (-120); (-100); (-100); (-90); 
   (-70); (-60); (-60); (-60); (-240); (-240); (-210); (-180); (-150); (-130); (-120); (-100); (-90); (-80); (-70); (-60); 
   (-50); (-50); (-50); (-40); (-40); (-40); (-40); (-30); (-280); (-250); (-230); (-200); (-170); (-140); (-130); (-100); 
   (-100); (-90); (-70); (-60); (-50); (-50); (-50); (-50); (-50); (-40); (-40); (-40); (-310); (-250); (-240); (-220); 
   (-190); (-160); (-140); (-110); (-110); (-100); (-70); (-60); (-50); (-50); (-60); (-50); (-50); (-50); (-40); (-40); 
   (-350); (-280); (-250); (-240); (-210); (-180); (-160); (-120); (-120); (-110); (-80); (-70); (-60); (-60); (-60); 
   (-60); (-60); (-50); (-50); (-40); (-390); (-320); (-280); (-270); (-220); (-200); (-170); (-130); (-130); (-120); 
   (-90); (-70); (-60); (-60); (-70); (-60); (-60); (-60); (-50); (-50); (-420); (-360); (-290); (-300); (-250); (-220); 
   (-190); (-130); (-140); (-120); (-100); (-80); (-70); (-70); (-70); (-60); (-60); (-60); (-60); (-50); (-460); (-390); 
   (-330); (-320); (-260); (-240); (-210); (-140); (-120); (-130); (-100); (-90); (-70); (-80); (-70); (-70); (-70); 
   (-70); (-60); (-50); (-500); (-430); (-360); (-380); (-300); (-260); (-230); (-150); (-140); (-130); (-110); (-100); 
   (-80); (-80); (-80); (-70); (-70); (-70); (-60); (-60); (-500); (-420); (-360); (-300); (-300); (-260); (-210); (-170); 
   (-150); (-140); (-120); (-100); (-90); (-90); (-80); (-70); (-70); (-70); (-60); (-60); (-490); (-440); (-360); (-380); 
   (-300); (-250); (-210); (-180); (-150); (-140); (-130); (-110); (-100); (-90); (-80); (-70); (-70); (-70); (-60); 
   (-60); (-490); (-490); (-430); (-370); (-300); (-250); (-200); (-190); (-150); (-150); (-140); (-120); (-100); (-90); 
   (-90); (-80); (-70); (-70); (-60); (-60); (-500); (-490); (-440); (-370); (-300); (-250); (-200); (-190); (-150); 
   (-150); (-140); (-120); (-110); (-100); (-90); (-80); (-70); (-70); (-60); (-60); (-490); (-500); (-440); (-370); 
   (-300); (-250); (-200); (-190); (-150); (-150); (-140); (-130); (-110); (-100); (-90); (-80); (-70); (-70); (-60); 
   (-60); (-520); (-530); (-470); (-380); (-310); (-250); (-210); (-200); (-170); (-160); (-150); (-130); (-120); (-100); 
   (-100); (-90); (-80); (-70); (-60); (-60); (-560); (-560); (-500); (-380); (-320); (-260); (-210); (-200); (-180); 
   (-160); (-150); (-140); (-120); (-110); (-100); (-90); (-80); (-70); (-60); (-60); (-590); (-590); (-530); (-410); 
   (-330); (-260); (-220); (-210); (-190); (-160); (-160); (-140); (-130); (-110); (-100); (-90); (-80); (-70); (-60); 
   (-60); (-620); (-610); (-560); (-430); (-350); (-270); (-220); (-210); (-190); (-160); (-160); (-140); (-130); (-120); 
   (-110); (-100); (-80); (-80); (-70); (-70); (-660); (-640); (-560); (-460); (-350); (-280); (-240); (-220); (-200); 
   (-160); (-160); (-150); (-130); (-120); (-120); (-100); (-90); (-80); (-70); (-70); (-670); (-670); (-580); (-470); 
   (-360); (-280); (-240); (-240); (-200); (-160); (-160); (-150); (-140); (-120); (-120); (-100); (-90); (-80); (-70); 
   (-70); (-710); (-690); (-600); (-480); (-370); (-290); (-260); (-250); (-210); (-170); (-160); (-150); (-140); (-130); 
   (-120); (-110); (-90); (-80); (-80); (-70); (-290); (-280); (-240); (-210); (-180); (-160); (-140); (-120); (-100); 
   (-100); (-80); (-70); (-70); (-60); (-60); (-50); (-50); (-50); (-40); (-40); (-320); (-300); (-260); (-230); (-190); 
   (-170); (-150); (-130); (-120); (-100); (-80); (-70); (-70); (-60); (-60); (-60); (-50); (-50); (-50); (-40); (-360); 
   (-300); (-280); (-240); (-210); (-190); (-170); (-130); (-120); (-110); (-90); (-80); (-70); (-60); (-60); (-60); 
   (-60); (-60); (-50); (-50); (-390); (-330); (-310); (-270); (-230); (-210); (-180); (-150); (-130); (-120); (-100); 
   (-90); (-80); (-70); (-70); (-70); (-60); (-60); (-60); (-50); (-440); (-370); (-310); (-280); (-250); (-230); (-200); 
   (-160); (-140); (-130); (-110); (-100); (-80); (-80); (-80); (-70); (-70); (-60); (-60); (-50); (-470); (-410); (-340); 
   (-310); (-270); (-250); (-220); (-170); (-140); (-130); (-120); (-100); (-90); (-80); (-80); (-80); (-70); (-70); 
   (-60); (-60); (-510); (-440); (-380); (-340); (-290); (-260); (-230); (-190); (-160); (-150); (-130); (-110); (-100); 
   (-90); (-90); (-80); (-80); (-70); (-70); (-60); (-550); (-480); (-410); (-360); (-310); (-280); (-240); (-190); 
   (-160); (-160); (-140); (-120); (-100); (-90); (-90); (-80); (-80); (-80); (-70); (-60); (-590); (-520); (-450); 
   (-400); (-340); (-300); (-260); (-200); (-180); (-160); (-140); (-130); (-110); (-100); (-100); (-80); (-90); (-80); 
   (-80); (-70); (-600); (-530); (-460); (-430); (-360); (-300); (-260); (-220); (-190); (-170); (-150); (-130); (-120); 
   (-100); (-100); (-90); (-90); (-80); (-80); (-70); (-600); (-560); (-490); (-420); (-350); (-300); (-260); (-220); 
   (-190); (-170); (-160); (-140); (-120); (-110); (-100); (-100); (-90); (-80); (-70); (-70); (-600); (-570); (-500); 
   (-430); (-360); (-300); (-260); (-230); (-190); (-180); (-160); (-140); (-130); (-120); (-100); (-100); (-90); (-80); 
   (-70); (-70); (-650); (-600); (-510); (-440); (-360); (-310); (-260); (-230); (-200); (-180); (-170); (-150); (-140); 
   (-120); (-110); (-100); (-90); (-80); (-80); (-70); (-670); (-620); (-540); (-450); (-370); (-310); (-260); (-240); 
   (-210); (-180); (-170); (-160); (-140); (-130); (-110); (-110); (-90); (-90); (-80); (-70); (-700); (-670); (-560); 
   (-500); (-380); (-320); (-270); (-250); (-220); (-190); (-180); (-160); (-150); (-130); (-120); (-110); (-100); (-90); 
   (-80); (-80); (-740); (-690); (-610); (-490); (-390); (-320); (-280); (-260); (-230); (-190); (-180); (-160); (-150); 
   (-140); (-120); (-110); (-100); (-90); (-80); (-80); (-750); (-720); (-630); (-510); (-410); (-330); (-290); (-260); 
   (-230); (-190); (-180); (-170); (-150); (-140); (-130); (-110); (-100); (-90); (-90); (-80); (-780); (-740); (-640); 
   (-550); (-420); (-340); (-300); (-270); (-240); (-200); (-190); (-170); (-160); (-140); (-130); (-120); (-100); (-100); 
   (-90); (-80); (-820); (-770); (-660); (-550); (-430); (-340); (-300); (-290); (-240); (-200); (-190); (-180); (-160); 
   (-150); (-140); (-120); (-110); (-100); (-90); (-80); (-850); (-790); (-690); (-550); (-440); (-350); (-310); (-290); 
   (-250); (-210); (-190); (-180); (-160); (-150); (-140); (-120); (-110); (-100); (-90); (-90); (-350); (-300); (-270); 
   (-240); (-210); (-180); (-160); (-140); (-120); (-110); (-100); (-90); (-80); (-70); (-70); (-60); (-60); (-50); (-50); 
   (-50); (-380); (-320); (-280); (-260); (-230); (-190); (-170); (-150); (-130); (-120); (-100); (-90); (-80); (-80); 
   (-70); (-70); (-60); (-60); (-50); (-50); (-430); (-340); (-300); (-270); (-240); (-210); (-190); (-160); (-140); 
   (-130); (-110); (-100); (-90); (-80); (-80); (-70); (-70); (-60); (-60); (-50); (-470); (-380); (-330); (-300); (-260); 
   (-230); (-200); (-170); (-150); (-140); (-120); (-110); (-100); (-90); (-80); (-80); (-70); (-70); (-60); (-60); 
   (-500); (-420); (-350); (-330); (-300); (-250); (-220); (-190); (-160); (-150); (-130); (-120); (-100); (-90); (-90); 
   (-80); (-80); (-70); (-70); (-60); (-540); (-460); (-390); (-340); (-310); (-260); (-240); (-200); (-170); (-160); 
   (-140); (-120); (-110); (-100); (-90); (-90); (-80); (-70); (-70); (-70); (-570); (-490); (-430); (-370); (-340); 
   (-280); (-250); (-220); (-180); (-170); (-150); (-130); (-120); (-100); (-100); (-90); (-80); (-80); (-70); (-70); 
   (-600); (-530); (-470); (-420); (-360); (-300); (-260); (-220); (-200); (-180); (-160); (-140); (-120); (-110); (-100); 
   (-100); (-90); (-80); (-80); (-70); (-650); (-570); (-500); (-430); (-380); (-320); (-280); (-240); (-210); (-190); 
   (-170); (-150); (-130); (-120); (-110); (-100); (-100); (-90); (-80); (-80); (-680); (-600); (-530); (-460); (-390); 
   (-340); (-300); (-250); (-220); (-200); (-180); (-160); (-140); (-120); (-120); (-110); (-100); (-90); (-80); (-80); 
   (-720); (-630); (-550); (-480); (-410); (-350); (-310); (-260); (-230); (-200); (-180); (-160); (-140); (-130); (-120); 
   (-110); (-100); (-100); (-90); (-80); (-750); (-660); (-590); (-480); (-420); (-360); (-320); (-270); (-240); (-210); 
   (-180); (-170); (-150); (-130); (-120); (-110); (-100); (-100); (-90); (-80); (-780); (-690); (-600); (-500); (-420); 
   (-360); (-320); (-280); (-240); (-210); (-190); (-170); (-150); (-140); (-130); (-120); (-110); (-100); (-90); (-80); 
   (-800); (-710); (-620); (-560); (-450); (-370); (-320); (-280); (-250); (-210); (-190); (-180); (-160); (-140); (-130); 
   (-120); (-110); (-100); (-90); (-90); (-840); (-750); (-660); (-560); (-460); (-370); (-330); (-300); (-260); (-220); 
   (-200); (-180); (-160); (-150); (-130); (-120); (-110); (-100); (-100); (-90); (-860); (-760); (-700); (-590); (-470); 
   (-380); (-340); (-310); (-260); (-220); (-200); (-190); (-170); (-150); (-140); (-130); (-110); (-110); (-100); (-90); 
   (-900); (-800); (-690); (-600); (-480); (-390); (-340); (-310); (-270); (-230); (-200); (-190); (-180); (-160); (-140); 
   (-130); (-120); (-110); (-100); (-90); (-930); (-840); (-710); (-600); (-480); (-390); (-350); (-320); (-270); (-230); 
   (-210); (-200); (-180); (-160); (-150); (-130); (-120); (-110); (-100); (-100); (-950); (-850); (-730); (-600); (-490); 
   (-400); (-360); (-320); (-280); (-240); (-220); (-200); (-180); (-170); (-150); (-140); (-120); (-110); (-110); (-100); 
   (-980); (-870); (-740); (-620); (-500); (-410); (-370); (-330); (-290); (-250); (-220); (-200); (-190); (-170); (-160); 
   (-140); (-120); (-120); (-110); (-100); (-440); (-350); (-310); (-280); (-250); (-210); (-190); (-170); (-150); (-130); 
   (-110); (-100); (-90); (-80); (-80); (-70); (-70); (-60); (-60); (-60); (-490); (-370); (-330); (-300); (-270); (-220); 
   (-200); (-180); (-160); (-140); (-120); (-110); (-100); (-90); (-80); (-80); (-70); (-70); (-60); (-60); (-520); 
   (-420); (-350); (-320); (-290); (-240); (-220); (-190); (-170); (-150); (-130); (-120); (-100); (-100); (-80); (-80); 
   (-80); (-70); (-70); (-60); (-560); (-450); (-380); (-360); (-300); (-260); (-230); (-200); (-180); (-160); (-140); 
   (-120); (-110); (-100); (-90); (-90); (-80); (-80); (-70); (-70); (-600); (-490); (-420); (-400); (-320); (-280); 
   (-250); (-220); (-190); (-170); (-150); (-130); (-120); (-110); (-100); (-90); (-90); (-80); (-80); (-70); (-630); 
   (-520); (-460); (-400); (-360); (-290); (-260); (-230); (-200); (-180); (-160); (-140); (-120); (-120); (-100); (-100); 
   (-90); (-80); (-80); (-70); (-670); (-560); (-500); (-450); (-380); (-310); (-280); (-240); (-210); (-190); (-170); 
   (-150); (-130); (-120); (-110); (-100); (-100); (-90); (-80); (-80); (-710); (-600); (-530); (-470); (-400); (-330); 
   (-290); (-250); (-220); (-200); (-180); (-150); (-140); (-130); (-110); (-110); (-100); (-90); (-90); (-80); (-750); 
   (-640); (-560); (-490); (-420); (-350); (-310); (-270); (-230); (-210); (-180); (-160); (-150); (-130); (-120); (-110); 
   (-100); (-100); (-90); (-80); (-780); (-700); (-630); (-510); (-440); (-370); (-320); (-290); (-240); (-220); (-190); 
   (-170); (-150); (-140); (-120); (-120); (-110); (-100); (-100); (-90); (-830); (-730); (-620); (-530); (-460); (-400); 
   (-350); (-300); (-250); (-220); (-200); (-180); (-160); (-140); (-130); (-120); (-110); (-100); (-100); (-90); (-850); 
   (-700); (-630); (-550); (-480); (-400); (-350); (-310); (-260); (-220); (-200); (-180); (-160); (-140); (-130); (-120); 
   (-120); (-110); (-100); (-90); (-870); (-710); (-650); (-570); (-480); (-400); (-360); (-320); (-270); (-230); (-210); 
   (-190); (-160); (-140); (-130); (-120); (-120); (-110); (-100); (-90); (-900); (-750); (-680); (-590); (-510); (-410); 
   (-370); (-330); (-280); (-230); (-210); (-190); (-160); (-150); (-140); (-130); (-120); (-110); (-100); (-100); (-940); 
   (-770); (-700); (-620); (-510); (-410); (-370); (-330); (-280); (-240); (-220); (-200); (-170); (-150); (-140); (-130); 
   (-120); (-110); (-110); (-100); (-960); (-800); (-720); (-640); (-530); (-420); (-380); (-340); (-290); (-240); (-220); 
   (-200); (-170); (-160); (-140); (-130); (-120); (-120); (-110); (-100); (-990); (-830); (-750); (-650); (-540); (-420); 
   (-380); (-350); (-290); (-250); (-220); (-210); (-180); (-160); (-150); (-130); (-130); (-120); (-110); (-100); 
   (-1020); (-870); (-770); (-670); (-540); (-430); (-390); (-360); (-300); (-250); (-230); (-210); (-180); (-170); 
   (-150); (-140); (-130); (-120); (-110); (-100); (-1050); (-890); (-790); (-670); (-550); (-440); (-390); (-360); 
   (-300); (-260); (-230); (-220); (-190); (-170); (-160); (-140); (-130); (-120); (-120); (-100); (-1060); (-930); 
   (-810); (-680); (-560); (-440); (-400); (-350); (-310); (-270); (-240); (-220); (-190); (-180); (-160); (-140); (-130); 
   (-120); (-120); (-110); (-540); (-440); (-360); (-340); (-290); (-250); (-220); (-190); (-170); (-160); (-130); (-120); 
   (-110); (-100); (-90); (-80); (-80); (-80); (-70); (-60); (-580); (-470); (-380); (-340); (-310); (-260); (-230); 
   (-210); (-180); (-170); (-140); (-130); (-120); (-110); (-100); (-90); (-80); (-80); (-80); (-70); (-620); (-500); 
   (-410); (-370); (-340); (-280); (-250); (-220); (-190); (-170); (-150); (-130); (-120); (-110); (-100); (-90); (-90); 
   (-80); (-80); (-70); (-660); (-550); (-440); (-390); (-370); (-300); (-260); (-230); (-200); (-180); (-160); (-140); 
   (-130); (-120); (-100); (-100); (-90); (-90); (-80); (-80); (-700); (-580); (-490); (-420); (-390); (-320); (-280); 
   (-250); (-220); (-190); (-170); (-150); (-130); (-120); (-110); (-100); (-100); (-90); (-90); (-80); (-730); (-620); 
   (-520); (-460); (-410); (-330); (-290); (-260); (-220); (-200); (-180); (-150); (-140); (-130); (-110); (-110); (-100); 
   (-100); (-90); (-80); (-770); (-650); (-560); (-490); (-430); (-350); (-310); (-270); (-230); (-210); (-180); (-160); 
   (-150); (-140); (-120); (-110); (-100); (-100); (-100); (-80); (-820); (-700); (-580); (-540); (-450); (-370); (-320); 
   (-280); (-250); (-220); (-190); (-170); (-150); (-140); (-120); (-120); (-110); (-100); (-100); (-90); (-860); (-760); 
   (-670); (-540); (-470); (-390); (-340); (-300); (-260); (-220); (-200); (-180); (-160); (-150); (-130); (-120); (-120); 
   (-110); (-100); (-90); (-900); (-820); (-740); (-660); (-490); (-410); (-360); (-310); (-270); (-230); (-210); (-180); 
   (-170); (-160); (-140); (-130); (-120); (-110); (-100); (-100); (-930); (-830); (-740); (-650); (-510); (-440); (-400); 
   (-320); (-280); (-240); (-220); (-190); (-170); (-160); (-140); (-140); (-120); (-110); (-100); (-100); (-970); (-810); 
   (-720); (-620); (-530); (-440); (-400); (-340); (-290); (-240); (-220); (-200); (-170); (-150); (-140); (-140); (-120); 
   (-120); (-110); (-100); (-990); (-810); (-710); (-640); (-540); (-440); (-400); (-350); (-300); (-250); (-230); (-200); 
   (-170); (-150); (-140); (-130); (-130); (-120); (-110); (-100); (-1020); (-840); (-710); (-630); (-550); (-450); 
   (-400); (-360); (-300); (-250); (-230); (-210); (-170); (-150); (-140); (-130); (-130); (-120); (-110); (-100); 
   (-1020); (-860); (-730); (-660); (-570); (-460); (-410); (-370); (-310); (-250); (-230); (-210); (-170); (-160); 
   (-150); (-140); (-130); (-120); (-110); (-110); (-1050); (-910); (-770); (-690); (-590); (-460); (-410); (-380); 
   (-310); (-260); (-240); (-220); (-180); (-160); (-150); (-140); (-130); (-120); (-120); (-110); (-1090); (-930); 
   (-790); (-720); (-600); (-470); (-420); (-390); (-320); (-270); (-240); (-220); (-180); (-170); (-150); (-140); (-140); 
   (-130); (-120); (-110); (-1120); (-950); (-820); (-730); (-600); (-480); (-420); (-400); (-320); (-270); (-250); 
   (-230); (-190); (-170); (-160); (-140); (-140); (-130); (-120); (-110); (-1130); (-980); (-860); (-740); (-610); 
   (-490); (-430); (-390); (-320); (-280); (-250); (-230); (-190); (-180); (-160); (-150); (-140); (-130); (-120); (-110); 
   (-1160); (-990); (-870); (-740); (-620); (-500); (-440); (-400); (-330); (-290); (-260); (-240); (-200); (-180); 
   (-160); (-150); (-140); (-130); (-130); (-110); (-640); (-530); (-460); (-420); (-380); (-290); (-250); (-230); (-200); 
   (-180); (-150); (-140); (-130); (-110); (-100); (-90); (-90); (-90); (-80); (-70); (-680); (-570); (-470); (-390); 
   (-400); (-300); (-260); (-240); (-210); (-190); (-160); (-140); (-130); (-120); (-110); (-100); (-90); (-90); (-80); 
   (-80); (-720); (-600); (-500); (-420); (-390); (-320); (-280); (-250); (-220); (-190); (-170); (-150); (-140); (-130); 
   (-110); (-100); (-100); (-90); (-90); (-80); (-760); (-650); (-530); (-450); (-410); (-340); (-290); (-260); (-230); 
   (-200); (-180); (-160); (-140); (-130); (-120); (-110); (-100); (-100); (-90); (-80); (-800); (-680); (-560); (-490); 
   (-430); (-360); (-300); (-280); (-240); (-210); (-190); (-160); (-150); (-140); (-120); (-120); (-110); (-100); (-100); 
   (-90); (-840); (-720); (-600); (-520); (-450); (-380); (-320); (-290); (-250); (-220); (-200); (-170); (-160); (-150); 
   (-130); (-120); (-110); (-100); (-100); (-90); (-880); (-760); (-660); (-570); (-470); (-390); (-330); (-300); (-260); 
   (-230); (-200); (-180); (-160); (-150); (-130); (-120); (-120); (-110); (-100); (-90); (-920); (-800); (-710); (-570); 
   (-500); (-420); (-350); (-320); (-270); (-240); (-210); (-190); (-170); (-160); (-140); (-130); (-120); (-110); (-110); 
   (-100); (-960); (-860); (-770); (-580); (-540); (-430); (-370); (-340); (-290); (-240); (-220); (-190); (-180); (-160); 
   (-140); (-130); (-120); (-120); (-110); (-100); (-1010); (-920); (-780); (-700); (-540); (-460); (-390); (-340); 
   (-300); (-250); (-230); (-200); (-180); (-170); (-150); (-140); (-130); (-120); (-110); (-100); (-1030); (-940); 
   (-840); (-680); (-580); (-480); (-430); (-360); (-310); (-260); (-240); (-210); (-190); (-170); (-160); (-150); (-130); 
   (-120); (-110); (-110); (-1060); (-920); (-840); (-740); (-570); (-490); (-440); (-370); (-320); (-260); (-240); 
   (-210); (-180); (-170); (-160); (-150); (-140); (-120); (-120); (-110); (-1080); (-920); (-820); (-740); (-600); 
   (-490); (-440); (-380); (-330); (-260); (-250); (-220); (-180); (-170); (-160); (-150); (-140); (-130); (-120); (-110); 
   (-1100); (-950); (-810); (-720); (-610); (-500); (-450); (-390); (-330); (-270); (-250); (-220); (-180); (-160); 
   (-150); (-140); (-140); (-130); (-120); (-110); (-1120); (-970); (-800); (-700); (-630); (-510); (-450); (-410); 
   (-340); (-270); (-250); (-230); (-180); (-160); (-150); (-140); (-140); (-130); (-120); (-120); (-1150); (-990); 
   (-840); (-740); (-640); (-520); (-450); (-420); (-340); (-270); (-260); (-230); (-190); (-170); (-160); (-150); (-140); 
   (-130); (-130); (-120); (-1180); (-1030); (-860); (-750); (-660); (-530); (-460); (-430); (-340); (-280); (-260); 
   (-240); (-200); (-170); (-160); (-150); (-140); (-140); (-130); (-120); (-1210); (-1050); (-900); (-780); (-660); 
   (-530); (-470); (-430); (-340); (-290); (-260); (-240); (-200); (-180); (-160); (-150); (-150); (-140); (-130); (-120); 
   (-1210); (-1080); (-920); (-800); (-670); (-550); (-470); (-440); (-350); (-300); (-270); (-250); (-200); (-180); 
   (-170); (-160); (-150); (-140); (-130); (-120); (-1260); (-1110); (-940); (-800); (-680); (-560); (-470); (-430); 
   (-350); (-310); (-280); (-250); (-210); (-190); (-170); (-160); (-150); (-140); (-130); (-120); (-740); (-630); (-520); 
   (-500); (-420); (-330); (-280); (-250); (-220); (-200); (-170); (-150); (-140); (-130); (-120); (-100); (-100); (-100); 
   (-90); (-80); (-780); (-670); (-560); (-450); (-400); (-340); (-290); (-270); (-240); (-210); (-180); (-160); (-150); 
   (-130); (-120); (-110); (-100); (-100); (-90); (-80); (-820); (-710); (-600); (-480); (-440); (-360); (-310); (-280); 
   (-250); (-220); (-190); (-160); (-160); (-140); (-120); (-110); (-110); (-100); (-100); (-90); (-860); (-740); (-630); 
   (-520); (-450); (-380); (-320); (-290); (-250); (-220); (-200); (-170); (-160); (-150); (-130); (-120); (-110); (-110); 
   (-100); (-90); (-900); (-790); (-650); (-550); (-480); (-400); (-330); (-310); (-270); (-230); (-210); (-180); (-160); 
   (-150); (-140); (-120); (-120); (-110); (-100); (-100); (-940); (-820); (-700); (-550); (-500); (-420); (-350); (-320); 
   (-280); (-240); (-220); (-190); (-170); (-160); (-140); (-130); (-120); (-120); (-110); (-100); (-990); (-860); (-750); 
   (-610); (-520); (-430); (-360); (-340); (-290); (-250); (-230); (-200); (-180); (-170); (-150); (-130); (-130); (-120); 
   (-110); (-100); (-1020); (-920); (-800); (-700); (-540); (-460); (-390); (-350); (-300); (-260); (-230); (-200); 
   (-180); (-170); (-150); (-140); (-130); (-120); (-120); (-100); (-1080); (-950); (-870); (-730); (-580); (-470); 
   (-400); (-360); (-310); (-260); (-240); (-210); (-190); (-180); (-160); (-140); (-130); (-130); (-120); (-110); 
   (-1110); (-1010); (-900); (-750); (-600); (-500); (-420); (-380); (-320); (-270); (-250); (-220); (-200); (-180); 
   (-160); (-150); (-140); (-130); (-120); (-110); (-1150); (-1040); (-920); (-770); (-620); (-530); (-460); (-390); 
   (-340); (-280); (-260); (-220); (-200); (-180); (-170); (-160); (-140); (-130); (-120); (-110); (-1150); (-1030); 
   (-920); (-790); (-640); (-540); (-470); (-400); (-350); (-280); (-260); (-230); (-200); (-180); (-170); (-160); (-140); 
   (-130); (-120); (-120); (-1190); (-1030); (-930); (-800); (-640); (-540); (-480); (-410); (-360); (-280); (-260); 
   (-230); (-200); (-180); (-170); (-160); (-150); (-140); (-130); (-120); (-1200); (-1050); (-900); (-810); (-650); 
   (-550); (-490); (-420); (-360); (-290); (-270); (-240); (-200); (-180); (-170); (-160); (-150); (-140); (-130); (-120); 
   (-1240); (-1070); (-940); (-800); (-670); (-560); (-500); (-430); (-370); (-290); (-270); (-240); (-200); (-180); 
   (-170); (-160); (-150); (-140); (-130); (-120); (-1250); (-1090); (-930); (-780); (-690); (-560); (-500); (-440); 
   (-370); (-300); (-270); (-250); (-200); (-180); (-160); (-160); (-150); (-140); (-130); (-120); (-1260); (-1120); 
   (-980); (-800); (-700); (-580); (-500); (-460); (-370); (-300); (-270); (-250); (-210); (-180); (-170); (-160); (-150); 
   (-140); (-140); (-120); (-1310); (-1140); (-1000); (-820); (-720); (-590); (-520); (-470); (-370); (-310); (-280); 
   (-260); (-220); (-190); (-170); (-160); (-160); (-150); (-140); (-130); (-1330); (-1180); (-990); (-840); (-730); 
   (-600); (-520); (-470); (-370); (-320); (-290); (-260); (-220); (-190); (-170); (-160); (-160); (-150); (-140); (-130); 
   (-1370); (-1190); (-1030); (-860); (-740); (-620); (-520); (-470); (-380); (-330); (-290); (-270); (-220); (-200); 
   (-170); (-160); (-160); (-150); (-140); (-130); (-840); (-730); (-630); (-570); (-460); (-370); (-320); (-280); (-250); 
   (-220); (-190); (-170); (-160); (-140); (-130); (-120); (-110); (-110); (-100); (-90); (-880); (-770); (-660); (-550); 
   (-480); (-390); (-330); (-300); (-260); (-230); (-200); (-180); (-160); (-150); (-130); (-120); (-110); (-110); (-100); 
   (-90); (-920); (-810); (-700); (-580); (-490); (-400); (-340); (-310); (-270); (-240); (-210); (-190); (-170); (-150); 
   (-140); (-130); (-120); (-110); (-110); (-100); (-970); (-850); (-730); (-620); (-530); (-420); (-360); (-320); (-280); 
   (-240); (-220); (-190); (-180); (-160); (-140); (-130); (-120); (-120); (-110); (-100); (-1010); (-900); (-750); 
   (-630); (-520); (-440); (-370); (-340); (-290); (-250); (-230); (-200); (-180); (-170); (-150); (-140); (-130); (-120); 
   (-110); (-100); (-1050); (-930); (-810); (-710); (-570); (-460); (-390); (-350); (-300); (-260); (-240); (-200); 
   (-190); (-170); (-160); (-140); (-130); (-130); (-120); (-110); (-1100); (-980); (-830); (-730); (-590); (-480); 
   (-400); (-360); (-310); (-270); (-240); (-210); (-200); (-180); (-160); (-150); (-140); (-130); (-120); (-110); 
   (-1120); (-1000); (-900); (-750); (-610); (-490); (-420); (-380); (-330); (-280); (-250); (-220); (-200); (-190); 
   (-170); (-150); (-140); (-130); (-120); (-110); (-1180); (-1060); (-920); (-770); (-620); (-510); (-440); (-390); 
   (-340); (-290); (-260); (-230); (-210); (-190); (-170); (-160); (-150); (-140); (-130); (-120); (-1190); (-1110); 
   (-940); (-790); (-640); (-530); (-460); (-400); (-350); (-300); (-270); (-230); (-220); (-200); (-180); (-160); (-150); 
   (-140); (-130); (-120); (-1240); (-1120); (-960); (-820); (-670); (-570); (-490); (-420); (-360); (-310); (-270); 
   (-240); (-220); (-200); (-180); (-170); (-150); (-140); (-130); (-120); (-1260); (-1130); (-980); (-830); (-680); 
   (-570); (-500); (-430); (-380); (-310); (-280); (-240); (-210); (-200); (-180); (-170); (-160); (-140); (-130); (-120); 
   (-1280); (-1120); (-1000); (-850); (-700); (-580); (-510); (-440); (-380); (-310); (-280); (-250); (-210); (-190); 
   (-180); (-170); (-160); (-150); (-140); (-130); (-1290); (-1150); (-1010); (-870); (-720); (-590); (-530); (-450); 
   (-390); (-320); (-280); (-250); (-210); (-190); (-180); (-170); (-160); (-150); (-140); (-130); (-1330); (-1160); 
   (-1010); (-880); (-720); (-610); (-530); (-460); (-390); (-320); (-290); (-260); (-210); (-190); (-180); (-170); 
   (-160); (-150); (-140); (-130); (-1330); (-1190); (-1030); (-890); (-740); (-620); (-540); (-480); (-390); (-330); 
   (-290); (-260); (-220); (-190); (-180); (-170); (-160); (-150); (-140); (-130); (-1350); (-1220); (-1070); (-900); 
   (-750); (-640); (-550); (-490); (-400); (-320); (-290); (-270); (-220); (-200); (-180); (-170); (-160); (-150); (-140); 
   (-130); (-1390); (-1250); (-1090); (-920); (-760); (-650); (-560); (-500); (-400); (-330); (-300); (-270); (-230); 
   (-200); (-180); (-170); (-170); (-160); (-140); (-140); (-1420); (-1250); (-1110); (-930); (-790); (-660); (-560); 
   (-500); (-400); (-340); (-300); (-280); (-240); (-200); (-190); (-170); (-170); (-160); (-150); (-140); (-1440); 
   (-1290); (-1120); (-960); (-800); (-680); (-570); (-510); (-400); (-340); (-310); (-280); (-240); (-200); (-190); 
   (-180); (-170); (-160); (-150); (-140); (-940); (-830); (-720); (-610); (-500); (-410); (-360); (-310); (-270); (-240); 
   (-210); (-180); (-170); (-150); (-140); (-130); (-120); (-110); (-110); (-100); (-980); (-870); (-750); (-640); (-530); 
   (-430); (-370); (-320); (-280); (-250); (-220); (-190); (-180); (-160); (-150); (-140); (-130); (-120); (-110); (-100); 
   (-1030); (-920); (-800); (-660); (-550); (-440); (-390); (-340); (-300); (-260); (-230); (-200); (-180); (-170); 
   (-150); (-140); (-130); (-120); (-120); (-100); (-1080); (-960); (-820); (-680); (-580); (-460); (-400); (-350); 
   (-310); (-270); (-240); (-210); (-190); (-180); (-160); (-140); (-130); (-130); (-120); (-110); (-1120); (-990); 
   (-850); (-740); (-590); (-480); (-420); (-360); (-320); (-270); (-240); (-210); (-200); (-180); (-160); (-150); (-140); 
   (-130); (-120); (-110); (-1160); (-1010); (-900); (-760); (-620); (-500); (-430); (-380); (-330); (-280); (-250); 
   (-220); (-200); (-190); (-170); (-150); (-140); (-130); (-130); (-120); (-1210); (-1050); (-930); (-780); (-630); 
   (-520); (-440); (-390); (-340); (-290); (-260); (-230); (-210); (-190); (-180); (-160); (-150); (-140); (-130); (-120); 
   (-1250); (-1110); (-940); (-800); (-660); (-530); (-460); (-400); (-350); (-300); (-270); (-230); (-220); (-200); 
   (-180); (-160); (-150); (-140); (-130); (-120); (-1260); (-1140); (-960); (-820); (-670); (-550); (-480); (-420); 
   (-360); (-310); (-280); (-240); (-220); (-210); (-190); (-170); (-160); (-150); (-140); (-120); (-1300); (-1140); 
   (-980); (-840); (-690); (-570); (-500); (-430); (-370); (-330); (-280); (-250); (-230); (-210); (-190); (-180); (-160); 
   (-150); (-140); (-120); (-1320); (-1170); (-1000); (-850); (-710); (-610); (-520); (-440); (-390); (-330); (-290); 
   (-250); (-230); (-210); (-200); (-180); (-160); (-150); (-140); (-130); (-1360); (-1180); (-1020); (-880); (-730); 
   (-600); (-530); (-460); (-400); (-340); (-290); (-260); (-230); (-210); (-190); (-180); (-160); (-150); (-140); (-130); 
   (-1390); (-1220); (-1060); (-900); (-740); (-630); (-540); (-470); (-410); (-340); (-300); (-260); (-230); (-210); 
   (-190); (-180); (-170); (-160); (-140); (-130); (-1390); (-1260); (-1100); (-920); (-760); (-640); (-550); (-480); 
   (-410); (-340); (-300); (-270); (-230); (-210); (-190); (-180); (-170); (-160); (-150); (-140); (-1440); (-1270); 
   (-1120); (-950); (-780); (-660); (-570); (-480); (-420); (-350); (-300); (-270); (-230); (-210); (-190); (-180); 
   (-170); (-160); (-150); (-140); (-1460); (-1270); (-1140); (-970); (-800); (-680); (-580); (-500); (-420); (-350); 
   (-310); (-280); (-230); (-220); (-190); (-180); (-170); (-160); (-150); (-140); (-1460); (-1320); (-1150); (-990); 
   (-820); (-690); (-590); (-500); (-420); (-350); (-310); (-280); (-240); (-210); (-190); (-180); (-170); (-160); (-150); 
   (-140); (-1500); (-1360); (-1170); (-1010); (-840); (-710); (-600); (-520); (-430); (-360); (-320); (-290); (-250); 
   (-210); (-200); (-180); (-180); (-160); (-150); (-140); (-1490); (-1360); (-1210); (-1030); (-860); (-720); (-610); 
   (-530); (-430); (-360); (-320); (-290); (-250); (-220); (-190); (-180); (-180); (-170); (-150); (-140); (-1530); 
   (-1380); (-1230); (-1050); (-880); (-740); (-630); (-540); (-440); (-360); (-320); (-300); (-260); (-220); (-190); 
   (-180); (-180); (-170); (-160); (-150); (-1170); (-1060); (-950); (-750); (-610); (-520); (-470); (-380); (-340); 
   (-290); (-260); (-220); (-200); (-180); (-160); (-150); (-140); (-140); (-130); (-120); (-1220); (-1110); (-1000); 
   (-860); (-630); (-540); (-480); (-370); (-330); (-290); (-250); (-220); (-200); (-180); (-170); (-160); (-140); (-130); 
   (-120); (-120); (-1260); (-1150); (-1040); (-850); (-680); (-550); (-500); (-370); (-330); (-290); (-250); (-230); 
   (-200); (-180); (-170); (-160); (-140); (-140); (-130); (-120); (-1310); (-1200); (-1080); (-910); (-730); (-570); 
   (-510); (-380); (-340); (-300); (-260); (-230); (-200); (-190); (-180); (-170); (-150); (-140); (-130); (-120); 
   (-1360); (-1230); (-1120); (-920); (-750); (-590); (-520); (-400); (-350); (-310); (-270); (-240); (-210); (-200); 
   (-180); (-170); (-150); (-140); (-130); (-130); (-1400); (-1270); (-1110); (-940); (-770); (-610); (-540); (-410); 
   (-360); (-320); (-280); (-240); (-220); (-200); (-190); (-180); (-160); (-140); (-140); (-130); (-1440); (-1300); 
   (-1120); (-970); (-780); (-630); (-550); (-420); (-370); (-330); (-290); (-250); (-230); (-210); (-200); (-180); 
   (-160); (-150); (-140); (-130); (-1470); (-1290); (-1140); (-980); (-810); (-640); (-570); (-440); (-380); (-340); 
   (-290); (-260); (-230); (-210); (-200); (-180); (-170); (-150); (-140); (-130); (-1500); (-1310); (-1150); (-990); 
   (-830); (-660); (-560); (-450); (-400); (-350); (-300); (-270); (-240); (-220); (-200); (-190); (-170); (-160); (-140); 
   (-130); (-1520); (-1320); (-1160); (-1010); (-860); (-660); (-540); (-460); (-410); (-360); (-310); (-270); (-240); 
   (-230); (-210); (-200); (-180); (-160); (-150); (-140); (-1520); (-1310); (-1130); (-980); (-830); (-650); (-560); 
   (-480); (-420); (-360); (-320); (-280); (-250); (-230); (-210); (-200); (-180); (-160); (-150); (-140); (-1510); 
   (-1250); (-1080); (-930); (-780); (-660); (-580); (-470); (-420); (-360); (-310); (-280); (-260); (-240); (-220); 
   (-200); (-180); (-170); (-160); (-140); (-1520); (-1290); (-1110); (-950); (-800); (-700); (-590); (-480); (-430); 
   (-370); (-320); (-280); (-260); (-240); (-220); (-200); (-180); (-170); (-160); (-140); (-1560); (-1310); (-1120); 
   (-970); (-820); (-710); (-600); (-500); (-440); (-370); (-320); (-280); (-260); (-240); (-220); (-200); (-180); (-170); 
   (-160); (-150); (-1580); (-1290); (-1140); (-990); (-840); (-730); (-610); (-510); (-450); (-380); (-320); (-290); 
   (-270); (-240); (-220); (-200); (-180); (-170); (-160); (-150); (-1590); (-1340); (-1190); (-1020); (-850); (-740); 
   (-620); (-520); (-450); (-380); (-330); (-290); (-270); (-240); (-220); (-210); (-190); (-180); (-160); (-150); 
   (-1600); (-1360); (-1200); (-1030); (-870); (-760); (-650); (-540); (-450); (-380); (-330); (-300); (-280); (-240); 
   (-220); (-210); (-190); (-180); (-170); (-150); (-1620); (-1370); (-1220); (-1050); (-890); (-770); (-670); (-550); 
   (-460); (-390); (-330); (-310); (-280); (-240); (-220); (-210); (-190); (-180); (-170); (-150); (-1630); (-1390); 
   (-1220); (-1060); (-900); (-780); (-670); (-550); (-460); (-390); (-330); (-310); (-280); (-240); (-220); (-210); 
   (-190); (-180); (-170); (-150); (-1660); (-1420); (-1250); (-1080); (-920); (-780); (-670); (-570); (-470); (-390); 
   (-340); (-310); (-280); (-240); (-220); (-210); (-190); (-180); (-170); (-160); (-1440); (-1330); (-1220); (-880); 
   (-740); (-650); (-590); (-470); (-410); (-340); (-310); (-270); (-230); (-220); (-190); (-180); (-170); (-160); (-150); 
   (-130); (-1480); (-1380); (-1260); (-1110); (-760); (-660); (-600); (-450); (-410); (-340); (-300); (-260); (-240); 
   (-210); (-190); (-180); (-170); (-160); (-150); (-140); (-1530); (-1420); (-1280); (-1110); (-820); (-680); (-620); 
   (-430); (-390); (-340); (-290); (-260); (-230); (-210); (-190); (-180); (-160); (-160); (-150); (-140); (-1570); 
   (-1460); (-1320); (-1100); (-800); (-690); (-630); (-420); (-380); (-340); (-290); (-260); (-230); (-210); (-200); 
   (-180); (-160); (-150); (-140); (-140); (-1620); (-1500); (-1320); (-1120); (-830); (-710); (-650); (-440); (-390); 
   (-350); (-300); (-260); (-230); (-210); (-200); (-190); (-170); (-160); (-150); (-150); (-1660); (-1530); (-1310); 
   (-1140); (-850); (-730); (-660); (-450); (-400); (-360); (-300); (-270); (-240); (-220); (-210); (-190); (-170); 
   (-160); (-150); (-150); (-1720); (-1510); (-1320); (-1160); (-880); (-750); (-630); (-470); (-410); (-370); (-310); 
   (-280); (-240); (-230); (-210); (-200); (-180); (-160); (-160); (-150); (-1730); (-1510); (-1330); (-1170); (-890); 
   (-760); (-640); (-480); (-420); (-380); (-320); (-280); (-250); (-230); (-220); (-200); (-180); (-160); (-160); (-140); 
   (-1710); (-1500); (-1340); (-1190); (-910); (-740); (-650); (-490); (-430); (-380); (-330); (-290); (-260); (-240); 
   (-220); (-210); (-180); (-170); (-160); (-150); (-1700); (-1510); (-1350); (-1200); (-930); (-740); (-620); (-510); 
   (-440); (-390); (-340); (-300); (-260); (-250); (-230); (-210); (-190); (-170); (-160); (-150); (-1690); (-1490); 
   (-1330); (-1170); (-930); (-710); (-610); (-530); (-470); (-390); (-340); (-300); (-270); (-250); (-230); (-220); 
   (-190); (-180); (-160); (-150); (-1700); (-1440); (-1270); (-1110); (-930); (-750); (-630); (-520); (-460); (-400); 
   (-340); (-300); (-270); (-260); (-230); (-220); (-190); (-180); (-170); (-150); (-1710); (-1410); (-1200); (-1050); 
   (-890); (-770); (-630); (-520); (-450); (-400); (-340); (-300); (-280); (-260); (-240); (-220); (-190); (-180); (-170); 
   (-150); (-1710); (-1410); (-1180); (-1010); (-870); (-780); (-640); (-530); (-460); (-400); (-340); (-300); (-280); 
   (-260); (-240); (-220); (-190); (-180); (-170); (-150); (-1730); (-1430); (-1240); (-1040); (-890); (-800); (-670); 
   (-550); (-470); (-400); (-340); (-310); (-290); (-260); (-240); (-220); (-190); (-190); (-180); (-160); (-1740); 
   (-1450); (-1220); (-1060); (-920); (-810); (-700); (-560); (-480); (-410); (-350); (-310); (-290); (-260); (-240); 
   (-220); (-200); (-190); (-180); (-160); (-1770); (-1460); (-1240); (-1080); (-920); (-830); (-730); (-560); (-480); 
   (-410); (-350); (-320); (-300); (-260); (-240); (-220); (-200); (-190); (-180); (-160); (-1780); (-1480); (-1280); 
   (-1100); (-940); (-830); (-720); (-570); (-490); (-420); (-350); (-320); (-300); (-260); (-240); (-220); (-200); 
   (-190); (-180); (-160); (-1790); (-1490); (-1300); (-1110); (-950); (-830); (-710); (-590); (-490); (-420); (-350); 
   (-320); (-300); (-260); (-240); (-220); (-200); (-190); (-180); (-160); (-1810); (-1540); (-1320); (-1120); (-970); 
   (-830); (-710); (-600); (-490); (-420); (-360); (-330); (-300); (-260); (-240); (-220); (-200); (-190); (-180); (-160); 
   (-1700); (-1590); (-1430); (-1230); (-900); (-770); (-670); (-550); (-480); (-390); (-360); (-310); (-270); (-250); 
   (-220); (-200); (-190); (-180); (-170); (-150); (-1750); (-1640); (-1510); (-1250); (-950); (-790); (-690); (-540); 
   (-470); (-390); (-350); (-310); (-260); (-240); (-220); (-200); (-190); (-180); (-170); (-160); (-1810); (-1700); 
   (-1520); (-1250); (-940); (-800); (-700); (-520); (-460); (-390); (-350); (-310); (-270); (-240); (-220); (-210); 
   (-190); (-180); (-170); (-160); (-1850); (-1720); (-1510); (-1240); (-930); (-820); (-720); (-510); (-460); (-400); 
   (-340); (-300); (-260); (-240); (-220); (-210); (-190); (-180); (-160); (-160); (-1890); (-1730); (-1500); (-1260); 
   (-920); (-840); (-730); (-500); (-440); (-400); (-350); (-300); (-260); (-240); (-220); (-210); (-180); (-180); (-170); 
   (-160); (-1930); (-1720); (-1490); (-1230); (-920); (-850); (-720); (-500); (-430); (-400); (-360); (-300); (-270); 
   (-240); (-220); (-210); (-180); (-180); (-170); (-160); (-1920); (-1690); (-1500); (-1250); (-940); (-840); (-730); 
   (-520); (-440); (-410); (-360); (-320); (-270); (-250); (-230); (-210); (-190); (-180); (-170); (-160); (-1910); 
   (-1690); (-1520); (-1260); (-960); (-830); (-720); (-530); (-460); (-420); (-370); (-310); (-280); (-250); (-240); 
   (-220); (-200); (-180); (-170); (-160); (-1900); (-1690); (-1530); (-1290); (-990); (-820); (-710); (-540); (-480); 
   (-420); (-380); (-320); (-290); (-260); (-240); (-220); (-200); (-180); (-170); (-160); (-1890); (-1710); (-1550); 
   (-1310); (-1010); (-820); (-700); (-560); (-480); (-430); (-370); (-330); (-290); (-260); (-240); (-230); (-200); 
   (-190); (-180); (-160); (-1870); (-1670); (-1520); (-1310); (-1000); (-790); (-660); (-570); (-500); (-420); (-380); 
   (-330); (-290); (-270); (-250); (-230); (-200); (-190); (-180); (-160); (-1890); (-1610); (-1450); (-1270); (-1010); 
   (-820); (-660); (-570); (-500); (-430); (-370); (-330); (-300); (-270); (-250); (-230); (-200); (-190); (-180); (-160); 
   (-1900); (-1580); (-1390); (-1230); (-1000); (-840); (-690); (-570); (-500); (-430); (-370); (-330); (-300); (-270); 
   (-250); (-230); (-200); (-200); (-180); (-160); (-1900); (-1590); (-1330); (-1160); (-1010); (-850); (-720); (-580); 
   (-500); (-430); (-370); (-330); (-300); (-270); (-250); (-230); (-200); (-200); (-180); (-160); (-1900); (-1600); 
   (-1280); (-1100); (-930); (-870); (-740); (-600); (-490); (-440); (-370); (-330); (-310); (-280); (-250); (-240); 
   (-210); (-200); (-190); (-160); (-1920); (-1610); (-1320); (-1160); (-940); (-870); (-750); (-610); (-510); (-440); 
   (-380); (-330); (-310); (-280); (-260); (-240); (-210); (-200); (-190); (-160); (-1930); (-1630); (-1320); (-1110); 
   (-970); (-870); (-750); (-600); (-510); (-440); (-380); (-330); (-310); (-280); (-250); (-240); (-210); (-200); (-190); 
   (-160); (-1930); (-1630); (-1350); (-1140); (-980); (-870); (-750); (-630); (-520); (-440); (-380); (-340); (-320); 
   (-280); (-250); (-230); (-210); (-200); (-190); (-160); (-1940); (-1650); (-1350); (-1250); (-1000); (-870); (-750); 
   (-630); (-520); (-450); (-380); (-340); (-320); (-280); (-250); (-230); (-210); (-200); (-190); (-170); (-1960); 
   (-1670); (-1380); (-1290); (-1020); (-870); (-730); (-630); (-520); (-450); (-380); (-350); (-320); (-280); (-250); 
   (-230); (-210); (-200); (-190); (-170); (-1970); (-1860); (-1670); (-1370); (-1060); (-900); (-760); (-640); (-540); 
   (-450); (-420); (-360); (-310); (-280); (-250); (-240); (-220); (-200); (-190); (-170); (-2030); (-1920); (-1680); 
   (-1360); (-1070); (-910); (-770); (-620); (-540); (-440); (-410); (-350); (-310); (-280); (-250); (-230); (-210); 
   (-200); (-190); (-170); (-2080); (-1930); (-1670); (-1370); (-1060); (-930); (-790); (-600); (-530); (-440); (-400); 
   (-350); (-310); (-270); (-250); (-230); (-210); (-200); (-180); (-180); (-2130); (-1910); (-1670); (-1360); (-1080); 
   (-940); (-800); (-590); (-520); (-450); (-390); (-350); (-310); (-270); (-250); (-240); (-210); (-200); (-180); (-180); 
   (-2130); (-1910); (-1660); (-1350); (-1040); (-940); (-800); (-580); (-520); (-450); (-400); (-350); (-300); (-280); 
   (-250); (-230); (-210); (-200); (-180); (-180); (-2120); (-1890); (-1640); (-1340); (-1030); (-930); (-790); (-580); 
   (-510); (-460); (-410); (-340); (-310); (-270); (-250); (-230); (-210); (-200); (-190); (-180); (-2110); (-1870); 
   (-1630); (-1330); (-1020); (-920); (-770); (-570); (-500); (-460); (-420); (-340); (-310); (-280); (-250); (-230); 
   (-210); (-200); (-190); (-180); (-2100); (-1880); (-1650); (-1340); (-1040); (-910); (-770); (-580); (-540); (-470); 
   (-410); (-340); (-320); (-280); (-260); (-240); (-220); (-200); (-190); (-180); (-2080); (-1850); (-1660); (-1360); 
   (-1060); (-900); (-760); (-590); (-510); (-470); (-410); (-350); (-320); (-290); (-260); (-240); (-220); (-200); 
   (-190); (-170); (-2060); (-1900); (-1680); (-1380); (-1080); (-890); (-740); (-600); (-520); (-470); (-400); (-360); 
   (-310); (-280); (-260); (-240); (-220); (-200); (-190); (-170); (-2060); (-1870); (-1690); (-1390); (-1090); (-870); 
   (-700); (-620); (-540); (-460); (-410); (-360); (-310); (-290); (-270); (-240); (-220); (-200); (-190); (-170); 
   (-2070); (-1800); (-1620); (-1390); (-1090); (-890); (-730); (-620); (-540); (-460); (-400); (-350); (-310); (-290); 
   (-270); (-240); (-220); (-210); (-190); (-170); (-2080); (-1770); (-1580); (-1370); (-1080); (-910); (-760); (-620); 
   (-540); (-460); (-400); (-350); (-330); (-290); (-270); (-240); (-220); (-210); (-190); (-170); (-2070); (-1770); 
   (-1510); (-1350); (-1090); (-920); (-780); (-630); (-540); (-460); (-400); (-350); (-330); (-290); (-260); (-240); 
   (-220); (-210); (-190); (-170); (-2100); (-1770); (-1460); (-1280); (-1080); (-920); (-780); (-640); (-540); (-470); 
   (-410); (-350); (-330); (-290); (-270); (-250); (-220); (-210); (-190); (-170); (-2090); (-1780); (-1480); (-1300); 
   (-1070); (-920); (-780); (-660); (-540); (-470); (-410); (-350); (-330); (-290); (-270); (-250); (-220); (-210); 
   (-190); (-170); (-2110); (-1790); (-1490); (-1200); (-1090); (-920); (-780); (-660); (-540); (-470); (-410); (-350); 
   (-330); (-290); (-260); (-250); (-220); (-210); (-190); (-170); (-2110); (-1810); (-1500); (-1260); (-1100); (-920); 
   (-780); (-660); (-550); (-470); (-410); (-350); (-330); (-300); (-260); (-240); (-220); (-210); (-200); (-170); 
   (-2110); (-1800); (-1510); (-1290); (-1120); (-920); (-780); (-660); (-550); (-470); (-410); (-360); (-330); (-300); 
   (-270); (-240); (-220); (-210); (-190); (-170); (-2100); (-1810); (-1530); (-1370); (-1120); (-920); (-780); (-660); 
   (-550); (-470); (-410); (-360); (-330); (-300); (-270); (-240); (-220); (-210); (-190); (-180); (-2240); (-2100); 
   (-1790); (-1500); (-1200); (-1010); (-840); (-720); (-600); (-510); (-460); (-400); (-350); (-310); (-290); (-260); 
   (-240); (-220); (-210); (-190); (-2310); (-2100); (-1800); (-1490); (-1200); (-1020); (-860); (-700); (-600); (-510); 
   (-460); (-400); (-350); (-310); (-280); (-260); (-240); (-220); (-200); (-190); (-2330); (-2080); (-1800); (-1480); 
   (-1190); (-1030); (-860); (-680); (-590); (-500); (-450); (-390); (-350); (-310); (-280); (-260); (-230); (-220); 
   (-200); (-190); (-2320); (-2080); (-1790); (-1470); (-1170); (-1020); (-850); (-680); (-590); (-500); (-440); (-390); 
   (-340); (-310); (-280); (-260); (-230); (-220); (-200); (-190); (-2310); (-2080); (-1780); (-1470); (-1170); (-1010); 
   (-840); (-670); (-580); (-500); (-450); (-390); (-340); (-300); (-280); (-260); (-230); (-220); (-200); (-190); 
   (-2290); (-2050); (-1760); (-1460); (-1160); (-1000); (-830); (-660); (-570); (-500); (-450); (-380); (-350); (-300); 
   (-280); (-260); (-230); (-220); (-200); (-190); (-2290); (-2040); (-1750); (-1450); (-1140); (-980); (-820); (-650); 
   (-570); (-500); (-450); (-390); (-350); (-310); (-280); (-250); (-230); (-210); (-200); (-190); (-2280); (-2010); 
   (-1740); (-1440); (-1130); (-970); (-820); (-650); (-570); (-510); (-440); (-390); (-350); (-300); (-280); (-250); 
   (-230); (-220); (-200); (-180); (-2260); (-2000); (-1720); (-1430); (-1130); (-960); (-810); (-640); (-570); (-500); 
   (-440); (-390); (-340); (-310); (-280); (-250); (-230); (-220); (-200); (-180); (-2260); (-2010); (-1760); (-1450); 
   (-1150); (-950); (-800); (-650); (-580); (-500); (-440); (-380); (-340); (-310); (-280); (-250); (-230); (-220); 
   (-200); (-180); (-2220); (-2020); (-1760); (-1470); (-1160); (-940); (-780); (-670); (-570); (-490); (-440); (-380); 
   (-340); (-310); (-280); (-260); (-230); (-220); (-200); (-180); (-2230); (-1960); (-1730); (-1440); (-1160); (-960); 
   (-810); (-670); (-570); (-490); (-440); (-380); (-340); (-310); (-280); (-260); (-230); (-220); (-200); (-180); 
   (-2260); (-1950); (-1720); (-1440); (-1160); (-960); (-810); (-670); (-570); (-490); (-430); (-380); (-350); (-310); 
   (-280); (-260); (-230); (-220); (-200); (-180); (-2260); (-1960); (-1690); (-1440); (-1160); (-960); (-810); (-680); 
   (-570); (-490); (-430); (-380); (-350); (-310); (-280); (-260); (-230); (-220); (-200); (-180); (-2240); (-1940); 
   (-1660); (-1440); (-1160); (-960); (-810); (-680); (-570); (-500); (-430); (-380); (-350); (-310); (-280); (-260); 
   (-230); (-220); (-200); (-180); (-2290); (-1950); (-1660); (-1430); (-1160); (-960); (-810); (-680); (-570); (-500); 
   (-440); (-380); (-350); (-310); (-280); (-260); (-230); (-220); (-200); (-180); (-2280); (-1970); (-1680); (-1430); 
   (-1160); (-960); (-810); (-680); (-570); (-500); (-440); (-380); (-350); (-310); (-280); (-260); (-230); (-220); 
   (-200); (-180); (-2290); (-1970); (-1670); (-1370); (-1170); (-960); (-810); (-680); (-580); (-500); (-440); (-380); 
   (-350); (-310); (-280); (-260); (-230); (-220); (-200); (-180); (-2250); (-1980); (-1700); (-1460); (-1170); (-960); 
   (-810); (-680); (-580); (-500); (-440); (-380); (-350); (-310); (-280); (-260); (-230); (-220); (-200); (-180); 
   (-2260); (-1980); (-1690); (-1420); (-1170); (-960); (-810); (-680); (-580); (-500); (-440); (-380); (-350); (-310); 
   (-280); (-260); (-230); (-220); (-200); (-180); (-2520); (-2200); (-1920); (-1620); (-1330); (-1100); (-930); (-780); 
   (-670); (-570); (-500); (-440); (-390); (-350); (-320); (-290); (-260); (-240); (-220); (-210); (-2520); (-2210); 
   (-1910); (-1610); (-1320); (-1080); (-920); (-780); (-660); (-570); (-500); (-440); (-390); (-350); (-320); (-290); 
   (-260); (-240); (-220); (-200); (-2520); (-2220); (-1900); (-1610); (-1310); (-1070); (-910); (-770); (-660); (-560); 
   (-500); (-430); (-390); (-340); (-310); (-280); (-260); (-240); (-220); (-200); (-2500); (-2210); (-1910); (-1600); 
   (-1300); (-1060); (-900); (-760); (-650); (-560); (-490); (-430); (-390); (-340); (-310); (-280); (-260); (-240); 
   (-220); (-200); (-2480); (-2200); (-1900); (-1600); (-1290); (-1050); (-890); (-750); (-640); (-550); (-490); (-430); 
   (-380); (-340); (-310); (-280); (-250); (-240); (-220); (-200); (-2470); (-2170); (-1890); (-1590); (-1270); (-1040); 
   (-880); (-750); (-640); (-550); (-480); (-420); (-380); (-340); (-300); (-280); (-250); (-230); (-220); (-200); 
   (-2460); (-2150); (-1870); (-1580); (-1270); (-1030); (-870); (-740); (-630); (-540); (-480); (-420); (-380); (-330); 
   (-300); (-280); (-250); (-230); (-210); (-200); (-2450); (-2150); (-1860); (-1560); (-1260); (-1020); (-860); (-730); 
   (-620); (-540); (-470); (-420); (-370); (-330); (-300); (-270); (-250); (-230); (-210); (-200); (-2420); (-2130); 
   (-1840); (-1550); (-1250); (-1010); (-860); (-720); (-620); (-530); (-470); (-410); (-370); (-330); (-300); (-270); 
   (-250); (-230); (-210); (-190); (-2390); (-2130); (-1840); (-1540); (-1240); (-1000); (-850); (-710); (-610); (-530); 
   (-460); (-410); (-370); (-320); (-300); (-270); (-240); (-230); (-210); (-190); (-2400); (-2120); (-1840); (-1520); 
   (-1230); (-1000); (-840); (-710); (-610); (-530); (-460); (-410); (-360); (-320); (-300); (-270); (-240); (-230); 
   (-210); (-190); (-2400); (-2100); (-1820); (-1520); (-1230); (-990); (-840); (-710); (-610); (-530); (-460); (-410); 
   (-360); (-320); (-300); (-270); (-240); (-230); (-210); (-190); (-2420); (-2080); (-1790); (-1520); (-1230); (-990); 
   (-840); (-710); (-610); (-520); (-460); (-410); (-360); (-320); (-300); (-270); (-240); (-230); (-210); (-190); 
   (-2450); (-2100); (-1800); (-1510); (-1230); (-990); (-840); (-710); (-610); (-530); (-460); (-410); (-360); (-320); 
   (-300); (-270); (-240); (-230); (-210); (-190); (-2430); (-2110); (-1790); (-1510); (-1230); (-990); (-840); (-710); 
   (-610); (-530); (-460); (-410); (-360); (-320); (-300); (-270); (-240); (-230); (-210); (-190); (-2420); (-2120); 
   (-1790); (-1510); (-1230); (-990); (-840); (-710); (-610); (-530); (-460); (-410); (-360); (-320); (-300); (-270); 
   (-240); (-230); (-210); (-190); (-2440); (-2100); (-1800); (-1510); (-1220); (-990); (-840); (-710); (-610); (-530); 
   (-460); (-410); (-360); (-320); (-300); (-270); (-240); (-230); (-210); (-190); (-2430); (-2120); (-1800); (-1510); 
   (-1220); (-990); (-840); (-710); (-610); (-530); (-460); (-410); (-360); (-320); (-300); (-270); (-240); (-230); 
   (-210); (-190); (-2460); (-2140); (-1800); (-1510); (-1220); (-990); (-840); (-710); (-610); (-530); (-460); (-400); 
   (-360); (-320); (-300); (-270); (-240); (-230); (-210); (-190); (-2430); (-2120); (-1800); (-1510); (-1220); (-990); 
   (-840); (-710); (-610); (-530); (-460); (-410); (-360); (-320); (-300); (-270); (-240); (-230); (-210); (-190)].
(** tabulated_mass_loss_Keeley24.py: _log10_mbound_over_minfall_scatter_dex *)
Definition keeley_scatter_table : list Z :=
  [0; 0; 0; 0; 0; 0; 0; 0; 0; 0; 0; 0; 0; 0; 0; 0; 0; 0; 0; 0; 0; 0; 0; 0; 0; 0; 0; 0; 0; 0; 0; 0; 0; 0; 0; 0; 0; 0; 0; 0; 
   0; 0; 0; 0; 0; 0; 0; 0; 0; 0; 0; 0; 0; 0; 0; 0; 0; 0; 0; 0; 0; 0; 0; 0; 0; 0; 0; 0; 0; 0; 0; 0; 0; 0; 0; 0; 0; 0; 0; 0; 
   0; 0; 0; 0; 0; 0; 0; 0; 0; 0; 0; 0; 0; 0; 0; 0; 0; 0; 0; 0; 0; 0; 0; 0; 0; 0; 0; 0; 0; 0; 0; 0; 0; 0; 0; 0; 0; 0; 0; 0; 
   0; 0; 0; 0; 0; 0; 0; 0; 0; 0; 0; 0; 0; 0; 0; 0; 0; 0; 0; 0; 0; 0; 0; 0; 0; 0; 0; 0; 0; 0; 0; 0; 0; 0; 0; 0; 0; 0; 0; 0; 
   0; 0; 0; 0; 0; 0; 0; 0; 0; 0; 0; 0; 0; 0; 0; 0; 0; 0; 0; 0; 0; 0; 0; 0; 0; 0; 0; 0; 0; 0; 0; 0; 0; 0; 0; 0; 0; 0; 0; 0; 
   0; 0; 0; 0; 0; 0; 0; 0; 0; 0; 0; 0; 0; 0; 0; 0; 0; 0; 0; 0; 0; 0; 0; 0; 0; 0; 0; 0; 0; 0; 0; 0; 0; 0; 0; 0; 0; 0; 0; 0; 
   0; 0; 0; 0; 0; 0; 0; 0; 0; 0; 0; 0; 0; 0; 0; 0; 0; 0; 0; 0; 0; 0; 0; 0; 0; 0; 0; 0; 0; 0; 0; 0; 0; 0; 0; 0; 0; 0; 0; 0; 
   0; 0; 0; 0; 0; 0; 0; 0; 0; 0; 0; 0; 0; 0; 0; 0; 0; 0; 0; 0; 0; 0; 0; 0; 0; 0; 0; 0; 0; 0; 0; 0; 0; 0; 0; 0; 0; 0; 0; 0; 
   0; 0; 0; 0; 0; 0; 0; 0; 0; 0; 0; 0; 0; 0; 0; 0; 0; 0; 0; 0; 0; 0; 0; 0; 0; 0; 0; 0; 0; 0; 0; 0; 0; 0; 0; 0; 0; 0; 0; 0; 
   0; 0; 0; 0; 0; 0; 0; 0; 0; 0; 0; 0; 0; 0; 0; 0; 0; 0; 0; 0; 0; 0; 0; 0; 0; 0; 0; 0; 0; 0; 0; 0; 0; 0; 0; 0; 0; 0; 0; 0; 
   30; 30; 20; 20; 20; 20; 10; 10; 10; 10; 10; 10; 10; 10; 10; 10; 10; 10; 10; 0; 50; 30; 30; 30; 30; 20; 10; 20; 20; 20; 
   10; 10; 10; 10; 10; 10; 10; 10; 10; 10; 60; 30; 30; 30; 30; 20; 10; 20; 20; 20; 10; 10; 10; 10; 10; 10; 10; 10; 10; 10; 
   60; 30; 30; 30; 30; 20; 20; 20; 20; 20; 10; 10; 10; 10; 10; 10; 10; 10; 10; 10; 60; 30; 30; 30; 30; 20; 30; 20; 20; 20; 
   10; 10; 10; 10; 10; 10; 10; 10; 10; 10; 60; 30; 30; 30; 30; 20; 30; 20; 20; 20; 20; 10; 10; 10; 10; 10; 10; 10; 10; 10; 
   60; 30; 30; 30; 30; 30; 20; 20; 20; 20; 20; 10; 10; 10; 10; 10; 10; 10; 10; 10; 60; 30; 30; 30; 30; 30; 20; 20; 20; 20; 
   20; 10; 10; 10; 10; 10; 10; 10; 10; 10; 60; 30; 30; 30; 30; 30; 20; 20; 20; 20; 20; 10; 10; 10; 10; 10; 10; 10; 10; 10; 
   60; 30; 30; 30; 30; 30; 20; 20; 20; 20; 20; 10; 10; 10; 10; 10; 10; 10; 10; 10; 60; 60; 60; 60; 50; 20; 20; 20; 20; 20; 
   20; 20; 10; 10; 10; 10; 10; 10; 10; 10; 60; 60; 60; 60; 50; 20; 20; 20; 20; 20; 20; 20; 10; 10; 10; 10; 10; 10; 10; 10; 
   60; 60; 60; 60; 50; 30; 20; 20; 20; 20; 20; 20; 10; 10; 10; 10; 10; 10; 10; 10; 60; 60; 60; 60; 50; 30; 20; 20; 20; 20; 
   20; 20; 10; 10; 10; 10; 10; 10; 10; 10; 60; 60; 60; 60; 50; 30; 20; 20; 20; 20; 20; 20; 10; 10; 10; 10; 10; 10; 10; 10; 
   60; 60; 60; 60; 50; 30; 20; 20; 20; 20; 20; 20; 10; 10; 10; 10; 10; 10; 10; 10; 60; 60; 60; 60; 50; 30; 30; 20; 20; 20; 
   20; 20; 10; 10; 10; 10; 10; 10; 10; 10; 60; 60; 60; 60; 50; 30; 30; 20; 20; 20; 20; 20; 20; 10; 10; 10; 10; 10; 10; 10; 
   70; 70; 70; 60; 60; 30; 30; 20; 20; 20; 20; 20; 20; 10; 10; 10; 10; 10; 10; 10; 80; 80; 80; 80; 70; 30; 30; 30; 30; 20; 
   20; 20; 20; 10; 10; 10; 10; 10; 10; 10; 60; 60; 60; 50; 40; 30; 30; 30; 20; 20; 20; 20; 10; 10; 10; 10; 10; 10; 10; 10; 
   80; 60; 60; 60; 50; 40; 40; 30; 30; 30; 20; 20; 10; 10; 10; 10; 10; 10; 10; 10; 100; 70; 70; 60; 60; 40; 50; 30; 30; 
   30; 20; 20; 10; 10; 20; 10; 10; 10; 10; 10; 120; 80; 70; 70; 70; 40; 40; 30; 40; 40; 20; 20; 10; 10; 20; 20; 20; 20; 
   20; 10; 120; 80; 70; 70; 70; 40; 40; 30; 40; 40; 20; 20; 10; 20; 20; 20; 20; 20; 20; 10; 120; 80; 70; 70; 70; 40; 50; 
   30; 40; 40; 30; 20; 10; 20; 20; 20; 20; 20; 20; 10; 120; 80; 70; 70; 70; 50; 50; 40; 40; 40; 30; 20; 10; 20; 20; 20; 
   20; 20; 20; 10; 120; 80; 70; 70; 70; 60; 50; 40; 40; 40; 30; 20; 10; 20; 20; 20; 20; 20; 20; 10; 120; 80; 70; 70; 70; 
   60; 50; 40; 40; 40; 30; 20; 20; 20; 20; 20; 20; 20; 20; 10; 120; 80; 70; 70; 70; 60; 50; 40; 40; 40; 30; 20; 20; 20; 
   20; 20; 20; 20; 20; 10; 120; 120; 120; 120; 80; 60; 50; 40; 40; 40; 30; 30; 20; 20; 20; 20; 20; 10; 10; 10; 120; 120; 
   120; 120; 80; 60; 50; 40; 40; 40; 30; 30; 20; 20; 20; 20; 20; 10; 10; 10; 120; 120; 120; 120; 80; 50; 50; 40; 40; 40; 
   30; 30; 20; 20; 20; 20; 20; 10; 10; 10; 120; 120; 120; 120; 90; 60; 50; 40; 40; 40; 30; 40; 20; 20; 20; 20; 20; 10; 10; 
   10; 120; 120; 120; 120; 90; 60; 50; 40; 40; 40; 30; 40; 30; 20; 20; 20; 20; 10; 10; 10; 120; 120; 120; 120; 90; 50; 50; 
   40; 40; 40; 30; 40; 30; 20; 20; 20; 20; 20; 10; 10; 120; 120; 120; 120; 90; 60; 50; 40; 40; 40; 40; 30; 30; 20; 20; 20; 
   20; 10; 10; 10; 130; 130; 130; 130; 90; 60; 50; 40; 40; 40; 40; 30; 30; 20; 20; 20; 20; 20; 10; 10; 150; 150; 140; 140; 
   90; 60; 60; 50; 50; 40; 30; 30; 30; 20; 20; 20; 20; 20; 20; 20; 170; 160; 150; 150; 110; 60; 60; 60; 50; 40; 30; 30; 
   30; 20; 20; 20; 20; 20; 20; 20; 90; 90; 90; 80; 60; 50; 40; 40; 30; 30; 30; 20; 20; 20; 20; 20; 10; 10; 10; 10; 110; 
   100; 90; 80; 60; 50; 40; 40; 40; 40; 30; 20; 20; 20; 20; 20; 20; 20; 20; 10; 130; 90; 90; 100; 80; 50; 60; 50; 40; 40; 
   30; 20; 20; 20; 20; 20; 20; 20; 20; 10; 150; 110; 100; 100; 90; 50; 60; 50; 50; 50; 30; 20; 20; 20; 20; 20; 20; 20; 20; 
   20; 180; 140; 100; 120; 100; 60; 80; 50; 50; 50; 30; 20; 20; 20; 20; 20; 20; 20; 20; 20; 180; 140; 100; 110; 100; 80; 
   80; 50; 60; 50; 30; 20; 20; 20; 20; 20; 20; 20; 20; 20; 180; 140; 100; 100; 100; 80; 70; 60; 60; 50; 40; 30; 20; 30; 
   20; 20; 20; 20; 20; 20; 180; 140; 100; 100; 100; 90; 80; 60; 40; 50; 40; 30; 20; 30; 20; 20; 20; 20; 20; 20; 180; 140; 
   100; 100; 100; 90; 70; 60; 50; 60; 40; 30; 30; 30; 30; 20; 20; 20; 20; 20; 180; 150; 100; 100; 100; 90; 70; 60; 60; 60; 
   40; 40; 30; 30; 30; 20; 20; 20; 20; 20; 180; 180; 180; 160; 110; 80; 70; 60; 60; 60; 40; 40; 30; 30; 30; 30; 20; 20; 
   20; 20; 180; 180; 180; 160; 120; 90; 70; 60; 60; 60; 40; 40; 30; 30; 30; 30; 20; 20; 20; 20; 180; 180; 180; 160; 120; 
   90; 70; 60; 60; 60; 40; 50; 40; 30; 30; 30; 20; 20; 20; 20; 180; 180; 180; 160; 120; 90; 70; 70; 60; 60; 50; 50; 40; 
   30; 30; 30; 20; 20; 20; 20; 180; 180; 180; 160; 120; 80; 70; 70; 60; 60; 50; 50; 40; 30; 30; 30; 20; 20; 20; 20; 180; 
   180; 180; 160; 120; 80; 80; 70; 60; 60; 50; 50; 40; 30; 30; 30; 30; 20; 20; 20; 200; 190; 190; 170; 130; 90; 80; 70; 
   70; 60; 60; 50; 40; 40; 30; 30; 30; 20; 20; 20; 210; 210; 200; 180; 130; 100; 80; 70; 70; 60; 50; 50; 50; 40; 40; 30; 
   30; 20; 20; 20; 230; 230; 230; 190; 130; 100; 90; 80; 70; 60; 50; 50; 50; 40; 40; 40; 30; 30; 20; 20; 250; 240; 230; 
   200; 140; 100; 90; 90; 80; 60; 50; 50; 50; 40; 40; 40; 30; 30; 20; 20; 120; 120; 120; 90; 70; 60; 60; 50; 40; 40; 30; 
   30; 20; 20; 20; 20; 20; 20; 20; 10; 150; 120; 120; 110; 80; 70; 60; 60; 50; 50; 30; 30; 20; 20; 20; 20; 20; 20; 20; 20; 
   160; 130; 130; 120; 100; 70; 70; 60; 50; 50; 30; 30; 20; 20; 30; 20; 20; 20; 20; 20; 180; 150; 140; 130; 100; 80; 80; 
   60; 60; 60; 30; 30; 20; 20; 30; 30; 30; 30; 20; 20; 200; 160; 130; 160; 120; 90; 90; 60; 70; 60; 40; 30; 20; 30; 30; 
   30; 30; 30; 30; 20; 220; 180; 150; 140; 140; 100; 100; 70; 70; 50; 40; 30; 30; 30; 30; 30; 30; 30; 30; 20; 240; 200; 
   160; 140; 150; 120; 100; 70; 60; 60; 50; 40; 30; 40; 40; 30; 30; 30; 30; 20; 230; 200; 170; 140; 150; 120; 100; 70; 60; 
   70; 50; 40; 30; 40; 40; 30; 30; 30; 30; 20; 230; 200; 160; 160; 150; 120; 100; 80; 70; 70; 60; 40; 40; 40; 40; 30; 30; 
   30; 30; 20; 240; 200; 180; 160; 150; 120; 90; 80; 70; 70; 60; 50; 40; 40; 40; 30; 30; 30; 30; 20; 240; 240; 230; 190; 
   150; 120; 90; 90; 70; 70; 60; 50; 50; 40; 40; 40; 30; 30; 20; 20; 230; 250; 240; 190; 150; 110; 90; 90; 70; 70; 60; 60; 
   50; 40; 40; 40; 30; 30; 20; 20; 240; 240; 230; 190; 150; 120; 90; 90; 70; 70; 60; 60; 50; 40; 40; 40; 30; 30; 20; 20; 
   240; 230; 240; 200; 150; 120; 90; 90; 70; 70; 70; 60; 50; 40; 40; 40; 30; 30; 20; 20; 240; 240; 240; 200; 150; 120; 
   100; 90; 80; 70; 70; 60; 50; 40; 40; 40; 30; 30; 30; 30; 260; 260; 250; 200; 160; 120; 100; 100; 90; 70; 70; 70; 50; 
   50; 40; 40; 30; 30; 30; 30; 280; 280; 270; 200; 160; 130; 110; 100; 90; 70; 70; 70; 60; 50; 50; 40; 40; 30; 30; 30; 
   300; 300; 280; 220; 170; 140; 110; 100; 90; 80; 70; 70; 60; 50; 50; 40; 40; 30; 30; 30; 310; 310; 290; 240; 180; 130; 
   120; 110; 100; 70; 70; 60; 60; 50; 50; 40; 40; 40; 30; 30; 320; 320; 310; 250; 190; 140; 120; 120; 100; 80; 70; 60; 60; 
   50; 50; 50; 40; 40; 30; 30; 160; 170; 130; 110; 90; 80; 70; 60; 50; 50; 40; 40; 30; 30; 30; 20; 30; 20; 20; 20; 180; 
   180; 160; 120; 100; 80; 80; 70; 60; 60; 40; 40; 30; 30; 30; 30; 30; 20; 20; 20; 200; 180; 160; 150; 120; 100; 90; 70; 
   60; 60; 40; 40; 30; 30; 30; 30; 30; 30; 30; 20; 220; 180; 160; 150; 130; 110; 100; 80; 70; 70; 40; 40; 30; 30; 30; 30; 
   30; 30; 30; 20; 240; 200; 190; 180; 140; 120; 100; 80; 80; 70; 50; 40; 40; 40; 40; 30; 30; 30; 30; 20; 260; 220; 190; 
   190; 150; 130; 110; 80; 80; 70; 50; 50; 40; 40; 40; 40; 40; 30; 30; 30; 280; 240; 200; 200; 160; 140; 120; 80; 70; 80; 
   60; 50; 40; 40; 40; 40; 40; 40; 30; 30; 300; 260; 220; 230; 180; 150; 130; 90; 80; 80; 60; 60; 50; 40; 40; 40; 40; 40; 
   40; 30; 310; 260; 220; 190; 180; 150; 120; 100; 80; 80; 70; 60; 50; 50; 50; 40; 40; 40; 30; 30; 300; 270; 220; 230; 
   180; 150; 120; 110; 90; 80; 70; 60; 50; 50; 50; 40; 40; 40; 40; 30; 300; 300; 260; 220; 180; 150; 120; 110; 90; 80; 70; 
   70; 60; 50; 50; 40; 40; 40; 30; 30; 310; 300; 260; 220; 180; 150; 120; 110; 90; 80; 80; 70; 60; 50; 50; 40; 40; 40; 30; 
   30; 300; 300; 260; 220; 180; 150; 120; 110; 90; 90; 80; 70; 60; 50; 50; 40; 40; 40; 30; 30; 310; 310; 280; 230; 190; 
   150; 120; 120; 100; 90; 80; 70; 60; 50; 50; 50; 40; 40; 30; 30; 330; 330; 290; 230; 190; 150; 120; 120; 110; 90; 90; 
   80; 70; 60; 50; 50; 40; 40; 30; 30; 340; 340; 300; 240; 200; 160; 130; 120; 110; 90; 90; 80; 70; 60; 50; 50; 40; 40; 
   30; 30; 360; 350; 320; 250; 200; 160; 140; 130; 110; 90; 90; 80; 70; 60; 60; 50; 50; 40; 40; 40; 380; 360; 320; 260; 
   210; 170; 140; 130; 120; 90; 90; 80; 70; 60; 60; 50; 50; 40; 40; 40; 380; 380; 330; 270; 220; 170; 150; 150; 120; 90; 
   90; 80; 80; 60; 60; 50; 50; 40; 40; 40; 400; 390; 340; 280; 220; 180; 160; 150; 120; 100; 90; 80; 80; 60; 60; 60; 50; 
   50; 40; 40; 190; 190; 160; 130; 110; 90; 80; 70; 60; 60; 50; 40; 40; 30; 30; 30; 30; 30; 20; 20; 210; 200; 170; 150; 
   120; 100; 90; 80; 70; 60; 50; 40; 40; 30; 30; 30; 30; 30; 30; 20; 230; 210; 180; 150; 130; 110; 100; 80; 70; 70; 50; 
   50; 40; 30; 40; 30; 30; 30; 30; 20; 250; 220; 210; 180; 140; 120; 110; 90; 80; 70; 60; 50; 40; 40; 40; 40; 40; 30; 30; 
   30; 280; 230; 210; 180; 160; 130; 120; 100; 80; 80; 60; 60; 50; 40; 40; 40; 40; 40; 30; 30; 290; 280; 220; 200; 170; 
   140; 130; 110; 80; 80; 70; 60; 50; 40; 40; 40; 40; 40; 30; 30; 320; 280; 250; 220; 180; 150; 130; 110; 90; 90; 70; 60; 
   60; 50; 50; 40; 40; 40; 40; 30; 340; 300; 260; 230; 190; 170; 140; 110; 100; 80; 70; 70; 60; 50; 50; 40; 40; 40; 40; 
   30; 370; 320; 280; 260; 200; 180; 150; 120; 100; 90; 80; 70; 60; 50; 50; 50; 50; 40; 40; 30; 380; 330; 290; 260; 220; 
   180; 150; 130; 110; 100; 80; 80; 70; 60; 60; 50; 50; 40; 40; 40; 370; 340; 300; 260; 210; 180; 150; 130; 110; 100; 90; 
   80; 70; 60; 60; 50; 50; 40; 40; 40; 360; 340; 300; 250; 210; 180; 150; 140; 110; 100; 90; 80; 70; 60; 60; 50; 50; 40; 
   40; 40; 390; 360; 300; 260; 220; 180; 150; 140; 120; 100; 90; 80; 80; 70; 60; 50; 50; 40; 40; 40; 390; 360; 310; 270; 
   220; 180; 160; 140; 130; 110; 90; 90; 80; 70; 60; 50; 50; 50; 40; 40; 410; 390; 320; 290; 230; 190; 160; 150; 130; 110; 
   100; 90; 80; 70; 60; 60; 50; 50; 40; 40; 430; 400; 350; 280; 240; 190; 170; 160; 130; 110; 100; 90; 80; 70; 60; 60; 50; 
   50; 40; 40; 430; 410; 360; 300; 240; 200; 170; 160; 140; 110; 100; 100; 80; 70; 60; 60; 50; 50; 50; 40; 440; 420; 360; 
   320; 240; 200; 180; 160; 140; 110; 110; 100; 90; 70; 70; 60; 60; 50; 50; 40; 460; 430; 380; 320; 260; 210; 180; 170; 
   140; 120; 110; 100; 90; 70; 70; 60; 60; 50; 50; 50; 480; 440; 400; 320; 260; 210; 190; 180; 140; 120; 110; 100; 90; 80; 
   70; 60; 60; 50; 50; 50; 230; 200; 160; 140; 120; 100; 100; 90; 80; 70; 60; 50; 40; 40; 40; 40; 30; 30; 30; 20; 250; 
   210; 170; 150; 130; 110; 100; 90; 80; 70; 60; 50; 50; 40; 40; 40; 40; 30; 30; 20; 290; 220; 190; 160; 140; 120; 110; 
   100; 80; 80; 60; 60; 50; 40; 40; 40; 40; 30; 30; 30; 300; 240; 210; 180; 150; 130; 120; 100; 90; 80; 70; 60; 50; 50; 
   40; 40; 40; 40; 30; 30; 320; 260; 220; 200; 180; 140; 130; 110; 90; 90; 70; 60; 60; 50; 50; 50; 40; 40; 30; 30; 340; 
   290; 250; 200; 180; 150; 140; 120; 100; 90; 80; 70; 60; 50; 50; 50; 40; 40; 40; 30; 340; 300; 260; 220; 200; 160; 140; 
   130; 110; 90; 80; 70; 70; 60; 50; 50; 40; 40; 40; 30; 360; 320; 280; 250; 210; 170; 150; 130; 110; 100; 80; 80; 70; 60; 
   60; 50; 50; 40; 40; 40; 400; 340; 300; 260; 220; 180; 160; 140; 120; 100; 90; 80; 70; 60; 60; 50; 50; 50; 40; 40; 410; 
   360; 320; 270; 230; 200; 170; 150; 120; 110; 90; 80; 80; 70; 60; 60; 50; 50; 40; 40; 430; 380; 330; 280; 240; 200; 180; 
   150; 130; 110; 100; 90; 80; 70; 60; 60; 50; 50; 40; 40; 450; 390; 340; 290; 250; 210; 180; 150; 140; 110; 100; 90; 80; 
   70; 70; 60; 50; 50; 50; 40; 450; 400; 340; 290; 250; 210; 180; 160; 140; 120; 100; 90; 90; 80; 70; 60; 60; 50; 50; 40; 
   460; 410; 360; 310; 260; 210; 190; 170; 140; 120; 100; 90; 90; 80; 70; 60; 60; 50; 50; 40; 480; 430; 370; 320; 260; 
   220; 190; 170; 150; 120; 110; 100; 90; 80; 70; 60; 60; 60; 50; 50; 490; 430; 390; 340; 270; 220; 200; 180; 150; 130; 
   110; 100; 90; 80; 70; 70; 60; 60; 50; 50; 500; 450; 390; 340; 280; 230; 200; 190; 150; 130; 110; 100; 90; 80; 70; 70; 
   60; 60; 50; 50; 520; 470; 400; 340; 280; 230; 210; 190; 160; 130; 120; 100; 100; 80; 80; 70; 60; 60; 50; 50; 530; 480; 
   420; 350; 290; 240; 220; 190; 160; 140; 120; 110; 100; 90; 80; 70; 70; 60; 60; 50; 550; 490; 420; 360; 300; 250; 220; 
   200; 160; 140; 120; 110; 100; 90; 80; 70; 70; 60; 60; 50; 260; 200; 180; 150; 130; 110; 100; 90; 80; 70; 60; 50; 50; 
   40; 40; 40; 40; 30; 30; 20; 280; 220; 190; 170; 140; 120; 110; 100; 80; 70; 60; 50; 50; 40; 40; 40; 40; 30; 30; 30; 
   290; 250; 200; 180; 160; 130; 120; 100; 80; 80; 70; 60; 50; 50; 40; 40; 40; 40; 30; 30; 310; 250; 220; 190; 160; 140; 
   120; 110; 90; 80; 70; 60; 50; 50; 40; 40; 40; 40; 30; 30; 340; 290; 240; 220; 170; 150; 130; 110; 100; 90; 70; 60; 60; 
   50; 50; 50; 40; 40; 30; 30; 350; 300; 260; 220; 200; 160; 140; 120; 100; 90; 80; 70; 60; 60; 50; 50; 40; 40; 40; 30; 
   370; 320; 280; 250; 200; 170; 150; 130; 110; 100; 80; 70; 70; 60; 50; 50; 50; 40; 40; 40; 400; 340; 300; 260; 220; 180; 
   160; 130; 120; 100; 90; 80; 70; 60; 60; 50; 50; 40; 40; 40; 420; 360; 320; 270; 230; 190; 170; 140; 120; 110; 90; 80; 
   70; 60; 60; 60; 50; 50; 40; 40; 440; 380; 340; 290; 250; 200; 170; 150; 130; 110; 100; 90; 80; 70; 60; 60; 50; 50; 40; 
   40; 460; 400; 340; 300; 260; 220; 190; 160; 140; 110; 100; 90; 80; 70; 60; 60; 50; 50; 40; 40; 460; 400; 360; 310; 260; 
   220; 190; 160; 140; 120; 100; 90; 80; 70; 70; 60; 60; 50; 50; 40; 480; 410; 370; 310; 270; 230; 190; 170; 150; 120; 
   100; 90; 90; 80; 70; 60; 60; 50; 50; 40; 490; 430; 380; 320; 280; 230; 200; 180; 150; 120; 110; 100; 90; 80; 70; 60; 
   60; 50; 50; 40; 510; 430; 390; 340; 280; 230; 200; 180; 150; 130; 110; 100; 90; 80; 70; 70; 60; 60; 50; 50; 520; 440; 
   390; 350; 290; 230; 210; 190; 160; 130; 110; 100; 90; 80; 70; 70; 60; 60; 50; 50; 540; 460; 410; 350; 300; 240; 210; 
   190; 160; 130; 120; 100; 100; 80; 80; 70; 60; 60; 50; 50; 550; 480; 420; 370; 300; 240; 220; 200; 160; 140; 120; 110; 
   100; 90; 80; 70; 70; 60; 60; 50; 570; 490; 430; 370; 310; 250; 220; 200; 160; 140; 120; 110; 100; 90; 80; 70; 70; 60; 
   60; 50; 590; 510; 450; 380; 310; 250; 230; 200; 170; 140; 120; 120; 100; 90; 80; 70; 70; 60; 60; 50; 280; 230; 200; 
   180; 140; 120; 100; 90; 80; 70; 60; 50; 50; 40; 40; 40; 40; 30; 30; 30; 300; 250; 200; 170; 150; 120; 110; 100; 90; 70; 
   60; 60; 50; 40; 40; 40; 40; 30; 30; 30; 320; 260; 220; 190; 170; 130; 120; 110; 90; 80; 70; 60; 50; 50; 40; 40; 40; 40; 
   30; 30; 340; 290; 230; 200; 180; 150; 130; 110; 100; 90; 70; 60; 50; 50; 50; 40; 40; 40; 30; 30; 360; 310; 260; 220; 
   190; 160; 140; 120; 110; 90; 80; 70; 60; 50; 50; 50; 40; 40; 40; 30; 380; 330; 280; 240; 200; 170; 150; 130; 110; 100; 
   80; 70; 60; 60; 50; 50; 50; 40; 40; 30; 410; 350; 300; 260; 220; 180; 150; 130; 110; 100; 90; 70; 70; 60; 50; 50; 50; 
   40; 40; 40; 430; 370; 310; 280; 230; 190; 160; 140; 120; 110; 90; 80; 70; 60; 60; 50; 50; 50; 40; 40; 450; 400; 340; 
   290; 250; 200; 170; 150; 130; 110; 90; 80; 70; 70; 60; 60; 50; 50; 40; 40; 470; 420; 370; 320; 260; 210; 180; 150; 140; 
   110; 100; 90; 80; 70; 60; 60; 50; 50; 50; 40; 470; 430; 370; 330; 270; 220; 200; 160; 140; 120; 100; 90; 80; 70; 70; 
   60; 60; 50; 50; 40; 500; 430; 370; 320; 280; 230; 200; 170; 150; 120; 110; 90; 80; 80; 70; 60; 60; 50; 50; 40; 510; 
   440; 380; 330; 290; 240; 200; 180; 150; 120; 110; 100; 90; 80; 70; 70; 60; 50; 50; 40; 520; 450; 390; 340; 290; 240; 
   210; 180; 160; 130; 110; 100; 90; 80; 70; 70; 60; 50; 50; 50; 530; 460; 400; 340; 300; 240; 210; 190; 160; 130; 110; 
   100; 90; 80; 70; 70; 60; 60; 50; 50; 540; 480; 420; 360; 310; 240; 210; 200; 160; 130; 120; 110; 90; 80; 80; 70; 60; 
   60; 50; 50; 570; 490; 420; 380; 310; 250; 220; 200; 170; 130; 120; 110; 100; 90; 80; 70; 60; 60; 50; 50; 600; 500; 440; 
   380; 320; 250; 220; 210; 160; 140; 120; 110; 100; 90; 80; 70; 60; 60; 50; 50; 620; 520; 460; 390; 320; 260; 230; 210; 
   170; 140; 120; 110; 100; 90; 80; 80; 70; 60; 60; 50; 640; 530; 460; 400; 330; 270; 230; 210; 170; 140; 120; 120; 100; 
   90; 80; 80; 70; 60; 60; 50; 300; 250; 220; 180; 160; 120; 110; 100; 90; 70; 60; 50; 50; 40; 40; 40; 40; 30; 30; 30; 
   320; 270; 240; 190; 180; 130; 120; 100; 90; 80; 70; 60; 50; 50; 40; 40; 40; 40; 30; 30; 350; 290; 240; 200; 180; 140; 
   120; 110; 100; 80; 70; 60; 50; 50; 40; 40; 40; 40; 30; 30; 370; 320; 260; 220; 200; 150; 130; 120; 100; 90; 80; 60; 60; 
   50; 50; 40; 40; 40; 40; 30; 400; 340; 280; 240; 210; 170; 140; 120; 110; 100; 80; 70; 60; 60; 50; 50; 40; 40; 40; 30; 
   410; 360; 300; 260; 220; 180; 150; 130; 110; 100; 80; 70; 60; 60; 50; 50; 50; 40; 40; 30; 440; 370; 320; 280; 230; 190; 
   160; 140; 120; 100; 90; 80; 70; 60; 60; 50; 50; 40; 40; 40; 450; 390; 340; 290; 250; 200; 170; 150; 130; 110; 90; 80; 
   70; 60; 60; 50; 50; 50; 40; 40; 460; 420; 370; 300; 260; 210; 180; 160; 130; 110; 100; 80; 80; 70; 60; 60; 50; 50; 40; 
   40; 490; 440; 380; 340; 270; 220; 190; 160; 140; 120; 100; 90; 80; 70; 60; 60; 50; 50; 50; 40; 500; 450; 400; 340; 290; 
   240; 210; 170; 150; 120; 100; 90; 90; 80; 70; 60; 50; 50; 50; 40; 520; 460; 400; 360; 290; 240; 210; 180; 160; 120; 
   110; 90; 90; 80; 70; 60; 60; 50; 50; 40; 540; 460; 410; 360; 300; 250; 210; 180; 160; 130; 110; 100; 90; 80; 70; 70; 
   60; 50; 50; 40; 550; 470; 420; 360; 310; 250; 220; 190; 160; 130; 110; 100; 90; 80; 70; 70; 60; 50; 50; 50; 560; 490; 
   420; 360; 310; 250; 220; 200; 170; 130; 120; 110; 90; 80; 80; 70; 60; 60; 50; 50; 590; 500; 440; 380; 320; 260; 220; 
   200; 180; 140; 120; 110; 100; 90; 80; 70; 60; 60; 50; 50; 610; 520; 440; 390; 330; 270; 220; 210; 170; 140; 120; 110; 
   100; 90; 80; 70; 60; 60; 50; 50; 640; 540; 470; 400; 330; 270; 230; 210; 170; 150; 130; 120; 100; 90; 80; 70; 60; 60; 
   60; 50; 650; 560; 470; 410; 340; 280; 230; 220; 180; 140; 130; 120; 100; 90; 80; 80; 70; 60; 60; 50; 680; 580; 490; 
   410; 350; 280; 240; 220; 170; 150; 130; 120; 110; 90; 80; 80; 70; 60; 60; 50; 330; 280; 230; 210; 170; 130; 110; 100; 
   90; 80; 70; 60; 50; 40; 40; 40; 40; 30; 30; 30; 350; 300; 250; 200; 170; 140; 120; 110; 100; 80; 70; 60; 50; 50; 40; 
   40; 40; 40; 30; 30; 370; 320; 270; 220; 190; 150; 130; 110; 100; 90; 70; 60; 60; 50; 50; 40; 40; 40; 30; 30; 400; 340; 
   290; 240; 200; 160; 140; 120; 100; 90; 80; 70; 60; 50; 50; 40; 40; 40; 40; 30; 420; 360; 300; 260; 220; 180; 150; 130; 
   110; 100; 80; 70; 60; 60; 50; 50; 50; 40; 40; 30; 440; 380; 330; 260; 230; 190; 160; 140; 120; 100; 90; 80; 70; 60; 50; 
   50; 50; 40; 40; 40; 460; 400; 350; 290; 250; 200; 160; 150; 130; 110; 90; 80; 70; 60; 60; 50; 50; 50; 40; 40; 470; 420; 
   370; 320; 260; 220; 170; 150; 130; 110; 90; 80; 70; 70; 60; 50; 50; 50; 40; 40; 500; 440; 400; 340; 280; 230; 180; 160; 
   140; 110; 100; 90; 80; 70; 60; 60; 50; 50; 40; 40; 520; 470; 420; 350; 290; 240; 200; 170; 140; 120; 100; 90; 80; 70; 
   70; 60; 60; 50; 50; 40; 540; 480; 430; 360; 300; 250; 220; 170; 150; 120; 110; 90; 90; 80; 70; 60; 60; 50; 50; 40; 550; 
   480; 430; 370; 310; 260; 220; 180; 160; 130; 110; 100; 90; 80; 70; 70; 60; 50; 50; 40; 560; 490; 430; 380; 310; 260; 
   220; 190; 160; 130; 110; 100; 90; 80; 70; 70; 60; 50; 50; 40; 580; 500; 430; 390; 320; 260; 230; 190; 170; 130; 120; 
   100; 90; 80; 80; 70; 60; 50; 50; 50; 610; 520; 460; 390; 330; 270; 240; 200; 180; 140; 120; 110; 90; 90; 80; 70; 60; 
   60; 50; 50; 630; 530; 460; 390; 340; 270; 230; 200; 180; 140; 120; 110; 100; 90; 80; 70; 60; 60; 50; 50; 650; 560; 480; 
   410; 340; 280; 240; 220; 180; 150; 130; 120; 100; 90; 80; 70; 60; 60; 50; 50; 670; 580; 500; 410; 350; 290; 250; 220; 
   190; 150; 130; 120; 100; 90; 80; 80; 70; 60; 50; 50; 700; 600; 500; 420; 360; 290; 250; 230; 180; 150; 130; 120; 110; 
   90; 80; 80; 70; 60; 60; 50; 720; 620; 520; 430; 360; 300; 250; 230; 190; 150; 130; 120; 110; 90; 90; 80; 70; 60; 60; 
   50; 360; 310; 260; 230; 180; 140; 120; 110; 90; 80; 70; 60; 50; 50; 40; 40; 40; 40; 30; 30; 380; 330; 280; 230; 190; 
   150; 130; 110; 100; 80; 70; 60; 50; 50; 40; 40; 40; 40; 30; 30; 400; 350; 300; 250; 200; 160; 140; 120; 100; 90; 80; 
   70; 60; 50; 50; 40; 40; 40; 40; 30; 420; 370; 310; 260; 220; 170; 150; 130; 110; 90; 80; 70; 60; 50; 50; 50; 40; 40; 
   40; 30; 440; 400; 330; 280; 220; 180; 150; 130; 120; 100; 80; 70; 60; 60; 50; 50; 50; 40; 40; 30; 460; 410; 360; 310; 
   250; 200; 160; 140; 120; 100; 90; 80; 70; 60; 60; 50; 50; 50; 40; 40; 490; 430; 380; 320; 260; 210; 170; 150; 130; 110; 
   90; 80; 70; 60; 60; 50; 50; 50; 40; 40; 500; 450; 400; 340; 270; 230; 190; 160; 140; 110; 100; 90; 70; 70; 60; 50; 50; 
   50; 40; 40; 520; 480; 420; 350; 290; 240; 200; 160; 140; 120; 100; 90; 80; 70; 60; 60; 50; 50; 40; 40; 540; 500; 430; 
   370; 300; 250; 210; 170; 150; 120; 110; 90; 80; 70; 70; 60; 60; 50; 50; 40; 560; 510; 440; 380; 310; 270; 220; 180; 
   160; 130; 110; 100; 90; 80; 70; 60; 60; 50; 50; 40; 580; 510; 450; 390; 320; 270; 220; 190; 160; 130; 110; 100; 90; 80; 
   70; 70; 60; 50; 50; 40; 600; 510; 460; 400; 330; 270; 230; 190; 170; 130; 110; 100; 90; 80; 70; 70; 60; 50; 50; 40; 
   620; 530; 460; 400; 340; 280; 240; 200; 170; 130; 120; 110; 90; 80; 80; 70; 60; 50; 50; 40; 650; 550; 460; 410; 340; 
   280; 240; 210; 170; 140; 120; 110; 100; 90; 80; 70; 60; 60; 50; 50; 670; 570; 480; 420; 350; 290; 240; 210; 190; 140; 
   120; 110; 100; 90; 80; 70; 60; 60; 50; 50; 690; 600; 510; 430; 360; 300; 260; 220; 190; 150; 120; 120; 100; 90; 80; 70; 
   60; 60; 50; 50; 710; 620; 520; 440; 360; 300; 260; 220; 200; 150; 140; 120; 100; 90; 80; 80; 70; 60; 60; 50; 730; 640; 
   540; 460; 380; 310; 260; 230; 200; 150; 140; 130; 110; 90; 80; 80; 70; 60; 60; 50; 750; 660; 560; 470; 380; 320; 260; 
   240; 190; 160; 130; 130; 110; 90; 80; 80; 70; 60; 60; 50; 380; 330; 280; 230; 180; 150; 130; 110; 90; 80; 70; 60; 50; 
   50; 40; 40; 40; 40; 30; 30; 400; 350; 300; 250; 200; 160; 140; 120; 100; 90; 80; 60; 60; 50; 50; 40; 40; 40; 40; 30; 
   430; 380; 320; 260; 210; 160; 140; 120; 110; 90; 80; 70; 60; 50; 50; 50; 40; 40; 40; 30; 450; 400; 340; 280; 230; 180; 
   150; 130; 110; 100; 80; 70; 60; 60; 50; 50; 40; 40; 40; 30; 470; 420; 360; 310; 240; 190; 170; 140; 120; 100; 90; 80; 
   70; 60; 50; 50; 50; 40; 40; 30; 490; 440; 380; 320; 260; 210; 170; 150; 130; 100; 90; 80; 70; 60; 60; 50; 50; 50; 40; 
   40; 510; 460; 400; 340; 270; 220; 180; 150; 130; 110; 100; 80; 70; 70; 60; 50; 50; 50; 40; 40; 530; 480; 420; 350; 290; 
   240; 190; 160; 140; 120; 100; 90; 80; 70; 60; 60; 50; 50; 40; 40; 550; 500; 430; 370; 300; 250; 200; 170; 150; 120; 
   110; 90; 80; 70; 60; 60; 50; 50; 50; 40; 570; 510; 440; 380; 320; 260; 210; 170; 150; 130; 110; 100; 80; 80; 70; 60; 
   60; 50; 50; 40; 590; 520; 460; 390; 330; 280; 220; 180; 160; 130; 110; 100; 90; 80; 70; 60; 60; 50; 50; 40; 620; 530; 
   460; 400; 340; 280; 230; 190; 170; 140; 110; 100; 90; 80; 70; 70; 60; 50; 50; 40; 640; 540; 470; 410; 340; 280; 230; 
   200; 170; 140; 120; 100; 90; 80; 80; 70; 60; 50; 50; 40; 660; 570; 490; 420; 360; 290; 240; 210; 180; 140; 120; 110; 
   100; 90; 80; 70; 60; 50; 50; 40; 690; 590; 500; 430; 360; 300; 250; 210; 180; 140; 120; 110; 100; 90; 80; 70; 60; 60; 
   50; 50; 710; 610; 520; 440; 370; 310; 260; 220; 180; 140; 120; 120; 100; 90; 80; 70; 60; 60; 50; 50; 730; 630; 540; 
   470; 380; 310; 260; 220; 190; 150; 130; 120; 110; 90; 80; 70; 60; 60; 50; 50; 750; 650; 560; 490; 390; 320; 270; 240; 
   200; 150; 130; 120; 110; 90; 80; 80; 70; 60; 50; 50; 770; 680; 590; 500; 400; 330; 270; 240; 200; 160; 140; 130; 110; 
   100; 90; 80; 70; 60; 60; 50; 790; 700; 600; 500; 410; 330; 280; 250; 210; 160; 140; 130; 120; 100; 90; 80; 70; 60; 60; 
   50; 380; 330; 280; 240; 190; 150; 130; 110; 100; 80; 70; 60; 50; 50; 40; 40; 40; 40; 30; 30; 400; 350; 300; 250; 200; 
   160; 140; 110; 100; 80; 70; 60; 50; 50; 50; 40; 40; 40; 30; 30; 430; 370; 320; 270; 220; 170; 150; 120; 100; 90; 80; 
   70; 60; 50; 50; 50; 40; 40; 30; 30; 450; 400; 350; 300; 240; 180; 160; 130; 110; 90; 80; 70; 60; 50; 50; 50; 40; 40; 
   30; 30; 470; 420; 370; 300; 250; 200; 160; 130; 120; 90; 80; 70; 70; 60; 50; 50; 40; 40; 40; 30; 490; 440; 380; 330; 
   260; 210; 180; 140; 120; 100; 90; 80; 70; 60; 60; 50; 50; 40; 40; 30; 510; 460; 410; 340; 280; 220; 180; 150; 130; 100; 
   90; 80; 70; 60; 60; 50; 50; 40; 40; 40; 530; 480; 420; 360; 290; 240; 190; 150; 130; 110; 100; 80; 80; 70; 60; 60; 50; 
   40; 40; 40; 560; 500; 440; 370; 310; 250; 200; 160; 140; 120; 100; 90; 80; 70; 60; 60; 50; 50; 40; 40; 580; 520; 450; 
   390; 320; 260; 210; 170; 150; 120; 110; 90; 80; 70; 70; 60; 50; 50; 40; 40; 600; 520; 460; 390; 330; 270; 220; 180; 
   150; 130; 110; 90; 90; 80; 70; 60; 50; 50; 40; 40; 620; 530; 460; 400; 330; 270; 220; 180; 160; 130; 110; 100; 90; 80; 
   70; 60; 60; 50; 50; 40; 640; 550; 490; 420; 350; 280; 230; 190; 170; 130; 110; 100; 90; 80; 70; 60; 60; 50; 50; 40; 
   660; 580; 510; 440; 360; 280; 240; 200; 170; 140; 120; 100; 100; 80; 70; 60; 60; 50; 50; 40; 680; 590; 530; 460; 370; 
   290; 240; 200; 180; 140; 120; 110; 100; 80; 70; 70; 60; 50; 50; 40; 700; 620; 550; 470; 380; 300; 250; 210; 180; 140; 
   120; 110; 100; 80; 70; 70; 60; 50; 50; 50; 720; 640; 570; 480; 390; 310; 250; 220; 180; 140; 120; 120; 100; 90; 80; 70; 
   60; 60; 50; 50; 750; 660; 580; 490; 390; 310; 260; 230; 190; 150; 130; 120; 110; 90; 80; 70; 60; 60; 50; 50; 770; 680; 
   590; 490; 400; 320; 260; 230; 200; 150; 140; 120; 110; 90; 80; 70; 60; 60; 50; 50; 790; 690; 600; 500; 410; 330; 280; 
   240; 200; 160; 140; 130; 110; 90; 80; 70; 60; 60; 50; 50; 370; 320; 270; 240; 190; 150; 140; 110; 90; 80; 70; 60; 50; 
   50; 40; 40; 40; 30; 30; 30; 400; 350; 300; 250; 200; 160; 140; 110; 90; 80; 70; 60; 50; 50; 40; 40; 40; 30; 30; 30; 
   420; 370; 320; 270; 220; 170; 150; 110; 100; 80; 70; 60; 50; 50; 40; 40; 40; 30; 30; 30; 440; 390; 350; 280; 230; 180; 
   160; 120; 100; 90; 80; 60; 60; 50; 50; 40; 40; 40; 30; 30; 460; 420; 360; 300; 240; 200; 170; 120; 110; 90; 80; 70; 60; 
   50; 50; 50; 40; 40; 30; 30; 490; 440; 390; 320; 250; 210; 180; 130; 110; 100; 80; 70; 60; 60; 50; 50; 40; 40; 30; 30; 
   510; 460; 400; 340; 270; 230; 180; 140; 120; 100; 90; 80; 70; 60; 60; 50; 40; 40; 40; 30; 530; 480; 420; 360; 280; 240; 
   190; 150; 130; 100; 90; 80; 70; 60; 60; 50; 50; 40; 40; 30; 560; 500; 440; 370; 290; 240; 200; 150; 130; 110; 100; 80; 
   70; 70; 60; 50; 50; 40; 40; 40; 580; 520; 450; 390; 310; 250; 200; 160; 140; 120; 100; 90; 80; 70; 60; 60; 50; 40; 40; 
   40; 600; 520; 460; 390; 320; 250; 210; 170; 150; 120; 100; 90; 80; 70; 60; 60; 50; 50; 40; 40; 620; 530; 460; 390; 330; 
   260; 220; 170; 150; 130; 110; 90; 90; 70; 60; 60; 50; 50; 40; 40; 640; 540; 460; 400; 330; 260; 220; 180; 150; 130; 
   110; 90; 90; 80; 70; 60; 50; 50; 40; 40; 660; 550; 470; 410; 340; 270; 220; 180; 160; 130; 110; 100; 90; 80; 70; 60; 
   50; 50; 40; 40; 680; 580; 500; 430; 360; 280; 230; 190; 170; 130; 110; 100; 100; 80; 70; 60; 60; 50; 40; 40; 700; 600; 
   520; 450; 360; 290; 240; 200; 170; 140; 110; 100; 100; 80; 70; 60; 60; 50; 40; 40; 720; 620; 540; 470; 370; 290; 240; 
   210; 170; 140; 120; 110; 100; 80; 70; 60; 60; 50; 50; 40; 740; 640; 560; 470; 380; 300; 250; 210; 180; 140; 120; 110; 
   100; 80; 70; 70; 60; 50; 50; 40; 750; 660; 580; 480; 390; 310; 250; 220; 180; 140; 130; 110; 100; 80; 70; 70; 60; 50; 
   50; 50; 780; 680; 580; 490; 400; 320; 260; 230; 190; 150; 130; 120; 100; 90; 80; 70; 60; 50; 50; 50; 360; 320; 280; 
   240; 190; 160; 130; 110; 90; 80; 70; 60; 50; 40; 40; 40; 30; 30; 30; 30; 390; 340; 300; 250; 200; 160; 140; 110; 100; 
   80; 70; 60; 50; 50; 40; 40; 30; 30; 30; 30; 420; 370; 320; 270; 220; 170; 150; 110; 100; 80; 70; 60; 50; 50; 40; 40; 
   40; 30; 30; 30; 430; 390; 350; 280; 230; 190; 160; 120; 100; 90; 70; 60; 50; 50; 40; 40; 40; 30; 30; 30; 460; 420; 360; 
   300; 230; 200; 170; 120; 100; 90; 80; 60; 60; 50; 50; 40; 40; 30; 30; 30; 490; 440; 390; 320; 240; 210; 180; 120; 110; 
   90; 80; 70; 60; 50; 50; 40; 40; 40; 30; 30; 510; 460; 400; 340; 260; 220; 180; 130; 110; 100; 90; 70; 60; 60; 50; 50; 
   40; 40; 30; 30; 530; 480; 420; 350; 270; 220; 180; 140; 120; 100; 90; 80; 70; 60; 50; 50; 40; 40; 40; 30; 560; 500; 
   440; 370; 280; 230; 190; 150; 130; 100; 90; 80; 70; 60; 60; 50; 40; 40; 40; 30; 580; 520; 450; 380; 300; 240; 190; 150; 
   130; 110; 100; 80; 70; 60; 60; 50; 50; 40; 40; 30; 600; 520; 460; 390; 310; 240; 200; 160; 140; 120; 100; 80; 80; 70; 
   60; 50; 50; 40; 40; 40; 620; 520; 460; 380; 320; 250; 210; 160; 140; 120; 100; 90; 80; 70; 60; 50; 50; 40; 40; 40; 640; 
   530; 460; 390; 320; 250; 210; 170; 140; 120; 100; 90; 80; 70; 60; 60; 50; 40; 40; 40; 660; 550; 460; 400; 330; 260; 
   210; 180; 150; 120; 110; 90; 90; 70; 60; 60; 50; 50; 40; 40; 680; 570; 470; 400; 330; 270; 220; 190; 150; 130; 110; 90; 
   90; 70; 60; 60; 50; 50; 40; 40; 700; 590; 490; 420; 350; 270; 220; 190; 160; 130; 110; 100; 90; 80; 70; 60; 50; 50; 40; 
   40; 720; 610; 510; 440; 360; 280; 230; 200; 160; 130; 110; 100; 90; 80; 70; 60; 50; 50; 40; 40; 730; 630; 530; 460; 
   370; 290; 240; 200; 170; 140; 120; 100; 90; 80; 70; 60; 60; 50; 40; 40; 740; 650; 550; 470; 370; 290; 240; 210; 170; 
   140; 120; 110; 90; 80; 70; 60; 60; 50; 50; 40; 760; 670; 570; 480; 380; 300; 260; 220; 180; 140; 130; 110; 100; 80; 70; 
   70; 60; 50; 50; 40; 350; 320; 280; 240; 190; 160; 130; 110; 90; 70; 60; 50; 50; 40; 40; 30; 30; 30; 30; 20; 390; 350; 
   290; 230; 210; 170; 140; 110; 90; 80; 70; 60; 50; 40; 40; 40; 30; 30; 30; 20; 420; 360; 310; 260; 200; 180; 150; 110; 
   100; 80; 70; 60; 50; 40; 40; 40; 30; 30; 30; 30; 440; 380; 340; 300; 240; 190; 160; 120; 100; 80; 70; 60; 50; 50; 40; 
   40; 30; 30; 30; 30; 460; 410; 360; 320; 230; 200; 160; 120; 100; 90; 80; 60; 50; 50; 40; 40; 40; 30; 30; 30; 490; 430; 
   380; 320; 240; 200; 170; 120; 110; 90; 80; 60; 60; 50; 50; 40; 40; 30; 30; 30; 510; 450; 410; 330; 240; 210; 170; 130; 
   110; 90; 80; 70; 60; 50; 50; 40; 40; 30; 30; 30; 530; 480; 420; 340; 260; 210; 180; 130; 120; 100; 90; 70; 70; 60; 50; 
   40; 40; 40; 30; 30; 560; 490; 430; 350; 270; 220; 180; 140; 120; 100; 90; 80; 70; 60; 50; 50; 40; 40; 30; 30; 570; 520; 
   450; 370; 290; 220; 180; 150; 120; 110; 90; 80; 70; 60; 50; 50; 40; 40; 30; 30; 600; 520; 460; 380; 300; 230; 190; 150; 
   130; 110; 90; 80; 70; 60; 60; 50; 40; 40; 40; 30; 620; 520; 450; 380; 300; 230; 200; 160; 130; 120; 100; 80; 70; 60; 
   60; 50; 40; 40; 40; 30; 640; 530; 460; 390; 310; 240; 200; 160; 140; 120; 100; 80; 80; 70; 60; 50; 50; 40; 40; 30; 650; 
   550; 460; 400; 320; 250; 200; 170; 140; 120; 100; 90; 80; 70; 60; 50; 50; 40; 40; 40; 680; 570; 470; 400; 330; 250; 
   210; 180; 140; 120; 100; 90; 80; 70; 60; 50; 50; 40; 40; 40; 690; 580; 490; 410; 340; 260; 220; 190; 150; 120; 110; 90; 
   90; 70; 60; 50; 50; 40; 40; 40; 720; 600; 510; 410; 340; 270; 220; 190; 150; 130; 110; 90; 90; 70; 60; 60; 50; 40; 40; 
   40; 730; 620; 530; 440; 350; 270; 230; 200; 160; 130; 120; 100; 90; 70; 70; 60; 50; 50; 40; 40; 740; 640; 550; 450; 
   360; 280; 230; 200; 160; 130; 120; 100; 90; 80; 70; 60; 50; 50; 40; 40; 760; 660; 560; 460; 370; 290; 240; 210; 170; 
   140; 120; 100; 90; 80; 70; 60; 50; 50; 40; 40; 350; 320; 260; 240; 190; 160; 130; 110; 90; 70; 60; 50; 50; 40; 40; 30; 
   30; 30; 20; 20; 390; 340; 290; 240; 200; 170; 140; 110; 90; 80; 60; 60; 50; 40; 40; 30; 30; 30; 20; 20; 400; 350; 290; 
   240; 200; 180; 150; 110; 100; 80; 70; 60; 50; 40; 40; 40; 30; 30; 30; 20; 430; 380; 330; 240; 210; 180; 150; 120; 100; 
   80; 70; 60; 50; 40; 40; 40; 30; 30; 30; 20; 460; 410; 350; 260; 230; 190; 160; 120; 100; 80; 70; 60; 50; 50; 40; 40; 
   30; 30; 30; 30; 470; 420; 340; 290; 240; 190; 160; 120; 100; 90; 80; 60; 60; 50; 40; 40; 30; 30; 30; 30; 500; 440; 380; 
   320; 250; 200; 170; 130; 100; 90; 80; 70; 60; 50; 50; 40; 40; 30; 30; 30; 530; 460; 400; 330; 250; 200; 170; 130; 110; 
   90; 80; 70; 60; 50; 50; 40; 40; 30; 30; 30; 540; 480; 410; 340; 260; 210; 170; 130; 120; 100; 80; 70; 60; 50; 50; 40; 
   40; 30; 30; 30; 580; 500; 440; 350; 270; 210; 170; 140; 120; 100; 90; 70; 60; 60; 50; 40; 40; 30; 30; 30; 580; 500; 
   440; 370; 280; 220; 180; 150; 120; 100; 90; 80; 70; 60; 50; 50; 40; 40; 30; 30; 600; 510; 440; 360; 290; 220; 180; 150; 
   130; 110; 90; 80; 70; 60; 50; 50; 40; 40; 30; 30; 640; 520; 440; 380; 300; 230; 190; 150; 130; 110; 90; 80; 70; 60; 50; 
   50; 40; 40; 30; 30; 640; 540; 450; 380; 310; 230; 200; 160; 130; 110; 100; 80; 70; 60; 60; 50; 40; 40; 40; 30; 660; 
   560; 470; 400; 310; 240; 200; 170; 140; 120; 100; 80; 80; 60; 60; 50; 40; 40; 40; 30; 690; 580; 480; 400; 320; 250; 
   210; 170; 140; 120; 100; 90; 80; 70; 60; 50; 50; 40; 40; 30; 700; 600; 510; 420; 330; 260; 210; 180; 140; 120; 110; 90; 
   80; 70; 60; 50; 50; 40; 40; 40; 730; 620; 520; 420; 340; 260; 220; 180; 150; 130; 110; 90; 80; 70; 60; 50; 50; 40; 40; 
   40; 730; 630; 540; 440; 350; 270; 220; 190; 150; 130; 110; 90; 80; 70; 60; 60; 50; 40; 40; 40; 750; 650; 550; 450; 360; 
   280; 230; 200; 160; 130; 110; 100; 80; 70; 60; 60; 50; 50; 40; 40; 350; 300; 270; 230; 190; 160; 130; 110; 90; 70; 60; 
   50; 40; 40; 30; 30; 30; 20; 20; 20; 380; 320; 280; 240; 200; 170; 140; 110; 90; 80; 60; 50; 50; 40; 40; 30; 30; 30; 20; 
   20; 410; 330; 280; 240; 200; 170; 140; 110; 90; 80; 70; 60; 50; 40; 40; 30; 30; 30; 20; 20; 420; 360; 300; 250; 210; 
   180; 150; 120; 100; 80; 70; 60; 50; 40; 40; 30; 30; 30; 20; 20; 440; 380; 300; 260; 220; 180; 150; 120; 100; 80; 70; 
   60; 50; 40; 40; 40; 30; 30; 30; 20; 470; 390; 340; 280; 220; 180; 150; 120; 100; 90; 70; 60; 50; 50; 40; 40; 30; 30; 
   30; 20; 500; 410; 340; 300; 250; 190; 160; 120; 100; 90; 70; 60; 50; 50; 40; 40; 30; 30; 30; 20; 520; 440; 370; 320; 
   250; 190; 160; 130; 110; 90; 80; 60; 60; 50; 40; 40; 30; 30; 30; 20; 530; 460; 380; 340; 260; 200; 160; 130; 110; 90; 
   80; 70; 60; 50; 40; 40; 30; 30; 30; 30; 550; 490; 420; 340; 260; 200; 170; 130; 110; 90; 80; 70; 60; 50; 50; 40; 40; 
   30; 30; 30; 580; 500; 430; 340; 270; 210; 170; 140; 110; 100; 80; 70; 60; 50; 50; 40; 40; 30; 30; 30; 590; 500; 430; 
   350; 280; 220; 180; 140; 120; 100; 80; 70; 60; 50; 50; 40; 40; 30; 30; 30; 620; 510; 440; 370; 290; 220; 190; 150; 120; 
   100; 90; 70; 70; 60; 50; 40; 40; 30; 30; 30; 650; 530; 440; 360; 290; 230; 190; 150; 130; 110; 90; 80; 70; 60; 50; 50; 
   40; 40; 30; 30; 660; 550; 460; 380; 300; 240; 200; 160; 130; 110; 90; 80; 70; 60; 50; 50; 40; 40; 30; 30; 670; 570; 
   470; 390; 310; 240; 200; 160; 130; 110; 100; 80; 70; 60; 50; 50; 40; 40; 30; 30; 700; 580; 500; 400; 320; 250; 210; 
   170; 140; 120; 100; 80; 70; 60; 60; 50; 40; 40; 40; 30; 700; 610; 520; 420; 330; 260; 210; 170; 140; 120; 100; 90; 80; 
   70; 60; 50; 40; 40; 40; 30; 740; 630; 520; 430; 330; 260; 220; 180; 150; 120; 100; 90; 80; 70; 60; 50; 50; 40; 40; 30; 
   740; 640; 540; 440; 340; 270; 220; 180; 160; 130; 110; 90; 80; 70; 60; 50; 50; 40; 40; 40].
