(** The data of a set of runtime constants as a list. *)
From Coq Require Import List.
From Verif Require Import Model.Constants.
Import ListNotations.

Definition rpc_fields {T} (r : RuntimePC T) : list T :=
  [r_time r; r_mass r; r_length r; r_temp r; r_na r; r_alpha r; r_h r; r_hbar r; r_kb r;
   r_r_gas r; r_qe r; r_c r; r_g_newt r; r_me r; r_mp r; r_mn r; r_amu r; r_sb r; r_ar r;
   r_eV r; r_Fc r; r_nu_sigma0 r; r_gA r].
