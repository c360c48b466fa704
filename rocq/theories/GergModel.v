(* src/gerg2008.rs: the GERG-2008 equation of state, function by function, over any arithmetic.
   &mut self methods take the object and return the new one; None is a panic. *)
From Coq Require Import ZArith List.
From Verif Require Import FArith Prelude Composition DetailModel GergTables.
Import ListNotations.

(* src/gerg2008.rs:2353-2424  struct Gerg2008 *)
Record Gerg {A : Arith} := mkGerg {
  g_t : F; g_p : F; g_d : F; g_z : F; g_mm : F;
  g_dp_dd : F; g_d2p_dd2 : F; g_d2p_dtd : F; g_dp_dt : F;
  g_u : F; g_h : F; g_s : F; g_cv : F; g_cp : F; g_w : F; g_g : F; g_jt : F; g_kappa : F;
  g_x : list F;                   (* [f64; 22] *)
  g_drold : F; g_trold : F; g_told : F; g_trold2 : F;
  g_xold : list F;                (* [f64; 22] *)
  g_a : F;
  g_a0 : list F;                  (* [f64; 3] *)
  g_ar : list (list F);           (* [[f64; 4]; 4] *)
  g_dpddsave : F;
  g_taup : list (list F);         (* [[f64; 25]; 22] *)
  g_taupijk : list (list F);      (* [[f64; 13]; 22] *)
  g_coik : list (list nat);       (* [[usize; 25]; 22] *)
  g_doik : list (list nat);       (* [[usize; 25]; 22] *)
  g_toik : list (list F);         (* [[f64; 25]; 22] *)
  g_dijk : list (list nat);       (* [[usize; 13]; 13] *)
  g_tijk : list (list F);         (* [[f64; 13]; 11] *)
  g_cijk : list (list F);
  g_eijk : list (list F);
  g_gijk : list (list F);
  g_nijk : list (list F);
  g_n0i : list (list F);          (* [[f64; 8]; 22] *)
  g_bvij : list (list F);         (* [[f64; 22]; 22] *)
  g_gvij : list (list F);
  g_btij : list (list F);
  g_gtij : list (list F)
}.
Arguments mkGerg {A}.

(* Field updates self.f = v, one per field (no source counterpart beyond the struct itself). *)
Section Setters.
Context {A : Arith}.
Definition set_g_t (v : F) (s : Gerg) : Gerg :=
  mkGerg v (g_p s) (g_d s) (g_z s) (g_mm s) (g_dp_dd s) (g_d2p_dd2 s) (g_d2p_dtd s) (g_dp_dt s) (g_u s) (g_h s) (g_s s) (g_cv s) (g_cp s) (g_w s) (g_g s) (g_jt s) (g_kappa s) (g_x s) (g_drold s) (g_trold s) (g_told s) (g_trold2 s) (g_xold s) (g_a s) (g_a0 s) (g_ar s) (g_dpddsave s) (g_taup s) (g_taupijk s) (g_coik s) (g_doik s) (g_toik s) (g_dijk s) (g_tijk s) (g_cijk s) (g_eijk s) (g_gijk s) (g_nijk s) (g_n0i s) (g_bvij s) (g_gvij s) (g_btij s) (g_gtij s).
Definition set_g_p (v : F) (s : Gerg) : Gerg :=
  mkGerg (g_t s) v (g_d s) (g_z s) (g_mm s) (g_dp_dd s) (g_d2p_dd2 s) (g_d2p_dtd s) (g_dp_dt s) (g_u s) (g_h s) (g_s s) (g_cv s) (g_cp s) (g_w s) (g_g s) (g_jt s) (g_kappa s) (g_x s) (g_drold s) (g_trold s) (g_told s) (g_trold2 s) (g_xold s) (g_a s) (g_a0 s) (g_ar s) (g_dpddsave s) (g_taup s) (g_taupijk s) (g_coik s) (g_doik s) (g_toik s) (g_dijk s) (g_tijk s) (g_cijk s) (g_eijk s) (g_gijk s) (g_nijk s) (g_n0i s) (g_bvij s) (g_gvij s) (g_btij s) (g_gtij s).
Definition set_g_d (v : F) (s : Gerg) : Gerg :=
  mkGerg (g_t s) (g_p s) v (g_z s) (g_mm s) (g_dp_dd s) (g_d2p_dd2 s) (g_d2p_dtd s) (g_dp_dt s) (g_u s) (g_h s) (g_s s) (g_cv s) (g_cp s) (g_w s) (g_g s) (g_jt s) (g_kappa s) (g_x s) (g_drold s) (g_trold s) (g_told s) (g_trold2 s) (g_xold s) (g_a s) (g_a0 s) (g_ar s) (g_dpddsave s) (g_taup s) (g_taupijk s) (g_coik s) (g_doik s) (g_toik s) (g_dijk s) (g_tijk s) (g_cijk s) (g_eijk s) (g_gijk s) (g_nijk s) (g_n0i s) (g_bvij s) (g_gvij s) (g_btij s) (g_gtij s).
Definition set_g_z (v : F) (s : Gerg) : Gerg :=
  mkGerg (g_t s) (g_p s) (g_d s) v (g_mm s) (g_dp_dd s) (g_d2p_dd2 s) (g_d2p_dtd s) (g_dp_dt s) (g_u s) (g_h s) (g_s s) (g_cv s) (g_cp s) (g_w s) (g_g s) (g_jt s) (g_kappa s) (g_x s) (g_drold s) (g_trold s) (g_told s) (g_trold2 s) (g_xold s) (g_a s) (g_a0 s) (g_ar s) (g_dpddsave s) (g_taup s) (g_taupijk s) (g_coik s) (g_doik s) (g_toik s) (g_dijk s) (g_tijk s) (g_cijk s) (g_eijk s) (g_gijk s) (g_nijk s) (g_n0i s) (g_bvij s) (g_gvij s) (g_btij s) (g_gtij s).
Definition set_g_mm (v : F) (s : Gerg) : Gerg :=
  mkGerg (g_t s) (g_p s) (g_d s) (g_z s) v (g_dp_dd s) (g_d2p_dd2 s) (g_d2p_dtd s) (g_dp_dt s) (g_u s) (g_h s) (g_s s) (g_cv s) (g_cp s) (g_w s) (g_g s) (g_jt s) (g_kappa s) (g_x s) (g_drold s) (g_trold s) (g_told s) (g_trold2 s) (g_xold s) (g_a s) (g_a0 s) (g_ar s) (g_dpddsave s) (g_taup s) (g_taupijk s) (g_coik s) (g_doik s) (g_toik s) (g_dijk s) (g_tijk s) (g_cijk s) (g_eijk s) (g_gijk s) (g_nijk s) (g_n0i s) (g_bvij s) (g_gvij s) (g_btij s) (g_gtij s).
Definition set_g_dp_dd (v : F) (s : Gerg) : Gerg :=
  mkGerg (g_t s) (g_p s) (g_d s) (g_z s) (g_mm s) v (g_d2p_dd2 s) (g_d2p_dtd s) (g_dp_dt s) (g_u s) (g_h s) (g_s s) (g_cv s) (g_cp s) (g_w s) (g_g s) (g_jt s) (g_kappa s) (g_x s) (g_drold s) (g_trold s) (g_told s) (g_trold2 s) (g_xold s) (g_a s) (g_a0 s) (g_ar s) (g_dpddsave s) (g_taup s) (g_taupijk s) (g_coik s) (g_doik s) (g_toik s) (g_dijk s) (g_tijk s) (g_cijk s) (g_eijk s) (g_gijk s) (g_nijk s) (g_n0i s) (g_bvij s) (g_gvij s) (g_btij s) (g_gtij s).
Definition set_g_d2p_dd2 (v : F) (s : Gerg) : Gerg :=
  mkGerg (g_t s) (g_p s) (g_d s) (g_z s) (g_mm s) (g_dp_dd s) v (g_d2p_dtd s) (g_dp_dt s) (g_u s) (g_h s) (g_s s) (g_cv s) (g_cp s) (g_w s) (g_g s) (g_jt s) (g_kappa s) (g_x s) (g_drold s) (g_trold s) (g_told s) (g_trold2 s) (g_xold s) (g_a s) (g_a0 s) (g_ar s) (g_dpddsave s) (g_taup s) (g_taupijk s) (g_coik s) (g_doik s) (g_toik s) (g_dijk s) (g_tijk s) (g_cijk s) (g_eijk s) (g_gijk s) (g_nijk s) (g_n0i s) (g_bvij s) (g_gvij s) (g_btij s) (g_gtij s).
Definition set_g_d2p_dtd (v : F) (s : Gerg) : Gerg :=
  mkGerg (g_t s) (g_p s) (g_d s) (g_z s) (g_mm s) (g_dp_dd s) (g_d2p_dd2 s) v (g_dp_dt s) (g_u s) (g_h s) (g_s s) (g_cv s) (g_cp s) (g_w s) (g_g s) (g_jt s) (g_kappa s) (g_x s) (g_drold s) (g_trold s) (g_told s) (g_trold2 s) (g_xold s) (g_a s) (g_a0 s) (g_ar s) (g_dpddsave s) (g_taup s) (g_taupijk s) (g_coik s) (g_doik s) (g_toik s) (g_dijk s) (g_tijk s) (g_cijk s) (g_eijk s) (g_gijk s) (g_nijk s) (g_n0i s) (g_bvij s) (g_gvij s) (g_btij s) (g_gtij s).
Definition set_g_dp_dt (v : F) (s : Gerg) : Gerg :=
  mkGerg (g_t s) (g_p s) (g_d s) (g_z s) (g_mm s) (g_dp_dd s) (g_d2p_dd2 s) (g_d2p_dtd s) v (g_u s) (g_h s) (g_s s) (g_cv s) (g_cp s) (g_w s) (g_g s) (g_jt s) (g_kappa s) (g_x s) (g_drold s) (g_trold s) (g_told s) (g_trold2 s) (g_xold s) (g_a s) (g_a0 s) (g_ar s) (g_dpddsave s) (g_taup s) (g_taupijk s) (g_coik s) (g_doik s) (g_toik s) (g_dijk s) (g_tijk s) (g_cijk s) (g_eijk s) (g_gijk s) (g_nijk s) (g_n0i s) (g_bvij s) (g_gvij s) (g_btij s) (g_gtij s).
Definition set_g_u (v : F) (s : Gerg) : Gerg :=
  mkGerg (g_t s) (g_p s) (g_d s) (g_z s) (g_mm s) (g_dp_dd s) (g_d2p_dd2 s) (g_d2p_dtd s) (g_dp_dt s) v (g_h s) (g_s s) (g_cv s) (g_cp s) (g_w s) (g_g s) (g_jt s) (g_kappa s) (g_x s) (g_drold s) (g_trold s) (g_told s) (g_trold2 s) (g_xold s) (g_a s) (g_a0 s) (g_ar s) (g_dpddsave s) (g_taup s) (g_taupijk s) (g_coik s) (g_doik s) (g_toik s) (g_dijk s) (g_tijk s) (g_cijk s) (g_eijk s) (g_gijk s) (g_nijk s) (g_n0i s) (g_bvij s) (g_gvij s) (g_btij s) (g_gtij s).
Definition set_g_h (v : F) (s : Gerg) : Gerg :=
  mkGerg (g_t s) (g_p s) (g_d s) (g_z s) (g_mm s) (g_dp_dd s) (g_d2p_dd2 s) (g_d2p_dtd s) (g_dp_dt s) (g_u s) v (g_s s) (g_cv s) (g_cp s) (g_w s) (g_g s) (g_jt s) (g_kappa s) (g_x s) (g_drold s) (g_trold s) (g_told s) (g_trold2 s) (g_xold s) (g_a s) (g_a0 s) (g_ar s) (g_dpddsave s) (g_taup s) (g_taupijk s) (g_coik s) (g_doik s) (g_toik s) (g_dijk s) (g_tijk s) (g_cijk s) (g_eijk s) (g_gijk s) (g_nijk s) (g_n0i s) (g_bvij s) (g_gvij s) (g_btij s) (g_gtij s).
Definition set_g_s (v : F) (s : Gerg) : Gerg :=
  mkGerg (g_t s) (g_p s) (g_d s) (g_z s) (g_mm s) (g_dp_dd s) (g_d2p_dd2 s) (g_d2p_dtd s) (g_dp_dt s) (g_u s) (g_h s) v (g_cv s) (g_cp s) (g_w s) (g_g s) (g_jt s) (g_kappa s) (g_x s) (g_drold s) (g_trold s) (g_told s) (g_trold2 s) (g_xold s) (g_a s) (g_a0 s) (g_ar s) (g_dpddsave s) (g_taup s) (g_taupijk s) (g_coik s) (g_doik s) (g_toik s) (g_dijk s) (g_tijk s) (g_cijk s) (g_eijk s) (g_gijk s) (g_nijk s) (g_n0i s) (g_bvij s) (g_gvij s) (g_btij s) (g_gtij s).
Definition set_g_cv (v : F) (s : Gerg) : Gerg :=
  mkGerg (g_t s) (g_p s) (g_d s) (g_z s) (g_mm s) (g_dp_dd s) (g_d2p_dd2 s) (g_d2p_dtd s) (g_dp_dt s) (g_u s) (g_h s) (g_s s) v (g_cp s) (g_w s) (g_g s) (g_jt s) (g_kappa s) (g_x s) (g_drold s) (g_trold s) (g_told s) (g_trold2 s) (g_xold s) (g_a s) (g_a0 s) (g_ar s) (g_dpddsave s) (g_taup s) (g_taupijk s) (g_coik s) (g_doik s) (g_toik s) (g_dijk s) (g_tijk s) (g_cijk s) (g_eijk s) (g_gijk s) (g_nijk s) (g_n0i s) (g_bvij s) (g_gvij s) (g_btij s) (g_gtij s).
Definition set_g_cp (v : F) (s : Gerg) : Gerg :=
  mkGerg (g_t s) (g_p s) (g_d s) (g_z s) (g_mm s) (g_dp_dd s) (g_d2p_dd2 s) (g_d2p_dtd s) (g_dp_dt s) (g_u s) (g_h s) (g_s s) (g_cv s) v (g_w s) (g_g s) (g_jt s) (g_kappa s) (g_x s) (g_drold s) (g_trold s) (g_told s) (g_trold2 s) (g_xold s) (g_a s) (g_a0 s) (g_ar s) (g_dpddsave s) (g_taup s) (g_taupijk s) (g_coik s) (g_doik s) (g_toik s) (g_dijk s) (g_tijk s) (g_cijk s) (g_eijk s) (g_gijk s) (g_nijk s) (g_n0i s) (g_bvij s) (g_gvij s) (g_btij s) (g_gtij s).
Definition set_g_w (v : F) (s : Gerg) : Gerg :=
  mkGerg (g_t s) (g_p s) (g_d s) (g_z s) (g_mm s) (g_dp_dd s) (g_d2p_dd2 s) (g_d2p_dtd s) (g_dp_dt s) (g_u s) (g_h s) (g_s s) (g_cv s) (g_cp s) v (g_g s) (g_jt s) (g_kappa s) (g_x s) (g_drold s) (g_trold s) (g_told s) (g_trold2 s) (g_xold s) (g_a s) (g_a0 s) (g_ar s) (g_dpddsave s) (g_taup s) (g_taupijk s) (g_coik s) (g_doik s) (g_toik s) (g_dijk s) (g_tijk s) (g_cijk s) (g_eijk s) (g_gijk s) (g_nijk s) (g_n0i s) (g_bvij s) (g_gvij s) (g_btij s) (g_gtij s).
Definition set_g_g (v : F) (s : Gerg) : Gerg :=
  mkGerg (g_t s) (g_p s) (g_d s) (g_z s) (g_mm s) (g_dp_dd s) (g_d2p_dd2 s) (g_d2p_dtd s) (g_dp_dt s) (g_u s) (g_h s) (g_s s) (g_cv s) (g_cp s) (g_w s) v (g_jt s) (g_kappa s) (g_x s) (g_drold s) (g_trold s) (g_told s) (g_trold2 s) (g_xold s) (g_a s) (g_a0 s) (g_ar s) (g_dpddsave s) (g_taup s) (g_taupijk s) (g_coik s) (g_doik s) (g_toik s) (g_dijk s) (g_tijk s) (g_cijk s) (g_eijk s) (g_gijk s) (g_nijk s) (g_n0i s) (g_bvij s) (g_gvij s) (g_btij s) (g_gtij s).
Definition set_g_jt (v : F) (s : Gerg) : Gerg :=
  mkGerg (g_t s) (g_p s) (g_d s) (g_z s) (g_mm s) (g_dp_dd s) (g_d2p_dd2 s) (g_d2p_dtd s) (g_dp_dt s) (g_u s) (g_h s) (g_s s) (g_cv s) (g_cp s) (g_w s) (g_g s) v (g_kappa s) (g_x s) (g_drold s) (g_trold s) (g_told s) (g_trold2 s) (g_xold s) (g_a s) (g_a0 s) (g_ar s) (g_dpddsave s) (g_taup s) (g_taupijk s) (g_coik s) (g_doik s) (g_toik s) (g_dijk s) (g_tijk s) (g_cijk s) (g_eijk s) (g_gijk s) (g_nijk s) (g_n0i s) (g_bvij s) (g_gvij s) (g_btij s) (g_gtij s).
Definition set_g_kappa (v : F) (s : Gerg) : Gerg :=
  mkGerg (g_t s) (g_p s) (g_d s) (g_z s) (g_mm s) (g_dp_dd s) (g_d2p_dd2 s) (g_d2p_dtd s) (g_dp_dt s) (g_u s) (g_h s) (g_s s) (g_cv s) (g_cp s) (g_w s) (g_g s) (g_jt s) v (g_x s) (g_drold s) (g_trold s) (g_told s) (g_trold2 s) (g_xold s) (g_a s) (g_a0 s) (g_ar s) (g_dpddsave s) (g_taup s) (g_taupijk s) (g_coik s) (g_doik s) (g_toik s) (g_dijk s) (g_tijk s) (g_cijk s) (g_eijk s) (g_gijk s) (g_nijk s) (g_n0i s) (g_bvij s) (g_gvij s) (g_btij s) (g_gtij s).
Definition set_g_x (v : list F) (s : Gerg) : Gerg :=
  mkGerg (g_t s) (g_p s) (g_d s) (g_z s) (g_mm s) (g_dp_dd s) (g_d2p_dd2 s) (g_d2p_dtd s) (g_dp_dt s) (g_u s) (g_h s) (g_s s) (g_cv s) (g_cp s) (g_w s) (g_g s) (g_jt s) (g_kappa s) v (g_drold s) (g_trold s) (g_told s) (g_trold2 s) (g_xold s) (g_a s) (g_a0 s) (g_ar s) (g_dpddsave s) (g_taup s) (g_taupijk s) (g_coik s) (g_doik s) (g_toik s) (g_dijk s) (g_tijk s) (g_cijk s) (g_eijk s) (g_gijk s) (g_nijk s) (g_n0i s) (g_bvij s) (g_gvij s) (g_btij s) (g_gtij s).
Definition set_g_drold (v : F) (s : Gerg) : Gerg :=
  mkGerg (g_t s) (g_p s) (g_d s) (g_z s) (g_mm s) (g_dp_dd s) (g_d2p_dd2 s) (g_d2p_dtd s) (g_dp_dt s) (g_u s) (g_h s) (g_s s) (g_cv s) (g_cp s) (g_w s) (g_g s) (g_jt s) (g_kappa s) (g_x s) v (g_trold s) (g_told s) (g_trold2 s) (g_xold s) (g_a s) (g_a0 s) (g_ar s) (g_dpddsave s) (g_taup s) (g_taupijk s) (g_coik s) (g_doik s) (g_toik s) (g_dijk s) (g_tijk s) (g_cijk s) (g_eijk s) (g_gijk s) (g_nijk s) (g_n0i s) (g_bvij s) (g_gvij s) (g_btij s) (g_gtij s).
Definition set_g_trold (v : F) (s : Gerg) : Gerg :=
  mkGerg (g_t s) (g_p s) (g_d s) (g_z s) (g_mm s) (g_dp_dd s) (g_d2p_dd2 s) (g_d2p_dtd s) (g_dp_dt s) (g_u s) (g_h s) (g_s s) (g_cv s) (g_cp s) (g_w s) (g_g s) (g_jt s) (g_kappa s) (g_x s) (g_drold s) v (g_told s) (g_trold2 s) (g_xold s) (g_a s) (g_a0 s) (g_ar s) (g_dpddsave s) (g_taup s) (g_taupijk s) (g_coik s) (g_doik s) (g_toik s) (g_dijk s) (g_tijk s) (g_cijk s) (g_eijk s) (g_gijk s) (g_nijk s) (g_n0i s) (g_bvij s) (g_gvij s) (g_btij s) (g_gtij s).
Definition set_g_told (v : F) (s : Gerg) : Gerg :=
  mkGerg (g_t s) (g_p s) (g_d s) (g_z s) (g_mm s) (g_dp_dd s) (g_d2p_dd2 s) (g_d2p_dtd s) (g_dp_dt s) (g_u s) (g_h s) (g_s s) (g_cv s) (g_cp s) (g_w s) (g_g s) (g_jt s) (g_kappa s) (g_x s) (g_drold s) (g_trold s) v (g_trold2 s) (g_xold s) (g_a s) (g_a0 s) (g_ar s) (g_dpddsave s) (g_taup s) (g_taupijk s) (g_coik s) (g_doik s) (g_toik s) (g_dijk s) (g_tijk s) (g_cijk s) (g_eijk s) (g_gijk s) (g_nijk s) (g_n0i s) (g_bvij s) (g_gvij s) (g_btij s) (g_gtij s).
Definition set_g_trold2 (v : F) (s : Gerg) : Gerg :=
  mkGerg (g_t s) (g_p s) (g_d s) (g_z s) (g_mm s) (g_dp_dd s) (g_d2p_dd2 s) (g_d2p_dtd s) (g_dp_dt s) (g_u s) (g_h s) (g_s s) (g_cv s) (g_cp s) (g_w s) (g_g s) (g_jt s) (g_kappa s) (g_x s) (g_drold s) (g_trold s) (g_told s) v (g_xold s) (g_a s) (g_a0 s) (g_ar s) (g_dpddsave s) (g_taup s) (g_taupijk s) (g_coik s) (g_doik s) (g_toik s) (g_dijk s) (g_tijk s) (g_cijk s) (g_eijk s) (g_gijk s) (g_nijk s) (g_n0i s) (g_bvij s) (g_gvij s) (g_btij s) (g_gtij s).
Definition set_g_xold (v : list F) (s : Gerg) : Gerg :=
  mkGerg (g_t s) (g_p s) (g_d s) (g_z s) (g_mm s) (g_dp_dd s) (g_d2p_dd2 s) (g_d2p_dtd s) (g_dp_dt s) (g_u s) (g_h s) (g_s s) (g_cv s) (g_cp s) (g_w s) (g_g s) (g_jt s) (g_kappa s) (g_x s) (g_drold s) (g_trold s) (g_told s) (g_trold2 s) v (g_a s) (g_a0 s) (g_ar s) (g_dpddsave s) (g_taup s) (g_taupijk s) (g_coik s) (g_doik s) (g_toik s) (g_dijk s) (g_tijk s) (g_cijk s) (g_eijk s) (g_gijk s) (g_nijk s) (g_n0i s) (g_bvij s) (g_gvij s) (g_btij s) (g_gtij s).
Definition set_g_a (v : F) (s : Gerg) : Gerg :=
  mkGerg (g_t s) (g_p s) (g_d s) (g_z s) (g_mm s) (g_dp_dd s) (g_d2p_dd2 s) (g_d2p_dtd s) (g_dp_dt s) (g_u s) (g_h s) (g_s s) (g_cv s) (g_cp s) (g_w s) (g_g s) (g_jt s) (g_kappa s) (g_x s) (g_drold s) (g_trold s) (g_told s) (g_trold2 s) (g_xold s) v (g_a0 s) (g_ar s) (g_dpddsave s) (g_taup s) (g_taupijk s) (g_coik s) (g_doik s) (g_toik s) (g_dijk s) (g_tijk s) (g_cijk s) (g_eijk s) (g_gijk s) (g_nijk s) (g_n0i s) (g_bvij s) (g_gvij s) (g_btij s) (g_gtij s).
Definition set_g_a0 (v : list F) (s : Gerg) : Gerg :=
  mkGerg (g_t s) (g_p s) (g_d s) (g_z s) (g_mm s) (g_dp_dd s) (g_d2p_dd2 s) (g_d2p_dtd s) (g_dp_dt s) (g_u s) (g_h s) (g_s s) (g_cv s) (g_cp s) (g_w s) (g_g s) (g_jt s) (g_kappa s) (g_x s) (g_drold s) (g_trold s) (g_told s) (g_trold2 s) (g_xold s) (g_a s) v (g_ar s) (g_dpddsave s) (g_taup s) (g_taupijk s) (g_coik s) (g_doik s) (g_toik s) (g_dijk s) (g_tijk s) (g_cijk s) (g_eijk s) (g_gijk s) (g_nijk s) (g_n0i s) (g_bvij s) (g_gvij s) (g_btij s) (g_gtij s).
Definition set_g_ar (v : list (list F)) (s : Gerg) : Gerg :=
  mkGerg (g_t s) (g_p s) (g_d s) (g_z s) (g_mm s) (g_dp_dd s) (g_d2p_dd2 s) (g_d2p_dtd s) (g_dp_dt s) (g_u s) (g_h s) (g_s s) (g_cv s) (g_cp s) (g_w s) (g_g s) (g_jt s) (g_kappa s) (g_x s) (g_drold s) (g_trold s) (g_told s) (g_trold2 s) (g_xold s) (g_a s) (g_a0 s) v (g_dpddsave s) (g_taup s) (g_taupijk s) (g_coik s) (g_doik s) (g_toik s) (g_dijk s) (g_tijk s) (g_cijk s) (g_eijk s) (g_gijk s) (g_nijk s) (g_n0i s) (g_bvij s) (g_gvij s) (g_btij s) (g_gtij s).
Definition set_g_dpddsave (v : F) (s : Gerg) : Gerg :=
  mkGerg (g_t s) (g_p s) (g_d s) (g_z s) (g_mm s) (g_dp_dd s) (g_d2p_dd2 s) (g_d2p_dtd s) (g_dp_dt s) (g_u s) (g_h s) (g_s s) (g_cv s) (g_cp s) (g_w s) (g_g s) (g_jt s) (g_kappa s) (g_x s) (g_drold s) (g_trold s) (g_told s) (g_trold2 s) (g_xold s) (g_a s) (g_a0 s) (g_ar s) v (g_taup s) (g_taupijk s) (g_coik s) (g_doik s) (g_toik s) (g_dijk s) (g_tijk s) (g_cijk s) (g_eijk s) (g_gijk s) (g_nijk s) (g_n0i s) (g_bvij s) (g_gvij s) (g_btij s) (g_gtij s).
Definition set_g_taup (v : list (list F)) (s : Gerg) : Gerg :=
  mkGerg (g_t s) (g_p s) (g_d s) (g_z s) (g_mm s) (g_dp_dd s) (g_d2p_dd2 s) (g_d2p_dtd s) (g_dp_dt s) (g_u s) (g_h s) (g_s s) (g_cv s) (g_cp s) (g_w s) (g_g s) (g_jt s) (g_kappa s) (g_x s) (g_drold s) (g_trold s) (g_told s) (g_trold2 s) (g_xold s) (g_a s) (g_a0 s) (g_ar s) (g_dpddsave s) v (g_taupijk s) (g_coik s) (g_doik s) (g_toik s) (g_dijk s) (g_tijk s) (g_cijk s) (g_eijk s) (g_gijk s) (g_nijk s) (g_n0i s) (g_bvij s) (g_gvij s) (g_btij s) (g_gtij s).
Definition set_g_taupijk (v : list (list F)) (s : Gerg) : Gerg :=
  mkGerg (g_t s) (g_p s) (g_d s) (g_z s) (g_mm s) (g_dp_dd s) (g_d2p_dd2 s) (g_d2p_dtd s) (g_dp_dt s) (g_u s) (g_h s) (g_s s) (g_cv s) (g_cp s) (g_w s) (g_g s) (g_jt s) (g_kappa s) (g_x s) (g_drold s) (g_trold s) (g_told s) (g_trold2 s) (g_xold s) (g_a s) (g_a0 s) (g_ar s) (g_dpddsave s) (g_taup s) v (g_coik s) (g_doik s) (g_toik s) (g_dijk s) (g_tijk s) (g_cijk s) (g_eijk s) (g_gijk s) (g_nijk s) (g_n0i s) (g_bvij s) (g_gvij s) (g_btij s) (g_gtij s).
Definition set_g_coik (v : list (list nat)) (s : Gerg) : Gerg :=
  mkGerg (g_t s) (g_p s) (g_d s) (g_z s) (g_mm s) (g_dp_dd s) (g_d2p_dd2 s) (g_d2p_dtd s) (g_dp_dt s) (g_u s) (g_h s) (g_s s) (g_cv s) (g_cp s) (g_w s) (g_g s) (g_jt s) (g_kappa s) (g_x s) (g_drold s) (g_trold s) (g_told s) (g_trold2 s) (g_xold s) (g_a s) (g_a0 s) (g_ar s) (g_dpddsave s) (g_taup s) (g_taupijk s) v (g_doik s) (g_toik s) (g_dijk s) (g_tijk s) (g_cijk s) (g_eijk s) (g_gijk s) (g_nijk s) (g_n0i s) (g_bvij s) (g_gvij s) (g_btij s) (g_gtij s).
Definition set_g_doik (v : list (list nat)) (s : Gerg) : Gerg :=
  mkGerg (g_t s) (g_p s) (g_d s) (g_z s) (g_mm s) (g_dp_dd s) (g_d2p_dd2 s) (g_d2p_dtd s) (g_dp_dt s) (g_u s) (g_h s) (g_s s) (g_cv s) (g_cp s) (g_w s) (g_g s) (g_jt s) (g_kappa s) (g_x s) (g_drold s) (g_trold s) (g_told s) (g_trold2 s) (g_xold s) (g_a s) (g_a0 s) (g_ar s) (g_dpddsave s) (g_taup s) (g_taupijk s) (g_coik s) v (g_toik s) (g_dijk s) (g_tijk s) (g_cijk s) (g_eijk s) (g_gijk s) (g_nijk s) (g_n0i s) (g_bvij s) (g_gvij s) (g_btij s) (g_gtij s).
Definition set_g_toik (v : list (list F)) (s : Gerg) : Gerg :=
  mkGerg (g_t s) (g_p s) (g_d s) (g_z s) (g_mm s) (g_dp_dd s) (g_d2p_dd2 s) (g_d2p_dtd s) (g_dp_dt s) (g_u s) (g_h s) (g_s s) (g_cv s) (g_cp s) (g_w s) (g_g s) (g_jt s) (g_kappa s) (g_x s) (g_drold s) (g_trold s) (g_told s) (g_trold2 s) (g_xold s) (g_a s) (g_a0 s) (g_ar s) (g_dpddsave s) (g_taup s) (g_taupijk s) (g_coik s) (g_doik s) v (g_dijk s) (g_tijk s) (g_cijk s) (g_eijk s) (g_gijk s) (g_nijk s) (g_n0i s) (g_bvij s) (g_gvij s) (g_btij s) (g_gtij s).
Definition set_g_dijk (v : list (list nat)) (s : Gerg) : Gerg :=
  mkGerg (g_t s) (g_p s) (g_d s) (g_z s) (g_mm s) (g_dp_dd s) (g_d2p_dd2 s) (g_d2p_dtd s) (g_dp_dt s) (g_u s) (g_h s) (g_s s) (g_cv s) (g_cp s) (g_w s) (g_g s) (g_jt s) (g_kappa s) (g_x s) (g_drold s) (g_trold s) (g_told s) (g_trold2 s) (g_xold s) (g_a s) (g_a0 s) (g_ar s) (g_dpddsave s) (g_taup s) (g_taupijk s) (g_coik s) (g_doik s) (g_toik s) v (g_tijk s) (g_cijk s) (g_eijk s) (g_gijk s) (g_nijk s) (g_n0i s) (g_bvij s) (g_gvij s) (g_btij s) (g_gtij s).
Definition set_g_tijk (v : list (list F)) (s : Gerg) : Gerg :=
  mkGerg (g_t s) (g_p s) (g_d s) (g_z s) (g_mm s) (g_dp_dd s) (g_d2p_dd2 s) (g_d2p_dtd s) (g_dp_dt s) (g_u s) (g_h s) (g_s s) (g_cv s) (g_cp s) (g_w s) (g_g s) (g_jt s) (g_kappa s) (g_x s) (g_drold s) (g_trold s) (g_told s) (g_trold2 s) (g_xold s) (g_a s) (g_a0 s) (g_ar s) (g_dpddsave s) (g_taup s) (g_taupijk s) (g_coik s) (g_doik s) (g_toik s) (g_dijk s) v (g_cijk s) (g_eijk s) (g_gijk s) (g_nijk s) (g_n0i s) (g_bvij s) (g_gvij s) (g_btij s) (g_gtij s).
Definition set_g_cijk (v : list (list F)) (s : Gerg) : Gerg :=
  mkGerg (g_t s) (g_p s) (g_d s) (g_z s) (g_mm s) (g_dp_dd s) (g_d2p_dd2 s) (g_d2p_dtd s) (g_dp_dt s) (g_u s) (g_h s) (g_s s) (g_cv s) (g_cp s) (g_w s) (g_g s) (g_jt s) (g_kappa s) (g_x s) (g_drold s) (g_trold s) (g_told s) (g_trold2 s) (g_xold s) (g_a s) (g_a0 s) (g_ar s) (g_dpddsave s) (g_taup s) (g_taupijk s) (g_coik s) (g_doik s) (g_toik s) (g_dijk s) (g_tijk s) v (g_eijk s) (g_gijk s) (g_nijk s) (g_n0i s) (g_bvij s) (g_gvij s) (g_btij s) (g_gtij s).
Definition set_g_eijk (v : list (list F)) (s : Gerg) : Gerg :=
  mkGerg (g_t s) (g_p s) (g_d s) (g_z s) (g_mm s) (g_dp_dd s) (g_d2p_dd2 s) (g_d2p_dtd s) (g_dp_dt s) (g_u s) (g_h s) (g_s s) (g_cv s) (g_cp s) (g_w s) (g_g s) (g_jt s) (g_kappa s) (g_x s) (g_drold s) (g_trold s) (g_told s) (g_trold2 s) (g_xold s) (g_a s) (g_a0 s) (g_ar s) (g_dpddsave s) (g_taup s) (g_taupijk s) (g_coik s) (g_doik s) (g_toik s) (g_dijk s) (g_tijk s) (g_cijk s) v (g_gijk s) (g_nijk s) (g_n0i s) (g_bvij s) (g_gvij s) (g_btij s) (g_gtij s).
Definition set_g_gijk (v : list (list F)) (s : Gerg) : Gerg :=
  mkGerg (g_t s) (g_p s) (g_d s) (g_z s) (g_mm s) (g_dp_dd s) (g_d2p_dd2 s) (g_d2p_dtd s) (g_dp_dt s) (g_u s) (g_h s) (g_s s) (g_cv s) (g_cp s) (g_w s) (g_g s) (g_jt s) (g_kappa s) (g_x s) (g_drold s) (g_trold s) (g_told s) (g_trold2 s) (g_xold s) (g_a s) (g_a0 s) (g_ar s) (g_dpddsave s) (g_taup s) (g_taupijk s) (g_coik s) (g_doik s) (g_toik s) (g_dijk s) (g_tijk s) (g_cijk s) (g_eijk s) v (g_nijk s) (g_n0i s) (g_bvij s) (g_gvij s) (g_btij s) (g_gtij s).
Definition set_g_nijk (v : list (list F)) (s : Gerg) : Gerg :=
  mkGerg (g_t s) (g_p s) (g_d s) (g_z s) (g_mm s) (g_dp_dd s) (g_d2p_dd2 s) (g_d2p_dtd s) (g_dp_dt s) (g_u s) (g_h s) (g_s s) (g_cv s) (g_cp s) (g_w s) (g_g s) (g_jt s) (g_kappa s) (g_x s) (g_drold s) (g_trold s) (g_told s) (g_trold2 s) (g_xold s) (g_a s) (g_a0 s) (g_ar s) (g_dpddsave s) (g_taup s) (g_taupijk s) (g_coik s) (g_doik s) (g_toik s) (g_dijk s) (g_tijk s) (g_cijk s) (g_eijk s) (g_gijk s) v (g_n0i s) (g_bvij s) (g_gvij s) (g_btij s) (g_gtij s).
Definition set_g_n0i (v : list (list F)) (s : Gerg) : Gerg :=
  mkGerg (g_t s) (g_p s) (g_d s) (g_z s) (g_mm s) (g_dp_dd s) (g_d2p_dd2 s) (g_d2p_dtd s) (g_dp_dt s) (g_u s) (g_h s) (g_s s) (g_cv s) (g_cp s) (g_w s) (g_g s) (g_jt s) (g_kappa s) (g_x s) (g_drold s) (g_trold s) (g_told s) (g_trold2 s) (g_xold s) (g_a s) (g_a0 s) (g_ar s) (g_dpddsave s) (g_taup s) (g_taupijk s) (g_coik s) (g_doik s) (g_toik s) (g_dijk s) (g_tijk s) (g_cijk s) (g_eijk s) (g_gijk s) (g_nijk s) v (g_bvij s) (g_gvij s) (g_btij s) (g_gtij s).
Definition set_g_bvij (v : list (list F)) (s : Gerg) : Gerg :=
  mkGerg (g_t s) (g_p s) (g_d s) (g_z s) (g_mm s) (g_dp_dd s) (g_d2p_dd2 s) (g_d2p_dtd s) (g_dp_dt s) (g_u s) (g_h s) (g_s s) (g_cv s) (g_cp s) (g_w s) (g_g s) (g_jt s) (g_kappa s) (g_x s) (g_drold s) (g_trold s) (g_told s) (g_trold2 s) (g_xold s) (g_a s) (g_a0 s) (g_ar s) (g_dpddsave s) (g_taup s) (g_taupijk s) (g_coik s) (g_doik s) (g_toik s) (g_dijk s) (g_tijk s) (g_cijk s) (g_eijk s) (g_gijk s) (g_nijk s) (g_n0i s) v (g_gvij s) (g_btij s) (g_gtij s).
Definition set_g_gvij (v : list (list F)) (s : Gerg) : Gerg :=
  mkGerg (g_t s) (g_p s) (g_d s) (g_z s) (g_mm s) (g_dp_dd s) (g_d2p_dd2 s) (g_d2p_dtd s) (g_dp_dt s) (g_u s) (g_h s) (g_s s) (g_cv s) (g_cp s) (g_w s) (g_g s) (g_jt s) (g_kappa s) (g_x s) (g_drold s) (g_trold s) (g_told s) (g_trold2 s) (g_xold s) (g_a s) (g_a0 s) (g_ar s) (g_dpddsave s) (g_taup s) (g_taupijk s) (g_coik s) (g_doik s) (g_toik s) (g_dijk s) (g_tijk s) (g_cijk s) (g_eijk s) (g_gijk s) (g_nijk s) (g_n0i s) (g_bvij s) v (g_btij s) (g_gtij s).
Definition set_g_btij (v : list (list F)) (s : Gerg) : Gerg :=
  mkGerg (g_t s) (g_p s) (g_d s) (g_z s) (g_mm s) (g_dp_dd s) (g_d2p_dd2 s) (g_d2p_dtd s) (g_dp_dt s) (g_u s) (g_h s) (g_s s) (g_cv s) (g_cp s) (g_w s) (g_g s) (g_jt s) (g_kappa s) (g_x s) (g_drold s) (g_trold s) (g_told s) (g_trold2 s) (g_xold s) (g_a s) (g_a0 s) (g_ar s) (g_dpddsave s) (g_taup s) (g_taupijk s) (g_coik s) (g_doik s) (g_toik s) (g_dijk s) (g_tijk s) (g_cijk s) (g_eijk s) (g_gijk s) (g_nijk s) (g_n0i s) (g_bvij s) (g_gvij s) v (g_gtij s).
Definition set_g_gtij (v : list (list F)) (s : Gerg) : Gerg :=
  mkGerg (g_t s) (g_p s) (g_d s) (g_z s) (g_mm s) (g_dp_dd s) (g_d2p_dd2 s) (g_d2p_dtd s) (g_dp_dt s) (g_u s) (g_h s) (g_s s) (g_cv s) (g_cp s) (g_w s) (g_g s) (g_jt s) (g_kappa s) (g_x s) (g_drold s) (g_trold s) (g_told s) (g_trold2 s) (g_xold s) (g_a s) (g_a0 s) (g_ar s) (g_dpddsave s) (g_taup s) (g_taupijk s) (g_coik s) (g_doik s) (g_toik s) (g_dijk s) (g_tijk s) (g_cijk s) (g_eijk s) (g_gijk s) (g_nijk s) (g_n0i s) (g_bvij s) (g_gvij s) (g_btij s) v.
End Setters.

Section Model.
Context {A : Arith}.
Local Open Scope bool_scope.
Local Open Scope F_scope.

(* src/gerg2008.rs:6-12 *)
Definition RGERG : F := flit (L 8314472 (-6)).
Definition NC_GERG := 21%nat.
Definition GMAXFLDS := 21%nat.
Definition MAXMDL := 10%nat.
Definition MAXTRMM := 12%nat.
Definition MAXTRMP := 24%nat.
Definition GEPSILON : F := flit (L 1 (-15)).

(* src/gerg2008.rs:2352  derive(Default) *)
Definition gerg_default : Gerg :=
  let m {T} (z : T) r c := repeat (repeat z c) r in
  mkGerg f0 f0 f0 f0 f0 f0 f0 f0 f0 f0 f0 f0 f0 f0 f0 f0 f0 f0
    (repeat f0 22) f0 f0 f0 f0 (repeat f0 22) f0 (repeat f0 3) (m f0 4 4) f0
    (m f0 22 25) (m f0 22 13) (m 0 22 25) (m 0 22 25) (m f0 22 25)
    (m 0 13 13) (m f0 11 13) (m f0 11 13) (m f0 11 13) (m f0 11 13) (m f0 11 13)
    (m f0 22 8) (m f0 22 22) (m f0 22 22) (m f0 22 22) (m f0 22 22).

(* constant assignments arr[i][k] = c of one loop iteration i *)
Definition row_assign {T U} (inj : U -> T) (l : list (nat * U)) (i : nat) (a : list (list T))
  : option (list (list T)) :=
  fold_left (fun o e => a <- o ;; upd2 a i (fst e) (inj (snd e))) l (Some a).

(* a run of constant usize assignments arr[i][j] = c *)
Definition assign2n (l : list (nat * nat * nat)) (a : list (list nat))
  : option (list (list nat)) :=
  fold_left (fun o e => a <- o ;; upd2 a (fst (fst e)) (snd (fst e)) (snd e)) l (Some a).

(* src/gerg2008.rs:2435-2436 *)
Definition RSR : F := flit (L 831451 (-5)) / RGERG.

(* src/gerg2008.rs:2437-2443  vc3 and tc2 (locals of setup) *)
Definition setup_vc3 : option (list F) :=
  for_incl 1 GMAXFLDS (fun i v =>
    d <- lget G_DC i ;; upd v i (f1 / fpowf d (f1 / f3) / f2)) (repeat f0 22).
Definition setup_tc2 : option (list F) :=
  for_incl 1 GMAXFLDS (fun i v => t <- lget G_TC i ;; upd v i (fsqrt t)) (repeat f0 22).

(* src/gerg2008.rs:2441-2754  exponents of the pure-fluid equations: the rows of all components,
   then methane, nitrogen and ethane, then the explicit rows.  The three arrays are filled
   one after the other; the code interleaves the assignments. *)
Definition setup_exps {T U} (inj : U -> T) (all long : list (nat * U))
    (rest : list (list T) -> option (list (list T))) (a : list (list T))
  : option (list (list T)) :=
  a <- for_incl 1 GMAXFLDS (fun i a => row_assign inj all i a) a ;;
  a <- for_incl 1 4 (fun i a => if negb (Nat.eqb i 3) then row_assign inj long i a
                                else Some a) a ;;
  rest a.

(* src/gerg2008.rs:4184-4195 *)
Definition setup_red (vc3 tc2 : list F) (s : Gerg) : option Gerg :=
  for_incl 1 GMAXFLDS (fun i s =>
    bvij <- upd2 (g_bvij s) i i f1 ;;
    btij <- upd2 (g_btij s) i i f1 ;;
    d <- lget G_DC i ;; gvij <- upd2 (g_gvij s) i i (f1 / d) ;;
    t <- lget G_TC i ;; gtij <- upd2 (g_gtij s) i i t ;;
    let s := set_g_gtij gtij (set_g_gvij gvij (set_g_btij btij (set_g_bvij bvij s))) in
    for_incl (i + 1) GMAXFLDS (fun j s =>
      gv <- get2 (g_gvij s) i j ;; bv <- get2 (g_bvij s) i j ;;
      vi <- get vc3 i ;; vj <- get vc3 j ;;
      gvij <- upd2 (g_gvij s) i j (gv * bv * fpowi (vi + vj) 3) ;;
      gt <- get2 (g_gtij s) i j ;; bt <- get2 (g_btij s) i j ;;
      ti <- get tc2 i ;; tj <- get tc2 j ;;
      gtij <- upd2 (g_gtij s) i j (gt * bt * ti * tj) ;;
      bvij <- upd2 (g_bvij s) i j (fpowi bv 2) ;;
      btij <- upd2 (g_btij s) i j (fpowi bt 2) ;;
      Some (set_g_gtij gtij (set_g_gvij gvij (set_g_btij btij (set_g_bvij bvij s))))) s) s.

(* src/gerg2008.rs:4197-4204 *)
Definition setup_gec (bijk : list (list F)) (s : Gerg) : option Gerg :=
  for_ 1 (length bijk) (fun i s =>
    bi <- get bijk i ;;
    for_ 1 (length bi) (fun j s =>
      b <- get bi j ;;
      c <- get2 (g_cijk s) i j ;; e <- get2 (g_eijk s) i j ;; g <- get2 (g_gijk s) i j ;;
      gijk <- upd2 (g_gijk s) i j ((- c) * fpowi e 2 + b * g) ;;
      eijk <- upd2 (g_eijk s) i j (f2 * c * e - b) ;;
      cijk <- upd2 (g_cijk s) i j (- c) ;;
      Some (set_g_cijk cijk (set_g_eijk eijk (set_g_gijk gijk s)))) s) s.

(* src/gerg2008.rs:4206-4207 *)
Definition GT0 : F := flit (L 29815 (-2)).
Definition GD0 : F := flit (L 101325 (-3)) / RGERG / GT0.

(* src/gerg2008.rs:4208-4216 *)
Definition gsetup_n0i (n0i : list (list F)) : option (list (list F)) :=
  for_incl 1 GMAXFLDS (fun i n =>
    v <- get2 n i 3 ;; n <- upd2 n i 3 (v - f1) ;;
    v <- get2 n i 2 ;; n <- upd2 n i 2 (v + GT0) ;;
    n <- for_incl 1 7 (fun j n => v <- get2 n i j ;; upd2 n i j (v * RSR)) n ;;
    v <- get2 n i 2 ;; n <- upd2 n i 2 (v - GT0) ;;
    v <- get2 n i 1 ;; upd2 n i 1 (v - fln GD0)) n0i.

(* src/gerg2008.rs:2434-4217  Gerg2008::setup *)
Definition gerg_setup (s : Gerg) : option Gerg :=
  vc3 <- setup_vc3 ;; tc2 <- setup_tc2 ;;
  coik <- setup_exps (fun n => n) G_setup_coik_all G_setup_coik_long (assign2n G_setup_coik)
            (g_coik s) ;;
  doik <- setup_exps (fun n => n) G_setup_doik_all G_setup_doik_long (assign2n G_setup_doik)
            (g_doik s) ;;
  toik <- setup_exps flit G_setup_toik_all G_setup_toik_long (assign2 G_setup_toik)
            (g_toik s) ;;
  dijk <- assign2n G_setup_dijk (g_dijk s) ;;
  tijk <- assign2 G_setup_tijk (g_tijk s) ;;
  cijk <- assign2 G_setup_cijk (g_cijk s) ;;
  eijk <- assign2 G_setup_eijk (g_eijk s) ;;
  gijk <- assign2 G_setup_gijk (g_gijk s) ;;
  nijk <- assign2 G_setup_nijk (g_nijk s) ;;
  bijk <- assign2 G_setup_bijk (repeat (repeat f0 13) 11) ;;
  n0i <- assign2 G_setup_n0i (g_n0i s) ;;
  bvij <- assign2 G_setup_bvij (g_bvij s) ;;
  gvij <- assign2 G_setup_gvij (g_gvij s) ;;
  btij <- assign2 G_setup_btij (g_btij s) ;;
  gtij <- assign2 G_setup_gtij (g_gtij s) ;;
  let s := set_g_coik coik (set_g_doik doik (set_g_toik toik (set_g_dijk dijk
           (set_g_tijk tijk (set_g_cijk cijk (set_g_eijk eijk (set_g_gijk gijk
           (set_g_nijk nijk s)))))))) in
  let s := set_g_bvij bvij (set_g_gvij gvij (set_g_btij btij (set_g_gtij gtij s))) in
  s <- setup_red vc3 tc2 s ;;
  s <- setup_gec bijk s ;;
  n0i <- gsetup_n0i n0i ;;
  Some (set_g_n0i n0i s).

(* src/gerg2008.rs:2428-2432  Gerg2008::new *)
Definition gerg_new : option Gerg := gerg_setup gerg_default.

(* src/gerg2008.rs:4223-4250  Gerg2008::set_composition *)
Definition gerg_set_composition (c : Composition) (s : Gerg)
  : option (Gerg * result CompositionError) :=
  match comp_check c with
  | RErr e => Some (s, RErr e)
  | ROk =>
    x <- upd (g_x s) 0 f0 ;;
    x <- upd x 1 (methane c) ;; x <- upd x 2 (nitrogen c) ;;
    x <- upd x 3 (carbon_dioxide c) ;; x <- upd x 4 (ethane c) ;; x <- upd x 5 (propane c) ;;
    x <- upd x 6 (isobutane c) ;; x <- upd x 7 (n_butane c) ;; x <- upd x 8 (isopentane c) ;;
    x <- upd x 9 (n_pentane c) ;; x <- upd x 10 (hexane c) ;; x <- upd x 11 (heptane c) ;;
    x <- upd x 12 (octane c) ;; x <- upd x 13 (nonane c) ;; x <- upd x 14 (decane c) ;;
    x <- upd x 15 (hydrogen c) ;; x <- upd x 16 (oxygen c) ;;
    x <- upd x 17 (carbon_monoxide c) ;; x <- upd x 18 (water c) ;;
    x <- upd x 19 (hydrogen_sulfide c) ;; x <- upd x 20 (helium c) ;; x <- upd x 21 (argon c) ;;
    Some (set_g_x x s, ROk)
  end.

(* src/gerg2008.rs:4273-4278  Gerg2008::molar_mass *)
Definition gerg_molar_mass (s : Gerg) : option Gerg :=
  mm <- for_ 1 (length G_MMI_GERG) (fun i mm =>
          xi <- get (g_x s) i ;; m <- lget G_MMI_GERG i ;; Some (mm + xi * m)) f0 ;;
  Some (set_g_mm mm s).

(* src/gerg2008.rs:4427-4432  change detection of reducingparameters: (icheck, new xold) *)
Definition gx_changed (x xold : list F) : option (bool * list F) :=
  for_incl 1 NC_GERG (fun i st =>
    let '(icheck, xold) := st in
    xi <- get x i ;; xo <- get xold i ;;
    let icheck := if fabs (xi - xo) >? flit (L 1 (-7)) then true else icheck in
    xold <- upd xold i xi ;; Some (icheck, xold)) (false, xold).

(* src/gerg2008.rs:4440-4453  the reducing sums (vr, tr); the third component is the local f *)
Definition red_sums (s : Gerg) : option (F * F) :=
  for_incl 1 NC_GERG (fun i st =>
    xi <- get (g_x s) i ;;
    if xi >? GEPSILON then
      let '(vr, tr) := st in
      '(vr, tr, _) <- for_incl i NC_GERG (fun j st =>
        let '(vr, tr, f) := st in
        xj <- get (g_x s) j ;;
        if xj >? GEPSILON then
          gv <- lget2 G_GVIJ i j ;; bv <- get2 (g_bvij s) i j ;;
          gt <- lget2 G_GTIJ i j ;; bt <- lget2 G_BTIJ i j ;;
          let xij := f * (xi * xj) * (xi + xj) in
          Some (vr + xij * gv / (bv * xi + xj), tr + xij * gt / (bt * xi + xj), f2)
        else Some st) (vr, tr, f1) ;;
      Some (vr, tr)
    else Some st) (f0, f0).

(* src/gerg2008.rs:4418-4459  Gerg2008::reducingparameters, returning (dr, tr) *)
Definition reducingparameters (s : Gerg) : option (Gerg * (F * F)) :=
  '(icheck, xold) <- gx_changed (g_x s) (g_xold s) ;;
  let s := set_g_xold xold s in
  if icheck : bool then
    let s := set_g_trold2 f0 (set_g_told f0 s) in
    '(vr, tr) <- red_sums s ;;
    let dr := if vr >? GEPSILON then f1 / vr else f0 in
    Some (set_g_trold tr (set_g_drold dr s), (dr, tr))
  else Some (s, (g_drold s, g_trold s)).

(* src/gerg2008.rs:4488-4506  the inner j loop of alpha0: (sumhyp0, sumhyp1, sumhyp2) *)
Definition galpha0_hyp (s : Gerg) (i : nat) : option (F * F * F) :=
  for_ 4 8 (fun j st =>
    let '(h0, h1, h2) := st in
    th <- lget2 G_TH0I i j ;;
    if th >? GEPSILON then
      let th0t := th / g_t s in
      let ep := fexp th0t in
      let em := f1 / ep in
      let hsn := (ep - em) / f2 in
      let hcn := (ep + em) / f2 in
      n <- get2 (g_n0i s) i j ;;
      if (Nat.eqb j 4 || Nat.eqb j 6)%bool then
        let loghyp := fln (fabs hsn) in
        Some (h0 + n * loghyp, h1 + n * th0t * hcn / hsn,
              h2 + n * (th0t / hsn) * (th0t / hsn))
      else
        let loghyp := fln (fabs hcn) in
        Some (h0 - n * loghyp, h1 - n * th0t * hsn / hcn,
              h2 + n * (th0t / hcn) * (th0t / hcn))
    else Some st) (f0, f0, f0).

(* src/gerg2008.rs:4461-4515  Gerg2008::alpha0 (a0 is accumulated in three locals and written
   back at the end; the code accumulates in self.a0) *)
Definition gerg_alpha0 (s : Gerg) : option Gerg :=
  let logd := if g_d s >? GEPSILON then fln (g_d s) else fln GEPSILON in
  let logt := fln (g_t s) in
  '(a0, a1, a2) <- for_ 1 (length G_TH0I) (fun i st =>
    let '(a0, a1, a2) := st in
    x <- get (g_x s) i ;;
    if x >? GEPSILON then
      let logxd := logd + fln x in
      '(h0, h1, h2) <- galpha0_hyp s i ;;
      n1 <- get2 (g_n0i s) i 1 ;; n2 <- get2 (g_n0i s) i 2 ;; n3 <- get2 (g_n0i s) i 3 ;;
      Some (a0 + x * (logxd + n1 + n2 / g_t s - n3 * logt + h0),
            a1 + x * (n3 + n2 / g_t s + h1),
            a2 + (- x) * (n3 + h2))
    else Some st) (f0, f0, f0) ;;
  l <- upd (g_a0 s) 0 a0 ;; l <- upd l 1 a1 ;; l <- upd l 2 a2 ;;
  Some (set_g_a0 l s).

(* src/gerg2008.rs:4659-4665  taup0: short-form powers of tau (exponents of propane) *)
Definition tterms_taup0 (s : Gerg) (lntau : F) : option (list F) :=
  for_ 1 13 (fun k l => t <- get2 (g_toik s) 5 k ;; upd l k (fexp (t * lntau)))
    (repeat f0 13).

(* src/gerg2008.rs:4668 *)
Definition short_form (i : nat) : bool :=
  Nat.ltb 4 i && negb (Nat.eqb i 15) && negb (Nat.eqb i 18) && negb (Nat.eqb i 20).

(* src/gerg2008.rs:4666-4678  pure-fluid powers *)
Definition tterms_taup (s : Gerg) (lntau : F) (taup0 : list F) (taup : list (list F))
  : option (list (list F)) :=
  for_incl 1 NC_GERG (fun i taup =>
    xi <- get (g_x s) i ;;
    if xi >? GEPSILON then
      if short_form i then
        for_ 1 (length taup0) (fun k taup =>
          n <- lget2 G_NOIK i k ;; t <- get taup0 k ;; upd2 taup i k (n * t)) taup
      else
        kp <- get G_KPOL i ;; ke <- get G_KEXP i ;;
        for_incl 1 (kp + ke) (fun k taup =>
          n <- lget2 G_NOIK i k ;; t <- get2 (g_toik s) i k ;;
          upd2 taup i k (n * fexp (t * lntau))) taup
    else Some taup) taup.

(* src/gerg2008.rs:4680-4694  mixture powers *)
Definition tterms_taupijk (s : Gerg) (lntau : F) (tp : list (list F))
  : option (list (list F)) :=
  for_ 1 (length G_MNUMB) (fun i tp =>
    mi <- get G_MNUMB i ;;
    xi <- get (g_x s) i ;;
    if xi >? GEPSILON then
      for_ (i + 1) (length mi) (fun j tp =>
        xj <- get (g_x s) j ;;
        if xj >? GEPSILON then
          mn <- get mi j ;;
          if Nat.ltb 0 mn then
            kp <- get G_KPOLIJ mn ;;
            for_incl 1 kp (fun k tp =>
              n <- get2 (g_nijk s) mn k ;; t <- get2 (g_tijk s) mn k ;;
              upd2 tp mn k (n * fexp (t * lntau))) tp
          else Some tp
        else Some tp) tp
    else Some tp) tp.

(* src/gerg2008.rs:4658-4695  Gerg2008::tterms *)
Definition tterms (lntau : F) (s : Gerg) : option Gerg :=
  taup0 <- tterms_taup0 s lntau ;;
  taup <- tterms_taup s lntau taup0 (g_taup s) ;;
  tp <- tterms_taupijk s lntau (g_taupijk s) ;;
  Some (set_g_taupijk tp (set_g_taup taup s)).

(* src/gerg2008.rs:4541-4546  delp and expd *)
Definition galphar_delp (del : F) : option (list F * list F) :=
  delp <- upd (repeat f0 8) 1 del ;;
  d1 <- get delp 1 ;; expd <- upd (repeat f0 8) 1 (fexp (- d1)) ;;
  for_ 2 8 (fun i st =>
    let '(delp, expd) := st in
    p <- get delp (i - 1) ;; delp <- upd delp i (p * del) ;;
    di <- get delp i ;; expd <- upd expd i (fexp (- di)) ;;
    Some (delp, expd)) (delp, expd).

(* A polynomial term  ndt = n * del^d * tau^t : the updates of ar it makes.
   src/gerg2008.rs:4560-4573 (pure) and 4609-4625 (mixture) have this same shape. *)
Definition add_pol (itau : Z) (ndt dd tt : F) (ar : list (list F)) : option (list (list F)) :=
  let ndtd := ndt * dd in
  ar <- ar_add ar 0 1 ndtd ;;
  ar <- ar_add ar 0 2 (ndtd * (dd - f1)) ;;
  if (0 <? itau)%Z then
    let ndtt := ndt * tt in
    ar <- ar_add ar 0 0 ndt ;;
    ar <- ar_add ar 1 0 ndtt ;;
    ar <- ar_add ar 2 0 (ndtt * (tt - f1)) ;;
    ar <- ar_add ar 1 1 (ndtt * dd) ;;
    ar <- ar_add ar 1 2 (ndtt * dd * (dd - f1)) ;;
    ar_add ar 0 3 (ndtd * (dd - f1) * (dd - f2))
  else Some ar.

(* src/gerg2008.rs:4578-4594  a pure-fluid exponential term *)
Definition add_exp (itau : Z) (ndt dd tt cc delc : F) (ar : list (list F))
  : option (list (list F)) :=
  let ex := cc * delc in
  let ex2 := dd - ex in
  let ex3 := ex2 * (ex2 - f1) in
  ar <- ar_add ar 0 1 (ndt * ex2) ;;
  ar <- ar_add ar 0 2 (ndt * (ex3 - cc * ex)) ;;
  if (0 <? itau)%Z then
    let ndtt := ndt * tt in
    ar <- ar_add ar 0 0 ndt ;;
    ar <- ar_add ar 1 0 ndtt ;;
    ar <- ar_add ar 2 0 (ndtt * (tt - f1)) ;;
    ar <- ar_add ar 1 1 (ndtt * ex2) ;;
    ar <- ar_add ar 1 2 (ndtt * (ex3 - cc * ex)) ;;
    ar_add ar 0 3 (ndt * (ex3 * (ex2 - f2) - ex * (f3 * ex2 - f3 + cc) * cc))
  else Some ar.

(* src/gerg2008.rs:4634-4650  a mixture exponential term *)
Definition add_mexp (itau : Z) (ndt dd tt cij0 eij0 : F) (ar : list (list F))
  : option (list (list F)) :=
  let ex := dd + f2 * cij0 + eij0 in
  let ex2 := ex * ex - dd + f2 * cij0 in
  ar <- ar_add ar 0 1 (ndt * ex) ;;
  ar <- ar_add ar 0 2 (ndt * ex2) ;;
  if (0 <? itau)%Z then
    let ndtt := ndt * tt in
    ar <- ar_add ar 0 0 ndt ;;
    ar <- ar_add ar 1 0 ndtt ;;
    ar <- ar_add ar 2 0 (ndtt * (tt - f1)) ;;
    ar <- ar_add ar 1 1 (ndtt * ex) ;;
    ar <- ar_add ar 1 2 (ndtt * ex2) ;;
    ar_add ar 0 3 (ndt * (ex * (ex2 - f2 * (dd - f2 * cij0)) + f2 * dd))
  else Some ar.

(* src/gerg2008.rs:4555-4597  pure fluid contributions *)
Definition galphar_pure (itau : Z) (s : Gerg) (delp expd : list F) (ar : list (list F))
  : option (list (list F)) :=
  for_incl 1 NC_GERG (fun i ar =>
    xi <- get (g_x s) i ;;
    if xi >? GEPSILON then
      kp <- get G_KPOL i ;; ke <- get G_KEXP i ;;
      ar <- for_incl 1 kp (fun k ar =>
              dd <- get2 (g_doik s) i k ;; dp <- get delp dd ;; tp <- get2 (g_taup s) i k ;;
              tt <- get2 (g_toik s) i k ;;
              add_pol itau (xi * dp * tp) (fofnat dd) tt ar) ar ;;
      for_incl (1 + kp) (kp + ke) (fun k ar =>
        dd <- get2 (g_doik s) i k ;; dp <- get delp dd ;; tp <- get2 (g_taup s) i k ;;
        cc <- get2 (g_coik s) i k ;; ec <- get expd cc ;; dc <- get delp cc ;;
        tt <- get2 (g_toik s) i k ;;
        add_exp itau (xi * dp * tp * ec) (fofnat dd) tt (fofnat cc) dc ar) ar
    else Some ar) ar.

(* src/gerg2008.rs:4599-4655  mixture contributions *)
Definition galphar_mix (itau : Z) (s : Gerg) (del lntau : F) (delp : list F)
    (ar : list (list F)) : option (list (list F)) :=
  for_ 1 NC_GERG (fun i ar =>
    xi <- get (g_x s) i ;;
    if xi >? GEPSILON then
      for_incl (i + 1) NC_GERG (fun j ar =>
        xj <- get (g_x s) j ;;
        if xj >? GEPSILON then
          mn <- get2 G_MNUMB i j ;;
          if Nat.ltb 0 mn then
            fij <- lget2 G_FIJ i j ;;
            let xijf := xi * xj * fij in
            kp <- get G_KPOLIJ mn ;; ke <- get G_KEXPIJ mn ;;
            ar <- for_incl 1 kp (fun k ar =>
                    dd <- get2 (g_dijk s) mn k ;; dp <- get delp dd ;;
                    tp <- get2 (g_taupijk s) mn k ;; tt <- get2 (g_tijk s) mn k ;;
                    add_pol itau (xijf * dp * tp) (fofnat dd) tt ar) ar ;;
            for_incl (1 + kp) (kp + ke) (fun k ar =>
              cm <- get2 (g_cijk s) mn k ;; del2 <- get delp 2 ;;
              em <- get2 (g_eijk s) mn k ;;
              let cij0 := cm * del2 in
              let eij0 := em * del in
              nm <- get2 (g_nijk s) mn k ;; dd <- get2 (g_dijk s) mn k ;;
              dp <- get delp dd ;; gm <- get2 (g_gijk s) mn k ;;
              tt <- get2 (g_tijk s) mn k ;;
              add_mexp itau (xijf * nm * dp * fexp (cij0 + eij0 + gm + tt * lntau))
                       (fofnat dd) tt cij0 eij0 ar) ar
          else Some ar
        else Some ar) ar
    else Some ar) ar.

(* src/gerg2008.rs:4548-4553  temperature-dependent parts, cached on told and trold2 *)
Definition galphar_tcache (tr lntau : F) (s : Gerg) : option Gerg :=
  s <- (if (fabs (g_t s - g_told s) >? flit (L 1 (-7)))
           || (fabs (tr - g_trold2 s) >? flit (L 1 (-7)))
        then tterms lntau s else Some s) ;;
  Some (set_g_trold2 tr (set_g_told (g_t s) s)).

(* src/gerg2008.rs:4517-4656  Gerg2008::alphar *)
Definition gerg_alphar (itau : Z) (s : Gerg) : option Gerg :=
  ar <- ar_zero (g_ar s) ;;
  '(s, (dr, tr)) <- reducingparameters s ;;
  let del := g_d s / dr in
  let tau := tr / g_t s in
  let lntau := fln tau in
  '(delp, expd) <- galphar_delp del ;;
  s <- galphar_tcache tr lntau s ;;
  ar <- galphar_pure itau s delp expd ar ;;
  ar <- galphar_mix itau s del lntau delp ar ;;
  Some (set_g_ar ar s).

(* src/gerg2008.rs:4281-4287  Gerg2008::pressure *)
Definition gerg_pressure (s : Gerg) : option (Gerg * F) :=
  s <- gerg_alphar 0 s ;;
  ar01 <- get2 (g_ar s) 0 1 ;; ar02 <- get2 (g_ar s) 0 2 ;;
  let s := set_g_z (f1 + ar01) s in
  let p := g_d s * RGERG * g_t s * g_z s in
  let s := set_g_dpddsave (RGERG * g_t s * (f1 + f2 * ar01 + ar02)) s in
  Some (s, p).

(* src/gerg2008.rs:4386-4397  first block of properties; the arguments are the entries of
   self.ar and self.a0 read there (p, 4387, is computed in gprops_results) *)
Definition gprops_first (ar00 ar01 ar02 ar10 ar11 ar12 ar20 a00 a01 a02 : F) (s : Gerg) : Gerg :=
  let rt := RGERG * g_t s in
  let s := set_g_z (f1 + ar01) s in
  let s := set_g_dp_dd (rt * (f1 + f2 * ar01 + ar02)) s in
  let s := set_g_dp_dt (g_d s * RGERG * (f1 + ar01 - ar11)) s in
  let s := set_g_d2p_dtd (RGERG * (f1 + f2 * ar01 + ar02 - f2 * ar11 - ar12)) s in
  let s := set_g_a (rt * a00 + ar00) s in
  let s := set_g_g (rt * (f1 + ar01 + a00 + ar00)) s in
  let s := set_g_u (rt * (a01 + ar10)) s in
  let s := set_g_h (rt * (f1 + ar01 + a01 + ar10)) s in
  let s := set_g_s (RGERG * (a01 + ar10 - a00 - ar00)) s in
  set_g_cv ((- RGERG) * (a02 + ar20)) s.

(* src/gerg2008.rs:4399-4402  d > EPSILON *)
Definition gprops_dense (rt ar01 ar02 ar03 : F) (s : Gerg) : Gerg :=
  let s := set_g_cp (g_cv s + g_t s * (g_dp_dt s / g_d s) * (g_dp_dt s / g_d s) / g_dp_dd s)
                    s in
  let s := set_g_d2p_dd2 (rt * (f2 * ar01 + f4 * ar02 + ar03) / g_d s) s in
  set_g_jt ((g_t s / g_d s * g_dp_dt s / g_dp_dd s - f1) / g_cp s / g_d s) s.

(* src/gerg2008.rs:4405-4407  otherwise *)
Definition gprops_dilute (s : Gerg) : Gerg :=
  let s := set_g_cp (g_cv s + RGERG) s in
  let s := set_g_d2p_dd2 f0 s in
  set_g_jt (flit (L 1 20)) s.

(* src/gerg2008.rs:4409-4414 *)
Definition gprops_sound (rt : F) (s : Gerg) : Gerg :=
  let s := set_g_w (flit (L 1000 0) * g_cp s / g_cv s * g_dp_dd s / g_mm s) s in
  let s := set_g_w (if g_w s <? f0 then f0 else g_w s) s in
  let s := set_g_w (fsqrt (g_w s)) s in
  set_g_kappa (fpowi (g_w s) 2 * g_mm s / (rt * flit (L 1000 0) * g_z s)) s.

(* src/gerg2008.rs:4385-4415  the part of properties after alphar *)
Definition gprops_results (s : Gerg) : option (Gerg * F) :=
  ar00 <- get2 (g_ar s) 0 0 ;; ar01 <- get2 (g_ar s) 0 1 ;; ar02 <- get2 (g_ar s) 0 2 ;;
  ar03 <- get2 (g_ar s) 0 3 ;; ar10 <- get2 (g_ar s) 1 0 ;; ar11 <- get2 (g_ar s) 1 1 ;;
  ar12 <- get2 (g_ar s) 1 2 ;; ar20 <- get2 (g_ar s) 2 0 ;;
  a00 <- get (g_a0 s) 0 ;; a01 <- get (g_a0 s) 1 ;; a02 <- get (g_a0 s) 2 ;;
  let rt := RGERG * g_t s in
  let s := gprops_first ar00 ar01 ar02 ar10 ar11 ar12 ar20 a00 a01 a02 s in
  let p := g_d s * rt * g_z s in
  let s := if g_d s >? GEPSILON then gprops_dense rt ar01 ar02 ar03 s else gprops_dilute s in
  Some (gprops_sound rt s, p).

(* src/gerg2008.rs:4379-4416  Gerg2008::properties, returning the pressure *)
Definition gerg_properties (s : Gerg) : option (Gerg * F) :=
  s <- gerg_molar_mass s ;;
  s <- gerg_alpha0 s ;;
  s <- gerg_alphar 1 s ;;
  gprops_results s.

(* src/gerg2008.rs:4697-4710  Gerg2008::pseudocriticalpoint, returning (dcx, tcx) *)
Definition pseudocriticalpoint (s : Gerg) : option (F * F) :=
  '(tcx, vcx) <- for_incl 1 NC_GERG (fun i st =>
    let '(tcx, vcx) := st in
    xi <- get (g_x s) i ;; tc <- lget G_TC i ;; dc <- lget G_DC i ;;
    Some (tcx + xi * tc, vcx + xi / dc)) (f0, f0) ;;
  Some (if vcx >? GEPSILON then f1 / vcx else f0, tcx).

(* src/gerg2008.rs:4316, 4375  self.d = self.p / RGERG / self.t; Err(IterationFail) *)
Definition gdensity_fail (s : Gerg) : Gerg * result DensityError :=
  (set_g_d (g_p s / RGERG / g_t s) s, RErr IterationFail).

(* src/gerg2008.rs:4320-4326  restart density for the (already incremented) nfail *)
Definition grestart_d (nfail : nat) (dcx d : F) : F :=
  if Nat.eqb nfail 1 then dcx * f3
  else if Nat.eqb nfail 2 then dcx * flit (L 25 (-1))
  else if Nat.eqb nfail 3 then dcx * f2
  else d.

(* src/gerg2008.rs:4333-4339  the step taken when the current state is not single phase *)
Definition gvinc (it : nat) (d dcx : F) : F :=
  let vinc := if d >? dcx then flit (L (-1) (-1)) else flit (L 1 (-1)) in
  let vinc := if Nat.ltb 5 it then vinc / f2 else vinc in
  if Nat.ltb 10 it && Nat.ltb it 20 then vinc / flit (L 5 0) else vinc.

(* src/gerg2008.rs:4357-4366  the two-phase test of density(iflag > 0) after convergence *)
Definition gdensity_check (s : Gerg) : option (Gerg * result DensityError) :=
  '(s, p) <- gerg_properties s ;;
  if ((p <=? f0) || (g_dp_dd s <=? f0) || (g_d2p_dtd s <=? f0))
     || ((g_cv s <=? f0) || (g_cp s <=? f0) || (g_w s <=? f0))
  then Some (gdensity_fail s)
  else Some (s, RErr IterationFail).

(* src/gerg2008.rs:4329-4371  the body of one iteration after the restart test; the
   continuation receives the new (ifail, vlog) and object when the loop goes on *)
Definition gdensity_step (iflag : Z) (dcx plog : F) (it : nat) (ifail : bool) (vlog : F)
    (s : Gerg) (k : bool -> F -> Gerg -> option (Gerg * result DensityError))
  : option (Gerg * result DensityError) :=
  let s := set_g_d (fexp (- vlog)) s in
  '(s, p2) <- gerg_pressure s ;;
  if (g_dpddsave s <? GEPSILON) || (p2 <? GEPSILON) then
    k ifail (vlog + gvinc it (g_d s) dcx) s
  else
    let dpdlv := (- g_d s) * g_dpddsave s in
    let vdiff := (fln p2 - plog) * p2 / dpdlv in
    let vlog := vlog + (- vdiff) in
    if fabs vdiff <? TOLR then
      if g_dpddsave s <? f0 then k true vlog s
      else
        let s := set_g_d (fexp (- vlog)) s in
        if (0 <? iflag)%Z then gdensity_check s else Some (s, ROk)
    else k ifail vlog s.

(* src/gerg2008.rs:4309-4376  the iterations it, it+1, ... (n of them left) *)
Fixpoint gdensity_loop (n : nat) (iflag : Z) (dcx plog : F) (it nfail : nat) (ifail : bool)
    (vlog : F) (s : Gerg) : option (Gerg * result DensityError) :=
  match n with
  | O => Some (gdensity_fail s)
  | S n' =>
    if negb (vlog_ok vlog) || Nat.eqb it 20 || Nat.eqb it 30 || Nat.eqb it 40 || ifail then
      if Nat.ltb 2 nfail then Some (gdensity_fail s)
      else
        let nfail := S nfail in
        let s := set_g_d (grestart_d nfail dcx (g_d s)) s in
        let vlog := - fln (g_d s) in
        gdensity_step iflag dcx plog it false vlog s
          (fun ifail vlog s => gdensity_loop n' iflag dcx plog (S it) nfail ifail vlog s)
    else
      gdensity_step iflag dcx plog it ifail vlog s
        (fun ifail vlog s => gdensity_loop n' iflag dcx plog (S it) nfail ifail vlog s)
  end.

(* src/gerg2008.rs:4297-4304  the starting density *)
Definition gdensity_start (iflag : Z) (dcx : F) (s : Gerg) : Gerg :=
  if g_d s >? - GEPSILON then
    let s := set_g_d (g_p s / RGERG / g_t s) s in
    if (iflag =? 2)%Z then set_g_d (dcx * f3) s else s
  else set_g_d (fabs (g_d s)) s.

(* src/gerg2008.rs:4290-4377  Gerg2008::density *)
Definition gerg_density (iflag : Z) (s : Gerg) : option (Gerg * result DensityError) :=
  '(dcx, _) <- pseudocriticalpoint s ;;
  let s := gdensity_start iflag dcx s in
  let plog := fln (g_p s) in
  let vlog := - fln (g_d s) in
  gdensity_loop 50 iflag dcx plog 1 0 false vlog s.

End Model.
