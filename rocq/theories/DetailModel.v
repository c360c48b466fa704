(* src/detail.rs: the AGA8 DETAIL equation of state, function by function, over any arithmetic.
   &mut self methods take the object and return the new one; None is a panic. *)
From Coq Require Import ZArith List.
From Verif Require Import FArith Prelude Composition DetailTables.
Import ListNotations.

(* src/lib.rs:72-81  enum DensityError (its Ok variant is only used by the FFI) *)
Inductive DensityError := DensOk | IterationFail | PressureTooLow.

(* src/detail.rs:657-721  struct Detail *)
Record Detail {A : Arith} := mkDetail {
  d_dp_dd_save : F;
  d_t : F; d_p : F; d_d : F; d_z : F; d_mm : F;
  d_dp_dd : F; d_d2p_dd2 : F; d_d2p_dtd : F; d_dp_dt : F;
  d_u : F; d_h : F; d_s : F; d_cv : F; d_cp : F; d_w : F; d_g : F; d_jt : F; d_kappa : F;
  d_x : list F;                       (* [f64; 21] *)
  d_xold : list F;                    (* [f64; 21] *)
  d_told : F;
  d_ki25 : list F;                    (* [f64; 21] *)
  d_ei25 : list F;                    (* [f64; 21] *)
  d_bsnij2 : list (list (list F));    (* [[[f64; 18]; 21]; 21] *)
  d_bs : list F;                      (* [f64; 18] *)
  d_kij5 : list (list F);             (* [[f64; 21]; 21] *)
  d_uij5 : list (list F);
  d_gij5 : list (list F);
  d_k3 : F;
  d_csn : list F;                     (* [f64; 58] *)
  d_a0 : list F;                      (* [f64; 3] *)
  d_ar : list (list F);               (* [[f64; 4]; 4] *)
  d_tun : list F;                     (* [f64; 58] *)
  d_n0i : list (list F)               (* [[f64; 7]; 21] *)
}.
Arguments mkDetail {A}.

(* Field updates self.f = v, one per field (no source counterpart beyond the struct itself). *)
Section Setters.
Context {A : Arith}.
Definition set_d_dp_dd_save (v : F) (s : Detail) : Detail :=
  mkDetail v (d_t s) (d_p s) (d_d s) (d_z s) (d_mm s) (d_dp_dd s) (d_d2p_dd2 s) (d_d2p_dtd s) (d_dp_dt s) (d_u s) (d_h s) (d_s s) (d_cv s) (d_cp s) (d_w s) (d_g s) (d_jt s) (d_kappa s) (d_x s) (d_xold s) (d_told s) (d_ki25 s) (d_ei25 s) (d_bsnij2 s) (d_bs s) (d_kij5 s) (d_uij5 s) (d_gij5 s) (d_k3 s) (d_csn s) (d_a0 s) (d_ar s) (d_tun s) (d_n0i s).
Definition set_d_t (v : F) (s : Detail) : Detail :=
  mkDetail (d_dp_dd_save s) v (d_p s) (d_d s) (d_z s) (d_mm s) (d_dp_dd s) (d_d2p_dd2 s) (d_d2p_dtd s) (d_dp_dt s) (d_u s) (d_h s) (d_s s) (d_cv s) (d_cp s) (d_w s) (d_g s) (d_jt s) (d_kappa s) (d_x s) (d_xold s) (d_told s) (d_ki25 s) (d_ei25 s) (d_bsnij2 s) (d_bs s) (d_kij5 s) (d_uij5 s) (d_gij5 s) (d_k3 s) (d_csn s) (d_a0 s) (d_ar s) (d_tun s) (d_n0i s).
Definition set_d_p (v : F) (s : Detail) : Detail :=
  mkDetail (d_dp_dd_save s) (d_t s) v (d_d s) (d_z s) (d_mm s) (d_dp_dd s) (d_d2p_dd2 s) (d_d2p_dtd s) (d_dp_dt s) (d_u s) (d_h s) (d_s s) (d_cv s) (d_cp s) (d_w s) (d_g s) (d_jt s) (d_kappa s) (d_x s) (d_xold s) (d_told s) (d_ki25 s) (d_ei25 s) (d_bsnij2 s) (d_bs s) (d_kij5 s) (d_uij5 s) (d_gij5 s) (d_k3 s) (d_csn s) (d_a0 s) (d_ar s) (d_tun s) (d_n0i s).
Definition set_d_d (v : F) (s : Detail) : Detail :=
  mkDetail (d_dp_dd_save s) (d_t s) (d_p s) v (d_z s) (d_mm s) (d_dp_dd s) (d_d2p_dd2 s) (d_d2p_dtd s) (d_dp_dt s) (d_u s) (d_h s) (d_s s) (d_cv s) (d_cp s) (d_w s) (d_g s) (d_jt s) (d_kappa s) (d_x s) (d_xold s) (d_told s) (d_ki25 s) (d_ei25 s) (d_bsnij2 s) (d_bs s) (d_kij5 s) (d_uij5 s) (d_gij5 s) (d_k3 s) (d_csn s) (d_a0 s) (d_ar s) (d_tun s) (d_n0i s).
Definition set_d_z (v : F) (s : Detail) : Detail :=
  mkDetail (d_dp_dd_save s) (d_t s) (d_p s) (d_d s) v (d_mm s) (d_dp_dd s) (d_d2p_dd2 s) (d_d2p_dtd s) (d_dp_dt s) (d_u s) (d_h s) (d_s s) (d_cv s) (d_cp s) (d_w s) (d_g s) (d_jt s) (d_kappa s) (d_x s) (d_xold s) (d_told s) (d_ki25 s) (d_ei25 s) (d_bsnij2 s) (d_bs s) (d_kij5 s) (d_uij5 s) (d_gij5 s) (d_k3 s) (d_csn s) (d_a0 s) (d_ar s) (d_tun s) (d_n0i s).
Definition set_d_mm (v : F) (s : Detail) : Detail :=
  mkDetail (d_dp_dd_save s) (d_t s) (d_p s) (d_d s) (d_z s) v (d_dp_dd s) (d_d2p_dd2 s) (d_d2p_dtd s) (d_dp_dt s) (d_u s) (d_h s) (d_s s) (d_cv s) (d_cp s) (d_w s) (d_g s) (d_jt s) (d_kappa s) (d_x s) (d_xold s) (d_told s) (d_ki25 s) (d_ei25 s) (d_bsnij2 s) (d_bs s) (d_kij5 s) (d_uij5 s) (d_gij5 s) (d_k3 s) (d_csn s) (d_a0 s) (d_ar s) (d_tun s) (d_n0i s).
Definition set_d_dp_dd (v : F) (s : Detail) : Detail :=
  mkDetail (d_dp_dd_save s) (d_t s) (d_p s) (d_d s) (d_z s) (d_mm s) v (d_d2p_dd2 s) (d_d2p_dtd s) (d_dp_dt s) (d_u s) (d_h s) (d_s s) (d_cv s) (d_cp s) (d_w s) (d_g s) (d_jt s) (d_kappa s) (d_x s) (d_xold s) (d_told s) (d_ki25 s) (d_ei25 s) (d_bsnij2 s) (d_bs s) (d_kij5 s) (d_uij5 s) (d_gij5 s) (d_k3 s) (d_csn s) (d_a0 s) (d_ar s) (d_tun s) (d_n0i s).
Definition set_d_d2p_dd2 (v : F) (s : Detail) : Detail :=
  mkDetail (d_dp_dd_save s) (d_t s) (d_p s) (d_d s) (d_z s) (d_mm s) (d_dp_dd s) v (d_d2p_dtd s) (d_dp_dt s) (d_u s) (d_h s) (d_s s) (d_cv s) (d_cp s) (d_w s) (d_g s) (d_jt s) (d_kappa s) (d_x s) (d_xold s) (d_told s) (d_ki25 s) (d_ei25 s) (d_bsnij2 s) (d_bs s) (d_kij5 s) (d_uij5 s) (d_gij5 s) (d_k3 s) (d_csn s) (d_a0 s) (d_ar s) (d_tun s) (d_n0i s).
Definition set_d_d2p_dtd (v : F) (s : Detail) : Detail :=
  mkDetail (d_dp_dd_save s) (d_t s) (d_p s) (d_d s) (d_z s) (d_mm s) (d_dp_dd s) (d_d2p_dd2 s) v (d_dp_dt s) (d_u s) (d_h s) (d_s s) (d_cv s) (d_cp s) (d_w s) (d_g s) (d_jt s) (d_kappa s) (d_x s) (d_xold s) (d_told s) (d_ki25 s) (d_ei25 s) (d_bsnij2 s) (d_bs s) (d_kij5 s) (d_uij5 s) (d_gij5 s) (d_k3 s) (d_csn s) (d_a0 s) (d_ar s) (d_tun s) (d_n0i s).
Definition set_d_dp_dt (v : F) (s : Detail) : Detail :=
  mkDetail (d_dp_dd_save s) (d_t s) (d_p s) (d_d s) (d_z s) (d_mm s) (d_dp_dd s) (d_d2p_dd2 s) (d_d2p_dtd s) v (d_u s) (d_h s) (d_s s) (d_cv s) (d_cp s) (d_w s) (d_g s) (d_jt s) (d_kappa s) (d_x s) (d_xold s) (d_told s) (d_ki25 s) (d_ei25 s) (d_bsnij2 s) (d_bs s) (d_kij5 s) (d_uij5 s) (d_gij5 s) (d_k3 s) (d_csn s) (d_a0 s) (d_ar s) (d_tun s) (d_n0i s).
Definition set_d_u (v : F) (s : Detail) : Detail :=
  mkDetail (d_dp_dd_save s) (d_t s) (d_p s) (d_d s) (d_z s) (d_mm s) (d_dp_dd s) (d_d2p_dd2 s) (d_d2p_dtd s) (d_dp_dt s) v (d_h s) (d_s s) (d_cv s) (d_cp s) (d_w s) (d_g s) (d_jt s) (d_kappa s) (d_x s) (d_xold s) (d_told s) (d_ki25 s) (d_ei25 s) (d_bsnij2 s) (d_bs s) (d_kij5 s) (d_uij5 s) (d_gij5 s) (d_k3 s) (d_csn s) (d_a0 s) (d_ar s) (d_tun s) (d_n0i s).
Definition set_d_h (v : F) (s : Detail) : Detail :=
  mkDetail (d_dp_dd_save s) (d_t s) (d_p s) (d_d s) (d_z s) (d_mm s) (d_dp_dd s) (d_d2p_dd2 s) (d_d2p_dtd s) (d_dp_dt s) (d_u s) v (d_s s) (d_cv s) (d_cp s) (d_w s) (d_g s) (d_jt s) (d_kappa s) (d_x s) (d_xold s) (d_told s) (d_ki25 s) (d_ei25 s) (d_bsnij2 s) (d_bs s) (d_kij5 s) (d_uij5 s) (d_gij5 s) (d_k3 s) (d_csn s) (d_a0 s) (d_ar s) (d_tun s) (d_n0i s).
Definition set_d_s (v : F) (s : Detail) : Detail :=
  mkDetail (d_dp_dd_save s) (d_t s) (d_p s) (d_d s) (d_z s) (d_mm s) (d_dp_dd s) (d_d2p_dd2 s) (d_d2p_dtd s) (d_dp_dt s) (d_u s) (d_h s) v (d_cv s) (d_cp s) (d_w s) (d_g s) (d_jt s) (d_kappa s) (d_x s) (d_xold s) (d_told s) (d_ki25 s) (d_ei25 s) (d_bsnij2 s) (d_bs s) (d_kij5 s) (d_uij5 s) (d_gij5 s) (d_k3 s) (d_csn s) (d_a0 s) (d_ar s) (d_tun s) (d_n0i s).
Definition set_d_cv (v : F) (s : Detail) : Detail :=
  mkDetail (d_dp_dd_save s) (d_t s) (d_p s) (d_d s) (d_z s) (d_mm s) (d_dp_dd s) (d_d2p_dd2 s) (d_d2p_dtd s) (d_dp_dt s) (d_u s) (d_h s) (d_s s) v (d_cp s) (d_w s) (d_g s) (d_jt s) (d_kappa s) (d_x s) (d_xold s) (d_told s) (d_ki25 s) (d_ei25 s) (d_bsnij2 s) (d_bs s) (d_kij5 s) (d_uij5 s) (d_gij5 s) (d_k3 s) (d_csn s) (d_a0 s) (d_ar s) (d_tun s) (d_n0i s).
Definition set_d_cp (v : F) (s : Detail) : Detail :=
  mkDetail (d_dp_dd_save s) (d_t s) (d_p s) (d_d s) (d_z s) (d_mm s) (d_dp_dd s) (d_d2p_dd2 s) (d_d2p_dtd s) (d_dp_dt s) (d_u s) (d_h s) (d_s s) (d_cv s) v (d_w s) (d_g s) (d_jt s) (d_kappa s) (d_x s) (d_xold s) (d_told s) (d_ki25 s) (d_ei25 s) (d_bsnij2 s) (d_bs s) (d_kij5 s) (d_uij5 s) (d_gij5 s) (d_k3 s) (d_csn s) (d_a0 s) (d_ar s) (d_tun s) (d_n0i s).
Definition set_d_w (v : F) (s : Detail) : Detail :=
  mkDetail (d_dp_dd_save s) (d_t s) (d_p s) (d_d s) (d_z s) (d_mm s) (d_dp_dd s) (d_d2p_dd2 s) (d_d2p_dtd s) (d_dp_dt s) (d_u s) (d_h s) (d_s s) (d_cv s) (d_cp s) v (d_g s) (d_jt s) (d_kappa s) (d_x s) (d_xold s) (d_told s) (d_ki25 s) (d_ei25 s) (d_bsnij2 s) (d_bs s) (d_kij5 s) (d_uij5 s) (d_gij5 s) (d_k3 s) (d_csn s) (d_a0 s) (d_ar s) (d_tun s) (d_n0i s).
Definition set_d_g (v : F) (s : Detail) : Detail :=
  mkDetail (d_dp_dd_save s) (d_t s) (d_p s) (d_d s) (d_z s) (d_mm s) (d_dp_dd s) (d_d2p_dd2 s) (d_d2p_dtd s) (d_dp_dt s) (d_u s) (d_h s) (d_s s) (d_cv s) (d_cp s) (d_w s) v (d_jt s) (d_kappa s) (d_x s) (d_xold s) (d_told s) (d_ki25 s) (d_ei25 s) (d_bsnij2 s) (d_bs s) (d_kij5 s) (d_uij5 s) (d_gij5 s) (d_k3 s) (d_csn s) (d_a0 s) (d_ar s) (d_tun s) (d_n0i s).
Definition set_d_jt (v : F) (s : Detail) : Detail :=
  mkDetail (d_dp_dd_save s) (d_t s) (d_p s) (d_d s) (d_z s) (d_mm s) (d_dp_dd s) (d_d2p_dd2 s) (d_d2p_dtd s) (d_dp_dt s) (d_u s) (d_h s) (d_s s) (d_cv s) (d_cp s) (d_w s) (d_g s) v (d_kappa s) (d_x s) (d_xold s) (d_told s) (d_ki25 s) (d_ei25 s) (d_bsnij2 s) (d_bs s) (d_kij5 s) (d_uij5 s) (d_gij5 s) (d_k3 s) (d_csn s) (d_a0 s) (d_ar s) (d_tun s) (d_n0i s).
Definition set_d_kappa (v : F) (s : Detail) : Detail :=
  mkDetail (d_dp_dd_save s) (d_t s) (d_p s) (d_d s) (d_z s) (d_mm s) (d_dp_dd s) (d_d2p_dd2 s) (d_d2p_dtd s) (d_dp_dt s) (d_u s) (d_h s) (d_s s) (d_cv s) (d_cp s) (d_w s) (d_g s) (d_jt s) v (d_x s) (d_xold s) (d_told s) (d_ki25 s) (d_ei25 s) (d_bsnij2 s) (d_bs s) (d_kij5 s) (d_uij5 s) (d_gij5 s) (d_k3 s) (d_csn s) (d_a0 s) (d_ar s) (d_tun s) (d_n0i s).
Definition set_d_x (v : list F) (s : Detail) : Detail :=
  mkDetail (d_dp_dd_save s) (d_t s) (d_p s) (d_d s) (d_z s) (d_mm s) (d_dp_dd s) (d_d2p_dd2 s) (d_d2p_dtd s) (d_dp_dt s) (d_u s) (d_h s) (d_s s) (d_cv s) (d_cp s) (d_w s) (d_g s) (d_jt s) (d_kappa s) v (d_xold s) (d_told s) (d_ki25 s) (d_ei25 s) (d_bsnij2 s) (d_bs s) (d_kij5 s) (d_uij5 s) (d_gij5 s) (d_k3 s) (d_csn s) (d_a0 s) (d_ar s) (d_tun s) (d_n0i s).
Definition set_d_xold (v : list F) (s : Detail) : Detail :=
  mkDetail (d_dp_dd_save s) (d_t s) (d_p s) (d_d s) (d_z s) (d_mm s) (d_dp_dd s) (d_d2p_dd2 s) (d_d2p_dtd s) (d_dp_dt s) (d_u s) (d_h s) (d_s s) (d_cv s) (d_cp s) (d_w s) (d_g s) (d_jt s) (d_kappa s) (d_x s) v (d_told s) (d_ki25 s) (d_ei25 s) (d_bsnij2 s) (d_bs s) (d_kij5 s) (d_uij5 s) (d_gij5 s) (d_k3 s) (d_csn s) (d_a0 s) (d_ar s) (d_tun s) (d_n0i s).
Definition set_d_told (v : F) (s : Detail) : Detail :=
  mkDetail (d_dp_dd_save s) (d_t s) (d_p s) (d_d s) (d_z s) (d_mm s) (d_dp_dd s) (d_d2p_dd2 s) (d_d2p_dtd s) (d_dp_dt s) (d_u s) (d_h s) (d_s s) (d_cv s) (d_cp s) (d_w s) (d_g s) (d_jt s) (d_kappa s) (d_x s) (d_xold s) v (d_ki25 s) (d_ei25 s) (d_bsnij2 s) (d_bs s) (d_kij5 s) (d_uij5 s) (d_gij5 s) (d_k3 s) (d_csn s) (d_a0 s) (d_ar s) (d_tun s) (d_n0i s).
Definition set_d_ki25 (v : list F) (s : Detail) : Detail :=
  mkDetail (d_dp_dd_save s) (d_t s) (d_p s) (d_d s) (d_z s) (d_mm s) (d_dp_dd s) (d_d2p_dd2 s) (d_d2p_dtd s) (d_dp_dt s) (d_u s) (d_h s) (d_s s) (d_cv s) (d_cp s) (d_w s) (d_g s) (d_jt s) (d_kappa s) (d_x s) (d_xold s) (d_told s) v (d_ei25 s) (d_bsnij2 s) (d_bs s) (d_kij5 s) (d_uij5 s) (d_gij5 s) (d_k3 s) (d_csn s) (d_a0 s) (d_ar s) (d_tun s) (d_n0i s).
Definition set_d_ei25 (v : list F) (s : Detail) : Detail :=
  mkDetail (d_dp_dd_save s) (d_t s) (d_p s) (d_d s) (d_z s) (d_mm s) (d_dp_dd s) (d_d2p_dd2 s) (d_d2p_dtd s) (d_dp_dt s) (d_u s) (d_h s) (d_s s) (d_cv s) (d_cp s) (d_w s) (d_g s) (d_jt s) (d_kappa s) (d_x s) (d_xold s) (d_told s) (d_ki25 s) v (d_bsnij2 s) (d_bs s) (d_kij5 s) (d_uij5 s) (d_gij5 s) (d_k3 s) (d_csn s) (d_a0 s) (d_ar s) (d_tun s) (d_n0i s).
Definition set_d_bsnij2 (v : list (list (list F))) (s : Detail) : Detail :=
  mkDetail (d_dp_dd_save s) (d_t s) (d_p s) (d_d s) (d_z s) (d_mm s) (d_dp_dd s) (d_d2p_dd2 s) (d_d2p_dtd s) (d_dp_dt s) (d_u s) (d_h s) (d_s s) (d_cv s) (d_cp s) (d_w s) (d_g s) (d_jt s) (d_kappa s) (d_x s) (d_xold s) (d_told s) (d_ki25 s) (d_ei25 s) v (d_bs s) (d_kij5 s) (d_uij5 s) (d_gij5 s) (d_k3 s) (d_csn s) (d_a0 s) (d_ar s) (d_tun s) (d_n0i s).
Definition set_d_bs (v : list F) (s : Detail) : Detail :=
  mkDetail (d_dp_dd_save s) (d_t s) (d_p s) (d_d s) (d_z s) (d_mm s) (d_dp_dd s) (d_d2p_dd2 s) (d_d2p_dtd s) (d_dp_dt s) (d_u s) (d_h s) (d_s s) (d_cv s) (d_cp s) (d_w s) (d_g s) (d_jt s) (d_kappa s) (d_x s) (d_xold s) (d_told s) (d_ki25 s) (d_ei25 s) (d_bsnij2 s) v (d_kij5 s) (d_uij5 s) (d_gij5 s) (d_k3 s) (d_csn s) (d_a0 s) (d_ar s) (d_tun s) (d_n0i s).
Definition set_d_kij5 (v : list (list F)) (s : Detail) : Detail :=
  mkDetail (d_dp_dd_save s) (d_t s) (d_p s) (d_d s) (d_z s) (d_mm s) (d_dp_dd s) (d_d2p_dd2 s) (d_d2p_dtd s) (d_dp_dt s) (d_u s) (d_h s) (d_s s) (d_cv s) (d_cp s) (d_w s) (d_g s) (d_jt s) (d_kappa s) (d_x s) (d_xold s) (d_told s) (d_ki25 s) (d_ei25 s) (d_bsnij2 s) (d_bs s) v (d_uij5 s) (d_gij5 s) (d_k3 s) (d_csn s) (d_a0 s) (d_ar s) (d_tun s) (d_n0i s).
Definition set_d_uij5 (v : list (list F)) (s : Detail) : Detail :=
  mkDetail (d_dp_dd_save s) (d_t s) (d_p s) (d_d s) (d_z s) (d_mm s) (d_dp_dd s) (d_d2p_dd2 s) (d_d2p_dtd s) (d_dp_dt s) (d_u s) (d_h s) (d_s s) (d_cv s) (d_cp s) (d_w s) (d_g s) (d_jt s) (d_kappa s) (d_x s) (d_xold s) (d_told s) (d_ki25 s) (d_ei25 s) (d_bsnij2 s) (d_bs s) (d_kij5 s) v (d_gij5 s) (d_k3 s) (d_csn s) (d_a0 s) (d_ar s) (d_tun s) (d_n0i s).
Definition set_d_gij5 (v : list (list F)) (s : Detail) : Detail :=
  mkDetail (d_dp_dd_save s) (d_t s) (d_p s) (d_d s) (d_z s) (d_mm s) (d_dp_dd s) (d_d2p_dd2 s) (d_d2p_dtd s) (d_dp_dt s) (d_u s) (d_h s) (d_s s) (d_cv s) (d_cp s) (d_w s) (d_g s) (d_jt s) (d_kappa s) (d_x s) (d_xold s) (d_told s) (d_ki25 s) (d_ei25 s) (d_bsnij2 s) (d_bs s) (d_kij5 s) (d_uij5 s) v (d_k3 s) (d_csn s) (d_a0 s) (d_ar s) (d_tun s) (d_n0i s).
Definition set_d_k3 (v : F) (s : Detail) : Detail :=
  mkDetail (d_dp_dd_save s) (d_t s) (d_p s) (d_d s) (d_z s) (d_mm s) (d_dp_dd s) (d_d2p_dd2 s) (d_d2p_dtd s) (d_dp_dt s) (d_u s) (d_h s) (d_s s) (d_cv s) (d_cp s) (d_w s) (d_g s) (d_jt s) (d_kappa s) (d_x s) (d_xold s) (d_told s) (d_ki25 s) (d_ei25 s) (d_bsnij2 s) (d_bs s) (d_kij5 s) (d_uij5 s) (d_gij5 s) v (d_csn s) (d_a0 s) (d_ar s) (d_tun s) (d_n0i s).
Definition set_d_csn (v : list F) (s : Detail) : Detail :=
  mkDetail (d_dp_dd_save s) (d_t s) (d_p s) (d_d s) (d_z s) (d_mm s) (d_dp_dd s) (d_d2p_dd2 s) (d_d2p_dtd s) (d_dp_dt s) (d_u s) (d_h s) (d_s s) (d_cv s) (d_cp s) (d_w s) (d_g s) (d_jt s) (d_kappa s) (d_x s) (d_xold s) (d_told s) (d_ki25 s) (d_ei25 s) (d_bsnij2 s) (d_bs s) (d_kij5 s) (d_uij5 s) (d_gij5 s) (d_k3 s) v (d_a0 s) (d_ar s) (d_tun s) (d_n0i s).
Definition set_d_a0 (v : list F) (s : Detail) : Detail :=
  mkDetail (d_dp_dd_save s) (d_t s) (d_p s) (d_d s) (d_z s) (d_mm s) (d_dp_dd s) (d_d2p_dd2 s) (d_d2p_dtd s) (d_dp_dt s) (d_u s) (d_h s) (d_s s) (d_cv s) (d_cp s) (d_w s) (d_g s) (d_jt s) (d_kappa s) (d_x s) (d_xold s) (d_told s) (d_ki25 s) (d_ei25 s) (d_bsnij2 s) (d_bs s) (d_kij5 s) (d_uij5 s) (d_gij5 s) (d_k3 s) (d_csn s) v (d_ar s) (d_tun s) (d_n0i s).
Definition set_d_ar (v : list (list F)) (s : Detail) : Detail :=
  mkDetail (d_dp_dd_save s) (d_t s) (d_p s) (d_d s) (d_z s) (d_mm s) (d_dp_dd s) (d_d2p_dd2 s) (d_d2p_dtd s) (d_dp_dt s) (d_u s) (d_h s) (d_s s) (d_cv s) (d_cp s) (d_w s) (d_g s) (d_jt s) (d_kappa s) (d_x s) (d_xold s) (d_told s) (d_ki25 s) (d_ei25 s) (d_bsnij2 s) (d_bs s) (d_kij5 s) (d_uij5 s) (d_gij5 s) (d_k3 s) (d_csn s) (d_a0 s) v (d_tun s) (d_n0i s).
Definition set_d_tun (v : list F) (s : Detail) : Detail :=
  mkDetail (d_dp_dd_save s) (d_t s) (d_p s) (d_d s) (d_z s) (d_mm s) (d_dp_dd s) (d_d2p_dd2 s) (d_d2p_dtd s) (d_dp_dt s) (d_u s) (d_h s) (d_s s) (d_cv s) (d_cp s) (d_w s) (d_g s) (d_jt s) (d_kappa s) (d_x s) (d_xold s) (d_told s) (d_ki25 s) (d_ei25 s) (d_bsnij2 s) (d_bs s) (d_kij5 s) (d_uij5 s) (d_gij5 s) (d_k3 s) (d_csn s) (d_a0 s) (d_ar s) v (d_n0i s).
Definition set_d_n0i (v : list (list F)) (s : Detail) : Detail :=
  mkDetail (d_dp_dd_save s) (d_t s) (d_p s) (d_d s) (d_z s) (d_mm s) (d_dp_dd s) (d_d2p_dd2 s) (d_d2p_dtd s) (d_dp_dt s) (d_u s) (d_h s) (d_s s) (d_cv s) (d_cp s) (d_w s) (d_g s) (d_jt s) (d_kappa s) (d_x s) (d_xold s) (d_told s) (d_ki25 s) (d_ei25 s) (d_bsnij2 s) (d_bs s) (d_kij5 s) (d_uij5 s) (d_gij5 s) (d_k3 s) (d_csn s) (d_a0 s) (d_ar s) (d_tun s) v.
End Setters.

Section Model.
Context {A : Arith}.
Local Open Scope bool_scope.
Local Open Scope F_scope.

(* src/detail.rs:6-8 *)
Definition NC := 21%nat.
Definition MAXFLDS := 21%nat.
Definition NTERMS := 58%nat.
(* src/detail.rs:9 *)
Definition EPSILON : F := flit (L 1 (-15)).
(* src/detail.rs:10 *)
Definition RDETAIL : F := flit (L 831451 (-5)).

(* TABLE[i] and TABLE[i][j] for the f64 constant tables of src/detail.rs:13-607 (the literals are
   in DetailTables.v; a literal denotes its rounded f64 value). *)
Definition lget (t : list lit) (i : nat) : option F := l <- get t i ;; Some (flit l).
Definition lget2 (t : list (list lit)) (i j : nat) : option F :=
  l <- get2 t i j ;; Some (flit l).

(* src/detail.rs:723-763  Default for Detail *)
Definition detail_default : Detail :=
  mkDetail f0 f0 f0 f0 f0 f0 f0 f0 f0 f0 f0 f0 f0 f0 f0 f0 f0 f0 f0
    (repeat f0 NC) (repeat f0 MAXFLDS) f0 (repeat f0 MAXFLDS) (repeat f0 MAXFLDS)
    (repeat (repeat (repeat f0 18) MAXFLDS) MAXFLDS) (repeat f0 18)
    (repeat (repeat f0 MAXFLDS) MAXFLDS) (repeat (repeat f0 MAXFLDS) MAXFLDS)
    (repeat (repeat f0 MAXFLDS) MAXFLDS) f0 (repeat f0 NTERMS) (repeat f0 3)
    (repeat (repeat f0 4) 4) (repeat f0 NTERMS) (repeat (repeat f0 7) MAXFLDS).

(* src/detail.rs:775-778  first loop of setup *)
Definition setup_pow (s : Detail) : option Detail :=
  for_ 0 MAXFLDS (fun i s =>
    k <- lget D_KI i ;; ki25 <- upd (d_ki25 s) i (fpowf k (flit (L 25 (-1)))) ;;
    e <- lget D_EI i ;; ei25 <- upd (d_ei25 s) i (fpowf e (flit (L 25 (-1)))) ;;
    Some (set_d_ei25 ei25 (set_d_ki25 ki25 s))) s.

(* a run of constant assignments arr[i][j] = c *)
Definition assign2 (l : list ((nat * nat) * lit)) (a : list (list F)) : option (list (list F)) :=
  fold_left (fun o e => a <- o ;; upd2 a (fst (fst e)) (snd (fst e)) (flit (snd e))) l (Some a).

(* src/detail.rs:933-948  the local bsnij of setup for one (i, j, n) *)
Definition setup_bsnij (i j n : nat) : option F :=
  let b := f1 in
  gn <- get D_GN n ;; gij <- lget2 D_GIJ i j ;; gi <- lget D_GI i ;; gj <- lget D_GI j ;;
  let b := if Nat.eqb gn 1 then gij * (gi + gj) / f2 else b in
  qn <- get D_QN n ;; qi <- lget D_QI i ;; qj <- lget D_QI j ;;
  let b := if Nat.eqb qn 1 then b * qi * qj else b in
  fn <- get D_FN n ;; fi <- lget D_FI i ;; fj <- lget D_FI j ;;
  let b := if Nat.eqb fn 1 then b * fi * fj else b in
  sn <- get D_SN n ;; si <- lget D_SI i ;; sj <- lget D_SI j ;;
  let b := if Nat.eqb sn 1 then b * si * sj else b in
  wn <- get D_WN n ;; wi <- lget D_WI i ;; wj <- lget D_WI j ;;
  let b := if Nat.eqb wn 1 then b * wi * wj else b in
  Some b.

(* src/detail.rs:949-952  bsnij2[i][j][n] for one (i, j, n) *)
Definition setup_bsnij2 (i j n : nat) : option F :=
  b <- setup_bsnij i j n ;;
  an <- lget D_AN n ;; eij <- lget2 D_EIJ i j ;; ei <- lget D_EI i ;; ej <- lget D_EI j ;;
  un <- lget D_UN n ;; ki <- lget D_KI i ;; kj <- lget D_KI j ;;
  Some (an * fpowf (eij * fsqrt (ei * ej)) un * fpowf (ki * kj) (flit (L 15 (-1))) * b).

(* src/detail.rs:954-956  binary pair terms for one (i, j) *)
Definition setup_pair (i j : nat) (s : Detail) : option Detail :=
  ki <- get (d_ki25 s) i ;; kj <- get (d_ki25 s) j ;;
  ei <- get (d_ei25 s) i ;; ej <- get (d_ei25 s) j ;;
  kij <- lget2 D_KIJ i j ;; uij <- lget2 D_UIJ i j ;; gij <- lget2 D_GIJ i j ;;
  gi <- lget D_GI i ;; gj <- lget D_GI j ;;
  kij5 <- upd2 (d_kij5 s) i j ((fpowi kij 5 - f1) * ki * kj) ;;
  uij5 <- upd2 (d_uij5 s) i j ((fpowi uij 5 - f1) * ei * ej) ;;
  gij5 <- upd2 (d_gij5 s) i j ((gij - f1) * (gi + gj) / f2) ;;
  Some (set_d_gij5 gij5 (set_d_uij5 uij5 (set_d_kij5 kij5 s))).

(* src/detail.rs:930-958  second loop nest of setup *)
Definition setup_pairs (s : Detail) : option Detail :=
  for_ 0 MAXFLDS (fun i s =>
    for_ 0 MAXFLDS (fun j s =>
      b <- for_ 0 18 (fun n b => v <- setup_bsnij2 i j n ;; upd3 b i j n v) (d_bsnij2 s) ;;
      setup_pair i j (set_d_bsnij2 b s)) s) s.

(* src/detail.rs:961 *)
Definition D0 : F := flit (L 101325 (-3)) / RDETAIL / flit (L 29815 (-2)).

(* src/detail.rs:963-966  ideal gas terms *)
Definition setup_n0i (n0i : list (list F)) : option (list (list F)) :=
  for_ 0 MAXFLDS (fun i n0i =>
    v <- get2 n0i i 2 ;; n0i <- upd2 n0i i 2 (v - f1) ;;
    v <- get2 n0i i 0 ;; upd2 n0i i 0 (v - fln D0)) n0i.

(* src/detail.rs:774-967  Detail::setup *)
Definition setup (s : Detail) : option Detail :=
  s <- setup_pow s ;;
  n0i <- assign2 D_setup_n0i (d_n0i s) ;;
  s <- setup_pairs (set_d_n0i n0i s) ;;
  n0i <- setup_n0i (d_n0i s) ;;
  Some (set_d_n0i n0i s).

(* src/detail.rs:767-771  Detail::new *)
Definition detail_new : option Detail := setup detail_default.

(* The 21 fractions of a composition in the order of src/detail.rs:973-993. *)
Definition comp_slots (c : Composition) : list F :=
  [methane c; nitrogen c; carbon_dioxide c; ethane c; propane c; isobutane c; n_butane c;
   isopentane c; n_pentane c; hexane c; heptane c; octane c; nonane c; decane c; hydrogen c;
   oxygen c; carbon_monoxide c; water c; hydrogen_sulfide c; helium c; argon c].

(* src/detail.rs:970-996  Detail::set_composition (the 21 slot assignments in source order) *)
Definition set_composition (c : Composition) (s : Detail)
  : option (Detail * result CompositionError) :=
  match comp_check c with
  | RErr e => Some (s, RErr e)
  | ROk =>
    x <- upd (d_x s) 0 (methane c) ;; x <- upd x 1 (nitrogen c) ;;
    x <- upd x 2 (carbon_dioxide c) ;; x <- upd x 3 (ethane c) ;; x <- upd x 4 (propane c) ;;
    x <- upd x 5 (isobutane c) ;; x <- upd x 6 (n_butane c) ;; x <- upd x 7 (isopentane c) ;;
    x <- upd x 8 (n_pentane c) ;; x <- upd x 9 (hexane c) ;; x <- upd x 10 (heptane c) ;;
    x <- upd x 11 (octane c) ;; x <- upd x 12 (nonane c) ;; x <- upd x 13 (decane c) ;;
    x <- upd x 14 (hydrogen c) ;; x <- upd x 15 (oxygen c) ;;
    x <- upd x 16 (carbon_monoxide c) ;; x <- upd x 17 (water c) ;;
    x <- upd x 18 (hydrogen_sulfide c) ;; x <- upd x 19 (helium c) ;; x <- upd x 20 (argon c) ;;
    Some (set_d_x x s, ROk)
  end.

(* src/detail.rs:1002-1009  Detail::molar_mass *)
Definition molar_mass (s : Detail) : option (Detail * F) :=
  mm <- for_ 0 (length D_MMI) (fun i mm =>
          item <- lget D_MMI i ;; xi <- get (d_x s) i ;; Some (mm + xi * item)) f0 ;;
  Some (set_d_mm mm s, mm).

(* src/detail.rs:1019-1024  change detection of x_terms: (icheck, new xold) *)
Definition x_changed (x xold : list F) : option (bool * list F) :=
  for_ 0 (length x) (fun i st =>
    let '(icheck, xold) := st in
    xi <- get x i ;; xo <- get xold i ;;
    let icheck := if fabs (xi - xo) >? flit (L 1 (-7)) then true else icheck in
    xold <- upd xold i xi ;; Some (icheck, xold)) (false, xold).

(* The accumulators k3, u, g, q, f, bs of x_terms.  (In the code k3 and bs are fields of self;
   they are written back by x_terms below.) *)
Record Acc := mkAcc { ac_k3 : F; ac_u : F; ac_g : F; ac_q : F; ac_f : F; ac_bs : list F }.

(* src/detail.rs:1039-1052  pure fluid contributions *)
Definition x_pure (s : Detail) (a : Acc) : option Acc :=
  for_ 0 (length (d_x s)) (fun i a =>
    x <- get (d_x s) i ;;
    if x >? f0 then
      let xi2 := fpowi x 2 in
      ki <- get (d_ki25 s) i ;; ei <- get (d_ei25 s) i ;;
      gi <- lget D_GI i ;; qi <- lget D_QI i ;; fi <- lget D_FI i ;;
      bs <- for_ 0 18 (fun n bs =>
              b <- get bs n ;; c <- get3 (d_bsnij2 s) i i n ;; upd bs n (b + xi2 * c))
            (ac_bs a) ;;
      Some (mkAcc (ac_k3 a + x * ki) (ac_u a + x * ei) (ac_g a + x * gi) (ac_q a + x * qi)
                  (ac_f a + xi2 * fi) bs)
    else Some a) a.

(* src/detail.rs:1057-1072  binary pair contributions *)
Definition x_pairs (s : Detail) (a : Acc) : option Acc :=
  for_ 0 (length (d_x s)) (fun i a =>
    xi <- get (d_x s) i ;;
    if xi >? f0 then
      for_ (S i) (length (d_x s)) (fun j a =>
        xj <- get (d_x s) j ;;
        if xj >? f0 then
          let xij := f2 * xi * xj in
          kij <- get2 (d_kij5 s) i j ;; uij <- get2 (d_uij5 s) i j ;;
          gij <- get2 (d_gij5 s) i j ;;
          bs <- for_ 0 18 (fun n bs =>
                  b <- get bs n ;; c <- get3 (d_bsnij2 s) i j n ;; upd bs n (b + xij * c))
                (ac_bs a) ;;
          Some (mkAcc (ac_k3 a + xij * kij) (ac_u a + xij * uij) (ac_g a + xij * gij)
                      (ac_q a) (ac_f a) bs)
        else Some a) a
    else Some a) a.

(* src/detail.rs:1077-1089  third virial and higher coefficients *)
Definition x_csn (u g q f : F) (csn : list F) : option (list F) :=
  let q2 := fpowi q 2 in
  for_ 12 58 (fun n csn =>
    an <- lget D_AN n ;; un <- lget D_UN n ;;
    csn <- upd csn n (an * fpowf u un) ;;
    gn <- get D_GN n ;;
    csn <- (if Nat.eqb gn 1 then v <- get csn n ;; upd csn n (v * g) else Some csn) ;;
    qn <- get D_QN n ;;
    csn <- (if Nat.eqb qn 1 then v <- get csn n ;; upd csn n (v * q2) else Some csn) ;;
    fn <- get D_FN n ;;
    (if Nat.eqb fn 1 then v <- get csn n ;; upd csn n (v * f) else Some csn)) csn.

(* src/detail.rs:1029-1089  the recomputation part of x_terms *)
Definition x_recompute (s : Detail) : option Detail :=
  bs <- for_ 0 18 (fun n bs => upd bs n f0) (d_bs s) ;;
  a <- x_pure s (mkAcc f0 f0 f0 f0 f0 bs) ;;
  a <- x_pairs s (mkAcc (fpowi (ac_k3 a) 2) (fpowi (ac_u a) 2) (ac_g a) (ac_q a) (ac_f a)
                        (ac_bs a)) ;;
  let k3 := fpowf (ac_k3 a) (flit (L 6 (-1))) in
  let u := fpowf (ac_u a) (flit (L 2 (-1))) in
  csn <- x_csn u (ac_g a) (ac_q a) (ac_f a) (d_csn s) ;;
  Some (set_d_csn csn (set_d_bs (ac_bs a) (set_d_k3 k3 s))).

(* src/detail.rs:1012-1090  Detail::x_terms *)
Definition x_terms (s : Detail) : option Detail :=
  '(icheck, xold) <- x_changed (d_x s) (d_xold s) ;;
  let s := set_d_xold xold s in
  if icheck : bool then x_recompute s else Some s.

(* src/detail.rs:1136-1156  the inner j loop of alpha0_detail: (sumhyp0, sumhyp1, sumhyp2) *)
Definition alpha0_hyp (s : Detail) (i : nat) : option (F * F * F) :=
  for_ 3 7 (fun j st =>
    let '(h0, h1, h2) := st in
    th <- lget2 D_TH0I i j ;;
    if th >? f0 then
      let th0t := th / d_t s in
      let ep := fexp th0t in
      let em := f1 / ep in
      let hsn := (ep - em) / f2 in
      let hcn := (ep + em) / f2 in
      n <- get2 (d_n0i s) i j ;;
      if (Nat.eqb j 3 || Nat.eqb j 5)%bool then
        let loghyp := fln (fabs hsn) in
        Some (h0 + n * loghyp, h1 + n * (loghyp - th0t * hcn / hsn),
              h2 + n * fpowi (th0t / hsn) 2)
      else
        let loghyp := fln (fabs hcn) in
        Some (h0 + (- n) * loghyp, h1 + (- n) * (loghyp - th0t * hsn / hcn),
              h2 + n * fpowi (th0t / hcn) 2)
    else Some st) (f0, f0, f0).

(* src/detail.rs:1092-1168  Detail::alpha0_detail (a0 is accumulated in three locals and
   written back at the end; the code accumulates in self.a0) *)
Definition alpha0_detail (s : Detail) : option Detail :=
  let logd := if d_d s >? EPSILON then fln (d_d s) else fln EPSILON in
  let logt := fln (d_t s) in
  '(a0, a1, a2) <- for_ 0 (length (d_x s)) (fun i st =>
    let '(a0, a1, a2) := st in
    x <- get (d_x s) i ;;
    if x >? f0 then
      let logxd := logd + fln x in
      '(h0, h1, h2) <- alpha0_hyp s i ;;
      n0 <- get2 (d_n0i s) i 0 ;; n1 <- get2 (d_n0i s) i 1 ;; n2 <- get2 (d_n0i s) i 2 ;;
      Some (a0 + x * (logxd + n0 + n1 / d_t s - n2 * logt + h0),
            a1 + x * (logxd + n0 - n2 * (f1 + logt) + h1),
            a2 + (- x) * (n2 + h2))
    else Some st) (f0, f0, f0) ;;
  l <- upd (d_a0 s) 0 (a0 * RDETAIL * d_t s) ;;
  l <- upd l 1 (a1 * RDETAIL) ;;
  l <- upd l 2 (a2 * RDETAIL) ;;
  Some (set_d_a0 l s).

(* src/detail.rs:1217-1222  temperature powers, cached on told *)
Definition alphar_tun (s : Detail) : option Detail :=
  tun <- (if fabs (d_t s - d_told s) >? flit (L 1 (-7)) then
            for_ 0 (length D_UN) (fun i tun =>
              u <- lget D_UN i ;; upd tun i (fpowf (d_t s) (- u))) (d_tun s)
          else Some (d_tun s)) ;;
  Some (set_d_told (d_t s) (set_d_tun tun s)).

(* src/detail.rs:1226-1230  dknn *)
Definition alphar_dknn (dred : F) : option (list F) :=
  l <- upd (repeat f0 10) 0 f1 ;;
  for_ 1 10 (fun n l => v <- get l (n - 1) ;; upd l n (dred * v)) l.

(* src/detail.rs:1231-1235  expn *)
Definition alphar_expn (dknn : list F) : option (list F) :=
  l <- upd (repeat f0 5) 0 f1 ;;
  for_ 1 5 (fun n l => v <- get dknn n ;; upd l n (fexp (- v))) l.

(* The seven per-term arrays of alphar. *)
Record Terms := mkTerms {
  tm_sum0 : list F; tm_sumb : list F; tm_coefd1 : list F; tm_coefd2 : list F;
  tm_coefd3 : list F; tm_coeft1 : list F; tm_coeft2 : list F }.

(* src/detail.rs:1200-1210 *)
Definition terms0 : Terms :=
  let z := repeat f0 NTERMS in mkTerms z z z z z z z.

(* src/detail.rs:1238-1266  the term loop of alphar *)
Definition alphar_terms (s : Detail) (dred : F) (dknn expn : list F) : option Terms :=
  for_ 0 58 (fun n a =>
    un <- lget D_UN n ;;
    ct1 <- upd (tm_coeft1 a) n (RDETAIL * (un - f1)) ;;
    c1 <- get ct1 n ;;
    ct2 <- upd (tm_coeft2 a) n (c1 * un) ;;
    sumb <- upd (tm_sumb a) n f0 ;;
    sum0 <- upd (tm_sum0 a) n f0 ;;
    sumb <- (if Nat.leb n 17 then
               b <- get (d_bs s) n ;;
               let sum := b * d_d s in
               sum <- (if Nat.leb 12 n then
                         c <- get (d_csn s) n ;; Some (sum + (- c) * dred)
                       else Some sum) ;;
               tun <- get (d_tun s) n ;;
               upd sumb n (sum * tun)
             else Some sumb) ;;
    if Nat.leb 12 n then
      bn <- get D_BN n ;; kn <- get D_KN n ;;
      csn <- get (d_csn s) n ;; dkb <- get dknn bn ;; tun <- get (d_tun s) n ;;
      ek <- get expn kn ;;
      sum0 <- upd sum0 n (csn * dkb * tun * ek) ;;
      dkk <- get dknn kn ;;
      let bkd := fofnat bn - fofnat kn * dkk in
      let ckd := fofnat kn * fofnat kn * dkk in
      cd1 <- upd (tm_coefd1 a) n bkd ;;
      cd2 <- upd (tm_coefd2 a) n (bkd * (bkd - f1) - ckd) ;;
      c2 <- get cd2 n ;;
      cd3 <- upd (tm_coefd3 a) n
               ((bkd - f2) * c2 + ckd * (f1 - fofnat kn - f2 * bkd)) ;;
      Some (mkTerms sum0 sumb cd1 cd2 cd3 ct1 ct2)
    else
      cd1 <- upd (tm_coefd1 a) n f0 ;;
      cd2 <- upd (tm_coefd2 a) n f0 ;;
      cd3 <- upd (tm_coefd3 a) n f0 ;;
      Some (mkTerms sum0 sumb cd1 cd2 cd3 ct1 ct2)) terms0.

(* self.ar[i][j] += v  /  -= v *)
Definition ar_add (ar : list (list F)) (i j : nat) (v : F) : option (list (list F)) :=
  o <- get2 ar i j ;; upd2 ar i j (o + v).
Definition ar_sub (ar : list (list F)) (i j : nat) (v : F) : option (list (list F)) :=
  o <- get2 ar i j ;; upd2 ar i j (o - v).

(* src/detail.rs:1268-1290  the summation loop of alphar *)
Definition alphar_sums (itau : Z) (rt : F) (a : Terms) (ar : list (list F))
  : option (list (list F)) :=
  for_ 0 58 (fun n ar =>
    sum0 <- get (tm_sum0 a) n ;; sumb <- get (tm_sumb a) n ;;
    cd1 <- get (tm_coefd1 a) n ;; cd2 <- get (tm_coefd2 a) n ;; cd3 <- get (tm_coefd3 a) n ;;
    let s0 := sum0 + sumb in
    let s1 := sum0 * cd1 + sumb in
    let s2 := sum0 * cd2 in
    let s3 := sum0 * cd3 in
    ar <- ar_add ar 0 0 (rt * s0) ;;
    ar <- ar_add ar 0 1 (rt * s1) ;;
    ar <- ar_add ar 0 2 (rt * s2) ;;
    ar <- ar_add ar 0 3 (rt * s3) ;;
    if (0 <? itau)%Z then
      ct1 <- get (tm_coeft1 a) n ;; ct2 <- get (tm_coeft2 a) n ;;
      ar <- ar_sub ar 1 1 (ct1 * s1) ;;
      ar <- ar_sub ar 1 0 (ct1 * s0) ;;
      ar_add ar 2 0 (ct2 * s0)
    else Some ar) ar.

(* src/detail.rs:1212-1216 *)
Definition ar_zero (ar : list (list F)) : option (list (list F)) :=
  for_ 0 4 (fun i ar => for_ 0 4 (fun j ar => upd2 ar i j f0) ar) ar.

(* src/detail.rs:1170-1291  Detail::alphar (the unused parameter _idel is dropped) *)
Definition alphar (itau : Z) (s : Detail) : option Detail :=
  ar <- ar_zero (d_ar s) ;;
  s <- alphar_tun s ;;
  let dred := d_k3 s * d_d s in
  dknn <- alphar_dknn dred ;;
  expn <- alphar_expn dknn ;;
  let rt := RDETAIL * d_t s in
  tms <- alphar_terms s dred dknn expn ;;
  ar <- alphar_sums itau rt tms ar ;;
  Some (set_d_ar ar s).

(* src/detail.rs:1351-1358  Detail::pressure *)
Definition pressure (s : Detail) : option (Detail * F) :=
  s <- x_terms s ;;
  s <- alphar 0 s ;;
  ar01 <- get2 (d_ar s) 0 1 ;; ar02 <- get2 (d_ar s) 0 2 ;;
  let s := set_d_z (f1 + ar01 / RDETAIL / d_t s) s in
  let p := d_d s * RDETAIL * d_t s * d_z s in
  let s := set_d_dp_dd_save (RDETAIL * d_t s + f2 * ar01 + ar02) s in
  Some (s, p).

(* src/detail.rs:1311 *)
Definition TOLR : F := flit (L 1 (-7)).

(* src/detail.rs:1320  (-7.0..=100.0).contains(&vlog) *)
Definition vlog_ok (vlog : F) : bool :=
  (flit (L (-7) 0) <=? vlog) && (vlog <=? flit (L 100 0)).

(* src/detail.rs:1322, 1343  self.d = self.p / RDETAIL / self.t; Err(IterationFail) *)
Definition density_fail (s : Detail) : Detail * result DensityError :=
  (set_d_d (d_p s / RDETAIL / d_t s) s, RErr IterationFail).

(* src/detail.rs:1319-1344  the iteration of density with n iterations left *)
Fixpoint density_loop (n : nat) (plog vlog : F) (s : Detail)
  : option (Detail * result DensityError) :=
  match n with
  | O => Some (density_fail s)
  | S n' =>
    if negb (vlog_ok vlog) then Some (density_fail s)
    else
      let s := set_d_d (fexp (- vlog)) s in
      '(s, p2) <- pressure s ;;
      if (d_dp_dd_save s <? EPSILON) || (p2 <? EPSILON) then
        density_loop n' plog (vlog + flit (L 1 (-1))) s
      else
        let dpdlv := (- d_d s) * d_dp_dd_save s in
        let vdiff := (fln p2 - plog) * p2 / dpdlv in
        let vlog := vlog - vdiff in
        if fabs vdiff <? TOLR then Some (set_d_d (fexp (- vlog)) s, ROk)
        else density_loop n' plog vlog s
  end.

(* src/detail.rs:1312-1316  the starting density *)
Definition density_start (s : Detail) : Detail :=
  if d_d s >? - EPSILON then set_d_d (d_p s / RDETAIL / d_t s) s
  else set_d_d (fabs (d_d s)) s.

(* src/detail.rs:1302-1345  Detail::density *)
Definition density (s : Detail) : option (Detail * result DensityError) :=
  if fabs (d_p s) <? EPSILON then Some (set_d_d f0 s, RErr PressureTooLow)
  else
    let s := density_start s in
    let plog := fln (d_p s) in
    let vlog := - fln (d_d s) in
    density_loop 20 plog vlog s.

(* src/detail.rs:1378-1385  first block of properties; the arguments are the entries of
   self.ar and self.a0 read there *)
Definition props_first (ar00 ar01 ar02 ar10 ar11 ar20 a00 a01 a02 : F) (s : Detail) : Detail :=
  let rt := RDETAIL * d_t s in
  let s := set_d_z (f1 + ar01 / rt) s in
  let s := set_d_p (d_d s * rt * d_z s) s in
  let s := set_d_dp_dd (rt + f2 * ar01 + ar02) s in
  let s := set_d_dp_dt (d_d s * RDETAIL + d_d s * ar11) s in
  let s := set_d_s (- a01 - ar10) s in
  let s := set_d_u (a00 + ar00 + d_t s * d_s s) s in
  set_d_cv (- (a02 + ar20)) s.

(* src/detail.rs:1387-1391  d > EPSILON *)
Definition props_dense (a ar01 ar02 ar03 : F) (s : Detail) : Detail :=
  let s := set_d_h (d_u s + d_p s / d_d s) s in
  let s := set_d_g (a + d_p s / d_d s) s in
  let s := set_d_cp (d_cv s + d_t s * fpowi (d_dp_dt s / d_d s) 2 / d_dp_dd s) s in
  let s := set_d_d2p_dd2 ((f2 * ar01 + f4 * ar02 + ar03) / d_d s) s in
  set_d_jt ((d_t s / d_d s * d_dp_dt s / d_dp_dd s - f1) / d_cp s / d_d s) s.

(* src/detail.rs:1393-1397  otherwise *)
Definition props_dilute (a rt : F) (s : Detail) : Detail :=
  let s := set_d_h (d_u s + rt) s in
  let s := set_d_g (a + rt) s in
  let s := set_d_cp (d_cv s + RDETAIL) s in
  let s := set_d_d2p_dd2 f0 s in
  set_d_jt (flit (L 1 20)) s.

(* src/detail.rs:1399-1405 *)
Definition props_sound (mm rt : F) (s : Detail) : Detail :=
  let s := set_d_w (flit (L 1000 0) * d_cp s / d_cv s * d_dp_dd s / mm) s in
  let s := set_d_w (if d_w s <? f0 then f0 else d_w s) s in
  let s := set_d_w (fsqrt (d_w s)) s in
  let s := set_d_kappa (d_w s * d_w s * mm / (rt * flit (L 1000 0) * d_z s)) s in
  set_d_d2p_dtd f0 s.

(* src/detail.rs:1377-1405  the part of properties after alphar *)
Definition props_results (mm : F) (s : Detail) : option Detail :=
  ar00 <- get2 (d_ar s) 0 0 ;; ar01 <- get2 (d_ar s) 0 1 ;; ar02 <- get2 (d_ar s) 0 2 ;;
  ar03 <- get2 (d_ar s) 0 3 ;; ar10 <- get2 (d_ar s) 1 0 ;; ar11 <- get2 (d_ar s) 1 1 ;;
  ar20 <- get2 (d_ar s) 2 0 ;;
  a00 <- get (d_a0 s) 0 ;; a01 <- get (d_a0 s) 1 ;; a02 <- get (d_a0 s) 2 ;;
  let rt := RDETAIL * d_t s in
  let a := a00 + ar00 in
  let s := props_first ar00 ar01 ar02 ar10 ar11 ar20 a00 a01 a02 s in
  let s := if d_d s >? EPSILON then props_dense a ar01 ar02 ar03 s else props_dilute a rt s in
  Some (props_sound mm rt s).

(* src/detail.rs:1367-1406  Detail::properties *)
Definition properties (s : Detail) : option Detail :=
  '(s, mm) <- molar_mass s ;;
  s <- x_terms s ;;
  s <- alpha0_detail s ;;
  s <- alphar 2 s ;;
  props_results mm s.

End Model.
