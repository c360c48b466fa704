(* What a user expects to read after the whole computation with GERG-2008 for a natural gas up to 1.0 MPa. *)
From Coq Require Import Reals.
From Verif Require Import ArithB64 Api.
Local Open Scope R_scope.

(* G gas constant, T temperature, P pressure asked for; f the fields, p the pressure that properties() returns *)
Definition medium_state_g (G T P p : R) (f : pfield -> b64) : Prop :=
  let v k := bR (f k) in let d0 := P / G / T in
  (forall k, fin (f k)) /\ v PT = T /\
  Rabs (p - P) <= 2 / 10000000 * P /\                                  (* the pressure asked for comes back *)
  86 / 100 <= v PZ <= 103 / 100 /\ 97 / 100 * d0 <= v PD <= 117 / 100 * d0 /\
  73 / 100 * (G * T) <= v PDpDd <= 106 / 100 * (G * T) /\              (* mechanically stable *)
  79 / 100 * (v PD * G) <= v PDpDt <= 137 / 100 * (v PD * G) /\        (* hotter gas at the same density: higher pressure *)
  77 / 100 * G <= v PCv <= 65 / 10 * G /\ v PCv + 58 / 100 * G <= v PCp <= v PCv + 258 / 100 * G /\   (* thermally stable *)
  143 / 10 <= v PMM <= 301 / 10 /\ 240 <= v PW <= 972 /\ 77 / 100 < v PKappa < 537 / 100.
