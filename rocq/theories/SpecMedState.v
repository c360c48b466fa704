(* What a user expects to read after the whole computation for a natural gas up to 1.2 MPa. *)
From Coq Require Import Reals.
From Verif Require Import ArithB64 Api.
Local Open Scope R_scope.

(* G gas constant, T temperature, P pressure asked for; f the fields, p the pressure that properties() reports *)
Definition medium_state (G T P p : R) (f : pfield -> b64) : Prop :=
  let v k := bR (f k) in let d0 := P / G / T in
  (forall k, fin (f k)) /\ v PT = T /\
  Rabs (p - P) <= 2 / 10000000 * P /\                                  (* the pressure asked for comes back *)
  90 / 100 <= v PZ <= 103 / 100 /\ 97 / 100 * d0 <= v PD <= 112 / 100 * d0 /\
  80 / 100 * (G * T) <= v PDpDd <= 105 / 100 * (G * T) /\              (* mechanically stable *)
  84 / 100 * (v PD * G) <= v PDpDt <= 126 / 100 * (v PD * G) /\        (* hotter gas at the same density: higher pressure *)
  12 / 10 * G <= v PCv <= 6 * G /\ v PCv + 67 / 100 * G <= v PCp <= v PCv + 199 / 100 * G /\   (* thermally stable *)
  143 / 10 <= v PMM <= 301 / 10 /\ 255 <= v PW <= 755 /\ 86 / 100 < v PKappa < 31 / 10.
