(* What a user expects to read after the whole computation for a natural gas near base conditions. *)
From Coq Require Import Reals.
From Verif Require Import ArithB64 Api.
Local Open Scope R_scope.

(* G gas constant, T temperature, P pressure asked for; f the fields, p the pressure that properties() reports *)
Definition gas_state (G T P p : R) (f : pfield -> b64) : Prop :=
  let v k := bR (f k) in let d0 := P / G / T in
  (forall k, fin (f k)) /\ v PT = T /\
  Rabs (p - P) <= 2 / 10000000 * P /\                                (* the pressure asked for comes back *)
  Rabs (v PZ - 1) <= 4 / 100 /\ Rabs (v PD - d0) <= 5 / 100 * d0 /\  (* nearly an ideal gas *)
  Rabs (v PDpDd - G * T) <= 75 / 1000 * (G * T) /\ Rabs (v PDpDt - v PD * G) <= 143 / 1000 * (v PD * G) /\  (* mechanically stable *)
  5 / 2 * G <= v PCv <= 47 / 10 * G /\ 68 / 100 * G <= v PCp - v PCv <= 142 / 100 * G /\                   (* thermally stable *)
  143 / 10 <= v PMM <= 301 / 10 /\ 280 <= v PW <= 590 /\ 1 < v PKappa < 9 / 5.
