(** The wrappers Positive and NonNegative; a value of either type is its f64.
    Models src/positive.rs and src/non_negative.rs (`new` of both is in Num.v). *)
From Verif Require Import Base Num.
Local Open Scope num_scope.

Section Wrap.
Context {NM : Num}.
(** ** Positive *)
(** Models Positive::one (and Default), src/positive.rs:50-52,163-167. *)
Definition pos_one : T NM := n1.
(** Models Positive::sqrt, src/positive.rs:54-58. *)
Definition pos_sqrt (a : T NM) : T NM := nsqrt a.
(** Models Add and AddAssign for Positive, src/positive.rs:72-80,92-96. *)
Definition pos_add (a b : T NM) : T NM := a + b.
(** Models Add<NonNegative> and AddAssign<NonNegative> for Positive, src/positive.rs:82-90,98-102. *)
Definition pos_add_nn (a b : T NM) : T NM := a + b.
(** Models Mul and MulAssign for Positive, src/positive.rs:104-112,122-126. *)
Definition pos_mul (a b : T NM) : T NM := a * b.
(** Models Div for Positive, src/positive.rs:128-134. *)
Definition pos_div (a b : T NM) : res (T NM) := unwrap (nonneg_new (a / b)).
(** Models Div<NonNegative> for Positive, src/positive.rs:136-142. *)
Definition pos_div_nn (a b : T NM) : res (T NM) := unwrap (nonneg_new (a / b)).
(** ** NonNegative *)
(** Models NonNegative::zero (and Default), src/non_negative.rs:50-52,197-201. *)
Definition nn_zero : T NM := n0.
(** Models NonNegative::one, src/non_negative.rs:54-56. *)
Definition nn_one : T NM := n1.
(** Models NonNegative::sqrt, src/non_negative.rs:58-62. *)
Definition nn_sqrt (a : T NM) : T NM := nsqrt a.
(** Models From<Positive> for NonNegative, src/non_negative.rs:67-71. *)
Definition nn_from (a : T NM) : T NM := a.
(** Models Add and AddAssign for NonNegative, src/non_negative.rs:82-90,102-106. *)
Definition nn_add (a b : T NM) : T NM := a + b.
(** Models Add<Positive> and AddAssign<Positive> for NonNegative, src/non_negative.rs:92-100,108-112. *)
Definition nn_add_pos (a b : T NM) : T NM := a + b.
(** Models Mul and MulAssign for NonNegative, src/non_negative.rs:114-122,134-138. *)
Definition nn_mul (a b : T NM) : T NM := a * b.
(** Models Mul<Positive> and MulAssign<Positive> for NonNegative, src/non_negative.rs:124-132,140-144. *)
Definition nn_mul_pos (a b : T NM) : T NM := a * b.
(** Models Mul<NonNegative> for Positive, src/positive.rs:114-120. *)
Definition pos_mul_nn (a b : T NM) : T NM := nn_mul_pos b a.
(** Models Div and DivAssign for NonNegative, src/non_negative.rs:146-154,166-170. *)
Definition nn_div (a b : T NM) : T NM := a / b.
(** Models Div<Positive> and DivAssign<Positive> for NonNegative, src/non_negative.rs:156-164,172-176. *)
Definition nn_div_pos (a b : T NM) : T NM := a / b.
End Wrap.
