(** Activation functions, their derivatives and the loss functions:
    nntl/interface/math/mathn.h (scalar bodies of the kernels),
    nntl/activations/*.h (which kernels a class uses).
    real_t is modelled by the real numbers: rounding, overflow and NaN are not
    modelled; the integer template parameters give exact rationals. *)
From Coq Require Import Reals ZArith NArith.
From Verif Require Import Base Workers_Model Kern_Model Ew_Model.
Local Open Scope R_scope.

(** interface/math/_base.h:52-67 [log1p], [expm1] *)
Definition log1p (v : R) : R := ln (1 + v).
Definition expm1 (v : R) : R := exp v - 1.

(** ** Kernel bodies, mathn.h *)

(** 3070, 3105 *)
Definition k_sigm x := 1 / (1 + exp (- x)).
Definition k_dsigm f := f * (1 - f).
(** 3173, 3199 *)
Definition k_relu v := if Rle_dec v 0 then 0 else v.
Definition k_drelu v := if Rle_dec v 0 then 0 else 1.
(** 3228, 3253 *)
Definition k_leakyrelu leak v := if Rlt_dec v 0 then v * leak else v.
Definition k_dleakyrelu leak v := if Rle_dec v 0 then leak else 1.
(** 3283, 3309 *)
Definition k_elu alpha v := if Rlt_dec v 0 then expm1 v * alpha else v.
Definition k_delu alpha v := if Rlt_dec v 0 then v + alpha else 1.
(** 3338, 3363 *)
Definition k_elu_unitalpha v := if Rlt_dec v 0 then expm1 v else v.
Definition k_delu_unitalpha v := if Rlt_dec v 0 then v + 1 else 1.
(** 3388-3394, 3420-3427 *)
Definition k_elogu alpha b v :=
  let lbi := 1 / ln b in if Rlt_dec v 0 then expm1 v * alpha else log1p v * lbi.
Definition k_delogu alpha b v :=
  let lb := ln b in let nllb := - ln lb in let nlb := - lb in
  if Rlt_dec v 0 then v + alpha else exp (v * nlb + nllb).
(** 3452-3458, 3482-3489 *)
Definition k_elogu_ua b v :=
  let lbi := 1 / ln b in if Rlt_dec v 0 then expm1 v else log1p v * lbi.
Definition k_delogu_ua b v :=
  let lb := ln b in let nllb := - ln lb in let nlb := - lb in
  if Rlt_dec v 0 then v + 1 else exp (v * nlb + nllb).
(** 3518, 3546 *)
Definition k_elogu_nb alpha v := if Rlt_dec v 0 then expm1 v * alpha else log1p v.
Definition k_delogu_nb alpha v := if Rlt_dec v 0 then v + alpha else exp (- v).
(** 3573, 3598 *)
Definition k_elogu_ua_nb v := if Rlt_dec v 0 then expm1 v else log1p v.
Definition k_delogu_ua_nb v := if Rlt_dec v 0 then v + 1 else exp (- v).
(** 3623-3635, 3660-3667 *)
Definition k_loglogu bneg bpos v :=
  let lbposi := 1 / ln bpos in let nlbnegi := -1 / ln bneg in
  (if Rlt_dec v 0 then nlbnegi else lbposi) * log1p (Rabs v).
Definition k_dloglogu bneg bpos v :=
  let lbpos := ln bpos in let lbneg := ln bneg in
  let nllbpos := - ln lbpos in let nlbpos := - lbpos in let nllbneg := - ln lbneg in
  exp (if Rlt_dec v 0 then v * lbneg + nllbneg else v * nlbpos + nllbpos).
(** 3691-3701, 3724-3730 *)
Definition k_loglogu_nbn bpos v :=
  let lbposi := 1 / ln bpos in if Rlt_dec v 0 then - log1p (- v) else lbposi * log1p v.
Definition k_dloglogu_nbn bpos v :=
  let lbpos := ln bpos in let nllbpos := - ln lbpos in let nlbpos := - lbpos in
  exp (if Rlt_dec v 0 then v else v * nlbpos + nllbpos).
(** 3752-3762, 3785-3791 *)
Definition k_loglogu_nbp bneg v :=
  let nlbnegi := -1 / ln bneg in if Rlt_dec v 0 then nlbnegi * log1p (- v) else log1p v.
Definition k_dloglogu_nbp bneg v :=
  let lbneg := ln bneg in let nllbneg := - ln lbneg in
  exp (if Rlt_dec v 0 then v * lbneg + nllbneg else - v).
(** 3823, 3848 *)
Definition k_loglogu_nbn_nbp v := if Rlt_dec v 0 then - log1p (- v) else log1p v.
Definition k_dloglogu_nbn_nbp v := exp (if Rlt_dec v 0 then v else - v).
(** 3873-3878, 3901-3907 *)
Definition k_logu bpos v :=
  let lbposi := 1 / ln bpos in if Rle_dec v 0 then 0 else lbposi * log1p v.
Definition k_dlogu bpos v :=
  let lbpos := ln bpos in let nllbpos := - ln lbpos in let nlbpos := - lbpos in
  if Rle_dec v 0 then 0 else exp (v * nlbpos + nllbpos).
(** 3933, 3958 *)
Definition k_logu_nb v := if Rle_dec v 0 then 0 else log1p v.
Definition k_dlogu_nb v := if Rle_dec v 0 then 0 else exp (- v).
(** 3989, 4018, 4046, 4070-4077 *)
Definition k_softsign_uc a v := v / (a + Rabs v).
Definition k_softsign a c v := (c * v) / (a + Rabs v).
Definition k_dsoftsign_ua_uc v := let s := 1 - Rabs v in s * s.
Definition k_dsoftsign a c v := let mult := 1 / (c * a) in let s := c - Rabs v in mult * (s * s).
(** 4107, 4130-4137 *)
Definition k_softsigm a v := / 2 + / 2 * v / (a + Rabs v).
Definition k_dsoftsigm a v :=
  let dainv := 2 / a in let s := / 2 - Rabs (v - / 2) in dainv * s * s.
(** 4256, 4286 *)
Definition k_selu alpha_t_lambda lambda v :=
  if Rlt_dec v 0 then expm1 v * alpha_t_lambda else v * lambda.
Definition k_dselu alpha_t_lambda lambda v :=
  if Rlt_dec v 0 then v + alpha_t_lambda else lambda.
(** 4314; activations/step.h:62 df zeroes the matrix *)
Definition k_step v := if Rlt_dec v 0 then 0 else 1.
(** activations/identity.h:59-62; _i_activation.h:110 df fills with ones *)
Definition k_identity (v : R) := v.

(** ** Activation classes, nntl/activations/*.h, with their template parameters *)
Inductive act :=
| Sigm | Identity | Relu | Step
| LeakyRelu (leakKInv100 : N)
| Elu (alpha1e3 : N)
| Elogu (alpha1e3 logBase1e3 : N)
| Loglogu (logBaseNeg1e3 logBasePos1e3 : N)
| Logu (logBasePos1e3 : N)
| Softsign (a1e6 c1e6 : N)
| Softsigm (a1e3 : N)
| Selu (alpha1e9 lambda1e9 : Z).

Definition NR (n : N) : R := IZR (Z.of_N n).
(** e.g. elu.h:54, elogu.h:53-57 *)
Definition milli (n : N) : R := NR n / 1000.
Definition micro (n : N) : R := NR n / 1000000.
(** relu_family.h:81 *)
Definition leakK (n : N) : R := 100 / NR n.
(** softsign.h:57 *)
Definition softsign_C (c : N) : R :=
  if N.eqb c 0 then 15925374197228312 / 10000000000000000 else micro c.
(** _SNN_common.h:59-68 *)
Definition snn_alpha (a : Z) : R :=
  if Z.eqb a 0 then 16732632423543772848170429916717 / 10000000000000000000000000000000
  else IZR a / 1000000000.
Definition snn_lambda (l : Z) : R :=
  if Z.eqb l 0 then 10507009873554804934193349852946 / 10000000000000000000000000000000
  else IZR l / 1000000000.

(** f(): sigm.h:57, relu_family.h:56,88, elu.h:59-68, elogu.h:61-80,
    loglogu.h:62-81, logu.h:57-66, softsign.h:63-72, softsigm.h:61, selu.h:65,
    step.h:56 *)
Definition act_f (t : act) : R -> R :=
  match t with
  | Sigm => k_sigm
  | Identity => k_identity
  | Relu => k_relu
  | Step => k_step
  | LeakyRelu k => k_leakyrelu (leakK k)
  | Elu a => if N.eqb a 1000 then k_elu_unitalpha else k_elu (milli a)
  | Elogu a b =>
      match N.eqb a 1000, N.eqb b 2718 with
      | false, false => k_elogu (milli a) (milli b)
      | true, false => k_elogu_ua (milli b)
      | false, true => k_elogu_nb (milli a)
      | true, true => k_elogu_ua_nb
      end
  | Loglogu bn bp =>
      match N.eqb bn 2718, N.eqb bp 2718 with
      | false, false => k_loglogu (milli bn) (milli bp)
      | true, false => k_loglogu_nbn (milli bp)
      | false, true => k_loglogu_nbp (milli bn)
      | true, true => k_loglogu_nbn_nbp
      end
  | Logu b => if N.eqb b 2718 then k_logu_nb else k_logu (milli b)
  | Softsign a c =>
      if N.eqb c 1000000 then k_softsign_uc (micro a) else k_softsign (micro a) (softsign_C c)
  | Softsigm a => k_softsigm (milli a)
  | Selu a l => k_selu (snn_alpha a * snn_lambda l) (snn_lambda l)
  end.

(** df(), same files; computes the derivative from the activation value *)
Definition act_df (t : act) : R -> R :=
  match t with
  | Sigm => k_dsigm
  | Identity => fun _ => 1
  | Relu => k_drelu
  | Step => fun _ => 0
  | LeakyRelu k => k_dleakyrelu (leakK k)
  | Elu a => if N.eqb a 1000 then k_delu_unitalpha else k_delu (milli a)
  | Elogu a b =>
      match N.eqb a 1000, N.eqb b 2718 with
      | false, false => k_delogu (milli a) (milli b)
      | true, false => k_delogu_ua (milli b)
      | false, true => k_delogu_nb (milli a)
      | true, true => k_delogu_ua_nb
      end
  | Loglogu bn bp =>
      match N.eqb bn 2718, N.eqb bp 2718 with
      | false, false => k_dloglogu (milli bn) (milli bp)
      | true, false => k_dloglogu_nbn (milli bp)
      | false, true => k_dloglogu_nbp (milli bn)
      | true, true => k_dloglogu_nbn_nbp
      end
  | Logu b => if N.eqb b 2718 then k_dlogu_nb else k_dlogu (milli b)
  | Softsign a c =>
      if N.eqb a 1000000 && N.eqb c 1000000 then k_dsoftsign_ua_uc
      else k_dsoftsign (micro a) (softsign_C c)
  | Softsigm a => k_dsoftsigm (milli a)
  | Selu a l => k_dselu (snn_alpha a * snn_lambda l) (snn_lambda l)
  end.

(** bFIsZeroStable, _i_activation.h:67 and the class heads *)
Definition zero_stable (t : act) : bool :=
  match t with Sigm | Softsigm _ | Step => false | _ => true end.

(** ** Matrices.  f() processes elements [0, numel_no_bias()) of the storage
    (e.g. 3046-3086), df() the whole matrix (3090-3112; identity and step fill
    the matrix, which is elementwise too); [parts]: the ranges of the threads. *)
Definition act_apply (t : act) (parts : list prange) (m : mtx R) :=
  ew parts (fun _ v => Some (act_f t v)) (m_data m).
Definition act_apply_df (t : act) (parts : list prange) (m : mtx R) :=
  ew parts (fun _ v => Some (act_df t v)) (m_data m).

(** ** Losses *)

(** log_eps, log1p_eps: _base.h:72-89; [tiny] is numeric_limits::min(), a
    parameter of the model *)
Definition log_eps (tiny v : R) : R := ln (v + tiny).
Definition log1p_eps (tiny v : R) : R := ln ((1 + v) + tiny).

(** summands: loss_quadratic 4406-4407 (with the factor of 4412),
    loss_xentropy 4483-4491 (with the sign of 4470; default configuration,
    NNTL_CFG_CAREFULL_LOG_EXP = 0), _loss_parts.h *)
Definition l_quad (a y : R) : R := let e := a - y in (e * e) / 2.
Definition l_xent (tiny a y : R) : R :=
  - (if Rlt_dec 0 y then log_eps tiny a else log1p_eps tiny (- a)).

(** parameters of the weighted losses, _loss_parts.h:71-73, 88-93, 109-114 *)
Inductive wloss :=
| QuadW (fpWeightSqrt1e6 yBnd1e6 : N)
| QuadW2 (fpWeightSqrt1e6 otherWeightSqrt1e6 yBnd1e6 : N)
| QuadWRes (fpWeightSqrt1e6 yBnd1e6 : N).

Definition fp_case (yb y a : R) {X} (t e : X) : X :=
  if Rlt_dec y yb then if Rlt_dec y a then t else e else e.

(** _loss_parts.h:75-81, 95-101, 120-126 with normalize() of 42-46 *)
Definition l_weighted (w : wloss) (a y : R) : R :=
  let e :=
    match w with
    | QuadW f b => fp_case (micro b) y a (micro f * (a - y)) (a - y)
    | QuadW2 f o b => (a - y) * fp_case (micro b) y a (micro f) (micro o)
    | QuadWRes f b =>
        let addVSqrt := micro b * (1 - micro f) in
        fp_case (micro b) y a (micro f * a + addVSqrt - y) (a - y)
    end in (e * e) / 2.
(** _loss_parts.h:140-144, 151-155, 165-169 *)
Definition dl_weighted (w : wloss) (y a : R) : R :=
  match w with
  | QuadW f b => fp_case (micro b) y a (micro f * micro f * (a - y)) (a - y)
  | QuadW2 f o b => fp_case (micro b) y a (micro f * micro f * (a - y)) (micro o * micro o * (a - y))
  | QuadWRes f b =>
      let addVSqrt := micro b * (1 - micro f) in let addV := micro f * addVSqrt in
      fp_case (micro b) y a (micro f * micro f * a + addV - micro f * y) (a - y)
  end.

(** output layer classes and their loss(): sigm.h:68-113, softsigm.h:80-139,
    identity.h:71-119; the numerically stabilised loss variants are below *)
Inductive outp :=
| SigmQuad | SigmXent | SoftsigmQuad (a1e3 : N) | SoftsigmXent (a1e3 : N)
| IdQuad | IdCustom (w : wloss) | SigmXentLinear | SoftsigmXentLinear (a1e3 : N).

Definition outp_act (o : outp) : act :=
  match o with
  | SigmQuad | SigmXent => Sigm
  | SoftsigmQuad a | SoftsigmXent a => Softsigm a
  (** a linear layer (dLdZIdentity) applies no activation *)
  | IdQuad | IdCustom _ | SigmXentLinear | SoftsigmXentLinear _ => Identity
  end.

Definition outp_loss (tiny : R) (o : outp) (a y : R) : R :=
  match o with
  | SigmQuad | SoftsigmQuad _ | IdQuad => l_quad a y
  | SigmXent | SoftsigmXent _ | SigmXentLinear | SoftsigmXentLinear _ => l_xent tiny a y
  | IdCustom w => l_weighted w a y
  end.

(** dLdZ(): mathn.h 3143 (dSigmQuadLoss_dZ), sigm.h:98 (evSub_ip), 4169-4179
    (dSoftSigmQuadLoss_dZ), 4210-4222 (dSoftSigmXEntropyLoss_dZ),
    _i_activation.h:155 (evSub_ip), mathn.h 2952 (dLoss_dZ), 3031
    (dIdentityXEntropyLoss_dZ) *)
Definition outp_dLdZ (o : outp) (y a : R) : R :=
  match o with
  | SigmQuad => (a - y) * a * (1 - a)
  | SigmXent => a - y
  | SoftsigmQuad A1e3 =>
      let dainv := 2 / milli A1e3 in let s := / 2 - Rabs (a - / 2) in (a - y) * dainv * s * s
  | SoftsigmXent A1e3 =>
      let dainv := 2 / milli A1e3 in let s := / 2 - Rabs (a - / 2) in
      (a - y) * ((s * s * dainv) / (a * (1 - a)))
  | IdQuad => a - y
  | IdCustom w => dl_weighted w y a
  | SigmXentLinear | SoftsigmXentLinear _ => (a - y) / (a * (1 - a))
  end.

(** act_dLdZ holds the activations on entry, dL/dZ on exit; data_y has the same
    size *)
Definition apply_dLdZ (o : outp) (parts : list prange) (data_y act_dLdZ : mtx R) :=
  ew parts (fun i a => do y <- bget (m_data data_y) i; Some (outp_dLdZ o y a)) (m_data act_dLdZ).

(** sums over a range of elements: the plain loop (4404-4409, 4475-4496,
    2980-2985) and Kahan's (4436-4446, 4517-4543); l: the summand before the
    common factor/sign, which the model keeps in the summand *)
Definition range_sum (l : R -> R -> R) (A Y : list R) (er : prange) : option R :=
  for_loop (r_ofs er) (r_cnt er) (fun i ret =>
    do a <- bget A i; do y <- bget Y i; Some (ret + l a y)) 0.
Definition range_sum_kahan (l : R -> R -> R) (A Y : list R) (er : prange) : option R :=
  do s <- for_loop (r_ofs er) (r_cnt er) (fun i (st : R * R) =>
    do a <- bget A i; do y <- bget Y i;
    let '(sum, C) := st in
    let Yv := l a y - C in
    let T := sum + Yv in
    Some (T, T - sum - Yv)) (0, 0);
  Some (fst s).

(** [_reduce_vec_sum], smath.h:418-440: the partial results of the threads are
    summed in the order of the threads, plainly or by Kahan's algorithm *)
Definition reduce_sum (l : list R) : R := fold_left Rplus l 0.
Definition reduce_kahan (l : list R) : R :=
  fst (fold_left (fun st v => let '(sum, C) := st in
    let Yv := v - C in let T := sum + Yv in (T, T - sum - Yv)) l (0, 0)).

Fixpoint omap {X Y} (f : X -> option Y) (l : list X) : option (list Y) :=
  match l with
  | [] => Some []
  | x :: l' => do y <- f x; do ys <- omap f l'; Some (y :: ys)
  end.

(** loss(): 4392-4421, 4425-4459, 4464-4550, 2966-3000; [ns]: bNumericStable *)
Definition loss_total (tiny : R) (ns : bool) (o : outp) (parts : list prange) (acts data_y : mtx R) : option R :=
  let kern := if ns then range_sum_kahan else range_sum in
  do ps <- omap (kern (outp_loss tiny o) (m_data acts) (m_data data_y)) parts;
  Some (if ns then reduce_kahan ps else reduce_sum ps).
