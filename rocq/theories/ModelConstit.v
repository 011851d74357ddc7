(** * Model of constit.py: the constitutive laws.

    A law takes the material point [MP], the parameters and the grid and
    returns the updated point and grid, or an exception. *)
From Coq Require Import ZArith List Bool Arith.
From Verif Require Import State ModelGrid.
Import ListNotations.

(** Scalar grid fields the laws write to ([G.pressure], ...). *)
Inductive sfield := Fgammadot | Fyield | Fpressure | Fsigmah | Fsigmav | Fdev | Fdevdot
                  | Fmu_s | Fmu | FI | Feta.

Section Fields.
  Context {T : Type}.
  Definition sget (f : sfield) (G : grid T) : list T :=
    match f with
    | Fgammadot => f_gammadot G | Fyield => f_yield G | Fpressure => f_pressure G
    | Fsigmah => f_sigmah G | Fsigmav => f_sigmav G | Fdev => f_dev G | Fdevdot => f_devdot G
    | Fmu_s => f_mu_s G | Fmu => f_mu G | FI => f_I G | Feta => f_eta G
    end.
  Definition sset (f : sfield) (l : list T) (G : grid T) : grid T :=
    match f with
    | Fgammadot => G <| f_gammadot := l |> | Fyield => G <| f_yield := l |>
    | Fpressure => G <| f_pressure := l |> | Fsigmah => G <| f_sigmah := l |>
    | Fsigmav => G <| f_sigmav := l |> | Fdev => G <| f_dev := l |>
    | Fdevdot => G <| f_devdot := l |> | Fmu_s => G <| f_mu_s := l |>
    | Fmu => G <| f_mu := l |> | FI => G <| f_I := l |> | Feta => G <| f_eta := l |>
    end.
End Fields.

Section Constit.
  Context {T : Type} `{Num T}.
  Local Open Scope num_scope.

  (** The loop [for r in range(4): n = G.nearby_nodes(MP.n_star,r,P); ...]. *)
  Definition four {S} (P : params T) (n_star : Z) (f : S -> nat -> Z -> res S) (s : S) : res S :=
    foldM (fun s r => f s r (nearby n_star r (nx (pG P)))) s [0; 1; 2; 3]%nat.

  (** [MP.N[r]], [MP.G[r]] *)
  Definition Nr (MP : particle T) (r : nat) : T := nth r (pN MP) n0.
  Definition Gr (MP : particle T) (r : nat) : V3 T := nth r (pGr MP) v0.

  (** [G.f[n] += w] *)
  Definition sadd (f : sfield) (n : Z) (w : T) (G : grid T) : res (grid T) :=
    l <- py_upd (sget f G) n (fun a => a + w) ;; Ok (sset f l G).

  (** The visualisation loop at the end of the laws: for every neighbour and
      every listed field, [G.f[n] += N[r]*value*m]; the value function receives
      [N[r]] to reproduce the order of the products. *)
  Definition visualise (P : params T) (MP : particle T) (fs : list (sfield * (T -> T)))
             (G : grid T) : res (grid T) :=
    four P (pnstar MP)
         (fun G r n => foldM (fun G fw => sadd (fst fw) n (snd fw (Nr MP r)) G) G fs) G.

  (** Indexing [mu_0[i]]: a numpy scalar is not subscriptable (IndexError). *)
  Definition sc_index (s : scarr T) (i : nat) : res T :=
    match s with Sc _ => Err IndexError | Ar l => nth_res l i end.
  (** Use of the parameter as one number.  An array broadcasts against (3,3)
      arrays and fails unless it has a suitable size: simplified to ValueError. *)
  Definition sc_scalar (s : scarr T) : res T :=
    match s with Sc a => Ok a | Ar _ => Err ValueError end.

  (** constit.py:28-40 *)
  Definition rigid (P : params T) (S : solid T) (MP : particle T) (G : grid T)
    : res (particle T * grid T) := Ok (MP, G).

  (** constit.py:42-68 *)
  Definition elastic (P : params T) (S : solid T) (MP : particle T) (G : grid T)
    : res (particle T * grid T) :=
    let de_kk := trace (pdstrain MP) in                                                   (* 54 *)
    let de_ij := msub (pdstrain MP) (mdivs (mscale de_kk eye) n3) in                      (* 55 *)
    K <- attr (s_K S) ;; Gs <- attr (s_G S) ;;
    let dstress := madd (mscale (K * de_kk) eye) (mscale (n2 * Gs) de_ij) in              (* 56 *)
    let MP := MP <| pdstress := dstress |>
                 <| pgammadot := nsqrt (msum (mmap nsq de_ij)) |>                         (* 59 *)
                 <| ppressure := trace (pstress MP) / n3 |>                               (* 60 *)
                 <| psigmav := yy (pstress MP) |> <| psigmah := xx (pstress MP) |> in     (* 61-62 *)
    G <- visualise P MP
      [ (Fpressure, fun N => N * ppressure MP * pm MP);
        (Fgammadot, fun N => N * pgammadot MP / p_dt P * pm MP);
        (Fsigmav, fun N => N * psigmav MP * pm MP);
        (Fsigmah, fun N => N * psigmah MP * pm MP) ] G ;;                                 (* 63-68 *)
    Ok (MP, G).

  (** constit.py:70-112 *)
  Definition elastic_time (P : params T) (S : solid T) (p : nat) (MP : particle T) (G : grid T)
    : res (particle T * grid T) :=
    (* [(p == 0) and (P.t > P.S[p].t_0)]: attributes are read only if reached *)
    m <- (if Nat.eqb p 0 then
            t0 <- attr (s_t_0 S) ;;
            if t0 <? p_t P then                                                           (* 83 *)
              rf <- attr (s_rho_f S) ;;
              Ok (if rf * pV MP <? pm MP then pm MP * lit 95 100 else pm MP)              (* 84-85 *)
            else Ok (pm MP)
          else Ok (pm MP)) ;;
    E0 <- attr (s_E_0 S) ;; nu <- attr (s_nu S) ;;
    let K := E0 / (n3 * (n1 - n2 * nu)) in                                                (* 87 *)
    let Gs := E0 / (n2 * (n1 + nu)) in                                                    (* 88 *)
    let de_kk := trace (pdstrain MP) in                                                   (* 98 *)
    let de_ij := msub (pdstrain MP) (mdivs (mscale de_kk eye) n3) in                      (* 99 *)
    let dstress := madd (mscale (K * de_kk) eye) (mscale (n2 * Gs) de_ij) in              (* 100 *)
    let MP := MP <| pm := m |> <| pdstress := dstress |>
                 <| pgammadot := nsqrt (msum (mmap nsq de_ij)) |>                         (* 103 *)
                 <| ppressure := - trace (pstress MP) / n3 |>                             (* 104 *)
                 <| psigmav := - yy (pstress MP) |> <| psigmah := - xx (pstress MP) |> in (* 105-106 *)
    G <- visualise P MP
      [ (Fpressure, fun N => N * ppressure MP * pm MP);
        (Fgammadot, fun N => N * pgammadot MP / p_dt P * pm MP);
        (Fsigmav, fun N => N * psigmav MP * pm MP);
        (Fsigmah, fun N => N * psigmah MP * pm MP) ] G ;;                                 (* 107-112 *)
    Ok (MP, G).

  (** constit.py:115-153 *)
  Definition von_mises (P : params T) (S : solid T) (MP : particle T) (G : grid T)
    : res (particle T * grid T) :=
    let de_kk := trace (pdstrain MP) in                                                   (* 127 *)
    let de_ij := msub (pdstrain MP) (mdivs (mscale de_kk eye) n3) in                      (* 128 *)
    K <- attr (s_K S) ;;
    let dsigma_kk := n3 * K * de_kk in                                                    (* 129 *)
    let dev_work_norm := nabs (msum (mmulE (pdev MP) de_ij)) in                           (* 130 *)
    let dev_stress_norm := nsqrt (msum (mmap nsq (pdev MP))) in                           (* 131 *)
    Gs <- attr (s_G S) ;; k <- attr (s_k S) ;; s <- attr (s_s S) ;;
    let fac := dev_work_norm / (n2 * nsq k) *
               npow (dev_stress_norm / (nsqrt n2 * k)) (s - n2) in
    let dev_d := mscale (n2 * Gs) (msub de_ij (mscale fac (pdev MP))) in                  (* 132-133 *)
    let skk := psigma_kk MP + dsigma_kk in                                                (* 134 *)
    let dev := madd (pdev MP) dev_d in                                                    (* 135 *)
    let dstress := msub (madd dev (mdivs (mscale skk eye) n3)) (pstress MP) in            (* 136 *)
    let MP := MP <| pdev_d := dev_d |> <| psigma_kk := skk |> <| pdev := dev |>
                 <| pdstress := dstress |>
                 <| pyield := dev_stress_norm / (nsqrt n2 * k) - n1 |>                    (* 139 *)
                 <| pgammadot := nsqrt (msum (mmap nsq de_ij)) |>                         (* 140 *)
                 <| ppressure := trace (pstress MP) / n3 |>                               (* 141 *)
                 <| psigmav := yy (pstress MP) |> <| psigmah := xx (pstress MP) |> in     (* 142-143 *)
    G <- visualise P MP
      [ (Fpressure, fun N => N * ppressure MP * pm MP);
        (Fyield, fun N => N * pyield MP * pm MP);
        (Fgammadot, fun N => N * pgammadot MP / p_dt P * pm MP);
        (Fsigmav, fun N => N * psigmav MP * pm MP);
        (Fsigmah, fun N => N * psigmah MP * pm MP);
        (Fdev, fun N => N * mnorm (pdev MP) * pm MP);
        (Fdevdot, fun N => N * mnorm (pdev_d MP) / p_dt P * pm MP) ] G ;;                 (* 145-153 *)
    Ok (MP, G).

  (** [s_bar += MP.phi[i]*P.G.s[i]] over the sizes, e.g. constit.py:192. *)
  Definition mean_size (P : params T) (MP : particle T) : res T :=
    foldM (fun s i => a <- nth_res (pphi MP) i ;; b <- nth_res (gs (pG P)) i ;; Ok (s + a * b))
          n0 (seq 0 (ns (pG P))).

  (** constit.py:20-26, RK4 with a law of 2x2 matrices.  The closure also stores
      [MP.p] and [MP.q]; the last call leaves its values, returned here. *)
  Definition RK4 (f : M2 T -> M2 T -> M2 T * (T * T)) (dstrain stress : M2 T) : M2 T * (T * T) :=
    let d1 := fst (f dstrain stress) in
    let d2 := fst (f dstrain (m2add stress (m2scale nhalf d1))) in
    let d3 := fst (f dstrain (m2add stress (m2scale nhalf d2))) in
    let '(d4, pq) := f dstrain (m2add stress d3) in
    (m2divs (m2add (m2add (m2add d1 (m2scale n2 d2)) (m2scale n2 d3)) d4) (nofZ 6), pq).

  (** constit.py:167-186, dp_guts. *)
  Definition dp_guts (K Gs s mu beta : T) (dstrain stress : M2 T) : M2 T * (T * T) :=
    let de_kk := trace2 dstrain in                                                        (* 168 *)
    let de_ij := m2sub dstrain (m2divs (m2scale de_kk eye2) n2) in                        (* 169 *)
    let p := trace2 stress / n2 in                                                        (* 170 *)
    let s_ij := m2sub stress (m2muls eye2 p) in                                           (* 171 *)
    let q := nsqrt (n3 * m2sum (m2mulE s_ij s_ij) / n2) in                                (* 172 *)
    let K := if n0 <? p then K else n0 in                                                 (* 174-175 *)
    let lambda_2 := (n3 * Gs * p * m2sum (m2mulE s_ij de_ij) - K * nsq q * de_kk) /
                    (n3 * Gs * mu * nsq p + beta * nsq q) in                              (* 178-179 *)
    let Gamma_2 := nabs (nan0 lambda_2) in                                                (* 181 *)
    let r := q / (mu * p) in
    let shear := m2muls (m2muls (m2divs (m2scale (n3 / n2) s_ij) q) Gamma_2)
                        (npow r (s - n1)) in
    let dstress := m2add (m2scale (n2 * Gs) (m2sub de_ij shear))
                         (m2muls (m2scale K eye2) (de_kk + beta * Gamma_2 * npow r s)) in (* 182-183 *)
    (m2map nan0 dstress, (p, q)).                                                         (* 184 *)

  (** constit.py:155-231 *)
  Definition dp (P : params T) (S : solid T) (MP : particle T) (G : grid T)
    : res (particle T * grid T) :=
    let dstrain := m2map nopp (block2 (pdstrain MP)) in                                   (* 188 *)
    let stress := m2map nopp (block2 (pstress MP)) in                                     (* 189 *)
    s_bar <- mean_size P MP ;;                                                            (* 191-192 *)
    let gd := nsqrt (msum (mmap nsq (mdivs (mscale n2 (pde_ij MP)) (p_dt P)))) in         (* 193 *)
    rho_s <- attr (s_rho_s S) ;;
    let I := nan0 (gd * s_bar * nsqrt (rho_s / nabs (ppressure MP))) in                   (* 194-195 *)
    mu_0 <- attr (s_mu_0 S) ;; delta_mu <- attr (s_delta_mu S) ;; I_0 <- attr (s_I_0 S) ;; (* 196: value unused *)
    mu <- attr (pmu MP) ;;                                                                (* 202: MP.mu *)
    K <- attr (s_K S) ;; Gs <- attr (s_G S) ;; s <- attr (s_s S) ;;
    let '(dstress, (p, q)) := RK4 (dp_guts K Gs s mu mu) dstrain stress in                (* 204 *)
    let dev := m2sub dstrain (m2divs (m2scale (trace2 dstrain) eye2) n2) in
    let MP := MP <| pdstress := set_block2 (pdstress MP) (m2map nopp dstress) |>          (* 207 *)
                 <| pgammadot := nsqrt (m2sum (m2map nsq dev)) |>                         (* 210 *)
                 <| ppressure := trace (pstress MP) / n2 |>                               (* 211 *)
                 <| psigmav := yy (pstress MP) |> <| psigmah := xx (pstress MP) |>        (* 214-215 *)
                 <| pI := I |> in
    G <- visualise P MP
      [ (Fpressure, fun N => N * pm MP * p);
        (Fgammadot, fun N => N * pgammadot MP / p_dt P * pm MP);
        (Fdev, fun N => N * q * pm MP) ] G ;;                                             (* 223-230 *)
    Ok (MP, G).

  (** constit.py:245-263, dp_guts of dp_rate ([P.S[0]] is [S0]). *)
  Definition dp_rate_guts (K Gs mu beta t_star : T) (dstrain stress : M2 T) : M2 T * (T * T) :=
    let de_kk := trace2 dstrain in                                                        (* 247 *)
    let de_ij := m2sub dstrain (m2divs (m2scale de_kk eye2) n2) in                        (* 248 *)
    let p := trace2 stress / n2 in                                                        (* 251 *)
    let s_ij := m2sub stress (m2muls eye2 p) in                                           (* 252 *)
    let q := nsqrt (n3 * m2sum (m2mulE s_ij s_ij) / n2) in                                (* 253 *)
    let lambda_2 := q - mu * p in                                                         (* 256 *)
    let Gamma_2 := lambda_2 * nofb (n0 <? lambda_2) in                                    (* 259 *)
    (m2add (m2scale (n2 * Gs)
              (m2sub de_ij (m2muls (m2divs (m2scale n3 s_ij) (n2 * q * p * t_star)) Gamma_2)))
           (m2muls (m2scale K eye2)
              (de_kk + beta * q / (mu * p * p * t_star) * Gamma_2)),                      (* 261-262 *)
     (p, q)).

  (** constit.py:233-302 *)
  Definition dp_rate (P : params T) (S0 S : solid T) (MP : particle T) (G : grid T)
    : res (particle T * grid T) :=
    let dstrain := m2map nopp (block2 (pdstrain MP)) in                                   (* 265 *)
    let stress := m2map nopp (block2 (pstress MP)) in                                     (* 266 *)
    mu0 <- attr (s_mu S0) ;; Gs <- attr (s_G S0) ;; t_star <- attr (s_t_star S0) ;;
    K <- attr (s_K S0) ;; beta <- attr (s_beta S0) ;;
    let '(dstress, (p1, q1)) := dp_rate_guts K Gs mu0 beta t_star dstrain stress in       (* 274 *)
    let dev := m2sub dstrain (m2divs (m2scale (trace2 dstrain) eye2) n2) in
    mu <- attr (s_mu S) ;;
    let p := - (xx (pstress MP) + yy (pstress MP)) / n2 in                                (* 290 *)
    let s_ij := m2sub stress (m2muls eye2 p) in                                           (* 291 *)
    let q := nsqrt (n3 * m2sum (m2mulE s_ij s_ij) / n2) in                                (* 292 *)
    let MP := MP <| pdstress := set_block2 (pdstress MP) (m2map nopp dstress) |>          (* 276 *)
                 <| pgammadot := nsqrt (m2sum (m2map nsq dev)) |>                         (* 281 *)
                 <| ppressure := trace (pstress MP) / n2 |>                               (* 282 *)
                 <| psigmav := yy (pstress MP) |> <| psigmah := xx (pstress MP) |>        (* 285-286 *)
                 <| pyield := q1 / (mu * p1) - n1 |> in                                   (* 288 *)
    G <- visualise P MP
      [ (Fpressure, fun N => N * pm MP * p);
        (Fgammadot, fun N => N * pgammadot MP / p_dt P * pm MP);
        (Fdev, fun N => N * q * pm MP) ] G ;;                                             (* 294-301 *)
    Ok (MP, G).

  (** constit.py:304-332 *)
  Definition viscous (P : params T) (S : solid T) (MP : particle T) (G : grid T)
    : res (particle T * grid T) :=
    let de_kk := trace (pdstrain MP) / n3 in                                              (* 316 *)
    let de_ij := msub (pdstrain MP) (mscale de_kk eye) in                                 (* 317 *)
    K <- attr (s_K S) ;; mu_s <- attr (s_mu_s S) ;; mu_v <- attr (s_mu_v S) ;;
    let pr := ppressure MP + K * de_kk in                                                 (* 318, 320 *)
    let dev := mdivs (mscale (n2 * mu_s) de_ij) (p_dt P) in                               (* 321 *)
    let visc_vol := mdivs (mscale (mu_v * de_kk) eye) (p_dt P) in                         (* 323 *)
    let dstress := msub (msub (madd (mscale pr eye) dev) visc_vol) (pstress MP) in        (* 325 *)
    let MP := MP <| pde_kk := de_kk |> <| pde_ij := de_ij |> <| ppressure := pr |>
                 <| pdev := dev |> <| pdstress := dstress |>
                 <| pgammadot := nsqrt (msum (mmap nsq de_ij)) / p_dt P |> in             (* 326 *)
    G <- visualise P MP
      [ (Fpressure, fun N => N * ppressure MP * pm MP);
        (Fdev, fun N => N * mnorm (pdev MP) * pm MP) ] G ;;                               (* 328-332 *)
    Ok (MP, G).

  (** constit.py:334-360 *)
  Definition bingham (P : params T) (S : solid T) (MP : particle T) (G : grid T)
    : res (particle T * grid T) :=
    let de_kk := trace (pdstrain MP) / n3 in                                              (* 346 *)
    let de_ij := msub (pdstrain MP) (mscale de_kk eye) in                                 (* 347 *)
    K <- attr (s_K S) ;;
    let gd := nsqrt (msum (mmap nsq de_ij)) / p_dt P in                                   (* 349 *)
    let pr := ppressure MP + K * de_kk in                                                 (* 348, 350 *)
    gamma_c <- attr (s_gamma_c S) ;;
    dev <- (if gd <=? gamma_c then
              mu_0 <- attr (s_mu_0 S) ;; mu_0 <- sc_scalar mu_0 ;;
              Ok (mdivs (mscale (n2 * mu_0) de_ij) (p_dt P))                              (* 351 *)
            else
              mu_s <- attr (s_mu_s S) ;; tau_0 <- attr (s_tau_0 S) ;;
              Ok (mdivs (mscale (n2 * (mu_s + tau_0 / gd)) de_ij) (p_dt P))) ;;           (* 352 *)
    mu_v <- attr (s_mu_v S) ;;
    let visc_vol := mdivs (mscale (mu_v * de_kk) eye) (p_dt P) in                         (* 353 *)
    let MP := MP <| pde_kk := de_kk |> <| pde_ij := de_ij |> <| pgammadot := gd |>
                 <| ppressure := pr |> <| pdev := dev |>
                 <| pstress := msub (madd (mscale pr eye) dev) visc_vol |> in             (* 354 *)
    G <- visualise P MP
      [ (Fpressure, fun N => N * ppressure MP * pm MP);
        (Fdev, fun N => N * mnorm (pdev MP) * pm MP) ] G ;;                               (* 356-360 *)
    Ok (MP, G).

  (** constit.py:362-399 *)
  Definition ken_kamrin (P : params T) (S : solid T) (MP : particle T) (G : grid T)
    : res (particle T * grid T) :=
    let de_kk := trace (pdstrain MP) / n3 in                                              (* 372 *)
    let de_ij := msub (pdstrain MP) (mscale de_kk eye) in                                 (* 373 *)
    K <- attr (s_K S) ;;
    let pr := ppressure MP + K * de_kk in                                                 (* 376 *)
    let gd_ij := mdivs (mscale n2 de_ij) (p_dt P) in                                      (* 378 *)
    let gd := nsqrt (nhalf * msum (mmap nsq gd_ij)) in                                    (* 379 *)
    let gd := nmax gd (lit 1 100000) in                                                   (* 380 *)
    let I := nsqrt n2 * n1 * gd / nsqrt (nabs pr / prho MP) in                            (* 381-382 *)
    mu_s <- attr (s_mu_s S) ;; mu_2 <- attr (s_mu_2 S) ;; I_0 <- attr (s_I_0 S) ;; I_0 <- sc_scalar I_0 ;;
    let mu := nan0 (mu_s + (mu_2 - mu_s) / (nan0 (I_0 / I) + n1)) in                      (* 383 *)
    let eta := nan0 (mu * pr / (nsqrt n2 * gd)) in                                        (* 384 *)
    let eta := nmax eta n0 in                                                             (* 385 *)
    let H := y_M (pG P) - y_m (pG P) in
    let eta_max := nofZ 250 * prho MP * p_max_g P * (H * H * H) in                        (* 386 *)
    let eta := nmin eta eta_max in                                                        (* 387 *)
    let dev := mscale eta gd_ij in                                                        (* 390 *)
    mu_v <- attr (s_mu_v S) ;;
    let visc_vol := mdivs (mscale (mu_v * de_kk) eye) (p_dt P) in                         (* 391 *)
    let dstress := msub (msub (madd (mscale pr eye) dev) visc_vol) (pstress MP) in        (* 393 *)
    let MP := MP <| pde_kk := de_kk |> <| pde_ij := de_ij |> <| ppressure := pr |>
                 <| pgammadot := gd |> <| pdev := dev |> <| pdstress := dstress |> in
    G <- visualise P MP
      [ (Fpressure, fun N => N * ppressure MP * pm MP);
        (Fgammadot, fun N => N * pgammadot MP / p_dt P * pm MP);
        (Fdev, fun N => N * mnorm (pdev MP) * pm MP) ] G ;;                               (* 395-399 *)
    Ok (MP, G).

  (** constit.py:420-430: phi-weighted sums of sizes and friction parameters. *)
  Definition weighted (MP : particle T) (n : nat) (get : nat -> res T) : res T :=
    foldM (fun s i => a <- nth_res (pphi MP) i ;; b <- get i ;; Ok (s + a * b)) n0 (seq 0 n).

  (** constit.py:401-488.  The four sums of the loop 425-430 are independent and
      are written as four loops; the first failing read is the same. *)
  Definition pouliquen (P : params T) (S : solid T) (MP : particle T) (G : grid T)
    : res (particle T * grid T) :=
    let n := ns (pG P) in
    s_bar <- weighted MP n (fun i => nth_res (gs (pG P)) i) ;;                            (* 426 *)
    mu_0 <- weighted MP n (fun i => a <- attr (s_mu_0 S) ;; sc_index a i) ;;              (* 428 *)
    delta_mu <- weighted MP n (fun i => a <- attr (s_delta_mu S) ;; sc_index a i) ;;      (* 429 *)
    I_0 <- weighted MP n (fun i => a <- attr (s_I_0 S) ;; sc_index a i) ;;                (* 430 *)
    let de_kk := trace (pdstrain MP) / n3 in                                              (* 432 *)
    let de_ij := msub (pdstrain MP) (mscale de_kk eye) in                                 (* 433 *)
    let gd := nsqrt (msum (mmap nsq (mdivs (mscale n2 de_ij) (p_dt P)))) in               (* 435 *)
    rho_s <- attr (s_rho_s S) ;;
    let I := gd * s_bar * nsqrt (rho_s / nabs (ppressure MP)) in                          (* 436 *)
    let mu := mu_0 + delta_mu / (I_0 / I + n1) in                                         (* 443 *)
    let eta := n2 * nsqrt n2 * mu * nabs (ppressure MP) / gd in                           (* 446 *)
    eta_max <- attr (s_eta_max S) ;;
    let eta_lim := nmin (nan0 eta) eta_max in                                             (* 447 *)
    let dev := mdivs (mscale eta_lim de_ij) (p_dt P) in                                   (* 448 *)
    K <- attr (s_K S) ;;
    let pr := ppressure MP + K * de_kk in                                                 (* 450-451 *)
    let pr := if (n0 <? pr) || (prho MP <? s_rho S * lit 8 10) then n0 else pr in         (* 455-457 *)
    let dstress := msub (madd (mscale pr eye) dev) (pstress MP) in                        (* 464 *)
    if negb (mallfin dstress) then Err SystemExit else                                    (* 467-480 *)
    let MP := MP <| pde_kk := de_kk |> <| pde_ij := de_ij |> <| pgammadot := gd |>
                 <| pI := I |> <| pmu := Some mu |> <| peta := eta |> <| peta_lim := eta_lim |>
                 <| pdev := dev |> <| ppressure := pr |> <| pdstress := dstress |> in
    G <- visualise P MP
      [ (Fpressure, fun N => N * ppressure MP * pm MP);
        (Fdev, fun N => N * mnorm (pdev MP) / nsqrt n2 * pm MP);
        (Fmu, fun N => N * mu * pm MP);
        (FI, fun N => N * pI MP * pm MP);
        (Feta, fun N => N * peta MP * pm MP) ] G ;;                                       (* 482-488 *)
    Ok (MP, G).

  (** constit.py:490-532 *)
  Definition linear_mu (P : params T) (S : solid T) (MP : particle T) (G : grid T)
    : res (particle T * grid T) :=
    s_bar <- mean_size P MP ;;                                                            (* 502-503 *)
    let de_kk := trace (pdstrain MP) / n3 in                                              (* 505 *)
    let de_ij := msub (pdstrain MP) (mscale de_kk eye) in                                 (* 506 *)
    let gd := nsqrt (msum (mmap nsq (mdivs (mscale n2 de_ij) (p_dt P)))) in               (* 508 *)
    rho_s <- attr (s_rho_s S) ;;
    let I := gd * s_bar * nsqrt (rho_s / nabs (ppressure MP)) in                          (* 510 *)
    mu_0 <- attr (s_mu_0 S) ;; mu_0 <- sc_scalar mu_0 ;; b <- attr (s_b S) ;;
    let mu := mu_0 + b * I in                                                             (* 513 *)
    eta_max <- attr (s_eta_max S) ;;
    let eta := n2 * nsqrt n2 * mu * nabs (ppressure MP) / gd in                           (* 515 *)
    let eta := nmin eta eta_max in                                                        (* 516 *)
    let dev := mdivs (mscale eta de_ij) (p_dt P) in                                       (* 517 *)
    K <- attr (s_K S) ;;
    let pr := ppressure MP + K * de_kk in                                                 (* 519-520 *)
    let pr := if n0 <? pr then n0 else pr in                                              (* 521 *)
    let dstress := msub (madd (mscale pr eye) dev) (pstress MP) in                        (* 524 *)
    let MP := MP <| pde_kk := de_kk |> <| pde_ij := de_ij |> <| pgammadot := gd |>
                 <| pI := I |> <| pmu := Some mu |> <| peta := eta |>
                 <| pdev := dev |> <| ppressure := pr |> <| pdstress := dstress |> in
    G <- visualise P MP
      [ (Fpressure, fun N => N * ppressure MP * pm MP);
        (Fdev, fun N => N * mnorm (pdev MP) / nsqrt n2 * pm MP);
        (Fmu, fun N => N * mu * pm MP);
        (FI, fun N => N * pI MP * pm MP) ] G ;;                                           (* 526-532 *)
    Ok (MP, G).

  (** constit.py:534-586 *)
  Definition ken_simple (P : params T) (S : solid T) (MP : particle T) (G : grid T)
    : res (particle T * grid T) :=
    s_bar <- mean_size P MP ;;                                                            (* 547-548 *)
    let de_kk := trace (pdstrain MP) / n3 in                                              (* 550 *)
    let de_ij := msub (pdstrain MP) (mscale de_kk eye) in                                 (* 551 *)
    mu_0 <- attr (s_mu_0 S) ;; mu_0 <- sc_scalar mu_0 ;;
    let eta := n2 * nsqrt n2 * mu_0 * nabs (ppressure MP) / pgammadot MP in               (* 553 *)
    eta_max <- attr (s_eta_max S) ;;
    let eta := nmin (nan0 eta) eta_max in                                                 (* 554 *)
    let dev := mdivs (mscale eta de_ij) (p_dt P) in                                       (* 557 *)
    K <- attr (s_K S) ;;
    let pr := ppressure MP + K * de_kk in                                                 (* 559-560 *)
    let pr := if n0 <? pr then n0 else pr in                                              (* 561-563 *)
    let dstress := if nofZ 2500 <? prho MP
                   then msub (madd (mscale pr eye) dev) (pstress MP)                      (* 565-566 *)
                   else mopp (pstress MP) in                                              (* 568 *)
    if negb (mallfin dstress) then Err SystemExit else                                    (* 570-580 *)
    let MP := MP <| pde_kk := de_kk |> <| pde_ij := de_ij |> <| peta := eta |>
                 <| pdev := dev |> <| ppressure := pr |> <| pdstress := dstress |> in
    G <- visualise P MP
      [ (Fpressure, fun N => N * ppressure MP * pm MP);
        (Fdev, fun N => N * mnorm (pdev MP) / nsqrt n2 * pm MP);
        (Feta, fun N => N * peta MP * pm MP) ] G ;;                                       (* 582-586 *)
    Ok (MP, G).

  (** particle.py:156: [exec(P.S[p].law + '(self,P,G,p)')].  [S0] is [P.S[0]]. *)
  Definition apply_law (P : params T) (S0 S : solid T) (p : nat) (MP : particle T) (G : grid T)
    : res (particle T * grid T) :=
    match s_law S with
    | Rigid => rigid P S MP G
    | Elastic => elastic P S MP G
    | ElasticTime => elastic_time P S p MP G
    | VonMises => von_mises P S MP G
    | Dp => dp P S MP G
    | DpRate => dp_rate P S0 S MP G
    | Viscous => viscous P S MP G
    | Bingham => bingham P S MP G
    | KenKamrin => ken_kamrin P S MP G
    | Pouliquen => pouliquen P S MP G
    | LinearMu => linear_mu P S MP G
    | KenSimple => ken_simple P S MP G
    | UnknownLaw _ => Err NameError
    end.
End Constit.
