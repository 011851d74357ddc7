(** * State of a simulation: parameters, grid, material points.

    The Python objects are [P] (inputs/*.py, class Params and sub-objects,
    completed by initialise.py:7-97), [G] (grid.py:60, class Grid) and [L]
    (mplist.py:9, class MatPointList).  [P.S[p]] and [L.S[p]] are kept together
    in one record [phase] per material phase [p]. *)
From Coq Require Import ZArith List String.
From RecordUpdate Require Export RecordSet.
From Verif Require Export Num PyBase Tensor.
Export RecordSetNotations.
Import ListNotations.

(** Constitutive laws: functions of constit.py callable through
    [exec(law + '(self,P,G,p)')] (particle.py:156).  [UnknownLaw] stands for
    every other name, e.g. 'viscous_size' (inputs/poly_avalanche.py:67). *)
Inductive law_name :=
| Rigid | Elastic | ElasticTime | VonMises | Dp | DpRate | Viscous | Bingham
| KenKamrin | Pouliquen | LinearMu | KenSimple | UnknownLaw (s : string).

(** [P.pressure] (initialise.py:27, particle.py:18-51). *)
Inductive press_mode := PNone | PLithostatic | PNonZero | PTemperature | PCompression.

(** [P.initial_flow] (initialise.py:30, particle.py:73-96). *)
Inductive flow_mode := FNone | FSteady | FPoiseulle.

(** A parameter that input files give as a number or as one number per size. *)
Inductive scarr (T : Type) := Sc (a : T) | Ar (l : list T).
Arguments Sc {T}. Arguments Ar {T}.

(** A particle velocity: its own array, or the array object
    [P.S[p].initial_v] shared by all particles of the phase
    (particle.py:12: no copy is made). *)
Inductive vref (T : Type) := Own (v : V3 T) | Shared.
Arguments Own {T}. Arguments Shared {T}.

(** [P.G]: grid parameters.  [pdx], [pdy] are the attributes [P.G.dx],
    [P.G.dy] that only some input files define. *)
Record gridp (T : Type) := mkGridp {
  x_m : T; x_M : T; y_m : T; y_M : T;
  nx : nat; ny : nat;
  pdx : option T; pdy : option T;
  thickness : T;                      (* initialise.py:60 *)
  ns : nat; gs : list T;              (* initialise.py:61-62: grain sizes *)
  s_bar_0 : option T; top_gap : option T }.
Arguments mkGridp {T}.
Arguments x_m {T}. Arguments x_M {T}. Arguments y_m {T}. Arguments y_M {T}.
Arguments nx {T}. Arguments ny {T}. Arguments pdx {T}. Arguments pdy {T}.
Arguments thickness {T}. Arguments ns {T}. Arguments gs {T}.
Arguments s_bar_0 {T}. Arguments top_gap {T}.

(** [P.B]: boundary flags (initialise.py:38-58).  [wall_mu] is [False] or a
    number. *)
Record bounds (T : Type) := mkBounds {
  wall : bool; two_walls : bool; roughness : bool; wall_mu : option T;
  no_slip_bottom : bool; cyclic_lr : bool;
  has_top : bool; has_bottom : bool; has_right : bool; has_left : bool; box : bool;
  outlet_left : bool; outlet_bottom : bool; inlet_right : bool; inlet_top : bool;
  vertical_force : bool; horizontal_force : bool; conveyor : bool;
  silo_left : bool; silo_bottom : bool }.
Arguments mkBounds {T}.
Arguments wall {T}. Arguments two_walls {T}. Arguments roughness {T}. Arguments wall_mu {T}.
Arguments no_slip_bottom {T}. Arguments cyclic_lr {T}. Arguments has_top {T}.
Arguments has_bottom {T}. Arguments has_right {T}. Arguments has_left {T}.
Arguments box {T}. Arguments outlet_left {T}. Arguments outlet_bottom {T}.
Arguments inlet_right {T}. Arguments inlet_top {T}. Arguments vertical_force {T}.
Arguments horizontal_force {T}. Arguments conveyor {T}. Arguments silo_left {T}.
Arguments silo_bottom {T}.

(** Parameters of one phase, [P.S[p]].  Attributes needed by some laws only are
    optional: reading a missing one raises [AttributeError].  [crit] is the
    value of [P.S[p].critical_time(P)] when that method exists. *)
Record solid (T : Type) := mkSolid {
  s_rho : T; s_A : T; s_law : law_name; s_phi : list T;
  s_K : option T; s_G : option T; s_k : option T; s_s : option T;
  s_beta : option T; s_mu : option T; s_mu_s : option T; s_mu_v : option T;
  s_mu_0 : option (scarr T); s_delta_mu : option (scarr T); s_I_0 : option (scarr T);
  s_mu_1 : option T; s_mu_2 : option T; s_b : option T; s_eta_max : option T;
  s_rho_s : option T; s_gamma_c : option T; s_tau_0 : option T; s_t_star : option T;
  s_E_0 : option T; s_nu : option T; s_t_0 : option T; s_rho_f : option T;
  s_packing : option T;
  s_inlet_rate : option T; s_yp : list T; s_gap : option (T * T);
  s_has_iv : bool; s_crit : option T }.
Arguments mkSolid {T}.
Arguments s_rho {T}. Arguments s_A {T}. Arguments s_law {T}. Arguments s_phi {T}.
Arguments s_K {T}. Arguments s_G {T}. Arguments s_k {T}. Arguments s_s {T}.
Arguments s_beta {T}. Arguments s_mu {T}. Arguments s_mu_s {T}. Arguments s_mu_v {T}.
Arguments s_mu_0 {T}. Arguments s_delta_mu {T}. Arguments s_I_0 {T}.
Arguments s_mu_1 {T}. Arguments s_mu_2 {T}. Arguments s_b {T}. Arguments s_eta_max {T}.
Arguments s_rho_s {T}. Arguments s_gamma_c {T}. Arguments s_tau_0 {T}. Arguments s_t_star {T}.
Arguments s_E_0 {T}. Arguments s_nu {T}. Arguments s_t_0 {T}. Arguments s_rho_f {T}.
Arguments s_packing {T}. Arguments s_inlet_rate {T}. Arguments s_yp {T}. Arguments s_gap {T}.
Arguments s_has_iv {T}. Arguments s_crit {T}.

(** Loads that [P.update_forces()] (inputs/*.py) may change. *)
Record loads (T : Type) := mkLoads { ld_g : T; ld_theta : T; ld_qv : T; ld_qh : T }.
Arguments mkLoads {T}. Arguments ld_g {T}. Arguments ld_theta {T}.
Arguments ld_qv {T}. Arguments ld_qh {T}.

(** [P]: scalar parameters (initialise.py:13-35) and sub-objects.
    [p_aniso] is [P.mode == 'anisotropy']. *)
Record params (T : Type) := mkParams {
  pG : gridp T; pB : bounds T;
  p_t : T; p_dt : T; p_tstep : Z; p_tf : T; p_savetime : T;
  p_Mtol : T; p_loads : loads T; p_max_g : T;
  p_damping : bool; p_seg : bool; p_norm : bool; p_check : bool; p_dynamic : bool;
  p_aniso : bool; p_CFL : T;
  p_pressure : press_mode; p_flow : flow_mode; p_init_press : option T;
  p_v0 : option T; p_intruder_v : option (V3 T);
  p_c : option T; p_l : option T }.
Arguments mkParams {T}.
Arguments pG {T}. Arguments pB {T}. Arguments p_t {T}. Arguments p_dt {T}. Arguments p_tstep {T}.
Arguments p_tf {T}. Arguments p_savetime {T}. Arguments p_Mtol {T}. Arguments p_loads {T}.
Arguments p_max_g {T}. Arguments p_damping {T}. Arguments p_seg {T}. Arguments p_norm {T}.
Arguments p_check {T}. Arguments p_dynamic {T}. Arguments p_aniso {T}. Arguments p_CFL {T}.
Arguments p_pressure {T}. Arguments p_flow {T}. Arguments p_init_press {T}. Arguments p_v0 {T}.
Arguments p_intruder_v {T}. Arguments p_c {T}. Arguments p_l {T}.

(** A material point (particle.py:8-71).  [pL] is the array bound to both
    [self.L] and [self.L_T] (particle.py:134).  [pmu] is unset until a law sets
    it. Attributes that are only written ([dp], [p], [q], ...) are left out. *)
Record particle (T : Type) := mkParticle {
  px : V3 T; pv : vref T; pV : T; pm : T; prho : T; pb : V3 T;
  pstress : M3 T; pstrain : M3 T; pdstrain : M3 T; pdstress : M3 T; pL : M3 T;
  pde_ij : M3 T; pde_kk : T; psigma_kk : T; pdev : M3 T; pdev_d : M3 T;
  pgammadot : T; ppressure : T; ppk : T; psigmav : T; psigmah : T; pyield : T;
  pN : list T; pGr : list (V3 T); pnstar : Z; pphi : list T;
  pI : T; pmu : option T; peta : T; peta_lim : T }.
Arguments mkParticle {T}.
Arguments px {T}. Arguments pv {T}. Arguments pV {T}. Arguments pm {T}. Arguments prho {T}.
Arguments pb {T}. Arguments pstress {T}. Arguments pstrain {T}. Arguments pdstrain {T}.
Arguments pdstress {T}. Arguments pL {T}. Arguments pde_ij {T}. Arguments pde_kk {T}.
Arguments psigma_kk {T}. Arguments pdev {T}. Arguments pdev_d {T}. Arguments pgammadot {T}.
Arguments ppressure {T}. Arguments ppk {T}. Arguments psigmav {T}. Arguments psigmah {T}.
Arguments pyield {T}. Arguments pN {T}. Arguments pGr {T}. Arguments pnstar {T}.
Arguments pphi {T}. Arguments pI {T}. Arguments pmu {T}. Arguments peta {T}. Arguments peta_lim {T}.

(** A phase: parameters, particle counter [P.S[p].n], the shared array
    [P.S[p].initial_v] and the particle list [L.S[p]]. *)
Record phase (T : Type) := mkPhase {
  ph_sol : solid T; ph_n : nat; ph_sv : V3 T; ph_pts : list (particle T) }.
Arguments mkPhase {T}.
Arguments ph_sol {T}. Arguments ph_n {T}. Arguments ph_sv {T}. Arguments ph_pts {T}.

(** The grid (grid.py:87-104 and wipe, grid.py:172-207). *)
Record grid (T : Type) := mkGrid {
  gdx : T; gdy : T; gX : list T; gY : list T; gV : list T;
  bv : list bool; bh : list bool; btot : list bool; bconv : list bool;
  gm : list T; gq : list (V3 T); gqd : list (V3 T);
  gfi : list (V3 T); gfe : list (V3 T); gext : list (V3 T);
  f_gammadot : list T; f_yield : list T; f_pressure : list T;
  f_sigmah : list T; f_sigmav : list T; f_dev : list T; f_devdot : list T;
  f_mu_s : list T; f_mu : list T; f_I : list T; f_eta : list T;
  g_sbar : list T; g_pk : list T; g_dpk : list T; g_pkm : list T; g_gradpk : list (V3 T);
  g_phim : list (list T); g_phi : list (list T); g_dphi : list (list T) }.
Arguments mkGrid {T}.
Arguments gdx {T}. Arguments gdy {T}. Arguments gX {T}. Arguments gY {T}. Arguments gV {T}.
Arguments bv {T}. Arguments bh {T}. Arguments btot {T}. Arguments bconv {T}.
Arguments gm {T}. Arguments gq {T}. Arguments gqd {T}. Arguments gfi {T}. Arguments gfe {T}.
Arguments gext {T}. Arguments f_gammadot {T}. Arguments f_yield {T}. Arguments f_pressure {T}.
Arguments f_sigmah {T}. Arguments f_sigmav {T}. Arguments f_dev {T}. Arguments f_devdot {T}.
Arguments f_mu_s {T}. Arguments f_mu {T}. Arguments f_I {T}. Arguments f_eta {T}.
Arguments g_sbar {T}. Arguments g_pk {T}. Arguments g_dpk {T}. Arguments g_pkm {T}.
Arguments g_gradpk {T}. Arguments g_phim {T}. Arguments g_phi {T}. Arguments g_dphi {T}.

(** The three objects threaded through the time loop. *)
Record state (T : Type) := mkState { sP : params T; sG : grid T; sL : list (phase T) }.
Arguments mkState {T}. Arguments sP {T}. Arguments sG {T}. Arguments sL {T}.

Global Instance eta_gridp T : Settable (gridp T) :=
  settable! (@mkGridp T) <x_m; x_M; y_m; y_M; nx; ny; pdx; pdy; thickness; ns; gs; s_bar_0; top_gap>.
Global Instance eta_bounds T : Settable (bounds T) :=
  settable! (@mkBounds T) <wall; two_walls; roughness; wall_mu; no_slip_bottom; cyclic_lr; has_top; has_bottom;
    has_right; has_left; box; outlet_left; outlet_bottom; inlet_right; inlet_top; vertical_force; horizontal_force;
    conveyor; silo_left; silo_bottom>.
Global Instance eta_params T : Settable (params T) :=
  settable! (@mkParams T) <pG; pB; p_t; p_dt; p_tstep; p_tf; p_savetime; p_Mtol; p_loads; p_max_g;
    p_damping; p_seg; p_norm; p_check; p_dynamic; p_aniso; p_CFL; p_pressure; p_flow; p_init_press;
    p_v0; p_intruder_v; p_c; p_l>.
Global Instance eta_particle T : Settable (particle T) :=
  settable! (@mkParticle T) <px; pv; pV; pm; prho; pb; pstress; pstrain; pdstrain; pdstress; pL;
    pde_ij; pde_kk; psigma_kk; pdev; pdev_d; pgammadot; ppressure; ppk; psigmav; psigmah; pyield;
    pN; pGr; pnstar; pphi; pI; pmu; peta; peta_lim>.
Global Instance eta_phase T : Settable (phase T) :=
  settable! (@mkPhase T) <ph_sol; ph_n; ph_sv; ph_pts>.
Global Instance eta_grid T : Settable (grid T) :=
  settable! (@mkGrid T) <gdx; gdy; gX; gY; gV; bv; bh; btot; bconv; gm; gq; gqd; gfi; gfe; gext;
    f_gammadot; f_yield; f_pressure; f_sigmah; f_sigmav; f_dev; f_devdot; f_mu_s; f_mu; f_I; f_eta;
    g_sbar; g_pk; g_dpk; g_pkm; g_gradpk; g_phim; g_phi; g_dphi>.
Global Instance eta_state T : Settable (state T) := settable! (@mkState T) <sP; sG; sL>.
