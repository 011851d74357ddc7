(** * Output files
    Statements only; the proofs are in ThmPlot.v. *)
From Coq Require Import List Bool Arith Lia Ascii String Decimal DecimalString DecimalFacts DecimalNat.
From Verif Require Import State ModelPlot.
Import ListNotations.
From Verif Require Import ThmPlot.
Local Open Scope nat_scope.

(** Any sequence of calls of any length, starting from any counters, writes each
    file once exactly if there is a draw_continuum between any two calls of save_u
    and between any two calls of draw_gsd_grid. *)
Theorem C46_exact : forall O cs k fss, Forall nameless cs -> outputs_of O cs k = Ok fss ->
  (NoDup (List.concat fss) <-> separated SaveU cs /\ separated DrawGsdGrid cs).
Proof. exact p_C46_exact. Qed.
Print Assumptions C46_exact.

(** Instance: C46_exact_example in PropsCasesInit.v. *)

(** Without save_u and draw_gsd_grid no file is ever overwritten. *)
Theorem C46_distinct : forall O cs k fss, Forall counting cs -> outputs_of O cs k = Ok fss -> NoDup (List.concat fss).
Proof. exact p_C46_distinct. Qed.
Print Assumptions C46_distinct.

(** Two calls of save_u in a row write to the same two files, whatever else is
    called in between except draw_continuum. *)
Theorem C46_save_u_refuted : forall O cs k, ~ In DrawContinuum cs -> exists fss us,
  outputs_of O (SaveU :: cs ++ [SaveU]) k = Ok (us :: fss ++ [us]) /\ us <> [].
Proof. exact p_C46_save_u_refuted. Qed.
Print Assumptions C46_save_u_refuted.

(** A name given by the user can hit a numbered file. *)
Theorem C46_name_refuted : exists O k fs gs, outputs_of O [DrawMP None; DrawMP (Some "0"%string)] k = Ok [fs; gs] /\ fs = gs /\ fs <> [].
Proof. exact p_C46_name_refuted. Qed.
Print Assumptions C46_name_refuted.

Example C46_distinct_example : exists fss,
  outputs_of (mkOut [false; true] 2) [DrawContinuum; DrawMP None; DrawMP None; SaveSbar; SaveSbar; DrawGsdMP; DrawContinuum] (mkCounters 0 9 0 0 0 0) = Ok fss /\
  List.concat fss = ["Continuum/00000.png"; "MP_0/00009.png"; "MP_1/00009.png"; "MP_0/00010.png"; "MP_1/00010.png"; "data/s_bar_00000.npy"; "data/s_bar_00001.npy";
    "GSD/MP_0_00011.png"; "GSD/MP_1_00011.png"; "Continuum/00001.png"]%string.
Proof. exact x_C46_distinct. Qed.
