(** * Cyclic boundaries, walls, friction, volumes, surface loads: C09-C13, C15, C49, C50.
    Statements only; the proofs are in ThmWalls.v. *)
From Coq Require Import ZArith QArith Reals List Bool Arith Lra Lia.
From Verif Require Import State NumR NumQ Spec LibList LibR ModelGrid ModelConstit ModelParticle ModelMPList
  ProofsSlice ProofsGrid ProofsMap ProofsP2G ProofsWalls Concrete.
Import ListNotations.
From Verif Require Import ThmWalls.
Local Open Scope R_scope.

Theorem C09_make_cyclic : forall (A : Type) (add : A -> A -> A) (d : A) (nx ny : nat) (l : list A),
  (2 <= nx)%nat -> length l = (nx * ny)%nat ->
  exists l', cyc add nx l = Ok l' /\ length l' = (nx * ny)%nat /\
    (forall r, (r < ny)%nat ->
       nth (r * nx) l' d = add (nth (r * nx) l d) (nth (r * nx + (nx - 1)) l d) /\
       nth (r * nx + (nx - 1)) l' d = add (nth (r * nx + (nx - 1)) l d) (nth (r * nx) l d)) /\
    (forall k, (k < nx * ny)%nat -> (k mod nx <> 0)%nat -> (k mod nx <> nx - 1)%nat ->
       nth k l' d = nth k l d).
Proof. exact p_C09_make_cyclic. Qed.
Print Assumptions C09_make_cyclic.

(** The two columns coincide whenever addition is commutative, and for numbers
    the nodal sum is the old one plus both columns once more. *)
Theorem C09_columns_equal : forall (A : Type) (add : A -> A -> A) (d : A) (nx ny : nat) (l l' : list A),
  (forall a b, add a b = add b a) -> (2 <= nx)%nat -> length l = (nx * ny)%nat -> cyc add nx l = Ok l' ->
  forall r, (r < ny)%nat -> nth (r * nx) l' d = nth (r * nx + (nx - 1)) l' d.
Proof. exact p_C09_columns_equal. Qed.
Print Assumptions C09_columns_equal.

(** Instance: C09_columns_equal_example in PropsCasesStep.v. *)

Example C09_make_cyclic_example :
  cyc Nat.add 3 [1; 2; 3; 4; 5; 6]%nat = Ok [4; 2; 4; 10; 5; 10]%nat /\
  (2 <= 3)%nat /\ length [1; 2; 3; 4; 5; 6]%nat = (3 * 2)%nat.
Proof. exact x_C09_make_cyclic. Qed.

Theorem C10_wall_masks : forall (T : Type) (N : Num T) (P : gridp T) (B : bounds T) (G : grid T),
  grid_init P B = Ok G -> plain B ->
  forall k, (k < nx P * ny P)%nat ->
  (nth k (bh G) false = true <->
     (row P k = 0%nat /\ has_bottom B = true) \/ (row P k = (ny P - 1)%nat /\ has_top B = true)) /\
  (nth k (bv G) false = true <->
     (col P k = 0%nat /\ has_left B = true) \/ (col P k = (nx P - 1)%nat /\ has_right B = true) \/
     (row P k = 0%nat /\ no_slip_bottom B = true)) /\
  (nth k (btot G) false = true <-> nth k (bv G) false = true \/ nth k (bh G) false = true).
Proof. exact p_C10_wall_masks. Qed.
Print Assumptions C10_wall_masks.

Theorem C10_nodes : forall (T : Type) (N : Num T) (P : gridp T) (B : bounds T) (G : grid T),
  grid_init P B = Ok G ->
  length (bv G) = (nx P * ny P)%nat /\ length (bh G) = (nx P * ny P)%nat /\
  length (btot G) = (nx P * ny P)%nat.
Proof. exact p_C10_nodes. Qed.
Print Assumptions C10_nodes.

(** Instance: C10_nodes_example in PropsCasesStep.v. *)

Example C10_wall_masks_example :
  plain (ex_box : bounds Q) /\
  match grid_init (ex_gridp : gridp Q) ex_box with
  | Ok G => bv G = [true;false;false;true; true;false;false;true; true;false;false;true] /\
            bh G = [true;true;true;true; false;false;false;false; true;true;true;true]
  | Err _ => False end.
Proof. exact x_C10_wall_masks. Qed.

(** A wall in the middle column from the floor to mid-height. *)
Theorem C11_wall : forall (T : Type) (N : Num T) (P : gridp T) (B : bounds T) (G : grid T),
  grid_init P B = Ok G -> only_wall B ->
  forall k, (k < nx P * ny P)%nat ->
  (nth k (bv G) false = true <-> col P k = ((nx P - 1) / 2)%nat /\ (2 * row P k + 1 < ny P)%nat).
Proof. exact p_C11_wall. Qed.
Print Assumptions C11_wall.

(** A low wall a quarter of the way across and a hanging wall three quarters
    across. *)
Theorem C11_two_walls : forall (T : Type) (N : Num T) (P : gridp T) (B : bounds T) (G : grid T),
  grid_init P B = Ok G -> only_two_walls B ->
  forall k, (k < nx P * ny P)%nat ->
  (nth k (bv G) false = true <->
    (col P k = ((nx P - 1) / 4)%nat /\ (2 * k + 3 <= nx P * ny P)%nat) \/
    (col P k = (3 * (nx P - 1) / 4)%nat /\ (ny P / 2 <= row P k)%nat)).
Proof. exact p_C11_two_walls. Qed.
Print Assumptions C11_two_walls.

(** Instance: C11_two_walls_example in PropsCases.v. *)

(** Only nodes of the column next to the left edge are marked. *)
Theorem C11_silo_left_column : forall (T : Type) (N : Num T) (P : gridp T) (B : bounds T) (G : grid T),
  grid_init P B = Ok G -> only_silo_left B ->
  forall k, (k < nx P * ny P)%nat -> nth k (bv G) false = true -> col P k = 1%nat.
Proof. exact p_C11_silo_left_column. Qed.
Print Assumptions C11_silo_left_column.

(** Instance: C11_silo_left_column_example in PropsCases.v. *)

(** With enough rows the opening is six rows around mid-height. *)
Theorem C11_silo_left_opening : forall (T : Type) (N : Num T) (P : gridp T) (B : bounds T) (G : grid T),
  grid_init P B = Ok G -> only_silo_left B -> (3 <= nx P)%nat -> (6 <= ny P)%nat ->
  forall k, (k < nx P * ny P)%nat ->
  (nth k (bv G) false = true <->
     col P k = 1%nat /\ ((row P k < ny P / 2 - 3)%nat \/ (ny P / 2 + 3 <= row P k)%nat)).
Proof. exact p_C11_silo_left_opening. Qed.
Print Assumptions C11_silo_left_opening.

(** Instance: C11_silo_left_opening_example in PropsCases.v. *)

(** The exact effect of silo_bottom: everything beyond the opening is marked,
    on every row of the grid. *)
Theorem C11_silo_bottom_exact_partial : forall (T : Type) (N : Num T) (P : gridp T) (B : bounds T) (G : grid T),
  grid_init P B = Ok G -> only_silo_bottom B -> (4 <= nx P)%nat ->
  forall k, (k < nx P * ny P)%nat ->
  (nth k (bh G) false = true <-> (k < nx P / 2 - 2)%nat \/ (nx P / 2 + 3 <= k)%nat).
Proof. exact p_C11_silo_bottom_exact_partial. Qed.
Print Assumptions C11_silo_bottom_exact_partial.

(** Instance: C11_silo_bottom_exact_partial_example in PropsCases.v. *)

(** silo_bottom does not mark floor nodes only: on every grid with nx >= 6 the
    second row and everything above it is marked as well. *)
Theorem C11_silo_bottom_refuted : forall (T : Type) (N : Num T) (P : gridp T) (B : bounds T) (G : grid T),
  grid_init P B = Ok G -> only_silo_bottom B -> (6 <= nx P)%nat ->
  forall k, (k < nx P * ny P)%nat -> (1 <= row P k)%nat -> nth k (bh G) false = true.
Proof. exact p_C11_silo_bottom_refuted. Qed.
Print Assumptions C11_silo_bottom_refuted.

(** On a square grid box marks the outline of the rectangle of columns and rows
    4 to 8. *)
Theorem C11_box_square_partial : forall (T : Type) (N : Num T) (P : gridp T) (B : bounds T) (G : grid T),
  grid_init P B = Ok G -> only_box B -> nx P = ny P -> (9 <= nx P)%nat ->
  forall k, (k < nx P * ny P)%nat ->
  (nth k (bv G) false = true <-> (col P k = 4%nat \/ col P k = 8%nat) /\ (4 <= row P k <= 8)%nat) /\
  (nth k (bh G) false = true <-> (row P k = 4%nat \/ row P k = 8%nat) /\ (4 <= col P k <= 8)%nat).
Proof. exact p_C11_box_square_partial. Qed.
Print Assumptions C11_box_square_partial.

Theorem C11_box_refuted : only_box box_bounds /\
  exists G, grid_init box_gridp box_bounds = Ok G /\
    nth (4 * 12 + 4)%nat (bv G) false = false /\            (* the corner of the box is open *)
    exists k, (k < 120)%nat /\ nth k (bv G) false = true /\ col box_gridp k = 0%nat.
Proof. exact p_C11_box_refuted. Qed.
Print Assumptions C11_box_refuted.

Theorem C11_silo_left_refuted : only_silo_left silo_bounds /\
  exists (P : gridp Q) G, (3 <= nx P)%nat /\ (4 <= ny P)%nat /\ grid_init P silo_bounds = Ok G /\
    (* mid-height, which should be open: *)
    nth (nx P * (ny P / 2) + 1)%nat (bv G) false = true.
Proof. exact p_C11_silo_left_refuted. Qed.
Print Assumptions C11_silo_left_refuted.

Example C11_wall_example :
  let B : bounds Q := mkBounds true false false None false false false false false false false
           false false false false false false false false false in
  only_wall B /\
  match grid_init (ex_gridp : gridp Q) B with
  | Ok G => bv G = [false;true;false;false; false;false;false;false; false;false;false;false]
  | Err _ => False end.
Proof. exact x_C11_wall. Qed.

Example C11_box_square_partial_example :
  let P : gridp Q := mkGridp 0%Q 9%Q 0%Q 9%Q 10 10 None None 1%Q 1 [1%Q] None None in
  match grid_init P box_bounds with
  | Ok G => length (filter (fun b => b) (bv G)) = 10%nat /\ length (filter (fun b => b) (bh G)) = 10%nat
  | Err _ => False end.
Proof. exact x_C11_box_square_partial. Qed.

Example C11_silo_bottom_refuted_example :
  let B : bounds Q := mkBounds false false false None false false false false false false false
           false false false false false false false false true in
  let P : gridp Q := mkGridp 0%Q 9%Q 0%Q 9%Q 10 10 None None 1%Q 1 [1%Q] None None in
  only_silo_bottom B /\ (6 <= nx P)%nat /\
  match grid_init P B with Ok G => nth 55 (bh G) false = true | Err _ => False end.
Proof. exact x_C11_silo_bottom_refuted. Qed.

(** The rate of change of momentum vanishes on walls, normal to them, and with
    roughness also along them; elsewhere it is the net force. *)
Theorem C12_wall_rate : forall P G G', sized (pG P) G -> no_rub (pB P) -> update_momentum P G = Ok G' ->
  forall a k, comp a (nth k (gqd G') v0) =
    if removed a (roughness (pB P)) (nth k (bv G) false) (nth k (bh G) false) then 0 else net_force P G a k.
Proof. exact p_C12_wall_rate. Qed.
Print Assumptions C12_wall_rate.

Theorem C12_wall_momentum : forall P G G', sized (pG P) G -> no_rub (pB P) -> update_momentum P G = Ok G' ->
  forall a k, (k < nx (pG P) * ny (pG P))%nat ->
  removed a (roughness (pB P)) (nth k (bv G) false) (nth k (bh G) false) = true ->
  (a = AX -> conveyor (pB P) = true -> nth k (bconv G) false = false) ->
  comp a (nth k (gq G') v0) = comp a (nth k (gq G) v0) /\
  bv G' = bv G /\ bh G' = bh G.
Proof. exact p_C12_wall_momentum. Qed.
Print Assumptions C12_wall_momentum.

(** Instance: C12_wall_momentum_example in PropsInst.v. *)

(** Also with a friction coefficient no momentum is created normal to a wall. *)
Theorem C12_wall_momentum_friction : forall P G G' mu, sized (pG P) G -> rubs (pB P) mu -> 0 <= mu ->
  update_momentum P G = Ok G' ->
  forall k, (k < nx (pG P) * ny (pG P))%nat -> k <> 1%nat -> conveyor (pB P) = false ->
  (nth k (bv G) false = true -> vx (nth k (gq G') v0) = vx (nth k (gq G) v0)) /\
  (nth k (bh G) false = true -> vy (nth k (gq G') v0) = vy (nth k (gq G) v0)).
Proof. exact p_C12_wall_momentum_friction. Qed.
Print Assumptions C12_wall_momentum_friction.

Example C12_wall_rate_example :
  match ex_grid ex_box ex_fe with
  | Ok G => match update_momentum (ex_params ex_box) G with
            | Ok G' => map vx (gqd G') = [0; 1; 1; 0; 0; 1; 1; 0; 0; 1; 1; 0]%Q /\
                       map vy (gqd G') = [0; 0; 0; 0; -1; -1; -1; -1; 0; 0; 0; 0]%Q
            | Err _ => False end
  | Err _ => False end.
Proof. exact x_C12_wall_rate. Qed.

Example C12_sized_example : forall G0, grid_init ex_gridp ex_box = Ok G0 ->
  sized ex_gridp (wipe (ex_params ex_box) G0) /\ no_rub ex_box.
Proof. exact x_C12_sized. Qed.

(** Away from node 1 the force rate along a wall is reduced towards zero by at
    most mu times the force rate normal to it, and never reversed. *)
Theorem C13_friction_opposes_partial : forall P G G' mu, sized (pG P) G -> rubs (pB P) mu -> 0 <= mu ->
  update_momentum P G = Ok G' ->
  forall k, (k < nx (pG P) * ny (pG P))%nat -> k <> 1%nat ->
  (nth k (bv G') false = false -> nth k (bh G') false = true ->
     let t := net_force P G AX k in let t' := vx (nth k (gqd G') v0) in
     Rabs t' <= Rabs t /\ 0 <= t * t' /\ Rabs t - Rabs t' <= mu * Rabs (net_force P G AY k)) /\
  (nth k (bh G') false = false -> nth k (bv G') false = true ->
     let t := net_force P G AY k in let t' := vy (nth k (gqd G') v0) in
     Rabs t' <= Rabs t /\ 0 <= t * t' /\ Rabs t - Rabs t' <= mu * Rabs (net_force P G AX k)) /\
  (nth k (bv G') false = false -> nth k (bh G') false = false ->
     forall a, comp a (nth k (gqd G') v0) = net_force P G a k).
Proof. exact p_C13_friction_opposes_partial. Qed.
Print Assumptions C13_friction_opposes_partial.

(** The exact force rate: Coulomb friction on every marked wall, whatever the
    direction of the normal force. *)
Theorem C13_friction_exact : forall P G G' mu, sized (pG P) G -> rubs (pB P) mu -> 0 <= mu ->
  update_momentum P G = Ok G' ->
  forall k, (k < nx (pG P) * ny (pG P))%nat -> k <> 1%nat ->
  vx (nth k (gqd G') v0) = (if nth k (bv G') false then 0 else
     if nth k (bh G') false then coulomb mu (net_force P G AX k) (net_force P G AY k) else net_force P G AX k) /\
  vy (nth k (gqd G') v0) = (if nth k (bh G') false then 0 else
     if nth k (bv G') false then coulomb mu (net_force P G AY k) (net_force P G AX k) else net_force P G AY k).
Proof. exact p_C13_friction_exact. Qed.
Print Assumptions C13_friction_exact.

(** Instance: C13_friction_exact_example in PropsInst.v. *)

(** Friction marks all four sides of the domain as walls, whichever walls were
    declared. *)
Theorem C13_undeclared_walls_refuted : forall P G G' mu, sized (pG P) G -> rubs (pB P) mu ->
  update_momentum P G = Ok G' ->
  forall k, (k < nx (pG P) * ny (pG P))%nat ->
  (nth k (bv G') false = true <-> nth k (bv G) false = true \/ col (pG P) k = 0%nat \/ col (pG P) k = (nx (pG P) - 1)%nat) /\
  (nth k (bh G') false = true <-> nth k (bh G) false = true \/ row (pG P) k = 0%nat \/ row (pG P) k = (ny (pG P) - 1)%nat).
Proof. exact p_C13_undeclared_walls_refuted. Qed.
Print Assumptions C13_undeclared_walls_refuted.

Theorem C13_tension_refuted :
  exists G G', ex_grid rub_bounds (repeat (mkV3 1%Q 1%Q 0%Q) 12) = Ok G /\
    update_momentum (ex_params rub_bounds) G = Ok G' /\
    nth 2 (bh G) false = false /\
    nth 2 (gfe G) v0 = mkV3 1%Q 1%Q 0%Q /\ nth 2 (gqd G') v0 = mkV3 (1#2)%Q 0%Q 0%Q.
Proof. exact p_C13_tension_refuted. Qed.
Print Assumptions C13_tension_refuted.

Example C13_friction_opposes_partial_example :
  rubs (ex_bounds <| roughness := true |> <| wall_mu := Some (1/2) |>) (1/2) /\ 0 <= 1/2 /\
  coulomb (1/2) 3 2 = 2 /\ coulomb (1/2) (-1/2) 2 = 0.
Proof. exact x_C13_friction_opposes_partial. Qed.

Theorem C15_nodal_volume : forall P B G, proper P -> grid_init P B = Ok G ->
  forall k, (k < nx P * ny P)%nat ->
  nth k (gV G) 0 = cell_w P * cell_h P * thickness P *
    (edge_weight (ny P) (row P k) * (if cyclic_lr B then 1 else edge_weight (nx P) (col P k))).
Proof. exact p_C15_nodal_volume. Qed.
Print Assumptions C15_nodal_volume.

(** Instance: C15_nodal_volume_example in PropsCases.v. *)

Theorem C15_volumes_tile : forall P B G, proper P -> grid_init P B = Ok G -> cyclic_lr B = false ->
  fsum (nx P * ny P) (fun k => nth k (gV G) 0) = (x_M P - x_m P) * (y_M P - y_m P) * thickness P.
Proof. exact p_C15_volumes_tile. Qed.
Print Assumptions C15_volumes_tile.

(** With cyclic boundaries the coincident left and right columns both carry the
    full weight: the volumes add up to one column more than the domain. *)
Theorem C15_volumes_cyclic : forall P B G, proper P -> grid_init P B = Ok G -> cyclic_lr B = true ->
  fsum (nx P * ny P) (fun k => nth k (gV G) 0) =
    ((x_M P - x_m P) + cell_w P) * (y_M P - y_m P) * thickness P /\
  (forall r c, (r < ny P)%nat -> (c < nx P)%nat ->
     nth (r * nx P + c) (gV G) 0 = nth (r * nx P) (gV G) 0).
Proof. exact p_C15_volumes_cyclic. Qed.
Print Assumptions C15_volumes_cyclic.

(** Instance: C15_volumes_cyclic_example in PropsCases.v. *)

Theorem C15_volumes_positive : forall P B G, proper P -> grid_init P B = Ok G -> 0 < thickness P ->
  length (gV G) = (nx P * ny P)%nat /\ forall k, (k < nx P * ny P)%nat -> 0 < nth k (gV G) 0.
Proof. exact p_C15_volumes_positive. Qed.
Print Assumptions C15_volumes_positive.

(** Instance: C15_volumes_positive_example in PropsCases.v. *)

Example C15_volumes_tile_example : proper (ex_gridp : gridp R) /\ cyclic_lr (ex_box : bounds R) = false /\
  exists G, grid_init ex_gridp (ex_box : bounds R) = Ok G.
Proof. exact x_C15_volumes_tile. Qed.

(** Inward loads on opposite sides, proportional to nodal mass, nothing else. *)
Theorem C49_surface_loads : forall P rho G G', sized (pG P) G -> proper (pG P) ->
  (forall k, nth k (gext G) v0 = v0) -> BCs P rho G = Ok G' ->
  forall k, (k < nx (pG P) * ny (pG P))%nat ->
  let m := nth k (gm G) 0 in
  vx (nth k (gfe G') v0) = vx (nth k (gfe G) v0) +
    (if horizontal_force (pB P) then 2 * push (nx (pG P)) (col (pG P) k) (ld_qh (p_loads P)) * m / rho / gdx G else 0) /\
  vy (nth k (gfe G') v0) = vy (nth k (gfe G) v0) +
    (if vertical_force (pB P) then 2 * push (ny (pG P)) (row (pG P) k) (ld_qv (p_loads P)) * m / rho / gdy G else 0) /\
  vz (nth k (gfe G') v0) = vz (nth k (gfe G) v0).
Proof. exact p_C49_surface_loads. Qed.
Print Assumptions C49_surface_loads.

(** The resultant of the loads. *)
Theorem C49_load_resultant : forall P rho G G', sized (pG P) G -> proper (pG P) ->
  (forall k, nth k (gext G) v0 = v0) -> BCs P rho G = Ok G' -> rho <> 0 -> gdx G <> 0 -> gdy G <> 0 ->
  let n := (nx (pG P) * ny (pG P))%nat in
  fsum n (fun k => vx (nth k (gfe G') v0)) - fsum n (fun k => vx (nth k (gfe G) v0)) =
    (if horizontal_force (pB P) then 2 * ld_qh (p_loads P) / (rho * gdx G) *
       (col_mass (pG P) G 0 - col_mass (pG P) G (nx (pG P) - 1)) else 0) /\
  fsum n (fun k => vy (nth k (gfe G') v0)) - fsum n (fun k => vy (nth k (gfe G) v0)) =
    (if vertical_force (pB P) then 2 * ld_qv (p_loads P) / (rho * gdy G) *
       (row_mass (pG P) G 0 - row_mass (pG P) G (ny (pG P) - 1)) else 0).
Proof. exact p_C49_load_resultant. Qed.
Print Assumptions C49_load_resultant.

(** Instance: C49_load_resultant_example in PropsInst.v. *)

Example C49_surface_loads_example :
  let B : bounds Q := ex_bounds <| vertical_force := true |> in
  let P : params Q := ex_params B <| p_loads := mkLoads 0%Q 0%Q 3%Q 0%Q |> in
  match grid_init ex_gridp B with
  | Ok G => match BCs P 2%Q (wipe P G <| gm := repeat 1%Q 12 |>) with
            | Ok G' => map vy (gfe G') = [3;3;3;3;0;0;0;0;-3;-3;-3;-3]%Q
            | Err _ => False end
  | Err _ => False end.
Proof. exact x_C49_surface_loads. Qed.

Theorem C50_conveyor : forall P B G0 G G' w, grid_init (pG P) B = Ok G0 -> conveyor B = true ->
  pB P = B -> bconv G = bconv G0 -> sized (pG P) G -> p_v0 P = Some w -> update_momentum P G = Ok G' ->
  forall k, (k < nx (pG P) * ny (pG P))%nat ->
  ((2 <= k < nx (pG P) - 2)%nat -> vx (nth k (gq G') v0) = w * nth k (gm G) 0) /\
  (~ (2 <= k < nx (pG P) - 2)%nat -> vx (nth k (gq G') v0) = vx (nth k (gq G) v0) + p_dt P * vx (nth k (gqd G') v0)) /\
  vy (nth k (gq G') v0) = vy (nth k (gq G) v0) + p_dt P * vy (nth k (gqd G') v0) /\
  vz (nth k (gq G') v0) = vz (nth k (gq G) v0) + p_dt P * vz (nth k (gqd G') v0).
Proof. exact p_C50_conveyor. Qed.
Print Assumptions C50_conveyor.

Example C50_conveyor_example :
  let B : bounds Q := ex_bounds <| conveyor := true |> in
  let P : params Q := ex_params B <| p_v0 := Some 3%Q |> <| pG := mkGridp 0%Q 5%Q 0%Q 2%Q 6 3 None None 1%Q 1 [1%Q] None None |> in
  match grid_init (pG P) B with
  | Ok G => match update_momentum P (wipe P G <| gm := repeat 2%Q 18 |>) with
            | Ok G' => firstn 7 (map vx (gq G')) = [0; 0; 6; 6; 0; 0; 0]%Q
            | Err _ => False end
  | Err _ => False end.
Proof. exact x_C50_conveyor. Qed.
