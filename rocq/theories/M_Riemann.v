(** * Model of aerokit/instance/riemann.py *)
From Verif Require Import Num M_Isentropic M_MassFlow M_ShockWave M_Model1D M_Unsteady1D.
Open Scope num_scope.

(** riemann.py:31-48, the attributes after construction *)
Record riemann := mk_riemann {
  r_qL : state; r_qR : state; r_pstar : num; r_ustar : num;
  r_qsL : state; r_qsR : state;
  r_w0 : num; r_w1 : num; r_w2 : num; r_w3 : num; r_w4 : num }.

(** riemann.py:148-154, 156-162: one side's velocity change *)
Definition delta_uK (q : state) (p : num) : num :=
  nif (p >? st_p q) (delta_u_shock q p) (delta_u_expansion q p).
(** riemann.py:164-165 *)
Definition ustar_from_pstar (qL qR : state) (p : num) : num :=
  #(1/2) * (st_u qR + st_u qL + delta_uK qR p - delta_uK qL p).
(** riemann.py:167-180 *)
Definition pstar_estimate_expansion (qL qR : state) : num :=
  let gam := #(1/2) * (st_g qL + st_g qR) in
  let gmusd := #(1/2) * (gam - #1) in
  ((asound qL + asound qR - gmusd * (st_u qR - st_u qL))
   / (asound qL / st_p qL ** (gmusd / gam) + asound qR / st_p qR ** (gmusd / gam))) ** (gam / gmusd).
(** riemann.py:183-184, the function given to the root finder *)
Definition riemann_du (qL qR : state) (p : num) : num :=
  delta_uK qL p + delta_uK qR p + st_u qR - st_u qL.

(** riemann.py:51-61 and 64-74: star state and the two wave speeds of one side;
    the waves are (outer, inner). [side] is -1 on the left, +1 on the right. *)
Definition star_side (side : R) (q : state) (pstar ustar : num) : option (state * num * num) :=
  nif (pstar >? st_p q)
    (let rho := rho_through_shock q pstar in
     let wsh := (massflow q - rho * ustar) / (st_rho q - rho) in
     Some (state_init rho ustar pstar (Some (st_g q)), wsh, wsh))
    (let rho := rho_through_isentropic q pstar in
     let qs := state_init rho ustar pstar (Some (st_g q)) in
     Some (qs, st_u q + #side * asound q, ustar + #side * asound qs)).

(** riemann.py:41-74 with riemann.py:182-187; [newton] is scipy.optimize.newton.
    [None]: a comparison met a nan. The written code subtracts/adds the sound speed; here
    [u + (-1)*a] stands for [u - a]. *)
Definition riemann_pb (newton : solver) (qL0 qR0 : state) : option riemann :=
  let qL := uq_copy qL0 in
  let qR := uq_copy qR0 in
  let pstar := newton (riemann_du qL qR) (pstar_estimate_expansion qL qR) in
  let ustar := ustar_from_pstar qL qR pstar in
  match star_side (-1) qL pstar ustar, star_side 1 qR pstar ustar with
  | Some (qsL, w0, w1), Some (qsR, w4, w3) =>
      Some (mk_riemann qL qR pstar ustar qsL qsR w0 w1 ustar w3 w4)
  | _, _ => None end.

(** riemann.py:87-128, at one abscissa [xot]: the successive masked assignments.
    A state is carried as (rho, u, p). *)
Definition tri := (num * num * num)%type.
Definition tri_of (q : state) : tri := (st_rho q, st_u q, st_p q).
Definition andb3 (a b : option bool) : option bool :=
  match a, b with Some x, Some y => Some (andb x y) | _, _ => None end.
(** riemann.py:113-118 *)
Definition fan_left (q : state) (x : num) : tri :=
  let gam := st_g q in let gp1 := gam + #1 in let gm1 := gam - #1 in
  let u := gm1 / gp1 * (st_u q + #2 / gm1 * (asound q + x)) in
  let p := st_p q * ((u - x) / asound q) ** (#2 * gam / gm1) in
  (rho_through_isentropic q p, u, p).
(** riemann.py:122-127 *)
Definition fan_right (q : state) (x : num) : tri :=
  let gam := st_g q in let gp1 := gam + #1 in let gm1 := gam - #1 in
  let u := gm1 / gp1 * (st_u q + #2 / gm1 * (- asound q + x)) in
  let p := st_p q * ((x - u) / asound q) ** (#2 * gam / gm1) in
  (rho_through_isentropic q p, u, p).
Definition assign_if (c : option bool) (v cur : tri) : option tri := nif c (Some v) (Some cur).
Definition qsol (S : riemann) (xot : num) : option state :=
  let x := xot in
  let bindt (o : option tri) (k : tri -> option tri) := match o with Some t => k t | None => None end in
  let t0 := tri_of (r_qL S) in
  let r :=
    bindt (assign_if (andb3 (x >=? r_w1 S) (x <? r_w2 S)) (tri_of (r_qsL S)) t0) (fun t1 =>
    bindt (assign_if (andb3 (x >=? r_w2 S) (x <? r_w3 S)) (tri_of (r_qsR S)) t1) (fun t2 =>
    bindt (assign_if (x >=? r_w4 S) (tri_of (r_qR S)) t2) (fun t3 =>
    bindt (nif (r_pstar S <? st_p (r_qL S))
             (assign_if (andb3 (x >? r_w0 S) (x <? r_w1 S)) (fan_left (r_qL S) x) t3) (Some t3)) (fun t4 =>
           nif (r_pstar S <? st_p (r_qR S))
             (assign_if (andb3 (x >? r_w3 S) (x <? r_w4 S)) (fan_right (r_qR S) x) t4) (Some t4))))) in
  match r, x <? #0 with
  | Some (rho, u, p), Some neg =>
      Some (state_init rho u p (Some (if neg then st_g (r_qL S) else st_g (r_qR S))))
  | _, _ => None end.

(** riemann.py:130-134 *)
Definition left_fastest (S : riemann) : num := r_w0 S.
Definition right_fastest (S : riemann) : num := r_w4 S.
