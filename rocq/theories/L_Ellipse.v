From Coq Require Import Reals Lra Lia Psatz.
From Verif Require Import M_Base M_Gauss M_Ellipse S_Ellipse.
Open Scope R_scope.

Lemma trig1 t : cos t ^ 2 + sin t ^ 2 = 1.
Proof. rewrite <- !Rsqr_pow2, Rplus_comm. apply sin2_cos2. Qed.
Lemma sqp x : 0 <= x ^ 2. Proof. apply pow2_ge_0. Qed.
Lemma sqpl x : x <> 0 -> 0 < x ^ 2. Proof. intro H. rewrite <- Rsqr_pow2. apply Rlt_0_sqr, H. Qed.
Lemma sq_zero x : x ^ 2 = 0 -> x = 0. Proof. intro H. rewrite <- Rsqr_pow2 in H. apply Rsqr_0_uniq, H. Qed.

(** *** turning *)
Definition steep (a b c : R) : Prop := tolerance < Rabs (b / a) /\ tolerance < Rabs (b / c).
Lemma tilted_steep a b c : a <> 0 -> c <> 0 -> (tilted a b c = true <-> steep a b c).
Proof.
  intros Ha Hc. unfold tilted, abs_div, steep, py_min. destruct (Req_EM_T a 0); [contradiction|]. destruct (Req_EM_T c 0); [contradiction|]. cbn [ext_lt].
  destruct (Rlt_dec (Rabs (b / c)) (Rabs (b / a))); cbn [ext_lt]; destruct (Rlt_dec tolerance _); split; intro H; try discriminate; try reflexivity; try (split; lra); exfalso; lra.
Qed.
Lemma tilted_b a b c : tilted a b c = true -> b <> 0.
Proof.
  intros H ->. unfold tilted, abs_div, py_min in H. assert (T : 0 < tolerance) by (unfold tolerance; lra).
  destruct (Req_EM_T 0 0) as [_|N]; [|lra]. destruct (Req_EM_T a 0), (Req_EM_T c 0); cbn [ext_lt] in H; try discriminate.
  - unfold Rdiv in H. rewrite Rmult_0_l, Rabs_R0 in H. cbn [ext_lt] in H. destruct (Rlt_dec tolerance 0); [lra|discriminate].
  - unfold Rdiv in H. rewrite !Rmult_0_l, Rabs_R0 in H. destruct (Rlt_dec 0 0); [lra|]. cbn [ext_lt] in H. destruct (Rlt_dec tolerance 0); [lra|discriminate].
Qed.
Lemma cross_zero a b c : tilted a b c = true \/ b = 0 -> 2 * (a - c) * cos (orientation a b c) * sin (orientation a b c) + b * (cos (orientation a b c) ^ 2 - sin (orientation a b c) ^ 2) = 0.
Proof.
  intro H. unfold orientation. destruct (tilted a b c) eqn:E.
  - set (psi := if Req_EM_T (c - a) 0 then if Rlt_dec 0 b then PI / 2 else - (PI / 2) else atan (b / (c - a))).
    assert (D : 2 * (1 / 2 * psi) = psi) by field.
    transitivity ((a - c) * sin (2 * (1 / 2 * psi)) + b * cos (2 * (1 / 2 * psi))); [rewrite sin_2a, cos_2a; ring|]. rewrite D. unfold psi. clear psi D.
    destruct (Req_EM_T (c - a) 0) as [N|N].
    + replace (a - c) with 0 by lra. destruct (Rlt_dec 0 b); [rewrite cos_PI2; ring|rewrite cos_neg, cos_PI2; ring].
    + rewrite sin_atan, cos_atan. assert (0 < sqrt (1 + (b / (c - a))²)) by (apply sqrt_lt_R0; pose proof (Rle_0_sqr (b / (c - a))); lra). field. split; lra.
  - destruct H as [H|H]; [discriminate|]. rewrite H, sin_0. ring.
Qed.
(** What [turned] returns when the tilt is taken into account or there is none. *)
Record turning (a b c d e mx my cs sn a1 c1 d1 e1 mx1 my1 : R) : Prop := {
  tu_cs : cs = cos (orientation a b c); tu_sn : sn = sin (orientation a b c);
  tu_1 : cs ^ 2 + sn ^ 2 = 1; tu_cross : 2 * (a - c) * cs * sn + b * (cs ^ 2 - sn ^ 2) = 0;
  tu_a : a1 = a * cs ^ 2 - b * cs * sn + c * sn ^ 2; tu_c : c1 = a * sn ^ 2 + b * cs * sn + c * cs ^ 2;
  tu_d : d1 = d * cs - e * sn; tu_e : e1 = d * sn + e * cs; tu_mx : mx1 = cs * mx - sn * my; tu_my : my1 = sn * mx + cs * my }.
Lemma turned_ok a b c d e mx my : tilted a b c = true \/ b = 0 ->
  exists cs sn a1 c1 d1 e1 mx1 my1, turned a b c d e mx my = (a1, c1, d1, e1, mx1, my1) /\ turning a b c d e mx my cs sn a1 c1 d1 e1 mx1 my1.
Proof.
  intro H. pose proof (cross_zero a b c H) as X. exists (cos (orientation a b c)), (sin (orientation a b c)). unfold turned. destruct (tilted a b c) eqn:E.
  - do 6 eexists. split; [reflexivity|]. constructor; try reflexivity; [apply trig1|exact X].
  - destruct H as [H|H]; [discriminate|]. assert (O : orientation a b c = 0) by (unfold orientation; rewrite E; reflexivity).
    do 6 eexists. split; [reflexivity|]. rewrite O, cos_0, sin_0, H in *. constructor; rewrite ?O, ?cos_0, ?sin_0; try reflexivity; try ring.
Qed.
(** Invariants of the rotation. *)
Section Turning.
Context {a b c d e mx my cs sn a1 c1 d1 e1 mx1 my1 : R} (T : turning a b c d e mx my cs sn a1 c1 d1 e1 mx1 my1).
Lemma turn_trace : a1 + c1 = a + c.
Proof. destruct T as [_ _ U X Ea Ec Ed Ee Emx Emy]. subst a1 c1. transitivity ((a + c) * (cs ^ 2 + sn ^ 2)); [ring|rewrite U; ring]. Qed.
Lemma turn_det : 4 * a1 * c1 = 4 * a * c - b ^ 2.
Proof.
  destruct T as [_ _ U X Ea Ec Ed Ee Emx Emy]. subst a1 c1.
  transitivity ((4 * a * c - b ^ 2) * (cs ^ 2 + sn ^ 2) ^ 2 + (2 * (a - c) * cs * sn + b * (cs ^ 2 - sn ^ 2)) ^ 2); [ring|rewrite U, X; ring].
Qed.
Lemma turn_adj : d1 ^ 2 * c1 + e1 ^ 2 * a1 = c * d ^ 2 - b * d * e + a * e ^ 2.
Proof.
  destruct T as [_ _ U X Ea Ec Ed Ee Emx Emy]. subst a1 c1 d1 e1.
  transitivity ((c * d ^ 2 - b * d * e + a * e ^ 2) * (cs ^ 2 + sn ^ 2) ^ 2 +
    (2 * (a - c) * cs * sn + b * (cs ^ 2 - sn ^ 2)) * (cs * sn * (d ^ 2 - e ^ 2) + (cs ^ 2 - sn ^ 2) * d * e)); [ring|rewrite U, X; ring].
Qed.
Lemma turn_quad x y : a * x ^ 2 + b * x * y + c * y ^ 2 = a1 * (cs * x - sn * y) ^ 2 + c1 * (sn * x + cs * y) ^ 2.
Proof.
  destruct T as [_ _ U X Ea Ec Ed Ee Emx Emy]. subst a1 c1.
  transitivity ((a * x ^ 2 + b * x * y + c * y ^ 2) * (cs ^ 2 + sn ^ 2) ^ 2); [rewrite U; ring|].
  match goal with |- ?l = ?r => assert (Z : l - r = (2 * (a - c) * cs * sn + b * (cs ^ 2 - sn ^ 2)) * (cs * sn * (x ^ 2 - y ^ 2) + (cs ^ 2 - sn ^ 2) * x * y)) by ring end.
  rewrite X in Z. lra.
Qed.
Lemma turn_lin x y : d * x + e * y = d1 * (cs * x - sn * y) + e1 * (sn * x + cs * y).
Proof. destruct T as [_ _ U X Ea Ec Ed Ee Emx Emy]. subst d1 e1. transitivity ((d * x + e * y) * (cs ^ 2 + sn ^ 2)); [rewrite U; ring|ring]. Qed.
Lemma turn_conic x y : on_conic a b c d e mx my (x, y) <->
  a1 * (cs * x - sn * y - mx1) ^ 2 + c1 * (sn * x + cs * y - my1) ^ 2 + d1 * (cs * x - sn * y - mx1) + e1 * (sn * x + cs * y - my1) = 1.
Proof.
  unfold on_conic. cbn [fst snd]. pose proof (turn_quad (x - mx) (y - my)) as Q. pose proof (turn_lin (x - mx) (y - my)) as L. rewrite Q, Rplus_assoc, L.
  destruct T as [_ _ U X Ea Ec Ed Ee Emx Emy]. subst mx1 my1. replace (cs * (x - mx) - sn * (y - my)) with (cs * x - sn * y - (cs * mx - sn * my)) by ring.
  replace (sn * (x - mx) + cs * (y - my)) with (sn * x + cs * y - (sn * mx + cs * my)) by ring. rewrite !Rplus_assoc. reflexivity.
Qed.
Lemma turn_pos : 0 < a -> b ^ 2 < 4 * a * c -> 0 < a1 /\ 0 < c1.
Proof.
  intros Ha Hd. pose proof turn_trace as S. pose proof turn_det as P. assert (0 < c) by nra. assert (PP : 0 < a1 * c1) by lra.
  destruct (Rle_lt_dec a1 0) as [N|N]; [exfalso|split; [exact N|nra]]. assert (c1 < 0 \/ 0 <= c1) as [Q|Q] by lra; nra.
Qed.
End Turning.

Definition Fof (a1 c1 d1 e1 : R) : R := 1 + d1 ^ 2 / (4 * a1) + e1 ^ 2 / (4 * c1).
Lemma F_ge_1 a1 c1 d1 e1 : 0 < a1 -> 0 < c1 -> 1 <= Fof a1 c1 d1 e1.
Proof.
  intros Ha Hc. unfold Fof. assert (0 <= d1 ^ 2 / (4 * a1)) by (apply Rmult_le_pos; [apply sqp|left; apply Rinv_0_lt_compat; lra]).
  assert (0 <= e1 ^ 2 / (4 * c1)) by (apply Rmult_le_pos; [apply sqp|left; apply Rinv_0_lt_compat; lra]). lra.
Qed.
Lemma fit_from_eval a b c d e mx my n cs sn a1 c1 d1 e1 mx1 my1 :
  turned a b c d e mx my = (a1, c1, d1, e1, mx1, my1) -> cs = cos (orientation a b c) -> sn = sin (orientation a b c) ->
  fit_from a b c d e mx my n = if Req_EM_T a1 0 then None else if Req_EM_T c1 0 then None else
    Some (mkFit (map (fun t => (cs * (mx1 - d1 / 2 / a1 + sqrt (Rabs (Fof a1 c1 d1 e1 / a1)) * cos t) + sn * (my1 - e1 / 2 / c1 + sqrt (Rabs (Fof a1 c1 d1 e1 / c1)) * sin t),
                                - sn * (mx1 - d1 / 2 / a1 + sqrt (Rabs (Fof a1 c1 d1 e1 / a1)) * cos t) + cs * (my1 - e1 / 2 / c1 + sqrt (Rabs (Fof a1 c1 d1 e1 / c1)) * sin t))) (linspace_2pi n))
      (Rmax (sqrt (Rabs (Fof a1 c1 d1 e1 / a1))) (sqrt (Rabs (Fof a1 c1 d1 e1 / c1))))
      (Rmin (sqrt (Rabs (Fof a1 c1 d1 e1 / a1))) (sqrt (Rabs (Fof a1 c1 d1 e1 / c1)))) (angle_x_axis a b c)).
Proof. intros E Hc Hs. unfold fit_from. rewrite E, Hc, Hs. reflexivity. Qed.
(** Returned points lie on the fitted conic when it is an ellipse. *)
Lemma points_on_conic a b c d e mx my n f : tilted a b c = true \/ b = 0 -> 0 < a -> b ^ 2 < 4 * a * c -> fit_from a b c d e mx my n = Some f ->
  forall z, In z (f_points f) -> on_conic a b c d e mx my z.
Proof.
  intros HT Ha Hd E z Hz. destruct (turned_ok a b c d e mx my HT) as [cs [sn [a1 [c1 [d1 [e1 [mx1 [my1 [Et T]]]]]]]]].
  destruct (turn_pos T Ha Hd) as [Pa Pc]. rewrite (fit_from_eval _ _ _ _ _ _ _ n _ _ _ _ _ _ _ _ Et (tu_cs _ _ _ _ _ _ _ _ _ _ _ _ _ _ _ T) (tu_sn _ _ _ _ _ _ _ _ _ _ _ _ _ _ _ T)) in E.
  destruct (Req_EM_T a1 0); [lra|]. destruct (Req_EM_T c1 0); [lra|]. injection E as <-. cbn [f_points] in Hz. apply in_map_iff in Hz as [t [<- _]].
  set (F := Fof a1 c1 d1 e1). pose proof (F_ge_1 a1 c1 d1 e1 Pa Pc) as HF. fold F in HF.
  set (p := sqrt (Rabs (F / a1))). set (q := sqrt (Rabs (F / c1))).
  assert (Ep : p ^ 2 = F / a1). { unfold p. rewrite <- Rsqr_pow2, Rsqr_sqrt by apply Rabs_pos. apply Rabs_right. left. apply Rdiv_lt_0_compat; lra. }
  assert (Eq : q ^ 2 = F / c1). { unfold q. rewrite <- Rsqr_pow2, Rsqr_sqrt by apply Rabs_pos. apply Rabs_right. left. apply Rdiv_lt_0_compat; lra. }
  apply (turn_conic T). pose proof (tu_1 _ _ _ _ _ _ _ _ _ _ _ _ _ _ _ T) as U.
  set (ex := mx1 - d1 / 2 / a1 + p * cos t). set (ey := my1 - e1 / 2 / c1 + q * sin t).
  replace (cs * (cs * ex + sn * ey) - sn * (- sn * ex + cs * ey)) with ex by (transitivity (ex * (cs ^ 2 + sn ^ 2)); [rewrite U; ring|ring]).
  replace (sn * (cs * ex + sn * ey) + cs * (- sn * ex + cs * ey)) with ey by (transitivity (ey * (cs ^ 2 + sn ^ 2)); [rewrite U; ring|ring]).
  unfold ex, ey.
  transitivity (a1 * p ^ 2 * cos t ^ 2 + c1 * q ^ 2 * sin t ^ 2 - d1 ^ 2 / (4 * a1) - e1 ^ 2 / (4 * c1)); [field; lra|].
  rewrite Ep, Eq. transitivity (F * (cos t ^ 2 + sin t ^ 2) - d1 ^ 2 / (4 * a1) - e1 ^ 2 / (4 * c1)); [field; lra|]. rewrite trig1. unfold F, Fof. ring.
Qed.
Lemma fit_some a b c d e mx my n : tilted a b c = true \/ b = 0 -> 0 < a -> b ^ 2 < 4 * a * c -> exists f, fit_from a b c d e mx my n = Some f.
Proof.
  intros HT Ha Hd. destruct (turned_ok a b c d e mx my HT) as [cs [sn [a1 [c1 [d1 [e1 [mx1 [my1 [Et T]]]]]]]]].
  destruct (turn_pos T Ha Hd) as [Pa Pc]. rewrite (fit_from_eval _ _ _ _ _ _ _ n _ _ _ _ _ _ _ _ Et (tu_cs _ _ _ _ _ _ _ _ _ _ _ _ _ _ _ T) (tu_sn _ _ _ _ _ _ _ _ _ _ _ _ _ _ _ T)).
  destruct (Req_EM_T a1 0); [lra|]. destruct (Req_EM_T c1 0); [lra|]. eexists. reflexivity.
Qed.
