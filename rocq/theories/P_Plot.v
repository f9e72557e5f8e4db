(** Properties C67 and C73: colours of the figures. *)
From Coq Require Import Lia.
From Verif Require Import M_Base M_Plot M_Tables M_Area M_Eddy M_Detect S_Tracking S_Levels S_Detect P_Detect.
Open Scope string_scope.

(** What the labels of the legend stand for. *)
Definition label_for (reason : string) : option string :=
  if String.eqb reason "area" then Some "Area fail" else if String.eqb reason "ellipse_area" then Some "Ellipse area fail"
  else if String.eqb reason "eccentricity" then Some "Fail eccentricity" else if String.eqb reason "similarity" then Some "Contour != ellipse"
  else if String.eqb reason "eddy_is_island" then Some "Eddy is island" else if String.eqb reason "gaussian_fit_failed" then Some "Gaussian fit failed"
  else if String.eqb reason "gaussian_check" then Some "Contour != Gaussian" else None.

(** C67: every reason for which the detection discards a contour has one legend entry, in the colour of the contour. *)
Theorem C67_colour_of_reason s c reason : is_rejected s c reason ->
  exists label, label_for reason = Some label /\ In (label, marker_colour reason) legend /\
    (forall colour, In (label, colour) legend -> colour = marker_colour reason) /\ (forall l, In (l, marker_colour reason) legend -> l = label).
Proof.
  intros [_ [pre [post [E _]]]].
  assert (I : In reason ["area"; "ellipse_area"; "eccentricity"; "similarity"; "eddy_is_island"; "gaussian_fit_failed"; "gaussian_check"]).
  { assert (J : In reason (map fst (app pre (cons (reason, Ok false) post)))) by (rewrite map_app; apply in_or_app; right; left; reflexivity).
    rewrite <- E in J. unfold checks in J. destruct (s_skip s); cbn [app map fst In] in J; cbn [In]; tauto. }
  cbn [In] in I. destruct I as [<-|[<-|[<-|[<-|[<-|[<-|[<-|[]]]]]]]]; (eexists; split; [reflexivity|]; split; [cbn; tauto|]; split; cbn; intros z H;
    repeat (destruct H as [H|H]; [injection H as; congruence|]); destruct H).
Qed.
Print Assumptions C67_colour_of_reason.
Example C67_example : is_rejected (demo false) south "area".
Proof.
  split.
  - intros [p [rest [E [H _]]]]. injection E as <- <-. vm_compute in H. apply H. reflexivity.
  - exists []. eexists. split; [|intros nb []]. unfold checks. cbn [app]. f_equal.
Qed.

Open Scope nat_scope.
(** C73 fails: with two, three or four levels the second entry of the legend has a colour that no contour of that level is drawn in (949 names of colours). *)
Theorem C73_refuted n : 2 <= n < 5 -> legend_colour n 1 = Some 1 /\ level_colour 949 n 1 <> 1.
Proof. intro H. assert (C : n = 2 \/ n = 3 \/ n = 4) by lia. destruct C as [->|[->| ->]]; (split; [reflexivity|]); intro E; apply (f_equal Z.of_nat) in E; vm_compute in E; discriminate. Qed.
Print Assumptions C73_refuted.
(** The lowest level is shown in its own colour, and different levels are drawn in different colours if there are enough names. *)
Theorem C73_first_partial ncolours n : n < 5 -> 0 < n -> legend_colour n 0 = Some (level_colour ncolours n 0).
Proof. intros H P. unfold legend_colour, level_colour, colour_index. rewrite (proj2 (Nat.ltb_lt n 5) H), (proj2 (Nat.ltb_lt 0 n) P), Nat.mul_0_r. destruct (Nat.eqb_spec n 1); [reflexivity|]. rewrite Nat.div_0_l by lia. reflexivity. Qed.
Print Assumptions C73_first_partial.
Theorem C73_levels_apart_partial ncolours n k k' : n <= ncolours -> k < k' < n -> level_colour ncolours n k < level_colour ncolours n k' <= ncolours - 1.
Proof.
  intros H K. unfold level_colour, colour_index. destruct (Nat.eqb_spec n 1) as [->|N]; [lia|]. split.
  - assert (A : (ncolours - 1) * k / (n - 1) + 1 <= (ncolours - 1) * k' / (n - 1)); [|lia]. rewrite <- Nat.div_add by lia. apply Nat.div_le_mono; [lia|]. nia.
  - apply Nat.div_le_upper_bound; [lia|]. nia.
Qed.
Print Assumptions C73_levels_apart_partial.
