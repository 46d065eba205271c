(** Comparisons of a colour with a number and the named colours. *)
From Coq Require Import ZArith Bool List Ascii String Lia.
From Verif.Model Require Import Outcome Hex Color ColorLinear.
From Verif.Spec Require Import ColorSpec LinearSpec.
Import ListNotations.
Local Open Scope Z_scope.

Ltac colorcmp c := destruct c as [r g b a]; unfold allChannels, channels, colorEqN, colorNeN, colorLtN, colorGtN, colorLeN, colorGeN,
    nEqColor, nNeColor, nLtColor, nGtColor, nLeColor, nGeColor, colorEq, colorNe, colorLt, colorGt, colorLe, colorGe, colorAll, cr, cg, cb, ca;
  rewrite !Forall_cons_iff; repeat (rewrite ?andb_true_iff, ?orb_true_iff, ?negb_true_iff, ?Z.eqb_eq, ?Z.eqb_neq, ?Z.ltb_lt, ?Z.leb_le, ?Z.gtb_lt, ?Z.geb_le);
  assert (N : forall P, Forall P (@nil Z)) by (intros; constructor); 
  repeat split; intros; repeat match goal with H : _ /\ _ |- _ => destruct H end; repeat split; try apply N; try lia.
Lemma compare_number : forall c n,
  (colorEqN c n = true <-> allChannels (fun x => x = n) c) /\ (colorNeN c n = true <-> ~ allChannels (fun x => x = n) c) /\
  (colorLtN c n = true <-> allChannels (fun x => x < n) c) /\ (colorGtN c n = true <-> allChannels (fun x => x > n) c) /\
  (colorLeN c n = true <-> allChannels (fun x => x <= n) c) /\ (colorGeN c n = true <-> allChannels (fun x => x >= n) c).
Proof. intros c n. colorcmp c. destruct (Z.eq_dec r n), (Z.eq_dec g n), (Z.eq_dec b n), (Z.eq_dec a n); try tauto. exfalso. apply H. repeat split; try assumption. apply N. Qed.
Lemma number_compare : forall c n,
  (nEqColor n c = true <-> allChannels (fun x => n = x) c) /\ (nNeColor n c = true <-> ~ allChannels (fun x => n = x) c) /\
  (nLtColor n c = true <-> allChannels (fun x => n < x) c) /\ (nGtColor n c = true <-> allChannels (fun x => n > x) c) /\
  (nLeColor n c = true <-> allChannels (fun x => n <= x) c) /\ (nGeColor n c = true <-> allChannels (fun x => n >= x) c).
Proof. intros c n. colorcmp c. destruct (Z.eq_dec n r), (Z.eq_dec n g), (Z.eq_dec n b), (Z.eq_dec n a); try tauto. exfalso. apply H. repeat split; try assumption. apply N. Qed.
Lemma named_colors : map toHex4 [white; black; grey; transparent; red; green; blue; cyan; magenta; yellow] =
  map (fun s => Ok (list_ascii_of_string s)) ["FFFFFFFF"; "000000FF"; "7F7F7FFF"; "00000000"; "FF0000FF";
    "00FF00FF"; "0000FFFF"; "00FFFFFF"; "FF00FFFF"; "FFFF00FF"]%string.
Proof. vm_compute. reflexivity. Qed.
