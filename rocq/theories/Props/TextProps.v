(** C61 - C65, C85, C114: hexadecimal text, versions, flags and packed vectors. *)
From Coq Require Import ZArith List Bool Lia Ascii String.
From Verif.Model Require Import Outcome Hex Version Flags Packed.
From Verif.Spec Require Import OrderSpec HexSpec VersionSpec FlagsSpec PackedSpec.
From Verif.Proofs Require Import HexProofs VersionProofs FlagsProofs PackedProofs TextMore PackedHistory.
Import ListNotations.
Local Open Scope Z_scope.

(** ** C61 *)
Theorem C61_toHex_digits : forall w v k, 0 < w -> 4 * Z.of_nat k <= w + 3 ->
  exists s, toHex w v k = Ok s /\ List.length s = k /\
            forall x, denotes s x <-> x = v mod 16 ^ Z.of_nat k.
Proof. exact toHex_correct. Qed.
Print Assumptions C61_toHex_digits.
Example C61_toHex_digits_ex :
  toHex 32 3735928559 8 = Ok (list_ascii_of_string "DEADBEEF") /\ 4 * Z.of_nat 8 <= 32 + 3.
Proof. split; [vm_compute; reflexivity | cbn; lia]. Qed.

Theorem C61_toHex_too_long_UB : forall w v k, (0 < k)%nat -> w <= 4 * (Z.of_nat k - 1) ->
  toHex w v k = UB.
Proof. exact toHex_UB. Qed.
Print Assumptions C61_toHex_too_long_UB.
Example C61_toHex_too_long_UB_ex : toHex 32 1 9 = UB.
Proof. reflexivity. Qed.

Theorem C61_roundtrip32 : forall ulbits v, (ulbits = 32 \/ ulbits = 64) -> 0 <= v < 2 ^ 32 ->
  exists s, toHex 32 v 8 = Ok s /\ List.length s = 8%nat /\ toInt32 ulbits s = Ok v.
Proof. exact hex_roundtrip32. Qed.
Print Assumptions C61_roundtrip32.
Example C61_roundtrip32_ex :
  toHex 32 4042322160 8 = Ok (list_ascii_of_string "F0F0F0F0") /\
  toInt32 64 (list_ascii_of_string "F0F0F0F0") = Ok 4042322160.
Proof. split; vm_compute; reflexivity. Qed.

Theorem C61_roundtrip64 : forall v, 0 <= v < 2 ^ 64 ->
  exists s, toHex 64 v 16 = Ok s /\ List.length s = 16%nat /\ toInt64 s = Ok v.
Proof. exact hex_roundtrip64. Qed.
Print Assumptions C61_roundtrip64.
Example C61_roundtrip64_ex :
  toHex 64 81985529216486895 16 = Ok (list_ascii_of_string "0123456789ABCDEF") /\
  toInt64 (list_ascii_of_string "0123456789ABCDEF") = Ok 81985529216486895.
Proof. split; vm_compute; reflexivity. Qed.

(** ** C62 *)
Theorem C62_pack_unpack : forall v, wfVersion v ->
  versionOfUint32 (versionToUint32 v) = v /\ 0 <= versionToUint32 v < 2 ^ 32.
Proof. exact version_pack_unpack. Qed.
Print Assumptions C62_pack_unpack.

Theorem C62_unpack_pack : forall n, u32 n ->
  versionToUint32 (versionOfUint32 n) = n /\ wfVersion (versionOfUint32 n).
Proof. exact version_unpack_pack. Qed.
Print Assumptions C62_unpack_pack.

Theorem C62_order : forall a b, wfVersion a -> wfVersion b ->
  (versionLt a b = true <-> lexLt (parts a) (parts b)) /\
  (versionGt a b = true <-> lexLt (parts b) (parts a)) /\
  (versionLe a b = true <-> ~ lexLt (parts b) (parts a)) /\
  (versionGe a b = true <-> ~ lexLt (parts a) (parts b)) /\
  (versionEq a b = true <-> a = b) /\
  (versionNe a b = true <-> a <> b).
Proof. exact version_order. Qed.
Print Assumptions C62_order.

Theorem C62_string_injective : forall a b, wfVersion a -> wfVersion b ->
  versionToString4 a = versionToString4 b -> a = b.
Proof. exact versionToString4_inj. Qed.
Print Assumptions C62_string_injective.
Theorem C62_strings : forall v, wfVersion v ->
  dotted (firstn 4 (parts v)) (versionToString4 v) /\ dotted (firstn 3 (parts v)) (versionToString3 v) /\
  dotted (firstn 2 (parts v)) (versionToString2 v) /\ dotted (firstn 1 (parts v)) (versionToString1 v).
Proof. exact version_strings. Qed.
Print Assumptions C62_strings.
Theorem C62_index : forall v i b, wfVersion v ->
  (versionAt v i = Ok b <-> 0 <= i < 4 /\ b = versionToUint32 v / 256 ^ (3 - i) mod 256) /\
  (versionAt v i = UB <-> ~ 0 <= i < 4).
Proof. exact version_index. Qed.
Print Assumptions C62_index.
Theorem C62_constructor : forall a b c d, wfVersion (versionOf a b c d) /\
  (byte a -> byte b -> byte c -> byte d -> parts (versionOf a b c d) = [a; b; c; d]).
Proof. exact version_ctor. Qed.
Print Assumptions C62_constructor.
Example C62_strings_ex : versionToString3 (mkVersion 1 255 0 7) = list_ascii_of_string "1.255.0" /\
  versionAt (mkVersion 1 255 0 7) 1 = Ok 255.
Proof. split; vm_compute; reflexivity. Qed.

Example C62_ex : wfVersion (mkVersion 1 255 0 7) /\ wfVersion (mkVersion 2 0 0 0) /\
  versionLt (mkVersion 1 255 0 7) (mkVersion 2 0 0 0) = true /\
  versionToUint32 (mkVersion 1 255 0 7) = 33488903 /\
  versionToString4 (mkVersion 1 255 0 7) = list_ascii_of_string "1.255.0.7".
Proof. unfold wfVersion, byte; cbn; repeat split; lia || reflexivity. Qed.

(** ** C63 *)
Theorem C63_set_operations : forall w a b i,
  0 < w <= 64 -> wfFlag w a -> wfFlag w b -> 0 <= i < w ->
  (member i (flagOr w a b) <-> member i a \/ member i b) /\
  (member i (flagAnd w a b) <-> member i a /\ member i b) /\
  (member i (flagXor w a b) <-> ((member i a /\ ~ member i b) \/ (~ member i a /\ member i b))) /\
  (member i (flagCompl w a) <-> ~ member i a).
Proof. exact flag_ops_bits. Qed.
Print Assumptions C63_set_operations.

Theorem C63_closed : forall w a b, 0 <= w ->
  wfFlag w (flagOr w a b) /\ wfFlag w (flagAnd w a b) /\ wfFlag w (flagXor w a b) /\
  wfFlag w (flagCompl w a) /\ wfFlag w (flagNot w a).
Proof. exact flag_ops_wf. Qed.
Print Assumptions C63_closed.

Theorem C63_hasAnyFlag : forall w a b, 0 < w <= 64 -> wfFlag w a -> wfFlag w b ->
  (hasAnyFlag w a b = true <-> exists i, 0 <= i < w /\ member i a /\ member i b).
Proof. exact hasAnyFlag_iff. Qed.
Print Assumptions C63_hasAnyFlag.

(** The code violates the claim about hasOneFlag: it answers false for a flag that is set
    (together with another) and true for a flag that is not set (on the empty set). *)
Theorem C63_hasOneFlag_refuted : exists w a f, wfFlag w a /\ wfFlag w f /\
  (exists i, 0 <= i < w /\ f = 2 ^ i /\ member i a /\ hasOneFlag w a f = false) /\
  (exists i, 0 <= i < w /\ f = 2 ^ i /\ ~ member i 0 /\ hasOneFlag w 0 f = true).
Proof. exact hasOneFlag_wrong. Qed.
Print Assumptions C63_hasOneFlag_refuted.

(** What hasOneFlag computes instead: the set has no flag outside the given ones. *)
Theorem C63_hasOneFlag_actual : forall w a b, 0 < w <= 64 -> wfFlag w a -> wfFlag w b ->
  (hasOneFlag w a b = true <-> forall i, 0 <= i < w -> member i a -> member i b).
Proof. exact hasOneFlag_iff. Qed.
Print Assumptions C63_hasOneFlag_actual.
Theorem C63_not : forall w a, 0 < w -> wfFlag w a ->
  (flagNot w a = 1 <-> forall i, 0 <= i < w -> ~ member i a) /\
  (flagNot w a = 0 <-> exists i, 0 <= i < w /\ member i a).
Proof. exact flag_not. Qed.
Print Assumptions C63_not.
Theorem C63_assign : forall w a b, flagOrAssign w a b = flagOr w a b /\ flagAndAssign w a b = flagAnd w a b /\
  flagXorAssign w a b = flagXor w a b.
Proof. exact flag_assign. Qed.
Print Assumptions C63_assign.

Example C63_ex : wfFlag 8 5 /\ wfFlag 8 12 /\ flagOr 8 5 12 = 13 /\ flagCompl 8 5 = 250 /\
  hasAnyFlag 8 5 12 = true /\ hasOneFlag 8 5 4 = false /\ hasOneFlag 8 4 12 = true.
Proof. unfold wfFlag; repeat split; lia || reflexivity. Qed.

(** ** C64 *)
Theorem C64_fresh_zero : forall w h n, 0 <= n ->
  let '(h', v) := newPackedOf w h n in
  ownsItself h' v /\ (forall i, 0 <= i < n -> getPacked w h' v i = Ok 0) /\
  (forall k, (k < List.length h)%nat -> nth k h' nil = nth k h nil).
Proof. exact newPackedOf_spec. Qed.
Print Assumptions C64_fresh_zero.

Theorem C64_get_set : forall w h v i x, ownsItself h v -> bytes (nth (own v) h nil) ->
  0 <= i < capacity w (nth (own v) h nil) ->
  exists h', setPacked w h v i x = Ok h' /\ ownsItself h' v /\ bytes (nth (own v) h' nil) /\
    getPacked w h' v i = Ok (x mod 2 ^ wbits w) /\
    (forall j, j <> i -> getPacked w h' v j = getPacked w h v j).
Proof. exact packed_array. Qed.
Print Assumptions C64_get_set.

Theorem C64_get_defined : forall w buf i,
  (exists x, bufGet w buf i = Ok x /\ 0 <= x < 2 ^ wbits w) <-> 0 <= i < capacity w buf.
Proof. exact bufGet_defined. Qed.
Print Assumptions C64_get_defined.

Theorem C64_resize : forall w h v n, (own v < List.length h)%nat -> 0 <= n ->
  let '(h', v') := resizePacked w h v n in
  ownsItself h' v' /\
  forall i, 0 <= i < n ->
    (i < capacity w (nth (own v) h nil) ->
       getPacked w h' v' i = bufGet w (nth (own v) h nil) i) /\
    (capacity w (nth (own v) h nil) <= i -> getPacked w h' v' i = Ok 0).
Proof. exact packed_resize. Qed.
Print Assumptions C64_resize.
Example C64_ex :
  let '(h, v) := newPackedOf W2 nil 5 in
  ownsItself h v /\ bytes (nth (own v) h nil) /\ 3 < capacity W2 (nth (own v) h nil) /\
  setPacked W2 h v 3 6 = Ok [[128; 0]] /\ getPacked W2 [[128; 0]] v 3 = Ok 2.
Proof. cbn; repeat split; auto; repeat constructor; cbn; lia || discriminate. Qed.

Theorem C64_history : forall w h n ops, 0 <= n -> sizesOk ops ->
  let '(h0, v0) := newPackedOf w h n in
  match arrayRun (wbits w) (PResize n :: ops) emptyArray with
  | Some a => exists h1 v1, runPacked w ops h0 v0 = Ok (h1, v1) /\
      forall i, 0 <= i < acap a -> getPacked w h1 v1 i = Ok (aelt a i)
  | None => runPacked w ops h0 v0 = UB
  end.
Proof. exact packed_history. Qed.
Print Assumptions C64_history.
Example C64_history_ex : sizesOk [PSet 4 3; PResize 9; PSet 8 6; PResize 6; PSet 3 1] /\
  match arrayRun 2 [PResize 5; PSet 4 3; PResize 9; PSet 8 6; PResize 6; PSet 3 1] emptyArray with
  | Some a => acap a = 8 /\ aelt a 4 = 3 /\ aelt a 3 = 1 /\ aelt a 5 = 0
  | None => False
  end.
Proof. split; [repeat constructor; lia|]. vm_compute. repeat split. Qed.

(** ** C65: the implicitly generated copy aliases the original. *)
Theorem C65_copy_refuted : exists w n i x,
  0 <= i < n /\
  let '(h1, v) := newPackedOf w nil n in
  let '(h2, c) := copyPacked h1 v in
  exists h3, setPacked w h2 c i x = Ok h3 /\
    getPacked w h2 v i = Ok 0 /\ getPacked w h3 v i = Ok x /\ x <> 0.
Proof. exact packed_copy_aliases. Qed.
Print Assumptions C65_copy_refuted.

Theorem C65_copy_actual : forall w h v i, ownsItself h v ->
  let '(h2, c) := copyPacked h v in
  getPacked w h2 c i = getPacked w h2 v i /\
  forall x, setPacked w h2 c i x = setPacked w h2 v i x.
Proof. exact packed_copy_same. Qed.
Print Assumptions C65_copy_actual.
Example C65_copy_actual_ex : ownsItself [[7]] (mkPacked 0 (Some 0%nat)).
Proof. split; [reflexivity | cbn; lia]. Qed.

(** ** C85: elements gained by growing are not always zero. *)
Theorem C85_regrow_refuted : exists w n m i x,
  0 <= m <= i /\ i < n /\ x <> 0 /\
  let '(h1, v) := newPackedOf w nil n in
  exists h2, setPacked w h1 v i x = Ok h2 /\
    let '(h3, v3) := resizePacked w h2 v m in
    let '(h4, v4) := resizePacked w h3 v3 n in
    getPacked w h4 v4 i = Ok x.
Proof. exact packed_regrow_stale. Qed.
Print Assumptions C85_regrow_refuted.

(** ** C114: the assertions of get guard the access, except for 4-bit elements; size() counts bytes *)
Theorem C114_get_refuted : exists n i,
  let '(h, v) := newPackedOf W4 nil n in
  0 <= n /\ 0 <= i /\ checkedGet W4 false h v i = UB.
Proof. exact checked_get_refuted. Qed.
Print Assumptions C114_get_refuted.
Theorem C114_get_actual : forall h v i, ownsItself h v -> 0 <= i ->
  (checkedGet W4 false h v i = UB <->
    capacity W4 (nth (own v) h nil) <= i < 4 * capacity W4 (nth (own v) h nil)).
Proof. exact checked_get4. Qed.
Print Assumptions C114_get_actual.
Theorem C114_get : forall w h v i, ownsItself h v -> w <> W4 -> 0 <= i ->
  (checkedGet w false h v i = Abort <-> capacity w (nth (own v) h nil) <= i) /\
  (i < capacity w (nth (own v) h nil) -> checkedGet w false h v i = getPacked w h v i /\
    exists x, getPacked w h v i = Ok x /\ 0 <= x < 2 ^ wbits w).
Proof. exact checked_get. Qed.
Print Assumptions C114_get.
Theorem C114_size_refuted : exists w n, 0 <= n /\ let '(h, v) := newPackedOf w nil n in sizePacked h v <> n.
Proof. exact size_refuted. Qed.
Print Assumptions C114_size_refuted.
Theorem C114_size_actual : forall w h n, 0 <= n -> let '(h', v) := newPackedOf w h n in
  (sizePacked h' v - 1) * (8 / wbits w) < n <= sizePacked h' v * (8 / wbits w).
Proof. exact size_actual. Qed.
Print Assumptions C114_size_actual.
Example C114_ex : let '(h, v) := newPackedOf W1 nil 10 in ownsItself h v /\
  checkedGet W1 false h v 15 = Ok 0 /\ checkedGet W1 false h v 16 = Abort /\ checkedGet W1 true h v 16 = UB.
Proof. cbn. repeat split; auto. Qed.
