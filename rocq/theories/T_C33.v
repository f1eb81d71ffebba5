(** C33: the ChaCha8 implementation equals the specification. *)
From Coq Require Import ZArith List Lia.
From Verif Require Import M_Base M_Chacha S_Chacha P_Chacha.
Import ListNotations.
Open Scope Z_scope.

(** [chacha_stream_calls c lens]: consecutive calls of the keystream function *)
Fixpoint keystream_calls (c : ctx) (lens : list Z) : list Z :=
  match lens with
  | [] => []
  | n :: t => let '(b, c') := chacha_keystream_bytes c n in b ++ keystream_calls c' t
  end.

(** one call of any length: the first n bytes of the ChaCha8 stream *)
Theorem C33_keystream_equals_spec : forall (key nonce : list Z) (n : Z),
  length key = 32%nat -> Forall (fun b => 0 <= b < 256) key ->
  length nonce = 8%nat -> Forall (fun b => 0 <= b < 256) nonce -> 0 <= n ->
  fst (chacha_keystream_bytes (chacha_setup key nonce) n) =
    map (chacha8_stream key nonce) (zrange 0 n).
Proof. exact keystream_spec. Qed.
Print Assumptions C33_keystream_equals_spec.

(** consecutive calls of whole blocks produce consecutive keystream *)
Theorem C33_consecutive_calls : forall (key nonce : list Z) (blocks : list Z),
  length key = 32%nat -> Forall (fun b => 0 <= b < 256) key ->
  length nonce = 8%nat -> Forall (fun b => 0 <= b < 256) nonce ->
  Forall (fun b => 0 <= b) blocks ->
  keystream_calls (chacha_setup key nonce) (map (Z.mul 64) blocks) =
    map (chacha8_stream key nonce) (zrange 0 (64 * fold_right Z.add 0 blocks)).
Proof. exact keystream_consecutive. Qed.
Print Assumptions C33_consecutive_calls.

(** the published ChaCha8 test vector (256-bit zero key, zero nonce) holds of both *)
Example C33_test_vector :
  fst (chacha_keystream_bytes (chacha_setup (repeat 0 32) (repeat 0 8)) 32) =
    [62; 0; 239; 47; 137; 95; 64; 214; 127; 91; 184; 232; 31; 9; 165; 161;
     44; 132; 14; 195; 206; 154; 127; 59; 24; 27; 225; 136; 239; 113; 26; 30] /\
  map (chacha8_stream (repeat 0 32) (repeat 0 8)) (zrange 0 4) = [62; 0; 239; 47].
Proof. vm_compute. split; reflexivity. Qed.
