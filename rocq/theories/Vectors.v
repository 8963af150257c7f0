(** * Vectors: tests of the specification.

    [Spec.v] is trusted to be BLAKE2s and BLAKE2sp.  These are published results it
    reproduces: a selection of /repo/tests/blake2-kat.json, the constants of
    /repo/src/test.rs:3-18 and the two tests of all parameters, test.rs:218-252.
    (All 1024 cases of the file pass as well; see tools/kat.sh.)  They are examples, not
    proofs. *)
From Verif Require Import Base.
From Verif Require Spec.
From Coq Require Import String.
Local Notation length := List.length (only parsing).
Local Open Scope N_scope.

Definition text (s : string) : list byte := list_byte_of_string s.
(** Bytes 0, 1, 2, ... as in the file; its keys are the first 32 of them. *)
Definition counting (n : nat) : list byte := map (fun i => byte_of_N (N.of_nat i)) (seq 0 n).
Definition plain (input : list byte) : list byte := Spec.hex (Spec.blake2s Spec.default_params false input).
Definition keyed (input : list byte) : list byte :=
  Spec.hex (Spec.blake2s (Spec.mk_params 32 (counting 32) 1 1 0 0 0 0 [] []) false input).
Definition parallel (key input : list byte) : list byte := Spec.hex (Spec.blake2sp 32 key input).

Example kat_blake2s_plain_0 : plain (counting 0) =
  text "69217a3079908094e11121d042354a7c1f55b6482ca1a51e1b250dfd1ed0eef9".
Proof. vm_compute. reflexivity. Qed.
Example kat_blake2s_plain_1 : plain (counting 1) =
  text "e34d74dbaf4ff4c6abd871cc220451d2ea2648846c7757fbaac82fe51ad64bea".
Proof. vm_compute. reflexivity. Qed.
Example kat_blake2s_plain_63 : plain (counting 63) =
  text "e57cb79487dd57902432b250733813bd96a84efce59f650fac26e6696aefafc3".
Proof. vm_compute. reflexivity. Qed.
Example kat_blake2s_plain_64 : plain (counting 64) =
  text "56f34e8b96557e90c1f24b52d0c89d51086acf1b00f634cf1dde9233b8eaaa3e".
Proof. vm_compute. reflexivity. Qed.
Example kat_blake2s_plain_65 : plain (counting 65) =
  text "1b53ee94aaf34e4b159d48de352c7f0661d0a40edff95a0b1639b4090e974472".
Proof. vm_compute. reflexivity. Qed.
Example kat_blake2s_plain_128 : plain (counting 128) =
  text "1fa877de67259d19863a2a34bcc6962a2b25fcbf5cbecd7ede8f1fa36688a796".
Proof. vm_compute. reflexivity. Qed.
Example kat_blake2s_plain_129 : plain (counting 129) =
  text "5bd169e67c82c2c2e98ef7008bdf261f2ddf30b1c00f9e7f275bb3e8a28dc9a2".
Proof. vm_compute. reflexivity. Qed.
Example kat_blake2s_plain_255 : plain (counting 255) =
  text "f03f5789d3336b80d002d59fdf918bdb775b00956ed5528e86aa994acb38fe2d".
Proof. vm_compute. reflexivity. Qed.
Example kat_blake2s_keyed_0 : keyed (counting 0) =
  text "48a8997da407876b3d79c0d92325ad3b89cbb754d86ab71aee047ad345fd2c49".
Proof. vm_compute. reflexivity. Qed.
Example kat_blake2s_keyed_1 : keyed (counting 1) =
  text "40d15fee7c328830166ac3f918650f807e7e01e177258cdc0a39b11f598066f1".
Proof. vm_compute. reflexivity. Qed.
Example kat_blake2s_keyed_64 : keyed (counting 64) =
  text "8975b0577fd35566d750b362b0897a26c399136df07bababbde6203ff2954ed4".
Proof. vm_compute. reflexivity. Qed.
Example kat_blake2s_keyed_65 : keyed (counting 65) =
  text "21fe0ceb0052be7fb0f004187cacd7de67fa6eb0938d927677f2398c132317a8".
Proof. vm_compute. reflexivity. Qed.
Example kat_blake2s_keyed_255 : keyed (counting 255) =
  text "3fb735061abc519dfe979e54c1ee5bfad0a9d858b3315bad34bde999efd724dd".
Proof. vm_compute. reflexivity. Qed.
Example kat_blake2sp_plain_0 : parallel [] (counting 0) =
  text "dd0e891776933f43c7d032b08a917e25741f8aa9a12c12e1cac8801500f2ca4f".
Proof. vm_compute. reflexivity. Qed.
Example kat_blake2sp_plain_255 : parallel [] (counting 255) =
  text "25059f10605e67adfe681350666e15ae976a5a571c13cf5bc8053f430e120a52".
Proof. vm_compute. reflexivity. Qed.
Example kat_blake2sp_keyed_0 : parallel (counting 32) (counting 0) =
  text "715cb13895aeb678f6124160bff21465b30f4f6874193fc851b4621043f09cc6".
Proof. vm_compute. reflexivity. Qed.
Example kat_blake2sp_keyed_255 : parallel (counting 32) (counting 255) =
  text "0c8a36597d7461c63a94732821c941856c668376606c86a52de0ee4104c615db".
Proof. vm_compute. reflexivity. Qed.

(** test.rs:3-18 *)
Example EMPTY_HASH : plain [] =
  text "69217a3079908094e11121d042354a7c1f55b6482ca1a51e1b250dfd1ed0eef9".
Proof. vm_compute. reflexivity. Qed.
Example ABC_HASH : plain (text "abc") =
  text "508c5e8c327c14e2e1a72ba34eeb452f37458b209ed63a294d999b4c86675982".
Proof. vm_compute. reflexivity. Qed.
Example ONE_BLOCK_HASH : plain (repeat x00 64) =
  text "ae09db7cd54f42b490ef09b6bc541af688e4959bb8c53f359a6f56e38ab454a3".
Proof. vm_compute. reflexivity. Qed.
Example THOUSAND_HASH : plain (repeat x00 1000) =
  text "37e9dd47498579c5343fd282c13c62ea824cdfc9b0f4f747a41347414640f62c".
Proof. vm_compute. reflexivity. Qed.
Example BLOCK_OF_ONES : plain (repeat x01 64) =
  text "dc3c4c7e77f743a2625e771cf71247d0a74821553b38600d0943316d5ff6987f".
Proof. vm_compute. reflexivity. Qed.
Example BLOCK_OF_TWOS : plain (repeat x02 64) =
  text "f8b7bb9bd572ec5555592d19b476a5899334a004e9a181fad4b7236990d05329".
Proof. vm_compute. reflexivity. Qed.
Example BLOCK_OF_THREES : plain (repeat x03 64) =
  text "43408522fdef2a8c010093bf726dea07954591677cc4bb0c58421dac49942186".
Proof. vm_compute. reflexivity. Qed.
Example BLOCK_OF_FOURS : plain (repeat x04 64) =
  text "9d660d85e5a18fab0223c44932695f27639a73726590b563cf7b6aa09a73d594".
Proof. vm_compute. reflexivity. Qed.
Example BLOCK_OF_FIVES : plain (repeat x05 64) =
  text "5bca39cc61c6a7beb4767bf2add509bd46cefe44a7755de72fe55707f88fb10d".
Proof. vm_compute. reflexivity. Qed.
Example BLOCK_OF_SIXES : plain (repeat x06 64) =
  text "fc4daaafdd1111282445d562226bb98308b1b2682b66df87857a5ea041d01099".
Proof. vm_compute. reflexivity. Qed.
Example BLOCK_OF_SEVENS : plain (repeat x07 64) =
  text "e0110d7690b3be39f4d06b37d3ab5352f3a6cbdccf03ae409d0719c88a81c648".
Proof. vm_compute. reflexivity. Qed.
Example BLOCK_OF_EIGHTS : plain (repeat x08 64) =
  text "d9f493e092e69be49af15f25fdbc26c62b62e036b361b4431d33c7236fdeb134".
Proof. vm_compute. reflexivity. Qed.
Example COUNTER_BLOCK_HASH : plain (counting 64) =
  text "56f34e8b96557e90c1f24b52d0c89d51086acf1b00f634cf1dde9233b8eaaa3e".
Proof. vm_compute. reflexivity. Qed.

(** test.rs:218-252: every parameter *)
Example all_parameters : Spec.hex (Spec.blake2s (Spec.mk_params 18 (text "bar") 2 3 0x04050607 (2 ^ 48 - 1) 16 17
    (text "bazbazba") (text "bing bin")) true (text "foo")) =
  text "0d9841e93b8f1d4c0666da56e2bae569c13b".
Proof. vm_compute. reflexivity. Qed.
Example all_parameters_blake2sp : Spec.hex (Spec.blake2sp 18 (text "bar") (text "foo")) =
  text "947d4c671e2794f5e1a57daeca97bb46ed66".
Proof. vm_compute. reflexivity. Qed.
