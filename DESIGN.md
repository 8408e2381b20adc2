# Formal model of rabe: design

This directory contains a Rocq (Coq 8.16.1) model of the attribute-based
encryption library in `/repo` and machine-checked proofs of the properties in
`properties.jsonl`. The code was read as text only; nothing of it was run.

Contents: 1 what is modelled, 2 choices that hold everywhere, 3 files and how to
read the theorems, 4 the properties one by one, 5 trusted base, 6 not modelled,
7 findings, 8 tests of the theorems against wrong programs.

## 1. What is modelled

| Model file | Code |
|---|---|
| `Base.v` | no rabe code: outcome type (`Ok` / `Err` / `Panic`), random tape, string and list helpers that stand for Rust std calls |
| `Crypto.v` | the operations rabe takes from `rabe_bn`, `sha3`, `aes_gcm`: a record of operations (`crypto`) and a separate record of laws (`laws`); `src/utils/hash/mod.rs` |
| `Policy.v` | `PolicyValue`, `PolicyType`, `PolicyLanguage`; `src/utils/policy/pest/mod.rs` |
| `Peg.v` | no rabe code: the matching algorithm of the `pest` crate (ordered choice, implicit white space, atomic rules, token pairs, columns) |
| `Grammar.v` | `src/human.policy.pest`, `src/json.policy.pest`, rule by rule, as data for `Peg.v` |
| `Parse.v` | `src/utils/policy/pest/{mod,human,json}.rs`: `parse`, the walks over token pairs, `serialize_policy` |
| `Tools.v` | `src/utils/tools/mod.rs` |
| `Sharing.v` | `src/utils/secretsharing/mod.rs` |
| `Msp.v` `MspText.v` | `src/utils/policy/msp.rs` |
| `Dnf.v` | `src/utils/policy/dnf.rs` |
| `Symmetric.v` | `src/utils/aes/mod.rs` |
| `Sha3.v` | no rabe code: SHA3-256 after FIPS 202, called at `src/utils/hash/mod.rs:14-16, 27-29` and `src/utils/aes/mod.rs:52-54` |
| `Gcm.v` | no rabe code: AES-256-GCM after FIPS 197 and SP 800-38D, called at `src/utils/aes/mod.rs:14-19, 37-41` |
| `Files.v` | `src/utils/file/mod.rs`, on a file system that maps paths to bytes |
| `Bsw.v` `Ghw11.v` `Lsw.v` `Yct14.v` `Ac17.v` `Aw11.v` `Bdabe.v` `Mke08.v` | `src/schemes/*/mod.rs`, every public function |
| `Sessions.v` | complete sessions (setup, key generation, encryption, decryption) in the order of the tests of each scheme file |
| `Cost.v` | the number of grammar expressions that a parser of `Peg.v` tries (C86); pest keeps no memory of attempts |
| `Borsh.v` | what `derive(BorshSerialize, BorshDeserialize)` generates for every key and ciphertext type |
| `Console.v` | `rabe-console/src/mod.rs`: argument declarations, all eight commands, key file format |
| `CommandLine.v` | `rabe-console/src/mod.rs`: names and defaults of arguments, dispatch, exit status |
| `GlobalContext.v` | the type `Aw11GlobalContext` and what is derived for it |
| `Errors.v` | `src/error.rs` |
| `Messages.v` | the functions of `src` that report errors once more, with the texts of the errors; `MessagesProofs.v` shows that they are the functions above |
| `Prints.v` | the functions of `src` that print once more, with their lines; tied to the functions above in `PrintsProofs.v` |
| `ConsolePrints.v` | the commands of `rabe-console` and `main` once more, with standard output and exit status; tied to `Console.v` by theorems of C135 |
| `Words.v` | `rabe-console/src/mod.rs:142-469`: the words of a command line |
| `Serde.v` `SerdeConsole.v` | what `derive(Serialize, Deserialize)` generates, CBOR, and the console built with it |
| `Ffi.v` | `src/ffi/bsw.rs` |
| `UnitTests.v` `Benches.v` | the tests and documentation examples of the crate, `benches/rabe.rs` |
| `Bills.v` `BillsEncrypt.v` `BillsKeygen.v` `Escrow.v` | no rabe code: a counting instance of `crypto` (C127, C146, C148), what a holder of a master key can compute (C136) |
| `Thinning.v` `Alternative.v` `AlternativeAuthority.v` `Selected.v` `Renewal.v` `Refresh.v` | no rabe code: keys and ciphertexts with entries left out or changed (C149 to C154) |

Every definition carries a comment with file and lines; a simplification is
named in that comment and listed in section 2 or 5.

`Spec.v` is the specification: formulas, when an attribute set satisfies one
(`sat`), the names in it, the tree that parsing must give. It uses nothing of
the model but the type of parsed policies. `Poly.v`, `SchemeLib.v`,
`CoreProofs.v` and all `*Proofs.v`, `ParseText.v`, `ParseHuman.v` contain
lemmas. `Instance.v`, `Witnesses.v`, `ConsoleWitnesses.v` contain a concrete
instance (prime field of order 1009, exponents as group elements, a toy AEAD, a
disk with one file) on which examples and refutations run; they model no rabe
code. The `Properties*.v` files contain the theorems of `MANIFEST.json`.

## 2. Choices that hold everywhere

* **Panics are values.** Each function returns `Ok x`, `Err`, or `Panic`. Error
  texts are dropped there (the text is an argument in `run_encrypt`, where the code
  serialises it) and added in `Messages.v`.
* **Randomness is an argument.** A tape (draw number to scalar) is threaded
  through every function in the order of the draws in the code. "For all tapes"
  covers every outcome of the RNG. A random group element is the generator
  times a random scalar.
* **Field and groups are abstract.** Theorems hold for every field with
  decidable equality and every triple of groups with a bilinear pairing in
  which each element is a multiple of the generator. The laws are fields of a
  record that theorems take as an argument, not axioms, and `Instance.ZL` shows
  that they can be met. Where the characteristic matters (interpolation at
  1..n) a theorem says so (`small_ok`: the numbers up to the width of the policy
  are different scalars). C108 proves it for scalars modulo the order of BN254
  and every policy text below 2^64 bytes; `BnInstance.v` meets the laws over
  that field.
* **Hash, KDF and AEAD are operations of the record**: `hash : string -> option
  F`, `kdf : Gt -> key`, and an AEAD with `dec k n (enc k n m) = Some m`.
  `Sha3.v` and `Gcm.v` write out SHA3-256 and AES-256-GCM after the standards
  (C124 proves them equal to the bit, matrix and polynomial form of FIPS 202,
  FIPS 197 and SP 800-38D in `Fips202.v`, `Fips197.v` and `Sp80038d.v`),
  and `RealInstance.v` meets the laws with them and the order of BN254 (C116,
  C117, C118). There `Fr::from_slice` is taken to reduce the 32 bytes modulo the
  order: the source of rabe-bn is not at hand, and an error for larger numbers
  would make four names out of five unusable. The bytes of an element of Gt are
  a parameter.
* **The nonce is an argument** of 12 bytes; the code draws it at random.
* **The error branch of AES-GCM encryption is dropped** (it needs more than
  2^36 bytes of input).
* **Strings are byte strings** (UTF-8). Columns count characters, as pest does.
* **`str::to_uppercase` is an operation of the record** (AW11). Its laws: it works
  character by character around ASCII characters and maps these as usual, it is
  idempotent, and no character becomes an underscore. `Instance.v` meets them
  with a function for ASCII and Latin-1 letters that maps sharp s to two letters.
* **Rust references and mutation** become returned values; loops become folds
  in the same order.
* **Adversaries** in the attack theorems are Gallina functions that receive
  only the operations record and published values; the laws record (which
  contains discrete logarithms) is not available to them. They apply to every
  implementation of the operations.
* **The file system** maps a path to bytes and a readable flag, and says which
  paths may be created. Directories, partial writes and concurrent processes
  are not modelled.
* **Console**: the default features (borsh). Output and exit status are in `ConsolePrints.v` (C135), the splitting of command lines in `Words.v` (C137; the rules of clap are read from its documentation, not proved).
  `clap_ok` states what clap guarantees about parsed arguments given the
  declarations in `main`. Deflate is a pair of functions with a round-trip law.

## 3. How to read the theorems

Names start with the property. A theorem `Cnn_..._refuted` shows that the
English claim is false of the code, with a concrete witness; beside it stand
universal theorems that say how and when it fails, or under which condition the
claim holds. `_partial` marks a restricted positive theorem. Each theorem is
followed by `Print Assumptions` and by an `Example` that meets its hypotheses
(one example may serve a group of theorems with the same hypotheses).

In `MANIFEST.json`, "proved" means the claim as stated, "partial" means the
claim is false as stated (see the note) or proved under a restriction.

## 4. The properties

"Spec" names the independent specification used in the statement.

| Id | Model and spec | Proof, result |
|---|---|---|
| C01 | `Peg.v` with fuel | existence of enough fuel from a rank on grammar rules and remaining input |
| C02 | `Parse.v`; Spec `tree`, shape | induction on token pairs; numbers of children from the grammar |
| C03, C04 | serialiser, printer in the statement | induction on trees, generalised over the rest of the input |
| C05 | human serialiser | false: every serialised policy without quotes is rejected |
| C06 | grammar | mixed operators without parentheses are rejected |
| C07 | `Parse.v` | false: every number panics, in both languages |
| C08 | columns | token starts strictly increase on one line |
| C09 | same | false: two-line witness |
| C10, C11 | `Tools.v`; Spec `sat` | induction on trees |
| C12, C13 | `calc_pruned`; Spec `sat`, `leaves` | induction on trees |
| C14 | same | false for JSON nodes with fewer than two children; true otherwise |
| C15, C16, C18, C19 | `Sharing.v`; `Poly.v` | Lagrange interpolation over the abstract field, induction on trees |
| C17 | `Sharing.v` | translation of the tape, built by recursion on the tree: the shares of an unauthorised set are distributed independently of the secret |
| C20-C23 | `Msp.v`; Spec: linear span of rows | induction on the conversion with an invariant linking vectors and formula |
| C24-C28 | `Dnf.v`; Spec: satisfying conjunctions | flat policies: exact characterisation; C25-C27 false |
| C29-C39 | scheme files, `Sessions.v`; Spec `sat` | algebra through discrete logarithms + C12/C15/C21; the session theorems do not assume that the steps succeed |
| C40 | scheme files | unauthorised keys are rejected by every decryption function |
| C41-C44, C47 | scheme files | false; restricted positive theorems |
| C45, C46 | scheme files | direct; C46 with a string-scan specification |
| C48, C49 | `Symmetric.v` | from the AEAD law; C49 false below 12 bytes |
| C50, C51 | `Files.v` | direct; C50 false for `write_from_vec` |
| C52-C60 | scheme files, Isolate.v | false: explicit adversaries, proved to succeed for all setups and keys |
| C61 | `Dnf.v` and schemes | false: explicit edited ciphertext |
| C62 | `Ghw11.v` | for every payload key there is a retrieve key that explains the outsourced view |
| C63, C64 | `Ac17.v`, `remove_index` | false |
| C65 | `Borsh.v`; Spec `survives` | induction over codec combinators (`good`) |
| C66 | same | false for every YCT14 value; consequences for encryption, keys, decryption |
| C67 | `Console.v`, `Files.v` | hexadecimal, labels, lines, borsh composed |
| C68-C73, C75, C76 | `Console.v` | false, for all calls (see the notes in the manifest) |
| C74 | `Console.v` + all layers | setup, keygen, encrypt, decrypt through files, for all policies in the class of C35 |
| C77, C78 | `Console.v` | frame and error theorems over all commands, schemes, arguments |
| C79 | scheme files, `Sharing.v` | `Panic` iff a condition on the key, ciphertext and policy (`aborts`, `picks` in `RobustProofs.v` are the specification); refuted for five schemes |
| C80 | `Msp.v` | two inductive predicates on policy values classify the outcome |
| C81, C82 | scheme files | `settled o bad`: `o` is `Panic` if `bad`, `Ok` otherwise; the error cases are separate equations (`TotalProofs.v`) |
| C83 | `Bsw.v` | inductive predicate `derived` for chains; every step is key generation on a shifted tape |
| C84 | scheme files | equations with tape positions, component by component (`EquationProofs.v`, `AcEquationProofs.v`); sharing against the inductive specification `dealt`; false for LSW ciphertexts and AC17 key-policy keys |
| C85 | `Bsw.v` | false: linearity of sharing in secret and tape |
| C86 | `Peg.v`, `Grammar.v`, `Cost.v` | human: lower bounds by induction over nesting (`CostProofs.v`); JSON: every match pays a fixed amount for each byte it takes, a node is read at most once as `and` or `or` (`CostJson.v`) |
| C87 | `Sharing.v` | sum over all leaves; true for conjunctions, a multiple of the secret for disjunctions (`RecoverProofs.v`) |
| C88 | `Lsw.v` | `carry` gives the exponent that decryption uses (`LswNegation.v`); false as soon as a negated leaf is used |
| C89 | all schemes but the DNF ones | honest keys and ciphertexts, every satisfied policy (`ExactProofs.v`, `AcExactProofs.v`); the exponent left over is spelled out |
| C90 | `Ac17.v` | false for AC17: entries are added up once per repetition; exact leftover (`AcExactProofs.v`) |
| C91 | `Grammar.v`, `Peg.v`, `Parse.v` | `Layout.v` describes the texts as printed trees, columns included; inversion of every match (`LexProofs.v`, `LayoutProofs.v`) and the converse give the outcome on every text |
| C92 | `Grammar.v`, `Peg.v`, `Parse.v` | the same for JSON (`JsonLayoutProofs.v`); a failed first alternative gives the precedence clause |
| C93 | `Borsh.v` | what is read stands at the front of the text as written, combinator by combinator (`BorshExact.v`) |
| C94 | `Dnf.v`, `Bdabe.v`, `Mke08.v` | blocks of names as a specification, the loop over the tuples (`DnfExact.v`); refuted with the exact access structure |
| C95 | `Parse.v` (serialize_policy) | drafts of the written text of a tree, counting quotation marks, quotes after backslashes (`SerializeExact.v`) |
| C96 | `Tools.v`, `Sharing.v`, `Msp.v`, `Dnf.v` | the policy a value stands for as a specification; induction on values (`ValueProofs.v`); refuted for objects of kind Leaf |
| C97 | `Peg.v`, `Grammar.v`, `Parse.v` | nesting of token pairs is bounded by the depth of the interpreter; texts of every height from C95 (`DepthProofs.v`); repetitions also use up depth in the model, so the lower bound is the informative one |
| C98 | `MspText.v`, `Msp.v` | closed form of the pushes and pops; items that can be told from what follows them (`MspTextProofs.v`) |
| C99 | `Console.v` | table of kinds by command and scheme; a file of a kind stays one unless its path is written again (`ConsoleFiles.v`) |
| C100 | `Console.v`, `Files.v` | table of the key file read first (`ConsoleFiles.v`) |
| C101 | `Sharing.v` (calc_pruned) | the selection as a relation; a part of it that satisfies the policy is all of it, by induction (`PruneMinimal.v`) |
| C102 | all schemes (decrypt) | lookups by name under permutations; AC17 by commutativity of its sums (`OrderProofs.v`) |
| C103 | `Aw11.v`, `Bdabe.v`, `Mke08.v`, `Yct14.v`, `Dnf.v` | as C102; C37 again with the first authority instead of the only one (`aw_correct_first`) |
| C104 | `Files.v` (utf8, read_file) | one character at a time, base 64 digits (`Utf8Proofs.v`) |
| C105 | `Console.v` (run_*, split_whitespace) | one character at a time on the UTF-8 bytes (`WordProofs.v`) |
| C106 | `Console.v` (run) | two runs side by side (`DependProofs.v`); refuted for BDABE key generation |
| C107 | `CommandLine.v` | the default table against the files of C106 (`DependProofs.v`); refuted for four schemes |
| C108 | `Sharing.v`, `Parse.v` | Fermat and Pocklington over `Z` (`Primes.v`), certificates for the order of BN254 and the field of that order (`BnInstance.v`), weight of a layout against its text (`SizeProofs.v`) |
| C109 | the eight scheme files | combinations as terms (`Generic.v`), what is seen (`Views.v`), how values change between twin runs (`GenericProofs.v`, `GenericDnfProofs.v`) |
| C110 | `Ghw11.v`, `Yct14.v` | as C109, with transform keys; for YCT14 a second system that yields the same key (`GenericProofs.v`) |
| C111 | all schemes | the combination is written down and evaluated: Lagrange weights of the satisfied leaves, or the row sums of the MSP, or the first satisfied tuple (`InsiderProofs.v`, `InsiderDnfProofs.v`) |
| C112 | `Errors.v` | texts are compared as strings; decimal numerals are injective (`ErrorProofs.v`) |
| C113 | all schemes | two runs on one tape; the sealing is the last step (`PayloadProofs.v`) |
| C114 | all schemes | the tape is changed at one position; the payload map is a bijection by the laws (`UniformProofs.v`) |
| C115 | all schemes | a relation between three runs that every step of encryption keeps: sums of draws, shares and exponents (`MixingProofs.v`) |
| C116 | `Sha3.v` | lengths through the permutation; the padding read from its end (`PrimitiveProofs.v`) |
| C117 | `Gcm.v`, `Symmetric.v` | counter mode is its own inverse for any key stream; tag recomputed from the same ciphertext (`PrimitiveProofs.v`) |
| C118 | all schemes | instance of the laws (`RealInstance.v`), then the session theorems |
| C119 | key generation of all schemes but AW11 | a relation between three runs that every step of key generation keeps: the constants are affine (`BlendingProofs.v`) |
| C120 | `Serde.v` | values of serde's data model with their nesting; round trip of CBOR and of every combinator (`SerdeProofs.v`, `SerdeTypes.v`) |
| C121 | `Serde.v` | permutations of entries and the search for fields (`SerdeExact.v`); refuted |
| C122 | `Serde.v`, `Console.v` | the files of C67 with another codec (`SerdeConsole.v`) |
| C123 | the C interface, `src/ffi/bsw.rs` | pointers as the text of the bytes behind them; the outcome of every call includes reading beyond them (`FfiProofs.v`) |
| C124 | `Sha3.v` and `Gcm.v` against the standards | bits of lanes through each step of KECCAK-f; the state of AES as a matrix of bytes; the shifting product as a sum of multiples of the modulus (`Fips202Proofs.v`, `Fips197Proofs.v`, `Sp80038dProofs.v`) |
| C125 | the texts of errors in the schemes | the functions once more with texts, equal to the model when forgotten; each text characterised (`Messages.v`, `MessagesProofs.v`) |
| C126 | the unit tests and documentation examples | each test as a program of the model, shown to pass on every tape without a zero (`UnitTests.v`, `UnitTestProofs.v`) |
| C127 | cost of decryption | the functions of the model run in a counting instance (`Bills.v`, `BillsProofs.v`) |
| C128 | cost of the selection | refuted by two sessions in the counting instance; bounds by induction on the policy (`BillsProofs.v`) |
| C129 | draws of each operation | `takes` composes along the random monad (`DrawsProofs.v`); sharing by the explicit form of the shares |
| C130 | draws that show | equations of C84 and injectivity; a sharing determines its polynomial (roots of polynomials), the rows of the LW matrix determine every column (`ShowsProofs.v`); four operations refuted |
| C131 | lengths of encodings | `long` of each codec from `long` of its parts; operations by the shape of their results (`LengthsProofs.v`) |
| C132 | coalitions of AW11 | twin system: the sharing moves along a sharing of one that vanishes on the coalition's leaves, the exponents of the other attributes compensate; with repeated attributes, a second difference over five systems (`CoalitionProofs.v`) |
| C133 | `Prints.v`: the printing functions once more with their lines | taking the lines away gives the functions of the other files; lines by induction on shares and trees |
| C134 | share of the runs a combination opens | a line of twins through every run (C109, C110), any two of which are not both opened (`ChancesProofs.v`, `ChancesDnfProofs.v`, `ChancesAwProofs.v`) |
| C135 | what rabe-console prints and its exit status | the commands written once more with their output; erasing it gives Console.v; runs that end well split into their steps (`ConsolePrintsProofs.v`) |
| C136 | the holder of a master key opens every ciphertext; so does every BDABE authority | equations of C84; the four elements of every term of `json_to_dnf` carry one exponent (`EscrowProofs.v`) |
| C137 | which arguments a command line can give; the session of rabe-console/README.md does not decrypt | induction over the words (`WordsProofs.v`), then the sessions of C68 |
| C138 | the exact share of random values with which a session works; panics in the rest | the values that must not be zero are found (`WorkingProofs.v`), then counted by a grid of stocks of values |
| C139 | `Borsh.v` | rows of parts, written down from the struct definitions (`BorshLayout.v`) |
| C140 | `Borsh.v`, `Console.v` | codecs paired field by field (`BorshTwins.v`); refuted; the rest by lengths |
| C141 | `Console.v` | sequences of calls and the files they name (`ConsoleTraces.v`) |
| C142 | `Benches.v` | outcome and number of draws as arithmetic in the numbers of runs |
| C143 | `Parse.v`, `Files.v` | the layouts of C91 and C92 (`Layout.v`); UTF-8 as in C104 |
| C144 | `Console.v`, `Words.v` | the contents of the four files (`same_at`) and C137's words |
| C145 | `Dnf.v`, `Bdabe.v`, `Mke08.v` | blocks of keys and their order, read off the policy (`key_blocks`, `by_length`, DnfSize.v) |
| C146 | the encryptions of the eight schemes | bill of each element, counted by `tally` (Bills.v, BillsEncrypt.v) |
| C147 | `GlobalContext.v` | the derived forms of a struct with one field, from those of the global key |
| C148 | the key generations of the schemes | bill of each element, counted by `tally` (Bills.v, BillsKeygen.v) |
| C149 | keys and ciphertexts with entries left out (Thinning.v) | key generation and encryption for the attributes left, on the draws of these |
| C150 | `gen_shares_policy` and the functions around it | the entries of one alternative (Alternative.v, AlternativeAuthority.v), encryption or key generation for it alone |
| C151 | `decrypt` of the eight schemes, `transform`, `calc_pruned` | agreement of two keys and ciphertexts on the selected entries (Selected.v), changed ciphertexts (Selected.v, Agree.v) |
| C152 | what a holder can compute (Renewal.v) | key generation on the draws of key and renewal together |
| C153 | `keygen` of GHW11 and LSW | what the holder makes of a key (Thinning.v, Alternative.v, Renewal.v) |
| C154 | `encrypt` of all schemes but YCT14 | products of ciphertexts (Mixing.v), the tape between two tapes (Refresh.v) |
| C155 | `gen_shares_policy`, `encrypt` of BSW, GHW11 and AW11, `keygen` of LSW and YCT14 | formulas with alternatives deleted, masks of leaves and draws (Lessened.v) |
| C156 | `encrypt` of BSW and GHW11, `sha3_hash` | adversaries with public operations (Retarget.v) |
| C157 | `keygen` of LSW, `sha3_hash` | adversary with public operations (Rekey.v) |
| C158 | `keygen` of YCT14 | adversary with public operations (Sever.v) |
| C159 | `keygen`, `decrypt` of YCT14 | adversary with public operations (Pad.v) |
| C160 | `keygen`, `decrypt` of YCT14 | moved master keys and sums of keys (Dual.v) |

## 5. Trusted base

* The Coq 8.16.1 kernel; `coqchk` as a second check (run by `vcheck`).
* **Axioms: none.** `Print Assumptions` answers "Closed under the global
  context" for every theorem listed below. `coqchk` also lists seven
  `Coq.ssr.ssrunder.Under_rel.*` entries: they are the module-type fields of a
  stdlib file that is loaded by `Coq.setoid_ring`/`ssreflect` support files; no
  theorem here uses them.
* **The reading of the Rust source.** The model is a transcription; the cited
  lines were compared by eye, several times.
* **The reading of the libraries**: pest's matching rules (`Peg.v`), the borsh
  wire format (`Borsh.v`), serde's derived code and CBOR as serde_cbor 0.11.2 writes and reads it
  (`Serde.v`; items that nothing here writes, such as negative numbers, floats, tags and open
  lengths, are errors), `permutation::sort` as a stable sort, Rust std
  (`String::split`, `lines`, `File::open`/`create`), clap's guarantees
  (`clap_ok`), `rustc-hex`, flate2 (round trip only).
* **Hypotheses that stand for libraries** appear in the theorem statements:
  `laws C` (prime-order bilinear groups, AEAD correctness, upper case), `hash_total` (the
  digest is always a scalar; used by session theorems), `wire_ok` (borsh round
  trip of `Fr`, `G1`, `G2`, `Gt`), `swire_ok` and `required` (their serde forms), `env_ok` (deflate).

Theorems, all closed under the global context:

* C01 (proved): `C01_parse_terminates`, `C01_parse_outcome`.
* C02 (proved): `C02_parse_shape`.
* C03 (proved): `C03_json_roundtrip`.
* C04 (proved): `C04_human_roundtrip`, `C04_human_roundtrip_open`.
* C05 (partial): `C05_human_serialized_rejected`, `C05_human_serializer_refuted`.
* C06 (proved): `C06_mixed_rejected`, `C06_mixed_rejected_nested`.
* C07 (partial): `C07_number_panics_human`, `C07_number_refuted`, `C07_number_panics_json`.
* C08 (proved): `C08_one_line_columns`, `C08_one_line_leaves`.
* C09 (partial): `C09_multi_line_refuted`, `C09_multi_line_json_refuted`.
* C10 (proved): `C10_access_exact`.
* C11 (proved): `C11_access_mono`.
* C12 (proved): `C12_prune_agrees`.
* C13 (proved): `C13_pruned_chosen`, `C13_prune_selection`, `C13_prune_selection_distinct`.
* C14 (partial): `C14_bsw_short_panics`, `C14_short_node_refuted`, `C14_short_node_ghw_refuted`, `C14_short_node_lsw_refuted`, `C14_short_node_yct_refuted`, `C14_ghw_short_panics`, `C14_lsw_short_panics`, `C14_yct_short_panics`, `C14_bsw_no_panic_partial`.
* C15 (proved): `C15_share_reconstruct`.
* C16 (proved): `C16_threshold_reconstruct`.
* C17 (proved): `C17_share_secrecy`, `C17_shift_inverse`.
* C18 (proved): `C18_threshold_secrecy`.
* C19 (proved): `C19_share_leaves`, `C19_coefficient_leaves`.
* C20 (proved): `C20_columns`, `C20_msp_shape`.
* C21 (proved): `C21_msp_spans`.
* C22 (proved): `C22_msp_unsound_none`.
* C23 (proved): `C23_msp_accepts`, `C23_cp_encrypt_wide_and`, `C23_kp_keygen_wide_and`, `C23_aw_encrypt_wide_and`.
* C24 (proved): `C24_policy_in_dnf_iff`.
* C25 (partial): `C25_dnf_faithful_iff`, `C25_dnf_splits_conjunction`, `C25_dnf_split_refuted`.
* C26 (partial): `C26_json_to_dnf_nested`, `C26_bd_encrypt_nested`, `C26_mk_encrypt_nested`, `C26_nested_refuted`, `C26_nested_mke08_refuted`, `C26_bd_encrypt_runs_partial`, `C26_mk_encrypt_runs_partial`.
* C27 (partial): `C27_dnf_drops_missing`, `C27_bd_missing_opens`, `C27_mk_missing_opens`, `C27_missing_key_refuted`, `C27_missing_key_mke08_refuted`.
* C28 (proved): `C28_dnf_flat_faithful`.
* C29 (proved): `C29_bsw_correct`, `C29_bsw_session_exact`, `C29_bsw_human_session`.
* C30 (proved): `C30_bsw_delegate_correct`, `C30_bsw_delegated_session_exact`.
* C31 (proved): `C31_bsw_delegate_iff`, `C31_bsw_delegate_attrs`, `C31_bsw_delegate_fresh`.
* C32 (proved): `C32_ghw_correct`, `C32_ghw_session_exact`, `C32_ghw_human_session`.
* C33 (proved): `C33_lsw_correct`, `C33_lsw_session_exact`.
* C34 (proved): `C34_yct_correct`, `C34_yct_session_exact`.
* C35 (proved): `C35_cp_whenever`, `C35_cp_correct`, `C35_cp_session_exact`.
* C36 (proved): `C36_kp_whenever`, `C36_kp_correct`, `C36_kp_session_exact`.
* C37 (proved): `C37_aw_correct`, `C37_aw_session_exact`.
* C38 (proved): `C38_bd_correct`, `C38_bd_session_exact`.
* C39 (proved): `C39_mk_correct`, `C39_mk_session_exact`.
* C40 (proved): `C40_bsw_reject`, `C40_ghw_reject`, `C40_lsw_reject`, `C40_yct_reject`, `C40_cp_reject`, `C40_kp_reject`, `C40_aw_reject`, `C40_bd_reject`, `C40_mk_reject`.
* C41 (partial): `C41_bsw_one_leaf`, `C41_ghw_one_leaf`, `C41_lsw_underscore_panics`, `C41_yct_underscore_panics`, `C41_aw_underscore_panics`, `C41_bsw_underscore_refuted`, `C41_ghw_underscore_refuted`, `C41_lsw_underscore_refuted`, `C41_yct_underscore_refuted`, `C41_aw_underscore_refuted`.
* C42 (partial): `C42_lsw_one_name`, `C42_yct_one_name`, `C42_two_leaf_shares`, `C42_lsw_duplicate_refuted`, `C42_yct_duplicate_refuted`, `C42_cp_duplicate_refuted`, `C42_kp_duplicate_refuted`.
* C43 (partial): `C43_upper_letters`, `C43_aw_keygen_lower_panics`, `C43_aw_lower_policy_rejects`, `C43_aw_keygen_case_refuted`, `C43_aw_policy_case_refuted`.
* C44 (partial): `C44_bsw_any_plaintext`, `C44_ghw_any_plaintext`, `C44_cp_any_plaintext`, `C44_kp_any_plaintext`, `C44_aw_any_plaintext`, `C44_bd_any_plaintext`, `C44_mk_any_plaintext`, `C44_empty_plaintext_refuted`, `C44_lsw_empty_refused_partial`, `C44_yct_empty_refused_partial`, `C44_parse_empty`, `C44_bad_policy_refused`.
* C45 (proved): `C45_bsw_no_attrs`, `C45_ghw_no_attrs`, `C45_cp_no_attrs`, `C45_aw_empty_refused`, `C45_kp_no_attrs_refuted`.
* C46 (proved): `C46_requests_decided`, `C46_from_authority_iff`, `C46_from_authority_unique`, `C46_bd_request_pk_iff`, `C46_bd_request_sk_iff`, `C46_mk_request_pk_iff`, `C46_mk_request_sk_iff`.
* C47 (partial): `C47_lsw_negation_useless`, `C47_lsw_negation_refuted`.
* C48 (proved): `C48_symmetric_roundtrip`, `C48_symmetric_form`.
* C49 (partial): `C49_symmetric_short`, `C49_short_payload_refuted`, `C49_symmetric_long_partial`.
* C50 (partial): `C50_write_read_back`, `C50_write_file_other`, `C50_write_from_vec_never`, `C50_write_from_vec_noop`, `C50_write_from_vec_refuted`.
* C51 (proved): `C51_read_raw_middle`, `C51_read_raw_short`, `C51_read_raw_exact`.
* C52 (partial): `C52_bsw_forge_works`, `C52_bsw_refuted`.
* C53 (partial): `C53_ghw_forge_works`, `C53_ghw_refuted`.
* C54 (partial): `C54_cp_relabel_works`, `C54_cp_relabel_opens`, `C54_cp_refuted`.
* C55 (partial): `C55_kp_relabel_works`, `C55_kp_relabel_opens`, `C55_kp_refuted`.
* C56 (partial): `C56_lsw_relabel_works`, `C56_lsw_refuted`.
* C57 (partial): `C57_aw_forge_works`, `C57_aw_collusion`, `C57_aw_refuted`.
* C58 (partial): `C58_bd_forge_works`, `C58_bd_forge_user`, `C58_bd_refuted`.
* C59 (partial): `C59_mk_forge_works`, `C59_mk_forge_user`, `C59_mk_refuted`.
* C60 (partial): `C60_yct_forge_works`, `C60_yct_refuted`, `C60_yct_many`, `C60_yct_many_refuted`.
* C61 (partial): `C61_bd_opens_edited`, `C61_bd_split_opens`, `C61_mk_opens_edited`, `C61_mk_split_opens`, `C61_bd_refuted`, `C61_mk_refuted`.
* C62 (proved): `C62_ghw_outsource_hides`.
* C63 (partial): `C63_label_collision`, `C63_attribute_01_opens_cp`, `C63_attribute_01_opens_kp`, `C63_ac17_refuted`, `C63_labels_inj`, `C63_labels_columns_partial`.
* C64 (partial): `C64_bsw_cut_retarget`, `C64_bsw_cut_opens`, `C64_bsw_refuted`, `C64_ghw_cut_retarget`, `C64_aw_cut_retarget`, `C64_lsw_cut_rekey`, `C64_yct_cut_rekey`.
* C65 (proved): `C65_bsw_borsh`, `C65_lsw_borsh`, `C65_ac17_borsh`, `C65_aw11_borsh`, `C65_bdabe_borsh`, `C65_mke08_borsh`.
* C66 (partial): `C66_yct_pk_reads`, `C66_yct_borsh_refuted`, `C66_yct_msk_reads`, `C66_yct_sk_reads`, `C66_yct_ct_reads`, `C66_lost_encrypt`, `C66_lost_keygen`, `C66_lost_sk`, `C66_lost_ct`.
* C67 (proved): `C67_store_load`, `C67_hex_back`.
* C68 (partial): `C68_decrypt_state`, `C68_decrypt_panics`, `C68_decrypt_writes_refuted`, `C68_decrypt_success`.
* C69 (partial): `C69_wrap_bsw`, `C69_ciphertext_file_refuted`, `C69_wrap_lsw`, `C69_wrap_aw11`.
* C70 (partial): `C70_refused_bsw`, `C70_refused_reported_refuted`, `C70_refused_lsw`.
* C71 (partial): `C71_delegate_never`, `C71_delegate_refuted`, `C71_encrypt_never`, `C71_encrypt_refuted`.
* C72 (partial): `C72_aw11_lost`, `C72_aw11_refuted`.
* C73 (partial): `C73_keygen_single`, `C73_cp_single`, `C73_two_attributes_refuted`.
* C74 (proved): `C74_cp_console`.
* C75 (partial): `C75_yct_console_encrypt`, `C75_yct_console_keygen`, `C75_yct_console_refuted`, `C75_yct_console_decrypt`.
* C76 (partial): `C76_bd_console_calls`, `C76_bd_console_refuted`, `C76_mk_console_calls`, `C76_mk_console_refuted`.
* C77 (proved): `C77_run_frame`, `C77_calls_frame`.
* C78 (proved): `C78_run_clean`.
* C79 (partial): `C79_prune_aborts`, `C79_bsw_panics`, `C79_ghw_panics`, `C79_ghw_out_panics`, `C79_lsw_panics`, `C79_yct_panics`, `C79_ac_panics`, `C79_aw_panics`, `C79_bd_panics`, `C79_mk_panics`, `C79_ghw_total_refuted`, `C79_lsw_total_refuted`, `C79_yct_total_refuted`, `C79_cp_total_refuted`, `C79_kp_total_refuted`, `C79_aw_total_refuted`, `C79_no_abort_partial`, `C79_yct_lookups`.
* C80 (proved): `C80_msp_verdict`.
* C81 (proved): `C81_kp_hash`, `C81_cp_hash`, `C81_bsw_encrypt`, `C81_ghw_encrypt`, `C81_lsw_encrypt`, `C81_yct_encrypt`, `C81_cp_encrypt`, `C81_kp_encrypt`, `C81_aw_encrypt`, `C81_bd_encrypt`, `C81_mk_encrypt`.
* C82 (proved): `C82_cp_hash`, `C82_kp_hash`, `C82_bsw_keygen`, `C82_bsw_delegate`, `C82_ghw_keygen`, `C82_ghw_tkgen`, `C82_lsw_keygen`, `C82_yct_keygen`, `C82_cp_keygen`, `C82_kp_keygen`, `C82_aw_keygen`.
* C83 (proved): `C83_chain_fresh`, `C83_chain_decrypts`, `C83_chain_extends`.
* C84 (partial): `C84_sharing`, `C84_bsw_setup`, `C84_bsw_keygen`, `C84_bsw_delegate`, `C84_bsw_encrypt`, `C84_ghw_setup`, `C84_ghw_keygen`, `C84_ghw_tkgen`, `C84_ghw_encrypt`, `C84_lsw_setup`, `C84_lsw_keygen`, `C84_lsw_encrypt`, `C84_lsw_negation_sum`, `C84_lsw_negation_sum_refuted`, `C84_yct_setup`, `C84_yct_keygen`, `C84_yct_encrypt`, `C84_ac_setup`, `C84_cp_keygen`, `C84_cp_encrypt`, `C84_kp_keygen`, `C84_kp_encrypt`, `C84_kp_not_published`, `C84_kp_published_refuted`, `C84_aw_setup`, `C84_aw_authgen`, `C84_aw_keygen`, `C84_aw_encrypt`, `C84_bd_setup`, `C84_bd_authgen`, `C84_bd_keygen`, `C84_bd_encrypt`, `C84_mk_setup`, `C84_mk_authgen`, `C84_mk_keygen`, `C84_mk_encrypt`.
* C85 (partial): `C85_rerandomise_runs`, `C85_rerandomise_honest`, `C85_rerandomise_differs`, `C85_ciphertext_fixed_refuted`.
* C86 (partial): `C86_json_cubic_partial`, `C86_human_polynomial_refuted`, `C86_open_parentheses`, `C86_nested_parentheses`, `C86_left_nested_or`.
* C87 (partial): `C87_recover_conjunction_partial`, `C87_recover_exact`, `C87_recover_one`, `C87_recover_disjunction`, `C87_recover_secret_refuted`.
* C88 (partial): `C88_lsw_decrypt_exact`, `C88_lsw_negated_name_refuted`, `C88_lsw_decrypt_carry_partial`, `C88_lsw_all_negated`.
* C89 (proved): `C89_bsw_decrypt`, `C89_ghw_decrypt`, `C89_lsw_decrypt`, `C89_yct_decrypt`, `C89_cp_decrypt`, `C89_kp_decrypt`, `C89_aw_decrypt`.
* C90 (partial): `C90_cp_rest_distinct`, `C90_kp_rest_distinct`, `C90_cp_attribute_twice`, `C90_cp_repeated_refuted`, `C90_kp_attribute_twice`, `C90_kp_repeated_refuted`.
* C91 (proved): `C91_every_text`, `C91_accepted`, `C91_rejected`, `C91_aborts`, `C91_one_meaning`, `C91_brackets`, `C91_same_column`.
* C92 (proved): `C92_every_text`, `C92_accepted`, `C92_rejected`, `C92_aborts`, `C92_one_meaning`, `C92_tidy`, `C92_without_precedence_refuted`, `C92_without_precedence_two_meanings_refuted`.
* C93 (proved): `C93_bsw`, `C93_lsw`, `C93_ac17`, `C93_aw11`, `C93_bdabe`, `C93_mke08`, `C93_yct14`, `C93_damaged`, `C93_no_panic`, `C93_hex_exact`.
* C94 (partial): `C94_bd_access`, `C94_mk_access`, `C94_opens_iff`, `C94_opens_is_sat_partial`, `C94_opens_more`, `C94_refuted`.
* C95 (proved): `C95_json_back`, `C95_accepted_names`, `C95_to_json`, `C95_to_json_distinct`, `C95_human_never_back`, `C95_to_human`, `C95_json_writable`, `C95_human_writable`, `C95_human_back`, `C95_json_injection_refuted`, `C95_json_total`, `C95_json_leaf`, `C95_human_exact`.
* C96 (partial): `C96_shares`, `C96_pruned`, `C96_msp`, `C96_coefficients_partial`, `C96_check_partial`, `C96_check_leaf_object`, `C96_normal_form`, `C96_check_refuted`, `C96_coefficients_refuted`.
* C97 (partial): `C97_bounded_depth_refuted`, `C97_depth_needed`, `C97_depth_enough`, `C97_height_linear`, `C97_every_height`.
* C98 (partial): `C98_text_tells_refuted`, `C98_text_tells_names`, `C98_text_tells_policies`, `C98_text_written`, `C98_new_exact`.
* C99 (partial): `C99_only_kinds`, `C99_success_writes_partial`, `C99_request_refused`, `C99_success_writes_refuted`.
* C100 (partial): `C100_damaged_key`, `C100_missing_key`, `C100_missing_document`, `C100_refused_policy`, `C100_reported_refuted`, `C100_encrypt_aborts`.
* C101 (proved): `C101_first_choice`, `C101_choice_unique`, `C101_minimal`, `C101_minimal_one_line`, `C101_repeated_leaf_refuted`, `C101_smallest_refuted`.
* C102 (proved): `C102_bsw`, `C102_bsw_delegate`, `C102_ghw`, `C102_lsw`, `C102_yct`, `C102_aw`, `C102_bd`, `C102_mk`, `C102_cp`, `C102_kp`, `C102_repeated_refuted`.
* C103 (proved): `C103_aw_order`, `C103_aw_merge`, `C103_aw_keygen`, `C103_bd`, `C103_mk`, `C103_yct_encrypt`, `C103_yct_keygen`, `C103_aw_first`, `C103_aw_shared_refuted`.
* C104 (proved): `C104_utf8_exact`, `C104_read_exact`, `C104_read_aborts`.
* C105 (proved): `C105_not_offered`, `C105_words`, `C105_words_all`, `C105_one_word`.
* C106 (partial): `C106_depends`, `C106_named`, `C106_bdabe_needs`, `C106_named_suffice_refuted`, `C106_last_character`, `C106_target`.
* C107 (partial): `C107_accepted`, `C107_kept`, `C107_default_files`, `C107_defaults_fit`, `C107_defaults_unfit`, `C107_defaults_fit_refuted`, `C107_names`, `C107_dispatch`, `C107_idle`, `C107_status`, `C107_scheme_needed`.
* C108 (proved): `C108_order_prime`, `C108_laws`, `C108_text_bound`, `C108_width`, `C108_bsw`, `C108_bsw_delegated`, `C108_ghw`, `C108_lsw`, `C108_yct`, `C108_aw`.
* C109 (proved): `C109_bsw`, `C109_bsw_none`, `C109_lsw`, `C109_lsw_none`, `C109_ac17_cp`, `C109_ac17_kp`, `C109_ac17_cp_none`, `C109_ac17_kp_none`, `C109_yct`, `C109_yct_none`, `C109_aw`, `C109_aw_none`, `C109_bdabe`, `C109_bdabe_none`, `C109_mke`, `C109_mke_none`.
* C110 (proved): `C110_cloud`, `C110_cloud_none`, `C110_one_key_twin`, `C110_one_key`.
* C111 (proved): `C111_bsw`, `C111_ghw`, `C111_lsw`, `C111_yct`, `C111_ac17_cp`, `C111_ac17_kp`, `C111_aw`, `C111_bdabe`, `C111_mke`.
* C112 (partial): `C112_language_refuted`, `C112_line`, `C112_last_line`, `C112_display`, `C112_kinds`.
* C113 (proved): `C113_bsw`, `C113_ghw`, `C113_lsw`, `C113_yct`, `C113_ac17_cp`, `C113_ac17_kp`, `C113_aw`, `C113_bdabe`, `C113_mke`.
* C114 (partial): `C114_payload`, `C114_bsw`, `C114_ghw`, `C114_lsw`, `C114_ac17_cp`, `C114_ac17_kp`, `C114_aw`, `C114_yct`, `C114_bdabe`, `C114_mke`, `C114_product`, `C114_bdabe_refuted`, `C114_mke_refuted`.
* C115 (proved): `C115_bsw`, `C115_ghw`, `C115_lsw`, `C115_ac17_cp`, `C115_ac17_kp`, `C115_aw`, `C115_yct`, `C115_bdabe`, `C115_mke`, `C115_differ`.
* C116 (proved): `C116_length`, `C116_number`, `C116_padding`, `C116_padding_injective`, `C116_tables`.
* C117 (proved): `C117_exact`, `C117_length`, `C117_one_tag`, `C117_reuse`, `C117_open_exact`, `C117_sealed_length`, `C117_open_short`, `C117_sbox`.
* C118 (proved): `C118_laws`, `C118_bsw`, `C118_bsw_delegated`, `C118_ghw`, `C118_lsw`, `C118_yct`, `C118_ac17_cp`, `C118_ac17_kp`, `C118_aw`, `C118_bdabe`, `C118_mke`.
* C119 (proved): `C119_bsw`, `C119_ghw`, `C119_lsw`, `C119_yct`, `C119_ac17_cp`, `C119_ac17_kp`, `C119_bdabe`, `C119_mke`, `C119_new`.
* C120 (proved): `C120_bsw`, `C120_ghw`, `C120_lsw`, `C120_yct`, `C120_ac17`, `C120_aw11`, `C120_bdabe`, `C120_mke08`, `C120_cut`, `C120_longer`, `C120_bytes_size`, `C120_layout_bsw`, `C120_layout_ghw`, `C120_layout_lsw`, `C120_layout_yct`, `C120_layout_ac17`, `C120_layout_aw11`, `C120_layout_bdabe`, `C120_layout_mke08`, `C120_head_shortest`, `C120_layout_result`, `C120_result_back`.
* C121 (partial): `C121_order`, `C121_extra`, `C121_one_form_refuted`, `C121_twice`, `C121_missing`, `C121_packed_mixup`, `C121_named_no_mixup`, `C121_one_type_refuted`, `C121_nesting`, `C121_too_deep`, `C121_text_as_bytes`, `C121_bytes_as_bytes`, `C121_byte_range`, `C121_array_form`, `C121_array_length`, `C121_node_missing`, `C121_enum_public`, `C121_enum_private`, `C121_enum_other`, `C121_lang_exact`.
* C122 (proved): `C122_files`, `C122_results`, `C122_result_file`, `C122_yct_session`.
* C123 (partial): `C123_session`, `C123_decrypt_refuted`, `C123_never`, `C123_size`, `C123_wrong_length`, `C123_names`, `C123_keygen`, `C123_comma_refuted`, `C123_encrypt`, `C123_policy`, `C123_delegate`, `C123_delegate_exact`, `C123_keygen_exact`, `C123_decrypt_fails`, `C123_encrypt_fails`, `C123_encrypt_beyond`, `C123_size_wraps`, `C123_unterminated`.
* C124 (proved): `C124_sha3`, `C124_schedule`, `C124_aes`, `C124_product`, `C124_product_unique`, `C124_seal`, `C124_seal_unique`, `C124_open`, `C124_message`, `C124_message_open`.
* C125 (partial): `C125_decrypt`, `C125_make`, `C125_operation_refuted`, `C125_bsw`, `C125_ghw`, `C125_ghw_out`, `C125_lsw`, `C125_yct`, `C125_aw`, `C125_bd`, `C125_mk`, `C125_cp`, `C125_kp`, `C125_mismatch`, `C125_never`, `C125_policy`, `C125_dnf`, `C125_empty`, `C125_ac17`, `C125_request`, `C125_aw_add`, `C125_aw_keygen`, `C125_spelled`.
* C126 (proved): `C126_bsw`, `C126_ghw`, `C126_lsw`, `C126_yct`, `C126_ac`, `C126_aw`, `C126_bd`, `C126_mk`, `C126_sharing`, `C126_plain`, `C126_aes`.
* C127 (proved): `C127_bsw`, `C127_bsw_any`, `C127_ghw_transform`, `C127_ghw_out`, `C127_lsw`, `C127_yct`, `C127_yct_encrypt`, `C127_ac17_cp`, `C127_ac17_kp`, `C127_aw`, `C127_bdabe`, `C127_mke`.
* C128 (partial): `C128_cheapest_refuted`, `C128_at_most_all`, `C128_conjunction`.
* C129 (proved): `C129_bsw_setup`, `C129_bsw_keygen`, `C129_bsw_delegate`, `C129_bsw_encrypt`, `C129_ghw_setup`, `C129_ghw_keygen`, `C129_ghw_tkgen`, `C129_ghw_encrypt`, `C129_lsw_setup`, `C129_lsw_keygen`, `C129_lsw_encrypt`, `C129_yct_setup`, `C129_yct_keygen`, `C129_yct_encrypt`, `C129_ac_setup`, `C129_cp_keygen`, `C129_cp_encrypt`, `C129_kp_keygen`, `C129_kp_encrypt`, `C129_aw_setup`, `C129_aw_authgen`, `C129_aw_encrypt`, `C129_bd_setup`, `C129_bd_authgen`, `C129_bd_keygen`, `C129_bd_encrypt`, `C129_mk_setup`, `C129_mk_authgen`, `C129_mk_keygen`, `C129_mk_encrypt`, `C129_apart`, `C129_refused`.
* C130 (partial): `C130_bsw_setup`, `C130_bsw_keygen`, `C130_bsw_delegate`, `C130_bsw_encrypt`, `C130_ghw_setup`, `C130_ghw_keygen`, `C130_ghw_tkgen`, `C130_ghw_encrypt`, `C130_lsw_setup`, `C130_lsw_keygen`, `C130_lsw_encrypt`, `C130_lsw_encrypt_hides`, `C130_lsw_encrypt_refuted`, `C130_yct_setup`, `C130_yct_keygen`, `C130_yct_encrypt`, `C130_ac_setup`, `C130_cp_keygen`, `C130_cp_encrypt`, `C130_kp_keygen`, `C130_kp_encrypt`, `C130_aw_setup`, `C130_aw_authgen`, `C130_aw_encrypt`, `C130_aw_encrypt_hides`, `C130_aw_encrypt_refuted`, `C130_bd_setup`, `C130_bd_authgen`, `C130_bd_keygen`, `C130_bd_encrypt`, `C130_bd_encrypt_hides`, `C130_bd_encrypt_refuted`, `C130_mk_setup`, `C130_mk_authgen`, `C130_mk_keygen`, `C130_mk_encrypt`, `C130_mk_encrypt_hides`, `C130_mk_encrypt_refuted`.
* C131 (proved): `C131_fixed`, `C131_bsw_keygen`, `C131_bsw_delegate`, `C131_bsw_encrypt`, `C131_lsw_keygen`, `C131_lsw_encrypt`, `C131_yct_setup`, `C131_yct_keygen`, `C131_yct_encrypt`, `C131_ac_setup`, `C131_cp_keygen`, `C131_cp_encrypt`, `C131_kp_keygen`, `C131_kp_encrypt`, `C131_aw_authgen`, `C131_aw_keygen`, `C131_aw_encrypt`, `C131_bd_authgen`, `C131_bd_keygen`, `C131_bd_request_pk`, `C131_bd_request_sk`, `C131_bd_encrypt`, `C131_mk_authgen`, `C131_mk_keygen`, `C131_mk_request_pk`, `C131_mk_request_sk`, `C131_mk_encrypt`, `C131_alike`, `C131_seals`.
* C132 (proved): `C132_same`, `C132_twin`, `C132_five`, `C132_none`.
* C133 (partial): `C133_bsw_encrypt`, `C133_bsw_decrypt`, `C133_ghw_encrypt`, `C133_ghw_transform`, `C133_lsw_keygen`, `C133_lsw_decrypt`, `C133_yct_decrypt`, `C133_cp_encrypt`, `C133_cp_decrypt`, `C133_kp_keygen`, `C133_kp_decrypt`, `C133_aw_encrypt`, `C133_aw_decrypt`, `C133_bd_encrypt`, `C133_bd_decrypt`, `C133_mk_encrypt`, `C133_mk_decrypt`, `C133_silent`, `C133_in_dnf`, `C133_array`, `C133_delegate`, `C133_yct_keygen`, `C133_yct_keygen_lines`, `C133_yct_keygen_secrets`, `C133_silent_refuted`, `C133_read_to_vec`, `C133_number`, `C133_write_from_vec`, `C133_write_file`.
* C134 (proved): `C134_bsw`, `C134_lsw`, `C134_ac17_cp`, `C134_ac17_kp`, `C134_yct`, `C134_yct_guess`, `C134_ghw_cloud`, `C134_bdabe`, `C134_mke`, `C134_aw`.
* C135 (partial): `C135_status`, `C135_error_line`, `C135_nothing`, `C135_announced`, `C135_setup`, `C135_authgen`, `C135_keygen`, `C135_yct_keygen`, `C135_delegate`, `C135_encrypt`, `C135_decrypt`, `C135_request_pk`, `C135_request_sk`, `C135_same`, `C135_bad_file`, `C135_several_keys`, `C135_no_request`, `C135_list`, `C135_request_refuted`, `C135_encrypt_refuted`, `C135_no_authorities`, `C135_no_attributes`, `C135_yct_setup`, `C135_no_name`, `C135_no_delegation`, `C135_outside`, `C135_nothing_delegated`.
* C136 (partial): `C136_bsw`, `C136_ghw`, `C136_lsw`, `C136_cp`, `C136_kp`, `C136_yct`, `C136_mke`, `C136_bdabe`, `C136_bdabe_authority`, `C136_bdabe_refuted`.
* C137 (partial): `C137_accepted`, `C137_exact`, `C137_front`, `C137_one_attribute`, `C137_one_public_key`, `C137_no_defaults`, `C137_session`, `C137_readme_key`, `C137_readme`, `C137_readme_refuted`.
* C138 (proved): `C138_bsw`, `C138_bsw_delegated`, `C138_ghw`, `C138_ac17_cp`, `C138_ac17_kp`, `C138_yct`, `C138_lsw`, `C138_aw`, `C138_bdabe`, `C138_mke`.
* C139 (proved): `C139_bsw`, `C139_lsw`, `C139_yct`, `C139_ac17`, `C139_aw`, `C139_bdabe`, `C139_mke`, `C139_result`.
* C140 (partial): `C140_twins`, `C140_files`, `C140_refuted`, `C140_apart`.
* C141 (proved): `C141_trace`, `C141_late`, `C141_readable`, `C141_needed`.
* C142 (proved): `C142_completes`, `C142_aborts`, `C142_attributes`.
* C143 (proved): `C143_quoted`, `C143_utf8`, `C143_split`.
* C144 (proved): `C144_files`, `C144_lines`.
* C145 (proved): `C145_bd_parts`, `C145_mk_parts`, `C145_every_leaf`, `C145_count`, `C145_names`, `C145_bd_bytes`, `C145_mk_bytes`.
* C146 (proved): `C146_bsw`, `C146_ghw`, `C146_lsw`, `C146_ac17_cp`, `C146_ac17_kp`, `C146_aw11`, `C146_bdabe`, `C146_mke08`.
* C147 (proved): `C147_borsh`, `C147_layout`, `C147_read`, `C147_apart`.
* C148 (proved): `C148_bsw`, `C148_bsw_delegate`, `C148_ghw`, `C148_ghw_transform`, `C148_lsw`, `C148_aw11_authority`, `C148_aw11`, `C148_bdabe`, `C148_mke08`, `C148_ac17_cp`, `C148_ac17_kp`.
* C149 (partial): `C149_places`, `C149_bsw`, `C149_ghw`, `C149_aw`, `C149_ac17_cp`, `C149_ac17_kp`, `C149_yct`, `C149_lsw`, `C149_lsw_noticed`, `C149_lsw_refuted`.
* C150 (proved): `C150_draws`, `C150_bsw`, `C150_ghw`, `C150_lsw`, `C150_yct`, `C150_aw_draws`, `C150_aw`.
* C151 (partial): `C151_ghw_agree_refuted`, `C151_yct_agree_refuted`, `C151_aw_agree_refuted`, `C151_cp_agree_refuted`, `C151_kp_agree_refuted`, `C151_held`, `C151_bsw`, `C151_ghw`, `C151_lsw`, `C151_yct`, `C151_aw`, `C151_ac17_cp`, `C151_ac17_kp`, `C151_bdabe`, `C151_mke`, `C151_bsw_agree_refuted`, `C151_lsw_agree_refuted`, `C151_bdabe_agree_refuted`, `C151_mke_agree_refuted`.
* C152 (proved): `C152_ghw`, `C152_ghw_differs`, `C152_lsw`, `C152_lsw_all`.
* C153 (proved): `C153_ghw`, `C153_lsw`.
* C154 (proved): `C154_bsw`, `C154_ghw`, `C154_lsw`, `C154_aw`, `C154_ac17_cp`, `C154_ac17_kp`, `C154_bdabe`, `C154_mke`.
* C155 (proved): `C155_narrower`, `C155_names`, `C155_bsw`, `C155_ghw`, `C155_lsw`, `C155_yct`, `C155_aw`.
* C156 (partial): `C156_bsw_retarget`, `C156_ghw_retarget`, `C156_bsw_opens`, `C156_ghw_opens`, `C156_bsw_refuted`, `C156_ghw_refuted`.
* C157 (partial): `C157_lsw_rekey`, `C157_lsw_rekey_any`, `C157_lsw_opens`, `C157_lsw_refuted`.
* C158 (partial): `C158_yct_sever`, `C158_yct_sever_any`, `C158_yct_opens`, `C158_yct_sever_one`, `C158_one_means`, `C158_yct_refuted`, `C158_yct_any_refuted`, `C158_yct_one_refuted`.
* C159 (partial): `C159_yct_two_keys`, `C159_yct_zeros`, `C159_yct_many_keys`, `C159_yct_refuted`, `C159_yct_many_refuted`.
* C160 (proved): `C160_yct_twin`, `C160_yct_moved`, `C160_yct_either`, `C160_yct_room`.

## 6. Not modelled

* The BN254 implementation, the code of the crates sha3 and aes-gcm (their
  standards are written out in `Sha3.v` and `Gcm.v`), the RNG.
* Computational security: there are no game-based proofs. C17 and C62 are
  information-theoretic; attack theorems are exact.
* In most files an error is the value `Err`.  `Errors.v` models the error type, and
  `Messages.v` the texts at the places where they arise.  Where pest reports a wrong
  policy, which error `Fr::from_slice` gives, and how `aead::Error` prints belong to
  crates.  What the library prints on the terminal is in
  `Prints.v` (C133).  Not modelled: texts of panics and the error of `encrypt_symmetric` for
  data beyond the limit of AES-GCM.
* `src/ffi/bsw.rs` is modelled (C123), although `src/lib.rs` does not include it and
  it no longer matches the API it calls: it is read against the present API.  Not
  modelled there: `malloc` failing, null pointers, use after free, and the code of
  `serde_json`, which is a parameter.
* `rabe-console`: the texts of panics, the messages of clap, and how clap splits a command line of `authgen` or one with `--a=value`.
* The texts of the README files; criterion, which runs the benchmarks.
* Time and memory, except for the work and recursion of the parser (C86, C97) and the
  pairings of decryption (C127, C128).

## 7. Findings

Each is a theorem about the model; the lines are those cited in the model.

Parser and policies
* A number in a policy always panics, in both languages (C07).
* The human serialiser drops quotes; its output never reads back as the same policy, for no policy (C05, C95). The JSON serialiser does not escape names: a hand-built name with a quote becomes several names (C95).
* `traverse_policy` accepts every object of kind Leaf without looking at the name in it, and `calc_coefficients` gives it an empty label; the parsers never build such objects, callers of the public API can (C96).
* `Display for AbePolicy` does not escape names: two programs with names built by hand can print the same (C98).
* The recursion of the parser is not bounded: nested parentheses (or nested JSON nodes) make it as deep as the text demands (C97).
* Attributes on different lines can get the same column, so two leaves share
  one index and one share (C09).
* JSON `and`/`or` with no or one child: encryption succeeds, decryption panics (C14).
* Names with an underscore are cut at the first one (C41, C64): the owner of
  `A_x` can act as the owner of `A_y`.
* The human parser takes exponential time on nested parentheses, also when it
  accepts the text: every level multiplies the work by three, an unclosed one by
  six (C86). Policies are parsed from ciphertexts (BSW, GHW11, AW11, AC17), so
  whoever supplies a ciphertext can stop the decrypting party with a hundred bytes.
* `recover_secret` adds the shares of all branches of a disjunction (C87). Only
  tests use it.
* A comment with a quote in it, between the quotes of a JSON operator, is taken for the end of
  a name (C92): such texts are refused, or read with one child more than a reader of the
  grammar as a context-free one would see.

DNF schemes (BDABE, MKE08)
* The second and later conjunctions of a disjunction are split into single
  attributes: a user with one attribute of a conjunction can decrypt (C25). The attribute sets that open a ciphertext are determined exactly (C94).
* Missing attribute public keys silently drop attributes from a conjunction
  (C27), nested operators of the same kind panic (C26).
* The policy of a ciphertext is not authenticated (C61).

Schemes
* All eight schemes hash an attribute to a known multiple of a fixed generator.
  The discrete logarithm of every attribute is public, which breaks collusion
  resistance or lets a user add attributes to a key (C52-C60); for YCT14 as many keys for a conjunction
  as it has names give a key for each of its names (`C60_yct_many`, adversary in Isolate.v).
* AC17: attribute names of the form `01..` collide with the labels of matrix
  columns (C63). Duplicate names break AC17, LSW and YCT14 (C42).
* An `and` with other than two children panics in AW11 and AC17 (C23).
* AW11: names are compared in different cases at different places (C43).
* LSW: negated attributes are not implemented (C47). The values that the
  ciphertext carries for them add up to zero instead of the secret, because the loop
  that makes the shares first subtracts the secret from itself (C84).
* AC17 decryption fails when a key (CP) or a ciphertext (KP) lists an attribute
  twice (C90): the entries of a name are added up.
* LSW decryption uses the value of the leaf before when a leaf is negated (C88);
  with negated leaves only, the key has no influence on the result.
* AC17 key-policy keys are not those of the publication: the blinding of a
  column is added to all later columns and is not divided by the secret (C84).
  Decryption is not affected (C36).
* Everyone can turn a BSW ciphertext into a different one of the same plaintext
  (C85), as in the published scheme.
* Most encryption functions accept an empty plaintext (C44).
* YCT14: key generation skips unregistered attributes silently; encryption for
  them panics; borsh drops all attribute values (C66), so keys and ciphertexts
  that were stored are useless.
* Symmetric layer: payloads below 12 bytes panic (C49).
* A ciphertext or key with a missing part makes decryption panic in GHW11, LSW,
  YCT14, AC17 and AW11 (C79).
* `write_from_vec` opens its file for reading and never writes (C50).

Console
* `decrypt` never writes a plaintext; it panics when decryption worked (C68).
* BSW, LSW, AW11, BDABE, MKE08 `encrypt` write a serialised `Result`; `decrypt`
  cannot read it (C69), and failed encryptions are reported as success (C70).
* `delegate`, and `encrypt` for AC17KP, BDABE and MKE08, fail on every accepted
  command line because a path stays empty (C71).
* AW11 `setup` writes its parameters to the master key file (C72).
* `keygen` accepts one attribute only (C73).
* No command adds attribute keys to a BDABE or MKE08 user key (C76).
* A BDABE attribute key request that is refused is reported as a success and writes nothing (C99).
* BDABE `keygen` reads `ska.key` and ignores the authority key file given as `skau` (C106). With default names AC17KP, AW11, BDABE and MKE08 read key files that the commands before do not write (C107).
* An error in a human policy is reported as a `Json Policy Error` (C112_language_refuted; `src/error.rs:56`).
* BDABE and MKE08 draw the payload key as a power of a power, so the key is a product of draws: not uniform, the trivial key is nearly two (three) times as likely as it should be (C114_bdabe_refuted, C114_mke_refuted).
* In every scheme but YCT14 ciphertexts can be re-randomised with the public key alone: they are multiplied by an encryption with a trivial payload key (C115).
* Two holders of keys for the same attributes or policy can compute further keys that were issued to neither (C119); a leaked key cannot be traced to its holder, and in BDABE and MKE08 the user's name is not bound to the key.
* With the feature borsh a file carries no type: a BSW public key is accepted as a BDABE one, a BDABE user key as an MKE08 one, the AW11 global key as the MKE08 master key, and the other way round (C140).
* With the feature serde the console writes fields by number: an MKE08 public key file is accepted as a BDABE one, that as a BSW one, that as a GHW11 one (C121); with names they would be refused.
* `rabe_bsw_decrypt` of the C interface copies 12 bytes more than the plaintext has, because it subtracts 16 for the tag and nothing for the nonce; an empty plaintext, a wrong length, and a delegation the key does not allow abort the calling program (C123).
* Decryption of BSW reports its errors as those of `bsw/encrypt`; the second check of the attributes in GHW11, AW11 and AC17 and the error of `calc_pruned` can never be reached (C125).
* Two tests fix flaws as expected behaviour (C126): the test of the normal form asks for 3 and 5 terms for policies of 2 and 3 conjunctions, and the test `or_and` of BDABE binds `_att2_pk` twice, so the key of `aa2::B` is not used and `aa3::C` alone opens its ciphertext. A third policy of the former has `::` in it, does not parse, and is not checked.
* More attributes can make decryption slower (C128): of a disjunction the first true child is taken, however many leaves it has.
* LSW encryption draws a random value per attribute but never uses the last one; BDABE and MKE08 encryption draw two scalars for the payload key of which only the product matters; AW11 encryption draws a value for leaves it then leaves out (C130).
* YCT14 `keygen` succeeds although the master key lacks attributes of the policy: it prints a line for each and leaves them out of the key (C133).
* A BDABE `req-attr-sk` that is refused prints `Error: Error: attribute … is not from_authority() or !is_eligible()` and ends with exit status 0 (`C135_request_refuted`); so does a BSW, AW11, BDABE or MKE08 encryption for a policy that cannot be read (`C135_encrypt_refuted`).  A YCT14 `keygen` complains of every name of the policy and ends with exit status 0 (`C135_yct_keygen`).
* The key of a BDABE authority holds g1^a and g2^(y-a), where y is the master secret (bdabe/mod.rs, `authgen`).  With these two elements every authority opens every ciphertext, for attributes of any authority (`C136_bdabe_authority`, `C136_bdabe_refuted`).
* `rabe-console/README.md` generates a key with `--a 'A and B'` and says that it has the attributes A and B.  It has one attribute, named "A and B", so the decryption shown there ends with an error (`C137_readme`).  A key with two attributes cannot be asked for from a command line (`C137_one_attribute`).
* Attributes of `encrypt` and of the requests are positional and come last, so the default file names cannot be used with them: `encrypt doc A B` reads A as the policy and B as the file of global parameters (`C137_no_defaults`).  The same holds for the policy and the name of `keygen`.
* `authgen` declares a positional argument that takes many words before two that take one (rabe-console/src/mod.rs:221-239), against the rule in clap's documentation; it is not part of `Words.v`.
* Anyone can make of any BSW or GHW11 ciphertext one for any other policy, because attribute names are hashed to known powers of a generator (`C156_bsw_retarget`, `C156_ghw_retarget`).
* The holder of an LSW key without negated names can make of it a key for any policy without negated names, for the same reason (`C157_lsw_rekey_any`), and so opens every ciphertext (`C157_lsw_opens`).
* In YCT14 the keys for `A` and for `A and B` of one user give the key for `B` (`C158_yct_sever`), and any policy can stand for `B` (`C158_yct_sever_any`). One key for `A or (A and g)`, which means `A`, gives a key for `g` (`C158_yct_sever_one`).
* Two YCT14 keys for the same policy, whatever it is, open ciphertexts that lack one of the names it needs (`C159_yct_two_keys`), and each further key makes up for one more name (`C159_yct_many_keys`).
* Files that cannot be opened, and in some branches damaged files or refused policies, abort the tool (C100).

## 8. Tests against wrong programs

`seeded/LOG.jsonl` has one line per edit of the model (made in a scratch copy):
the definition, the edit, the claim it breaks, the theorems that failed, the
theorems that were tightened. "Failed" lists what no longer compiles; since
property theorems are closed by `exact lemma`, the first failing lemma takes the
property theorems that depend on it with it, and both are listed.
