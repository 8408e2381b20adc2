{"id": "C01", "title": "Policy parsing always terminates", "statement": "For every policy text and each of the two policy languages, parsing finishes and the outcome is a policy tree, a parse error, or a panic on a numeric leaf; there is no text on which the grammar loops.", "quantifier": "all byte strings, both languages", "why_tests_cant": "a test can only run finitely many texts; non-termination needs an argument about the whole grammar", "anchors": ["src/utils/policy/pest/mod.rs#parse", "src/human.policy.pest", "src/json.policy.pest"]}
{"id": "C02", "title": "Parsed policies have only AND/OR nodes and named leaves", "statement": "Whenever parsing succeeds, the tree consists of AND/OR nodes that own an array of children and of leaves carrying a name and a position; never a bare array, a Leaf wrapper or an array inside an array. In the human language every AND/OR has at least two children.", "quantifier": "all policy texts for which parsing succeeds", "why_tests_cant": "universal over all accepted texts of a recursive grammar", "anchors": ["src/utils/policy/pest/human.rs#parse", "src/utils/policy/pest/json.rs#parse", "src/human.policy.pest", "src/json.policy.pest"]}
{"id": "C03", "title": "JSON policy text round-trips", "statement": "Serialising any policy tree (built from AND/OR nodes and names made of ordinary characters) to JSON and parsing the result gives the same tree up to leaf positions.", "quantifier": "all policy trees of any depth and arity with admissible names", "why_tests_cant": "recursive structure of unbounded depth and arity", "anchors": ["src/utils/policy/pest/mod.rs#serialize_policy", "src/utils/policy/pest/mod.rs#parse", "src/json.policy.pest"]}
{"id": "C04", "title": "Every policy tree can be written in the human language", "statement": "For every policy tree whose AND/OR nodes have at least two children, the fully parenthesised text with quoted names parses back to the same tree up to leaf positions.", "quantifier": "all policy trees of any depth and arity with admissible names", "why_tests_cant": "recursive structure of unbounded depth and arity", "anchors": ["src/human.policy.pest", "src/utils/policy/pest/human.rs#parse", "src/utils/policy/pest/mod.rs#parse"]}
{"id": "C05", "title": "The human serialiser produces re-parsable text", "statement": "Text produced by serialising a policy in the human language can be parsed again in the human language and yields the same policy.", "quantifier": "all policy trees", "why_tests_cant": "the claim ranges over all trees (expected to fail: names are printed without quotes)", "anchors": ["src/utils/policy/pest/mod.rs#serialize_policy", "src/human.policy.pest"]}
{"id": "C06", "title": "Mixing AND and OR needs parentheses", "statement": "A human-language text that joins three or more leaves with both 'and' and 'or' at the same nesting level is rejected with an error rather than parsed with some precedence.", "quantifier": "all leaf names, both orders of the operators", "why_tests_cant": "universal over names; requires reasoning about the grammar's ordered choice", "anchors": ["src/human.policy.pest#node,and,or"]}
{"id": "C07", "title": "Numeric leaves are usable", "statement": "Both grammars accept a number as a leaf; parsing a policy that is a number returns a leaf with the number's text.", "quantifier": "all numeric literals, both languages", "why_tests_cant": "expected to fail for every numeral: the parser unwraps a missing inner token and panics", "anchors": ["src/human.policy.pest#number", "src/json.policy.pest#number", "src/utils/policy/pest/human.rs#parse", "src/utils/policy/pest/json.rs#parse"]}
{"id": "C08", "title": "Leaves of a one-line policy have distinct identifiers", "statement": "For every policy text without a line break, the identifiers (name and column) of the leaves of the parsed tree are pairwise distinct.", "quantifier": "all one-line policy texts, both languages", "why_tests_cant": "needs an invariant of the parser over all texts", "anchors": ["src/utils/policy/pest/mod.rs#parse", "src/utils/secretsharing/mod.rs#node_index"]}
{"id": "C09", "title": "Leaf identifiers are distinct in every policy", "statement": "For every policy text, including multi-line ones, leaf identifiers are pairwise distinct, so shares and coefficients of different leaves cannot be confused.", "quantifier": "all policy texts", "why_tests_cant": "expected to fail when the same name stands in the same column of two lines", "anchors": ["src/utils/policy/pest/mod.rs#parse", "src/utils/secretsharing/mod.rs#node_index"]}
{"id": "C10", "title": "The access check is exactly the Boolean meaning of the policy", "statement": "For every parsed policy and every non-empty attribute list, the policy check answers true exactly when the AND/OR formula is true under 'attribute is in the list'; for an empty list it answers false.", "quantifier": "all policies, all attribute lists", "why_tests_cant": "infinite set of formulas and assignments", "anchors": ["src/utils/tools/mod.rs#traverse_policy"]}
{"id": "C11", "title": "Holding more attributes never loses access", "statement": "If an attribute list passes the policy check, every list containing at least those attributes passes as well; order and repetition do not matter.", "quantifier": "all policies, all pairs of attribute lists", "why_tests_cant": "universal over pairs of sets", "anchors": ["src/utils/tools/mod.rs#traverse_policy", "src/utils/secretsharing/mod.rs#calc_pruned"]}
{"id": "C12", "title": "Pruning agrees with the access check", "statement": "For every parsed policy whose AND/OR nodes all have at least two children and every non-empty attribute list, pruning terminates without panic and reports a match exactly when the access check does.", "quantifier": "all such policies, all attribute lists", "why_tests_cant": "universal over formulas and sets", "anchors": ["src/utils/secretsharing/mod.rs#calc_pruned", "src/utils/tools/mod.rs#traverse_policy"]}
{"id": "C13", "title": "A pruned leaf list is a satisfying selection", "statement": "When pruning reports a match, the returned leaves are leaves of the policy, in order and without repetition, their names are all owned, and the owned names alone already satisfy the policy.", "quantifier": "all policies and attribute lists with a match", "why_tests_cant": "universal over formulas and sets", "anchors": ["src/utils/secretsharing/mod.rs#calc_pruned"]}
{"id": "C14", "title": "Every policy that can be encrypted can be checked at decryption", "statement": "A policy accepted by the parser and by encryption does not make decryption abort.", "quantifier": "all policies, all keys", "why_tests_cant": "expected to fail: JSON AND/OR with fewer than two children encrypts but pruning panics", "anchors": ["src/utils/secretsharing/mod.rs#calc_pruned,gen_shares_policy", "src/json.policy.pest#and,or"]}
{"id": "C15", "title": "Sharing over a policy is reconstructible by every satisfying set", "statement": "For every policy, secret and randomness, and every attribute list that satisfies the policy, the sum over the pruned leaves of coefficient times share equals the secret.", "quantifier": "all policies (arity below the field size), all secrets, all random tapes, all satisfying lists", "why_tests_cant": "random polynomials, unbounded trees", "anchors": ["src/utils/secretsharing/mod.rs#gen_shares_policy,calc_coefficients,calc_pruned,recover_coefficients"]}
{"id": "C16", "title": "Threshold sharing reconstructs from any k shares", "statement": "For every k<=n, secret and randomness, Lagrange interpolation at zero over any k distinct shares of a k-of-n sharing gives the secret.", "quantifier": "all k, n, secrets, coefficients and subsets", "why_tests_cant": "universal over polynomials and subsets", "anchors": ["src/utils/secretsharing/mod.rs#gen_shares,polynomial,recover_coefficients"]}
{"id": "C17", "title": "Shares reveal nothing to a non-satisfying set", "statement": "For every policy and attribute list that does not satisfy it, the shares of the owned leaves are consistent with every possible secret: there is a fixed shift of the randomness (a bijection) that changes the secret to any other value and leaves every owned share unchanged.", "quantifier": "all policies, all non-satisfying lists, all secrets, all random tapes", "why_tests_cant": "a statement about all random choices at once (perfect secrecy)", "anchors": ["src/utils/secretsharing/mod.rs#gen_shares_policy,gen_shares,polynomial"]}
{"id": "C18", "title": "Fewer than k shares of a threshold sharing reveal nothing", "statement": "For every k-of-n sharing and every set of fewer than k share positions, every secret is consistent with the values at those positions, again through a bijection of the randomness.", "quantifier": "all k, n, positions, secrets, coefficients", "why_tests_cant": "a statement about all random choices at once", "anchors": ["src/utils/secretsharing/mod.rs#gen_shares,polynomial"]}
{"id": "C19", "title": "Shares and coefficients line up with the leaves", "statement": "For every parsed policy, the share list and the coefficient list each contain exactly one entry per leaf, in leaf order, labelled with the leaf's identifier.", "quantifier": "all policies, secrets, random tapes", "why_tests_cant": "universal over trees", "anchors": ["src/utils/secretsharing/mod.rs#gen_shares_policy,calc_coefficients"]}
{"id": "C20", "title": "The span-program matrix has the documented shape", "statement": "Whenever the matrix conversion succeeds there is one row per leaf labelled with its name, rows are sorted by name, all rows have the same width, and all entries are -1, 0 or 1.", "quantifier": "all policies", "why_tests_cant": "universal over trees", "anchors": ["src/utils/policy/msp.rs#calculate_msp,lw"]}
{"id": "C21", "title": "Satisfying sets span the target vector with 0/1 coefficients", "statement": "For every policy the conversion accepts and every attribute list satisfying it, the rows of the pruned leaves add up to (1,0,...,0).", "quantifier": "all accepted policies, all satisfying lists", "why_tests_cant": "linear algebra over unbounded matrices", "anchors": ["src/utils/policy/msp.rs#calculate_msp,lw", "src/utils/secretsharing/mod.rs#calc_pruned"]}
{"id": "C22", "title": "Non-satisfying sets do not span the target vector", "statement": "For every policy the conversion accepts and every attribute list not satisfying it, no linear combination over any field of the owned rows equals (1,0,...,0).", "quantifier": "all accepted policies, all non-satisfying lists, all coefficient vectors, all fields", "why_tests_cant": "quantifies over all linear combinations", "anchors": ["src/utils/policy/msp.rs#calculate_msp,lw"]}
{"id": "C23", "title": "Which policies the matrix conversion accepts", "statement": "The conversion succeeds exactly when every AND has two children and every OR at least two; on any other parsed policy it panics. In particular a policy with a three-way AND, legal in both languages, aborts AC17 and AW11.", "quantifier": "all parsed policies", "why_tests_cant": "universal over trees", "anchors": ["src/utils/policy/msp.rs#lw", "src/schemes/ac17/mod.rs#cp_encrypt,kp_keygen", "src/schemes/aw11/mod.rs#encrypt"]}
{"id": "C24", "title": "The DNF test recognises exactly the policies with no OR below an AND", "statement": "For every parsed policy, the DNF test answers true exactly when no OR node lies below an AND node.", "quantifier": "all parsed policies", "why_tests_cant": "universal over trees", "anchors": ["src/utils/policy/dnf.rs#policy_in_dnf"]}
{"id": "C25", "title": "DNF conversion keeps every conjunction intact", "statement": "For every policy that passes the DNF test and whose attributes all have a public key, the terms produced for encryption are exactly the conjunctions of the policy, so a term can be opened only with all attributes of one conjunction.", "quantifier": "all DNF policies, all public-key lists", "why_tests_cant": "expected to fail: the second and later conjunctions are split into weaker terms", "anchors": ["src/utils/policy/dnf.rs#dnf,json_to_dnf"]}
{"id": "C26", "title": "Encryption under a policy that passes the DNF test does not abort", "statement": "For every policy that passes the DNF test, BDABE and MKE08 encryption returns a result instead of panicking.", "quantifier": "all DNF policies", "why_tests_cant": "expected to fail for nested ORs and nested ANDs", "anchors": ["src/utils/policy/dnf.rs#dnf,policy_in_dnf", "src/schemes/bdabe/mod.rs#encrypt", "src/schemes/mke08/mod.rs#encrypt"]}
{"id": "C27", "title": "Conjunctions are not weakened by missing public keys", "statement": "If the public key of an attribute of a conjunction is not supplied, encryption fails rather than dropping the attribute from the conjunction.", "quantifier": "all policies and key lists", "why_tests_cant": "expected to fail: the attribute is silently dropped", "anchors": ["src/utils/policy/dnf.rs#dnf", "src/schemes/bdabe/mod.rs#encrypt", "src/schemes/mke08/mod.rs#encrypt"]}
{"id": "C28", "title": "Flat policies convert faithfully to DNF", "statement": "For a policy that is a single leaf, a conjunction of leaves, or a disjunction of leaves whose attributes have exactly one public key each, the terms are exactly the conjunctions of the policy.", "quantifier": "all such policies of any length", "why_tests_cant": "unbounded length", "anchors": ["src/utils/policy/dnf.rs#dnf,json_to_dnf"]}
{"id": "C29", "title": "BSW decrypts what it encrypts", "statement": "For every policy text and attribute list such that the attributes satisfy the policy (names without '_', distinct leaf identifiers), every plaintext, and every choice of randomness on which the algorithms succeed, bsw decrypt(keygen, encrypt) returns the plaintext.", "quantifier": "all policies, attribute lists, plaintexts, random choices", "why_tests_cant": "algebraic identity over all random group elements and unbounded policies", "anchors": ["src/schemes/bsw/mod.rs"]}
{"id": "C30", "title": "BSW delegation decrypts what it encrypts", "statement": "For every policy text and attribute list such that the attributes satisfy the policy (attributes delegated from a larger key), every plaintext, and every choice of randomness on which the algorithms succeed, bsw decrypt with a delegated key returns the plaintext.", "quantifier": "all policies, attribute lists, plaintexts, random choices", "why_tests_cant": "algebraic identity over all random group elements and unbounded policies", "anchors": ["src/schemes/bsw/mod.rs"]}
{"id": "C31", "title": "BSW delegation only narrows", "statement": "Delegation succeeds exactly when the requested set is non-empty and contained in the key's attributes; the delegated key carries exactly the requested attributes and has the same form as a freshly generated key for them.", "quantifier": "all keys and requested lists, all randomness", "why_tests_cant": "universal over keys and subsets", "anchors": ["src/schemes/bsw/mod.rs#delegate", "src/utils/tools/mod.rs#is_subset"]}
{"id": "C32", "title": "GHW11 with outsourced decryption decrypts what it encrypts", "statement": "For every policy text and attribute list such that the attributes satisfy the policy (names without '_', distinct leaf identifiers), every plaintext, and every choice of randomness on which the algorithms succeed, decrypt_out(transform(encrypt, tkgen)) returns the plaintext.", "quantifier": "all policies, attribute lists, plaintexts, random choices", "why_tests_cant": "algebraic identity over all random group elements and unbounded policies", "anchors": ["src/schemes/ghw11/mod.rs"]}
{"id": "C33", "title": "LSW decrypts what it encrypts", "statement": "For every policy text and attribute list such that the attributes satisfy the policy (names without '_' that are non-negated and distinct), every plaintext, and every choice of randomness on which the algorithms succeed, lsw decrypt(keygen, encrypt) returns the plaintext.", "quantifier": "all policies, attribute lists, plaintexts, random choices", "why_tests_cant": "algebraic identity over all random group elements and unbounded policies", "anchors": ["src/schemes/lsw/mod.rs"]}
{"id": "C34", "title": "YCT14 decrypts what it encrypts", "statement": "For every policy text and attribute list such that the attributes satisfy the policy (all attributes registered at setup, names without '_' and distinct), every plaintext, and every choice of randomness on which the algorithms succeed, yct14 decrypt(keygen, encrypt) returns the plaintext.", "quantifier": "all policies, attribute lists, plaintexts, random choices", "why_tests_cant": "algebraic identity over all random group elements and unbounded policies", "anchors": ["src/schemes/yct14/mod.rs"]}
{"id": "C35", "title": "AC17 ciphertext-policy decrypts what it encrypts", "statement": "For every policy text and attribute list such that the attributes satisfy the policy (distinct names in the policy and in the key), every plaintext, and every choice of randomness on which the algorithms succeed, cp_decrypt(cp_keygen, cp_encrypt) returns the plaintext.", "quantifier": "all policies, attribute lists, plaintexts, random choices", "why_tests_cant": "algebraic identity over all random group elements and unbounded policies", "anchors": ["src/schemes/ac17/mod.rs"]}
{"id": "C36", "title": "AC17 key-policy decrypts what it encrypts", "statement": "For every policy text and attribute list such that the attributes satisfy the policy (distinct names in the policy and in the ciphertext), every plaintext, and every choice of randomness on which the algorithms succeed, kp_decrypt(kp_keygen, kp_encrypt) returns the plaintext.", "quantifier": "all policies, attribute lists, plaintexts, random choices", "why_tests_cant": "algebraic identity over all random group elements and unbounded policies", "anchors": ["src/schemes/ac17/mod.rs"]}
{"id": "C37", "title": "AW11 multi-authority decrypts what it encrypts", "statement": "For every policy text and attribute list such that the attributes satisfy the policy (upper-case names without '_', authorities' keys supplied), every plaintext, and every choice of randomness on which the algorithms succeed, aw11 decrypt(keygen, encrypt) returns the plaintext.", "quantifier": "all policies, attribute lists, plaintexts, random choices", "why_tests_cant": "algebraic identity over all random group elements and unbounded policies", "anchors": ["src/schemes/aw11/mod.rs"]}
{"id": "C38", "title": "BDABE decrypts what it encrypts", "statement": "For every policy text and attribute list such that the attributes satisfy the policy (some produced term satisfied by the user's attribute keys), every plaintext, and every choice of randomness on which the algorithms succeed, bdabe decrypt returns the plaintext.", "quantifier": "all policies, attribute lists, plaintexts, random choices", "why_tests_cant": "algebraic identity over all random group elements and unbounded policies", "anchors": ["src/schemes/bdabe/mod.rs"]}
{"id": "C39", "title": "MKE08 decrypts what it encrypts", "statement": "For every policy text and attribute list such that the attributes satisfy the policy (some produced term satisfied by the user's attribute keys), every plaintext, and every choice of randomness on which the algorithms succeed, mke08 decrypt returns the plaintext.", "quantifier": "all policies, attribute lists, plaintexts, random choices", "why_tests_cant": "algebraic identity over all random group elements and unbounded policies", "anchors": ["src/schemes/mke08/mod.rs"]}
{"id": "C40", "title": "A key that does not satisfy the policy gets an error", "statement": "In every scheme, decrypting with attributes that do not satisfy the policy returns an error: never a plaintext and never a panic, whatever the rest of the ciphertext and key contain.", "quantifier": "all policies with AND/OR arity at least two, all keys and ciphertexts, all eight schemes", "why_tests_cant": "universal over all keys, ciphertexts, policies", "anchors": ["src/schemes/bsw/mod.rs#decrypt", "src/schemes/lsw/mod.rs#decrypt", "src/schemes/yct14/mod.rs#decrypt", "src/schemes/ac17/mod.rs#decrypt", "src/schemes/aw11/mod.rs#decrypt", "src/schemes/bdabe/mod.rs#decrypt", "src/schemes/mke08/mod.rs#decrypt", "src/schemes/ghw11/mod.rs#transform"]}
{"id": "C41", "title": "Attribute names containing an underscore work", "statement": "For a satisfying key, decryption also succeeds when attribute names contain '_' (as in the project's own example policy names).", "quantifier": "all names", "why_tests_cant": "expected to fail: everything after the first '_' is dropped when hashing or looking up", "anchors": ["src/utils/secretsharing/mod.rs#remove_index", "src/schemes/bsw/mod.rs#encrypt", "src/schemes/ghw11/mod.rs#encrypt", "src/schemes/lsw/mod.rs#keygen", "src/schemes/yct14/mod.rs#keygen", "src/schemes/aw11/mod.rs#encrypt"]}
{"id": "C42", "title": "An attribute may occur twice in a policy", "statement": "For a satisfying key, decryption succeeds also when the same attribute occurs more than once in the policy.", "quantifier": "all policies", "why_tests_cant": "expected to fail for AC17, LSW and YCT14, where components are looked up by name", "anchors": ["src/schemes/ac17/mod.rs#cp_decrypt,kp_decrypt", "src/schemes/lsw/mod.rs#decrypt", "src/schemes/yct14/mod.rs#decrypt"]}
{"id": "C43", "title": "AW11 attribute names are case-insensitive", "statement": "As documented, attribute names that differ only in case are the same in AW11: key generation and decryption work for any spelling.", "quantifier": "all spellings", "why_tests_cant": "expected to fail: key generation panics on lower-case names and lower-case policies never decrypt", "anchors": ["src/schemes/aw11/mod.rs#authgen,keygen,add_to_attribute,decrypt"]}
{"id": "C44", "title": "Encrypting nothing is refused", "statement": "Encryption of an empty plaintext or an empty policy returns an error.", "quantifier": "all keys, all policies", "why_tests_cant": "must hold for all states; expected to fail for BSW and GHW11, whose check builds an error and drops it", "anchors": ["src/schemes/bsw/mod.rs#encrypt", "src/schemes/ghw11/mod.rs#encrypt", "src/schemes/lsw/mod.rs#encrypt", "src/schemes/yct14/mod.rs#encrypt"]}
{"id": "C45", "title": "Keys without attributes are refused", "statement": "Key generation (or authority generation) for an empty attribute list returns None or an error and never a key, in every scheme that takes an attribute list.", "quantifier": "all master keys and randomness", "why_tests_cant": "universal over keys", "anchors": ["src/schemes/bsw/mod.rs#keygen", "src/schemes/ghw11/mod.rs#keygen", "src/schemes/ac17/mod.rs#cp_keygen", "src/schemes/aw11/mod.rs#authgen,keygen"]}
{"id": "C46", "title": "An authority serves exactly its own attributes", "statement": "BDABE and MKE08 authorities issue public and secret attribute keys for an attribute exactly when it contains '::' exactly once (non-overlapping scan) and the text before it is the authority's name; in particular no attribute is served by two differently named authorities.", "quantifier": "all attribute and authority names", "why_tests_cant": "universal over strings", "anchors": ["src/schemes/bdabe/mod.rs#from_authority,request_attribute_pk,request_attribute_sk", "src/schemes/mke08/mod.rs#from_authority,request_authority_pk,request_authority_sk"]}
{"id": "C47", "title": "LSW supports negated attributes", "statement": "A policy leaf '!X' lets a key decrypt ciphertexts that do not carry X, and not those that do.", "quantifier": "all names, all ciphertexts", "why_tests_cant": "expected to fail: negation is not implemented in decryption", "anchors": ["src/schemes/lsw/mod.rs#keygen,encrypt,decrypt"]}
{"id": "C48", "title": "Symmetric layer round-trips", "statement": "For every key material and plaintext, decrypting the output of the symmetric layer with the same key material returns the plaintext, and the output is the 12-byte nonce followed by the AEAD output.", "quantifier": "all key materials, plaintexts, nonces", "why_tests_cant": "universal over byte strings", "anchors": ["src/utils/aes/mod.rs#encrypt_symmetric,decrypt_symmetric"]}
{"id": "C49", "title": "Damaged ciphertexts are reported as errors", "statement": "Decrypting a payload of any length, including truncated ones, returns an error instead of aborting the process.", "quantifier": "all payloads", "why_tests_cant": "expected to fail for payloads shorter than 12 bytes", "anchors": ["src/utils/aes/mod.rs#decrypt_symmetric"]}
{"id": "C50", "title": "A file written by the library can be read back", "statement": "Writing bytes to a path and reading the path back gives the bytes, for both file-writing helpers.", "quantifier": "all paths, contents, file-system states", "why_tests_cant": "universal over file-system states; expected to fail for write_from_vec, which opens the file read-only", "anchors": ["src/utils/file/mod.rs#write_from_vec,read_to_vec,write_file,read_file"]}
{"id": "C51", "title": "Key files survive the header/footer wrapping", "statement": "For every one-line payload, the raw payload extracted from a file written with header and footer lines is the payload.", "quantifier": "all payloads without line breaks, all one-line headers", "why_tests_cant": "universal over strings", "anchors": ["src/utils/file/mod.rs#read_raw,write_file,read_file", "rabe-console/src/mod.rs#ser_enc,ser_dec_bin"]}
{"id": "C52", "title": "BSW: attributes confine what a key can open", "statement": "A user whose key carries one attribute cannot derive, with public operations only, a working key for a different attribute.", "quantifier": "all setups, keys, attributes, ciphertexts", "why_tests_cant": "a claim about every possible combination of published values; expected to fail because hashed attributes have publicly known discrete logarithms", "anchors": ["src/schemes/bsw/mod.rs#keygen,encrypt,decrypt", "src/utils/hash/mod.rs#sha3_hash"]}
{"id": "C53", "title": "GHW11: attributes confine what a key can open", "statement": "A user key cannot be turned, with public operations only, into a working key for attributes it was not issued for.", "quantifier": "all setups, keys, attributes, ciphertexts", "why_tests_cant": "a claim about every possible combination of published values; expected to fail because hashed attributes have publicly known discrete logarithms", "anchors": ["src/schemes/ghw11/mod.rs#keygen,tkgen,transform", "src/utils/hash/mod.rs#sha3_hash"]}
{"id": "C54", "title": "AC17 CP: attributes confine what a key can open", "statement": "A user key cannot open, with public operations only, a ciphertext whose policy its attributes do not satisfy.", "quantifier": "all setups, keys, policies", "why_tests_cant": "a claim about every possible combination of published values; expected to fail because hashed attributes have publicly known discrete logarithms", "anchors": ["src/schemes/ac17/mod.rs#cp_keygen,cp_encrypt,cp_decrypt", "src/utils/hash/mod.rs#sha3_hash"]}
{"id": "C55", "title": "AC17 KP: attributes confine what a key can open", "statement": "A ciphertext cannot be relabelled, with public operations only, to attributes it was not encrypted for.", "quantifier": "all setups, ciphertexts, attributes", "why_tests_cant": "a claim about every possible combination of published values; expected to fail because hashed attributes have publicly known discrete logarithms", "anchors": ["src/schemes/ac17/mod.rs#kp_keygen,kp_encrypt,kp_decrypt", "src/utils/hash/mod.rs#sha3_hash"]}
{"id": "C56", "title": "LSW: attributes confine what a key can open", "statement": "A ciphertext cannot be relabelled, with public operations only, to attributes it was not encrypted for.", "quantifier": "all setups, ciphertexts, attributes", "why_tests_cant": "a claim about every possible combination of published values; expected to fail because hashed attributes have publicly known discrete logarithms", "anchors": ["src/schemes/lsw/mod.rs#keygen,encrypt,decrypt", "src/utils/hash/mod.rs#sha3_hash"]}
{"id": "C57", "title": "AW11: attributes confine what a key can open", "statement": "Users with different global identifiers cannot combine their keys to open a ciphertext that none of them can open alone.", "quantifier": "all authorities, user names, policies", "why_tests_cant": "a claim about every possible combination of published values; expected to fail because hashed attributes have publicly known discrete logarithms", "anchors": ["src/schemes/aw11/mod.rs#keygen,add_to_attribute,encrypt,decrypt", "src/utils/hash/mod.rs#sha3_hash"]}
{"id": "C58", "title": "BDABE: attributes confine what a key can open", "statement": "A user holding one secret attribute key of an authority cannot derive, with public operations only, the secret attribute key of another attribute of that authority.", "quantifier": "all authorities, users, attributes", "why_tests_cant": "a claim about every possible combination of published values; expected to fail because hashed attributes have publicly known discrete logarithms", "anchors": ["src/schemes/bdabe/mod.rs#request_attribute_sk", "src/utils/hash/mod.rs#sha3_hash"]}
{"id": "C59", "title": "MKE08: attributes confine what a key can open", "statement": "A user holding one secret attribute key of an authority cannot derive, with public operations only, the secret attribute key of another attribute of that authority.", "quantifier": "all authorities, users, attributes", "why_tests_cant": "a claim about every possible combination of published values; expected to fail because hashed attributes have publicly known discrete logarithms", "anchors": ["src/schemes/mke08/mod.rs#request_authority_sk", "src/utils/hash/mod.rs#sha3_hash"]}
{"id": "C60", "title": "YCT14: two keys for a conjunction do not yield a key for one conjunct", "statement": "Users holding two keys for the policy 'A and B' cannot, with public operations only, open a ciphertext labelled only with A.", "quantifier": "all setups, keys, ciphertexts", "why_tests_cant": "a claim about every combination of key values; expected to fail by solving two linear equations", "anchors": ["src/schemes/yct14/mod.rs#keygen,encrypt,decrypt"]}
{"id": "C61", "title": "The policy stored in a ciphertext cannot be replaced", "statement": "In BDABE and MKE08, editing the policy text stored in the ciphertext does not let a user open it who could not open the original.", "quantifier": "all ciphertexts and edited policies", "why_tests_cant": "expected to fail together with the split DNF terms", "anchors": ["src/schemes/bdabe/mod.rs#encrypt,decrypt", "src/schemes/mke08/mod.rs#encrypt,decrypt", "src/utils/policy/dnf.rs#dnf"]}
{"id": "C62", "title": "GHW11 outsourcing server learns nothing about the payload key", "statement": "Given the transform key, the ciphertext and the transformed ciphertext, every payload key is possible: for each there is a retrieve key consistent with everything the server sees.", "quantifier": "all ciphertexts, transform keys, payload keys", "why_tests_cant": "a statement about all retrieve keys at once", "anchors": ["src/schemes/ghw11/mod.rs#tkgen,transform,decrypt_out"]}
{"id": "C63", "title": "AC17 column labels never collide with attribute names", "statement": "The internal hash inputs used for matrix columns differ from those used for attributes, for every attribute name.", "quantifier": "all attribute names", "why_tests_cant": "expected to fail for names of the form 0<digits>", "anchors": ["src/schemes/ac17/mod.rs#cp_keygen,cp_encrypt,kp_keygen"]}
{"id": "C64", "title": "An attribute name is used in full", "statement": "A ciphertext (or key) made for an attribute name that contains an underscore cannot be opened with (or used as) the name cut at the underscore, even if its public labels and policy text are edited.", "quantifier": "all policies, names, keys, ciphertexts", "why_tests_cant": "expected to fail: names are cut at the first underscore before hashing, so all names with a common prefix share one key; only a proof over all names shows which schemes are affected", "anchors": ["src/utils/secretsharing/mod.rs#remove_index", "src/schemes/bsw/mod.rs#encrypt", "src/schemes/ghw11/mod.rs#encrypt", "src/schemes/lsw/mod.rs#keygen", "src/schemes/yct14/mod.rs#keygen", "src/schemes/aw11/mod.rs#encrypt"]}
{"id": "C65", "title": "Keys and ciphertexts survive borsh serialisation", "statement": "Every key and ciphertext of BSW, LSW, AC17, AW11, BDABE and MKE08 whose texts are valid UTF-8 and whose lengths are below 2^32 is read back unchanged by try_from_slice from what try_to_vec wrote.", "quantifier": "all values of all 26 types", "why_tests_cant": "values and lengths are unbounded", "anchors": ["src/schemes/*/mod.rs derive(BorshSerialize, BorshDeserialize)"]}
{"id": "C66", "title": "YCT14 keys and ciphertexts survive borsh serialisation", "statement": "Every YCT14 key and ciphertext is read back unchanged from what borsh wrote.", "quantifier": "all YCT14 values", "why_tests_cant": "expected to fail: the node of an attribute is marked borsh skip, so reading back loses all group elements; a proof shows that it fails for every key and what follows for encrypt, keygen and decrypt", "anchors": ["src/schemes/yct14/mod.rs#Yct14Attribute"]}
{"id": "C67", "title": "A key file can be read back", "statement": "What the tool stores in a key file (borsh, deflate, hexadecimal, BEGIN and END lines) is what it reads from it later.", "quantifier": "all types, values, file systems", "why_tests_cant": "unbounded values; needs the interplay of five layers", "anchors": ["rabe-console/src/mod.rs#ser_enc,ser_dec,ser_dec_bin", "src/utils/file/mod.rs#read_raw,write_file,read_file"]}
{"id": "C68", "title": "The decrypt command writes the plaintext", "statement": "When the key opens the ciphertext, the decrypt command ends successfully and the plaintext is in the output file.", "quantifier": "all schemes, files, keys", "why_tests_cant": "expected to fail: write_from_vec opens the file for reading only", "anchors": ["rabe-console/src/mod.rs#run_decrypt", "src/utils/file/mod.rs#write_from_vec"]}
{"id": "C69", "title": "The ciphertext file holds the ciphertext", "statement": "The file that the encrypt command writes decodes to the ciphertext that encryption produced.", "quantifier": "all schemes, keys, policies, data", "why_tests_cant": "expected to fail: five schemes serialise the Result instead of the ciphertext", "anchors": ["rabe-console/src/mod.rs#run_encrypt"]}
{"id": "C70", "title": "A refused encryption is reported", "statement": "If encryption returns an error (such as an unparsable policy), the encrypt command fails and writes no ciphertext file.", "quantifier": "all policies, data, file systems", "why_tests_cant": "expected to fail: the Result is serialised without a look at it", "anchors": ["rabe-console/src/mod.rs#run_encrypt"]}
{"id": "C71", "title": "Every command works on some accepted command line", "statement": "delegate for BSW, and encrypt for every scheme, succeed on some command line that the argument parser accepts.", "quantifier": "all accepted command lines, file systems", "why_tests_cant": "needs all command lines at once; expected to fail because a path stays empty", "anchors": ["rabe-console/src/mod.rs#run_delegate,run_encrypt"]}
{"id": "C72", "title": "AW11 authgen finds what setup wrote", "statement": "After a successful AW11 setup, authgen with the same file arguments finds the global parameters.", "quantifier": "all command lines with distinct files", "why_tests_cant": "expected to fail: setup writes the parameters to the master key file", "anchors": ["rabe-console/src/mod.rs#run_setup,run_authgen"]}
{"id": "C73", "title": "The tool can make a key for several attributes", "statement": "A key file made by the keygen command for a policy that needs two attributes can open the ciphertext.", "quantifier": "all command lines, policies", "why_tests_cant": "expected to fail: the attribute argument of keygen takes one value", "anchors": ["rabe-console/src/mod.rs#main,run_keygen"]}
{"id": "C74", "title": "AC17CP through the tool is exact", "statement": "After setup, keygen and encrypt through the tool on distinct files, decryption of the ciphertext file yields the content of the document if the attributes satisfy the policy and an error otherwise.", "quantifier": "all policies in the stated class, attributes, data, random tapes, file systems", "why_tests_cant": "unbounded policies and data; end-to-end through parser, scheme, serialisation and files", "anchors": ["rabe-console/src/mod.rs#run_setup,run_keygen,run_encrypt,run_decrypt", "src/schemes/ac17/mod.rs"]}
{"id": "C75", "title": "YCT14 works through the tool", "statement": "Encryption and decryption with YCT14 through the tool succeed for a key that satisfies the policy.", "quantifier": "all calls", "why_tests_cant": "expected to fail for every call because of C66", "anchors": ["rabe-console/src/mod.rs#run_encrypt,run_keygen,run_decrypt"]}
{"id": "C76", "title": "Users of BDABE and MKE08 can use their attribute keys", "statement": "After a user key and attribute keys were made with the tool, some sequence of its commands leads to a decryption.", "quantifier": "all sequences of calls", "why_tests_cant": "a claim about all sequences of calls; expected to fail because no command adds attribute keys to the user key", "anchors": ["rabe-console/src/mod.rs#run_keygen,run_req_attr_sk,run_decrypt"]}
{"id": "C77", "title": "A command changes only its output files", "statement": "Whatever its result, a command leaves all files unchanged except the output files named by its arguments.", "quantifier": "all commands, schemes, command lines, results, file systems, sequences of calls", "why_tests_cant": "a frame property over all files", "anchors": ["rabe-console/src/mod.rs"]}
{"id": "C78", "title": "A reported error changes nothing", "statement": "If a command reports an error, no file has changed.", "quantifier": "all commands, schemes, command lines, file systems", "why_tests_cant": "needs all error paths of all commands", "anchors": ["rabe-console/src/mod.rs"]}
{"id": "C79", "title": "Decryption never aborts on foreign keys and ciphertexts", "statement": "For keys and ciphertexts that are arbitrary values (read from a file, crafted), decryption returns a result or an error but does not abort; where it can abort, the exact condition is known.", "quantifier": "all keys, ciphertexts, policies that parse", "why_tests_cant": "needs all malformed keys and ciphertexts; expected to fail because of unwrap and indexing on ciphertext parts", "anchors": ["src/schemes/bsw/mod.rs#decrypt", "src/schemes/ghw11/mod.rs#transform,decrypt_out", "src/schemes/lsw/mod.rs#decrypt", "src/schemes/yct14/mod.rs#decrypt", "src/schemes/ac17/mod.rs#cp_decrypt,kp_decrypt", "src/schemes/aw11/mod.rs#decrypt", "src/schemes/bdabe/mod.rs#decrypt", "src/schemes/mke08/mod.rs#decrypt", "src/utils/secretsharing/mod.rs#calc_pruned"]}
{"id": "C80", "title": "Outcome of the span program conversion on every policy value", "statement": "For every policy value, also ones that no text parses to, the conversion succeeds, aborts or reports an error exactly as an independent classification of the value says.", "quantifier": "all policy values", "why_tests_cant": "policy values are an unbounded recursive type", "anchors": ["src/utils/policy/msp/mod.rs#calculate_msp,lw"]}
{"id": "C81", "title": "Exact outcome of encryption", "statement": "For every policy text or attribute list, plaintext and public key, encryption succeeds, reports an error or aborts exactly as stated: errors are those of the parser and the emptiness checks; aborts happen exactly when a hash is undefined (BSW, GHW11, LSW), a public value is missing (YCT14), an AND has other than two children or an OR fewer than two (AC17, AW11) or the policy is nested (BDABE, MKE08).", "quantifier": "all texts, keys, randomness", "why_tests_cant": "equivalence over all inputs, including all failing ones", "anchors": ["src/schemes/*/mod.rs#encrypt,cp_encrypt,kp_encrypt"]}
{"id": "C82", "title": "Exact outcome of key generation and delegation", "statement": "For every master key, attribute list or policy and randomness, key generation and delegation return no key, a key, an error or abort exactly as stated.", "quantifier": "all master keys, attributes, policies, randomness", "why_tests_cant": "equivalence over all inputs, including degenerate randomness", "anchors": ["src/schemes/bsw/mod.rs#keygen,delegate", "src/schemes/ghw11/mod.rs#keygen,tkgen", "src/schemes/lsw/mod.rs#keygen", "src/schemes/yct14/mod.rs#keygen", "src/schemes/ac17/mod.rs#cp_keygen,kp_keygen", "src/schemes/aw11/mod.rs#keygen"]}
{"id": "C83", "title": "BSW delegation chains of any length", "statement": "A key obtained from a generated key by any number of delegations is a key that key generation could have returned for its attributes; these are among the attributes of the first key; it decrypts a ciphertext exactly if its own attributes satisfy the policy; every chain can be continued with any non-empty part of the attributes.", "quantifier": "all chains, attribute lists, policies, randomness", "why_tests_cant": "chains are unbounded", "anchors": ["src/schemes/bsw/mod.rs#keygen,delegate,encrypt,decrypt"]}
{"id": "C84", "title": "Keys and ciphertexts follow the published equations", "statement": "For all nine schemes every component of every public key, master key, user key and ciphertext is given by the equation of the publication, each random value occurring exactly where it belongs and no value drawn for two purposes.", "quantifier": "all inputs, all randomness", "why_tests_cant": "a wrong or reused random value does not change what decrypts; expected to fail for LSW (shares for negated attributes) and AC17 key-policy keys", "anchors": ["src/schemes/*/mod.rs#setup,authgen,keygen,delegate,tkgen,encrypt,cp_keygen,cp_encrypt,kp_keygen,kp_encrypt", "src/utils/secretsharing/mod.rs#gen_shares,gen_shares_policy"]}
{"id": "C85", "title": "A BSW ciphertext cannot be changed by third parties", "statement": "Whoever has the public key and a ciphertext cannot produce a different ciphertext that decrypts to the same plaintext.", "quantifier": "all ciphertexts", "why_tests_cant": "expected to fail: an algebraic transformation of all ciphertexts", "anchors": ["src/schemes/bsw/mod.rs#encrypt,decrypt", "src/utils/secretsharing/mod.rs#gen_shares_policy"]}
{"id": "C86", "title": "Parsing takes time polynomial in the length of the policy", "statement": "There are constants c and k such that the parser tries at most c*(n+1)^k grammar expressions on every text of n bytes, in both languages.", "quantifier": "all texts, accepted or not", "why_tests_cant": "expected to fail for the human language (the grammar backtracks over nested operands); the bound for JSON needs all texts", "anchors": ["src/human.policy.pest#node,and,or,term,value", "src/json.policy.pest#node,and,or", "src/utils/policy/pest/mod.rs#parse"]}
{"id": "C87", "title": "recover_secret inverts gen_shares_policy", "statement": "For every policy, secret and randomness, recover_secret on the list of all shares of the policy returns the secret.", "quantifier": "all policies, all secrets, all randomness", "why_tests_cant": "the tests cover one conjunction and one share of one disjunction; expected to fail for disjunctions", "anchors": ["src/utils/secretsharing/mod.rs#recover_secret,calc_coefficients,gen_shares_policy"]}
{"id": "C88", "title": "LSW treats a negated name that the ciphertext carries like any other name", "statement": "A user whose policy is satisfied by the attribute list of the ciphertext, names compared literally, decrypts it, also when names begin with an exclamation mark.", "quantifier": "all policies, attribute lists, randomness", "why_tests_cant": "expected to fail: the loop keeps the pairing value of the leaf before", "anchors": ["src/schemes/lsw/mod.rs#decrypt,keygen,encrypt"]}
{"id": "C89", "title": "What decryption computes for every satisfied policy", "statement": "For honest keys and ciphertexts and a satisfied policy, decryption opens the payload with an explicitly given key, or aborts in an explicitly given case; no condition on the names in the policy or on repetitions in attribute lists. The key is the right one times a power of a pairing whose exponent is given in terms of the random values.", "quantifier": "all policies with at least two children per node (AC17: those the matrix accepts), all attribute lists, all randomness; BSW, GHW11, LSW, YCT14, AC17 CP and KP, AW11", "why_tests_cant": "a test sees one wrong result, not the law behind it", "anchors": ["src/schemes/bsw/mod.rs#decrypt", "src/schemes/ghw11/mod.rs#transform,decrypt_out", "src/schemes/lsw/mod.rs#decrypt", "src/schemes/yct14/mod.rs#decrypt", "src/schemes/ac17/mod.rs#cp_decrypt,kp_decrypt", "src/schemes/aw11/mod.rs#decrypt"]}
{"id": "C90", "title": "Listing an attribute twice changes nothing", "statement": "A key made for an attribute list with repetitions, or a ciphertext made for one, opens what it opens without the repetitions.", "quantifier": "all attribute lists, policies, randomness", "why_tests_cant": "the tests list each attribute once; expected to fail for AC17, whose decryption adds up all entries with a name", "anchors": ["src/schemes/ac17/mod.rs#cp_keygen,kp_encrypt,cp_decrypt,kp_decrypt"]}
{"id": "C91", "title": "The human policy language, text by text", "statement": "A text is accepted by the human-language parser exactly when it is a written policy: names between quotes with JSON escapes, numbers, brackets of any of the three kinds, chains of one operator in any of its spellings, blanks and comments between the words; the resulting tree and the column of each leaf are those of the text. Written policies with a number abort, all other texts are refused, and no text has two meanings.", "quantifier": "all texts", "why_tests_cant": "infinitely many texts; layouts, comments, brackets and spellings combine freely", "anchors": ["src/human.policy.pest", "src/utils/policy/pest/mod.rs#parse", "src/utils/policy/pest/human.rs#parse"]}
{"id": "C92", "title": "The JSON policy language, text by text", "statement": "A text is accepted by the JSON parser exactly when it is a written policy: objects with a name or number, or with an operator and a list of children, keywords bare or quoted in either case, blanks and comments between the words; where a text can be read both as a named object and as an operator object, the name takes precedence. The tree and the column of each leaf are those of the text. Written policies with a number abort, all other texts are refused, and no text has two meanings.", "quantifier": "all texts", "why_tests_cant": "infinitely many texts; the tests use one layout", "anchors": ["src/json.policy.pest", "src/utils/policy/pest/mod.rs#parse", "src/utils/policy/pest/json.rs#parse"]}
{"id": "C93", "title": "A file is read exactly when it is what writing produces", "statement": "For every key and ciphertext type with a binary form, a sequence of bytes is read as a value v exactly when v is well formed (texts are UTF-8, lengths below 2^32) and the bytes are those written for v. So no two files give the same value, no proper beginning and no extension of a readable file is readable, and reading never aborts. For YCT14 the values read carry attribute names only.", "quantifier": "all types, all byte sequences, all values, all codecs of the curve elements that are exact themselves", "why_tests_cant": "infinitely many byte sequences; the tests never read a damaged file", "anchors": ["src/schemes/bsw/mod.rs#CpAbeCiphertext", "src/schemes/ac17/mod.rs#Ac17CpCiphertext", "src/schemes/mke08/mod.rs#Mke08Ciphertext", "src/utils/policy/pest/mod.rs#PolicyLanguage"]}
{"id": "C94", "title": "The attribute sets that open a BDABE or MKE08 ciphertext are those of its policy", "statement": "For every BDABE or MKE08 ciphertext made with public keys of honest authorities and every honest user, the message can be recovered from the tuples of the ciphertext exactly when the user's attributes satisfy the policy the ciphertext was made for, whatever policy text is stored with it; otherwise decryption fails or uses the neutral element as key.", "quantifier": "all policies, supplied public keys, users, plaintexts, randomness, replaced policy texts", "why_tests_cant": "the tests decrypt with keys that satisfy the policy, for single conjunctions", "anchors": ["src/utils/policy/dnf.rs#dnf", "src/schemes/bdabe/mod.rs#decrypt", "src/schemes/mke08/mod.rs#decrypt"]}
{"id": "C95", "title": "The policies that survive serialisation are exactly those with quotable names, and only in JSON", "statement": "For every policy tree: the text written by the JSON serialiser is read back as the same policy exactly when every attribute name can stand between quotes, which holds for every policy the parser ever accepted; the translated text gives every leaf its own column. The text written by the human serialiser is never read back as the same policy, and for accepted policies it is always rejected or aborts the parser.", "quantifier": "all policy trees, all accepted texts of both languages, all attribute names", "why_tests_cant": "the tests compare a few serialised strings and never parse them again", "anchors": ["src/utils/policy/pest/mod.rs#serialize_policy", "src/utils/policy/pest/mod.rs#parse"]}
{"id": "C96", "title": "All functions on policy values agree on what a value means", "statement": "For every PolicyValue, also one that no parser builds, sharing, pruning, coefficients, the satisfaction check, the span program and the normal-form test treat the value as the same policy: the one where an array takes its kind from the nearest object around it.", "quantifier": "all policy values, attribute lists, secrets, randomness", "why_tests_cant": "the tests only use values that come from the parser; the type and the functions are public", "anchors": ["src/utils/tools/mod.rs#traverse_policy", "src/utils/secretsharing/mod.rs#gen_shares_policy", "src/utils/secretsharing/mod.rs#calc_pruned", "src/utils/secretsharing/mod.rs#calc_coefficients", "src/utils/policy/msp.rs#lw", "src/utils/policy/dnf.rs#policy_in_dnf"]}
{"id": "C97", "title": "Reading a policy needs bounded recursion", "statement": "There is a recursion depth that is enough for the parser on every policy text; no accepted policy can exhaust the stack.", "quantifier": "all depths, texts, languages", "why_tests_cant": "the policies of the tests are nested a few levels; the needed depth grows with the input without limit", "anchors": ["src/utils/policy/pest/mod.rs#parse", "src/utils/policy/pest/human.rs#parse", "src/utils/policy/pest/json.rs#parse", "src/human.policy.pest", "src/json.policy.pest"]}
{"id": "C98", "title": "The text of a span program shows the program", "statement": "Two AbePolicy values print the same only if they are the same; every converted program prints with its full matrix, names and width; AbePolicy::new answers as the parser and the conversion do.", "quantifier": "all span programs, policy values, policy texts, languages", "why_tests_cant": "the tests only print programs; that no two programs share a text is a statement about all pairs", "anchors": ["src/utils/policy/msp.rs#AbePolicy", "src/utils/policy/msp.rs#fmt", "src/utils/policy/msp.rs#from_language"]}
{"id": "C99", "title": "Files of the command line tool are what their labels say", "statement": "Every file that a command changes carries the label of its kind and the bytes of a value of that type; after success all files of the command are there.", "quantifier": "all commands, schemes, arguments, file systems, random tapes", "why_tests_cant": "needs every command with every scheme, file system and failure point", "anchors": ["rabe-console/src/mod.rs#run_setup", "rabe-console/src/mod.rs#run_authgen", "rabe-console/src/mod.rs#run_keygen", "rabe-console/src/mod.rs#run_encrypt", "rabe-console/src/mod.rs#run_req_attr_sk", "rabe-console/src/mod.rs#ser_enc"]}
{"id": "C100", "title": "The command line tool reports input it cannot use", "statement": "A missing or damaged key file, a missing document or a refused policy is reported as an error and never aborts the tool.", "quantifier": "all commands, schemes, arguments, file systems, random tapes", "why_tests_cant": "the inputs that fail are unbounded; which of the branches unwrap is a statement about all of them", "anchors": ["rabe-console/src/mod.rs#ser_dec", "rabe-console/src/mod.rs#run_keygen", "src/utils/file/mod.rs#read_file", "src/utils/file/mod.rs#read_to_vec"]}
{"id": "C101", "title": "Pruning selects no superfluous leaf", "statement": "When the attributes satisfy a policy whose leaves differ in name or column (every one-line text), calc_pruned returns all selections of the children of an AND and that of the first satisfied child of an OR; no proper part of the selected leaves satisfies the policy.", "quantifier": "all policies, attribute lists", "why_tests_cant": "minimality is a statement about all subsets of the selection, for all policies", "anchors": ["src/utils/secretsharing/mod.rs#calc_pruned"]}
{"id": "C102", "title": "The order of the parts of a key or ciphertext does not matter", "statement": "In all schemes decryption (and BSW delegation) gives the same result for every order of the components of the key and of the label-indexed components of the ciphertext, provided their names differ; in AC17 also when names repeat. Keys and ciphertexts need not be honest.", "quantifier": "all keys, ciphertexts, permutations", "why_tests_cant": "all permutations of lists of every length, and keys no honest run produces", "anchors": ["src/schemes/*/mod.rs#decrypt", "src/schemes/bsw/mod.rs#delegate"]}
{"id": "C103", "title": "The order of public and master key parts does not matter", "statement": "Encryption in AW11, BDABE, MKE08 and YCT14 and key generation in AW11 and YCT14 give the same result for every order of the listed key parts, provided their names differ. When AW11 authorities share an attribute, the first authority of the list counts: keys it issued decrypt.", "quantifier": "all key lists, permutations, policies, randomness", "why_tests_cant": "all permutations of lists of every length", "anchors": ["src/schemes/aw11/mod.rs#encrypt,find_pk_attr,keygen", "src/schemes/bdabe/mod.rs#encrypt", "src/schemes/mke08/mod.rs#encrypt", "src/schemes/yct14/mod.rs#encrypt,keygen", "src/utils/policy/dnf.rs#dnf"]}
{"id": "C104", "title": "A file is text exactly when it is UTF-8", "statement": "Reading a file as text succeeds exactly when its bytes are the UTF-8 encoding of some sequence of Unicode scalar values, and returns those bytes; every other file, and a missing one, aborts the program and never reports an error.", "quantifier": "all files and byte sequences", "why_tests_cant": "all byte sequences; the boundary cases (surrogates, overlong forms, cut characters) are many", "anchors": ["src/utils/file/mod.rs#read_file"]}
{"id": "C105", "title": "Commands that cannot apply are refused and touch nothing", "statement": "A console command that the chosen scheme does not offer (authority generation, delegation, attribute key requests) reports an error and leaves every file as it was. Attribute arguments of a request are cut at Unicode white space into their words, and a request whose arguments do not contain exactly one word in total is refused in the same way.", "quantifier": "all schemes, commands, argument lists (all Unicode texts), file systems and random tapes", "why_tests_cant": "all texts with all kinds of white space, all file systems", "anchors": ["rabe-console/src/mod.rs#run_authgen", "rabe-console/src/mod.rs#run_delegate", "rabe-console/src/mod.rs#run_req_attr_pk", "rabe-console/src/mod.rs#run_req_attr_sk"]}
{"id": "C106", "title": "A console command depends only on the files its command line names", "statement": "For every command and scheme, the result of a command and the bytes it writes depend only on the contents of the files named on the command line (by arguments or their defaults) and on whether its outputs may be created; other files have no influence.", "quantifier": "all commands, schemes, accepted command lines, pairs of file systems, random tapes", "why_tests_cant": "non-interference over all pairs of file systems", "anchors": ["rabe-console/src/mod.rs#run_setup", "rabe-console/src/mod.rs#run_authgen", "rabe-console/src/mod.rs#run_keygen", "rabe-console/src/mod.rs#run_delegate", "rabe-console/src/mod.rs#run_encrypt", "rabe-console/src/mod.rs#run_decrypt", "rabe-console/src/mod.rs#run_req_attr_pk", "rabe-console/src/mod.rs#run_req_attr_sk"]}
{"id": "C107", "title": "Default arguments fit together", "statement": "A command line with declared arguments is completed with the default file names and then accepted; given values are kept; the program runs the named command for the named scheme, and an exit status of 1 means that no file was touched. With the default names every key file that a command reads is one that an earlier command of the same scheme wrote.", "quantifier": "all commands, schemes, command lines, file systems, random tapes", "why_tests_cant": "all command lines of all commands", "anchors": ["rabe-console/src/mod.rs#main", "rabe-console/src/mod.rs#run"]}
{"id": "C108", "title": "No policy is too wide for the scalar field", "statement": "The order of the groups of BN254 is a prime, so the laws of a pairing over a field hold for scalars modulo this order. Branches, leaves and characters of names of a parsed policy are together fewer than the bytes of its text, so for every text of fewer than 2^64 bytes all share indices are distinct non-zero scalars, and the sessions of BSW (also delegated), GHW11, LSW, YCT14 and AW11 decide exactly what the policy says without any condition on the width.", "quantifier": "all policy texts in both languages, all attribute lists, plaintexts and random tapes of the session theorems", "why_tests_cant": "unbounded widths; primality of a 254-bit number", "anchors": ["src/utils/secretsharing/mod.rs#gen_shares", "src/utils/secretsharing/mod.rs#recover_coefficients", "src/utils/policy/pest/mod.rs#parse", "src/schemes/bsw/mod.rs", "Cargo.toml"]}
{"id": "C109", "title": "Outsiders cannot combine their way to a payload key", "statement": "Somebody who holds no key and combines the group elements of the public keys and of a ciphertext with the operations of the groups and the pairing, as often as they like and in a way fixed before the randomness is drawn, does not obtain the payload key: two runs that differ in the master secret and the payload but look the same otherwise are not both opened, except for at most one value of the encryption randomness. So no combination opens all ciphertexts for a policy (or list of attributes) of BSW, LSW, AC17 CP and KP, YCT14, AW11 (any number of authorities), BDABE and MKE08 (any number of published attribute keys, no conjunction cancelling out).", "quantifier": "all combinations, policies, attribute lists, plaintexts, authorities and tapes with generators that are not zero", "why_tests_cant": "a claim about all ways of attacking, not about one run", "anchors": ["src/schemes/bsw/mod.rs#encrypt", "src/schemes/lsw/mod.rs#encrypt", "src/schemes/ac17/mod.rs#cp_encrypt", "src/schemes/ac17/mod.rs#kp_encrypt", "src/schemes/yct14/mod.rs#encrypt", "src/schemes/aw11/mod.rs#encrypt", "src/schemes/bdabe/mod.rs#encrypt", "src/schemes/mke08/mod.rs#encrypt"]}
{"id": "C110", "title": "Transform keys and a single unfit key give nothing away", "statement": "In GHW11 the group elements of the public key, of a ciphertext and of the transform keys of any number of users, whatever their attributes, are not combined to the payload key: of all twin systems with another master secret at most one is opened. In YCT14 one key whose policy the attributes of the ciphertext do not satisfy arises in the same way in a second system with another g^s that agrees on these attributes, so no combination, even one chosen after seeing the key, opens in both.", "quantifier": "all combinations, policies, users, attribute lists and tapes with generators that are not zero; for YCT14 names of the policy pairwise distinct and no zero share in the key", "why_tests_cant": "a claim about all ways of attacking, not about one run", "anchors": ["src/schemes/ghw11/mod.rs#tkgen", "src/schemes/ghw11/mod.rs#encrypt", "src/schemes/yct14/mod.rs#keygen", "src/schemes/yct14/mod.rs#encrypt"]}
{"id": "C111", "title": "A fitting key opens by one fixed combination", "statement": "In every scheme the group elements of the public key, of a ciphertext and of a key that satisfies its policy are combined to the payload key by one combination that depends only on the policy and the names, not on any random draw. Together with C109 this says that the kind of attack C109 rules out for outsiders is exactly the kind of computation that decryption needs, so C109 is not true merely because combinations are too weak.", "quantifier": "all policies, attribute lists, authorities, users and tapes within the conditions under which decryption is correct", "why_tests_cant": "one combination for all runs, not one run", "anchors": ["src/schemes/bsw/mod.rs#decrypt", "src/schemes/ghw11/mod.rs#transform", "src/schemes/lsw/mod.rs#decrypt", "src/schemes/yct14/mod.rs#decrypt", "src/schemes/ac17/mod.rs#cp_decrypt", "src/schemes/ac17/mod.rs#kp_decrypt", "src/schemes/aw11/mod.rs#decrypt", "src/schemes/bdabe/mod.rs#decrypt", "src/schemes/mke08/mod.rs#decrypt"]}
{"id": "C112", "title": "An error tells the language and the place of a policy error", "statement": "A policy error names the policy language it was found in and the line of the place, and errors of the field, of slices and of policies are told apart by their text.", "quantifier": "all languages, places and errors", "why_tests_cant": "all places, not one", "anchors": ["src/error.rs#RabeError", "src/utils/policy/pest/mod.rs#parse"]}
{"id": "C113", "title": "Only the sealed data of a ciphertext depends on the plaintext", "statement": "If encryption of some data succeeds, then encryption of any other data with the same random draws succeeds, makes the same number of draws, and gives the same ciphertext but for the sealed data, which both times is sealed under the same key.", "quantifier": "all keys, policies, attribute lists, data, nonces and tapes; for LSW and YCT14 the other data is not empty", "why_tests_cant": "relates two runs for all pairs of plaintexts", "anchors": ["src/schemes/bsw/mod.rs#encrypt", "src/schemes/ghw11/mod.rs#encrypt", "src/schemes/lsw/mod.rs#encrypt", "src/schemes/yct14/mod.rs#encrypt", "src/schemes/aw11/mod.rs#encrypt", "src/schemes/bdabe/mod.rs#encrypt", "src/schemes/mke08/mod.rs#encrypt", "src/schemes/ac17/mod.rs#cp_encrypt", "src/schemes/ac17/mod.rs#kp_encrypt"]}
{"id": "C114", "title": "The payload key is uniform and independent of the rest of the draws", "statement": "One draw decides the payload key: every key belongs to exactly one value of that draw, and replacing the draw changes nothing in the ciphertext but the element that hides the key and the sealed data.", "quantifier": "all keys, policies, attribute lists, data, nonces and tapes", "why_tests_cant": "a bijection between all draws and all keys", "anchors": ["src/schemes/bsw/mod.rs#encrypt", "src/schemes/ghw11/mod.rs#encrypt", "src/schemes/lsw/mod.rs#encrypt", "src/schemes/yct14/mod.rs#encrypt", "src/schemes/aw11/mod.rs#encrypt", "src/schemes/bdabe/mod.rs#encrypt", "src/schemes/mke08/mod.rs#encrypt", "src/schemes/ac17/mod.rs#cp_encrypt", "src/schemes/ac17/mod.rs#kp_encrypt"]}
{"id": "C115", "title": "Ciphertexts under the same policy multiply", "statement": "Encryption with the sum of two sequences of draws gives the element-wise product of the two ciphertexts, with the data sealed under the product of the payload keys. So whoever knows the public key, and encrypts anything with a trivial payload key, can multiply it into a ciphertext and get a different ciphertext that is an honest encryption of the same plaintext.", "quantifier": "all keys, policies, attribute lists, data, nonces and pairs of tapes; in BDABE and MKE08 the second tape has zeros where the payload key is drawn", "why_tests_cant": "relates three runs for all pairs of tapes", "anchors": ["src/schemes/bsw/mod.rs#encrypt", "src/schemes/ghw11/mod.rs#encrypt", "src/schemes/lsw/mod.rs#encrypt", "src/schemes/yct14/mod.rs#encrypt", "src/schemes/aw11/mod.rs#encrypt", "src/schemes/bdabe/mod.rs#encrypt", "src/schemes/mke08/mod.rs#encrypt", "src/schemes/ac17/mod.rs#cp_encrypt", "src/schemes/ac17/mod.rs#kp_encrypt", "src/utils/secretsharing/mod.rs#gen_shares_policy"]}
{"id": "C116", "title": "Every digest is a key and a scalar", "statement": "The SHA3-256 digest of any text has 32 bytes, the length that Key::from_slice requires without checking for it, and is a number below 2^256; the padding fills whole blocks and keeps different texts different.", "quantifier": "all texts", "why_tests_cant": "all lengths of input, every position of the block boundary", "anchors": ["src/utils/hash/mod.rs#sha3_hash", "src/utils/hash/mod.rs#sha3_hash_fr", "src/utils/aes/mod.rs#kdf"]}
{"id": "C117", "title": "Sealed data opens exactly if it was sealed", "statement": "With AES-256-GCM, decrypt_symmetric returns data for a byte string if and only if encrypt_symmetric returns that string for this data and some nonce of 12 bytes; sealed data is 28 bytes longer than the data; shorter input is refused; one tag is accepted per ciphertext; a repeated nonce shows the difference of two texts.", "quantifier": "all keys, nonces, data and byte strings", "why_tests_cant": "the other direction speaks of all byte strings that decrypt", "anchors": ["src/utils/aes/mod.rs#encrypt_symmetric", "src/utils/aes/mod.rs#decrypt_symmetric"]}
{"id": "C118", "title": "The sessions work with the primitives the code names", "statement": "With SHA3-256, AES-256-GCM and the order of BN254 in place of abstract operations, in every scheme the whole session from setup to decryption returns the data if the attributes satisfy the policy and an error otherwise.", "quantifier": "all policies, attributes, data, nonces and tapes of non-zero draws; all byte forms of Gt; all conversions to upper case with the stated laws", "why_tests_cant": "all policies and all draws", "anchors": ["src/utils/hash/mod.rs#sha3_hash", "src/utils/hash/mod.rs#sha3_hash_fr", "src/utils/aes/mod.rs#kdf", "src/utils/aes/mod.rs#encrypt_symmetric", "src/utils/aes/mod.rs#decrypt_symmetric", "src/schemes/bsw/mod.rs#decrypt", "src/schemes/ghw11/mod.rs#decrypt", "src/schemes/lsw/mod.rs#decrypt", "src/schemes/yct14/mod.rs#decrypt", "src/schemes/aw11/mod.rs#decrypt", "src/schemes/bdabe/mod.rs#decrypt", "src/schemes/mke08/mod.rs#decrypt", "src/schemes/ac17/mod.rs#cp_decrypt", "src/schemes/ac17/mod.rs#kp_decrypt"]}
{"id": "C119", "title": "Two keys for the same attributes or policy combine into a third", "statement": "For every field element x, the element-wise combination of two issued keys with the weights x and 1-x, computed with group operations and without any master key, is exactly the key that key generation gives for the combined draws. For x other than 0 and 1 it differs from both keys unless their randomness agrees. In BDABE and MKE08 the same holds for whole user keys of two different users, with the attribute keys issued for them.", "quantifier": "all weights, keys, attribute lists, policies, tapes and positions of the two key generations", "why_tests_cant": "relates three runs for all pairs of tapes and all weights", "anchors": ["src/schemes/bsw/mod.rs#keygen", "src/schemes/ghw11/mod.rs#keygen", "src/schemes/lsw/mod.rs#keygen", "src/schemes/yct14/mod.rs#keygen", "src/schemes/ac17/mod.rs#cp_keygen", "src/schemes/ac17/mod.rs#kp_keygen", "src/schemes/bdabe/mod.rs#keygen", "src/schemes/bdabe/mod.rs#request_attribute_sk", "src/schemes/mke08/mod.rs#keygen", "src/schemes/mke08/mod.rs#request_authority_sk", "src/utils/secretsharing/mod.rs#gen_shares_policy"]}
{"id": "C120", "title": "Under the feature serde every key and ciphertext type is read back from its CBOR bytes", "statement": "For every type of the eight schemes, every value with UTF-8 texts and lengths below 2^64 is read back exactly from the CBOR bytes that it is written as, whether field names or field numbers are written and whether empty options are left out, and whatever the reader's own settings are. Bytes that are cut short or have anything after them are refused, whatever type is expected.", "quantifier": "all values of all key and ciphertext types, all modes of writing and reading, all proper prefixes and extensions", "why_tests_cant": "unbounded values, lengths and nesting; every prefix of every encoding", "anchors": ["src/schemes/bsw/mod.rs#CpAbeCiphertext", "src/schemes/ghw11/mod.rs#Ghw11Ciphertext", "src/schemes/lsw/mod.rs#KpAbeCiphertext", "src/schemes/yct14/mod.rs#Yct14Attribute", "src/schemes/ac17/mod.rs#Ac17Ciphertext", "src/schemes/aw11/mod.rs#Aw11Ciphertext", "src/schemes/bdabe/mod.rs#BdabeCiphertext", "src/schemes/mke08/mod.rs#Mke08Ciphertext", "rabe-console/src/mod.rs#ser_enc", "rabe-console/src/mod.rs#ser_dec"]}
{"id": "C121", "title": "Under the feature serde each value has one form and the bytes of one type are no other type's", "statement": "Expected: bytes that are read as a key are the bytes that this key is written as, and bytes written for one type are not read as another type. False: the entries of a struct may stand in any order and unknown entries are ignored; in the packed form that the console writes, public and master keys of one scheme are read as those of another. True: an entry that comes twice or is missing is refused, and with field names in place of numbers the mix-ups are refused.", "quantifier": "all structs, entries and orders; all keys of the types concerned", "why_tests_cant": "quantifies over all orders, extra entries and keys", "anchors": ["src/schemes/bsw/mod.rs#CpAbeCiphertext", "src/schemes/ghw11/mod.rs#Ghw11Ciphertext", "src/schemes/lsw/mod.rs#KpAbeCiphertext", "src/schemes/yct14/mod.rs#Yct14Attribute", "src/schemes/ac17/mod.rs#Ac17Ciphertext", "src/schemes/aw11/mod.rs#Aw11Ciphertext", "src/schemes/bdabe/mod.rs#BdabeCiphertext", "src/schemes/mke08/mod.rs#Mke08Ciphertext", "rabe-console/src/mod.rs#ser_enc", "rabe-console/src/mod.rs#ser_dec"]}
{"id": "C122", "title": "Files of the console built with the feature serde", "statement": "A file that the console wrote is read back as the same value. Ciphertexts that the console stores as a Result (BSW, LSW, AW11, BDABE, MKE08) are never read back as ciphertexts. For YCT14 a session in which all four values pass through bytes decrypts to the plaintext, for every policy and attributes in UTF-8, although the same session fails under borsh.", "quantifier": "all file systems, paths, values and labels; all policies, attributes, tapes and modes of the session", "why_tests_cant": "unbounded values, file contents and policies", "anchors": ["rabe-console/src/mod.rs#ser_enc", "rabe-console/src/mod.rs#ser_dec", "rabe-console/src/mod.rs#ser_dec_bin", "src/schemes/yct14/mod.rs#decrypt"]}
{"id": "C123", "title": "The C interface of BSW", "statement": "What a program encrypts through the C interface and decrypts with a sufficient key comes back, in a buffer of its length; names given as one text are the attributes of the key; a ciphertext that cannot be read gives -1.", "quantifier": "all policies in JSON, lists of names, plaintexts, memory contents behind the pointers, lengths, tapes, and builds with and without overflow checks", "why_tests_cant": "the file is not built, and the memory behind a pointer, the lengths and the texts are unbounded", "anchors": ["src/ffi/bsw.rs#rabe_bsw_context_create", "src/ffi/bsw.rs#rabe_bsw_keygen", "src/ffi/bsw.rs#rabe_bsw_delegate", "src/ffi/bsw.rs#rabe_bsw_encrypt", "src/ffi/bsw.rs#rabe_bsw_decrypt_get_size", "src/ffi/bsw.rs#rabe_bsw_decrypt"]}
{"id": "C124", "title": "The digest and the cipher are those of the standards, step by step", "statement": "The digest used for names and message keys is SHA3-256 of FIPS 202 bit by bit; the cipher is GCM of SP 800-38D over AES-256 of FIPS 197, with products of blocks as polynomials over two elements; encrypt_symmetric returns nonce, ciphertext and tag under the digest of the element and decrypt_symmetric accepts exactly such texts.", "quantifier": "all texts, keys of 32 bytes, nonces of 12 bytes, blocks, and data of fewer than 2^61 bytes", "why_tests_cant": "test vectors sample a few inputs; the equality of the word and number form with the bits and polynomials of the standards holds for every input", "anchors": ["src/utils/aes/mod.rs#encrypt_symmetric", "src/utils/aes/mod.rs#decrypt_symmetric", "src/utils/aes/mod.rs#kdf", "src/utils/hash/mod.rs#sha3_hash"]}
{"id": "C125", "title": "An error says why and where", "statement": "The text of an error tells whether the policy could not be read, the attributes do not fit, the input is empty or the sealed data does not open, and it names the operation that failed.", "quantifier": "all keys, ciphertexts, policies in both languages, attribute lists, plaintexts and tapes, for the functions of the eight schemes that return errors", "why_tests_cant": "tests only look at whether an error is returned, and the keys, ciphertexts and policies are unbounded", "anchors": ["src/schemes/bsw/mod.rs#decrypt", "src/schemes/ghw11/mod.rs#transform", "src/schemes/lsw/mod.rs#decrypt", "src/schemes/yct14/mod.rs#decrypt", "src/schemes/aw11/mod.rs#decrypt", "src/schemes/bdabe/mod.rs#decrypt", "src/schemes/mke08/mod.rs#decrypt", "src/schemes/ac17/mod.rs#cp_decrypt", "src/schemes/ac17/mod.rs#kp_decrypt", "src/utils/aes/mod.rs#decrypt_symmetric"]}
{"id": "C126", "title": "The crate's own tests pass whatever is drawn", "statement": "Every unit test of the crate and every example in the documentation of its schemes passes whatever the random number generator draws, as long as no drawn scalar is zero.", "quantifier": "all tapes of non-zero scalars, all nonces of twelve bytes, all groups with the laws of a pairing and a total hash; all 46 tests of the sources and the 8 examples", "why_tests_cant": "a run of a test sees one sequence of random draws; a test that fails for some draws is flaky and passes most of the time", "anchors": ["src/schemes/bsw/mod.rs#tests", "src/schemes/ghw11/mod.rs#tests", "src/schemes/lsw/mod.rs#tests", "src/schemes/yct14/mod.rs#tests", "src/schemes/ac17/mod.rs#tests", "src/schemes/aw11/mod.rs#tests", "src/schemes/bdabe/mod.rs#tests", "src/schemes/mke08/mod.rs#tests", "src/utils/secretsharing/mod.rs#tests", "src/utils/policy/dnf.rs#tests", "src/utils/policy/msp.rs#tests", "src/utils/policy/pest/mod.rs#tests", "src/utils/tools/mod.rs#tests", "src/utils/aes/mod.rs#tests"]}
{"id": "C127", "title": "How many pairings decryption takes", "statement": "Decryption takes, for a selection of k leaves, 1 + 2k pairings in BSW, 2k in LSW and AW11, none in YCT14 and, independent of policy and attributes, six and no power in AC17 CP and KP and four and no power in BDABE and MKE08; the server of GHW11 takes 2 + k and its user none and one power.", "quantifier": "all policies, keys and ciphertexts (honest or not) on which decryption comes to an answer; for LSW without negated names", "why_tests_cant": "a test does not count operations, and a benchmark measures time on a few policies; the benchmarks of the crate only run setup", "anchors": ["src/schemes/bsw/mod.rs#decrypt", "src/schemes/ghw11/mod.rs#transform", "src/schemes/ghw11/mod.rs#decrypt_out", "src/schemes/lsw/mod.rs#decrypt", "src/schemes/yct14/mod.rs#decrypt", "src/schemes/ac17/mod.rs#cp_decrypt", "src/schemes/ac17/mod.rs#kp_decrypt", "src/schemes/aw11/mod.rs#decrypt", "src/schemes/bdabe/mod.rs#decrypt", "src/schemes/mke08/mod.rs#decrypt"]}
{"id": "C128", "title": "Decryption takes the cheapest selection of leaves", "statement": "If a key satisfies a policy in several ways, decryption takes one with as few leaves, and so as few pairings, as possible.", "quantifier": "all policies and attribute sets", "why_tests_cant": "needs all selections of all policies to be compared, and no test counts operations", "anchors": ["src/utils/secretsharing/mod.rs#calc_pruned", "src/schemes/bsw/mod.rs#decrypt"]}
{"id": "C129", "title": "How much randomness each operation takes, and that nothing else of the generator matters", "statement": "Each setup, key generation, delegation and encryption of the eight schemes draws a number of random values that depends only on its public inputs (the number of attributes, the leaves and conjunctions of the policy, the conjunctions of the DNF), and its result or error is a function of these values alone: the rest of the random stream, and the place where the operation starts, do not matter.", "quantifier": "all keys, attribute lists, policies that parse, plaintexts, random tapes and places on them", "why_tests_cant": "the generator is thread_rng, whose draws no test counts or replays; the dependence on nothing else speaks of all streams", "anchors": ["src/schemes/bsw/mod.rs#encrypt", "src/schemes/ghw11/mod.rs#encrypt", "src/schemes/lsw/mod.rs#encrypt", "src/schemes/yct14/mod.rs#keygen", "src/schemes/ac17/mod.rs#kp_keygen", "src/schemes/aw11/mod.rs#encrypt", "src/schemes/bdabe/mod.rs#encrypt", "src/schemes/mke08/mod.rs#encrypt", "src/utils/secretsharing/mod.rs#gen_shares"]}
{"id": "C130", "title": "Every random value drawn shows in the result", "statement": "Two runs of an operation on the same inputs that drew different values return different results: no randomness is drawn and thrown away, and none is used in a way that loses part of it.", "quantifier": "all inputs on which the generators and the relevant key parts are not zero, all pairs of runs on any two tapes", "why_tests_cant": "compares all pairs of runs; a test sees one run and cannot tell whether a value drawn was used", "anchors": ["src/schemes/lsw/mod.rs#encrypt", "src/schemes/aw11/mod.rs#encrypt", "src/schemes/bdabe/mod.rs#encrypt", "src/schemes/mke08/mod.rs#encrypt", "src/schemes/ac17/mod.rs#kp_keygen", "src/schemes/bsw/mod.rs#keygen"]}
{"id": "C131", "title": "How many bytes keys and ciphertexts take", "statement": "With the feature borsh the length of every key and ciphertext is a fixed formula in the lengths of attribute names and policy text, the number of attributes or policy leaves and the length of the data. Two values of the same shape are therefore equally long, whatever was drawn and whatever the data says.", "quantifier": "all keys, attribute lists, policies, data, tapes; all encodings of scalars and group elements of fixed width; ciphers that add 16 bytes with nonces of 12", "why_tests_cant": "the tests never look at the length of an encoding; a formula for all inputs cannot be sampled", "anchors": ["src/schemes/bsw/mod.rs#encrypt", "src/schemes/lsw/mod.rs#encrypt", "src/schemes/yct14/mod.rs#keygen", "src/schemes/ac17/mod.rs#cp_encrypt", "src/schemes/aw11/mod.rs#encrypt", "src/schemes/bdabe/mod.rs#encrypt", "src/schemes/mke08/mod.rs#encrypt", "src/utils/aes/mod.rs#encrypt_symmetric"]}
{"id": "C132", "title": "AW11: a coalition of authorities and users cannot open what its attributes do not satisfy", "statement": "Authorities that reveal their master keys and users who hold keys under any identities, whose attributes all together do not satisfy the policy, have no fixed combination of group operations and pairings that yields the payload key of every ciphertext: there are always authorities that agree with everything the coalition knows and a ciphertext for which it fails.", "quantifier": "all policies, all coalitions, all authorities, all combinations chosen with knowledge of the coalition's secrets, all further group elements the coalition holds", "why_tests_cant": "quantifies over adversaries and over pairs of systems that look the same to them", "anchors": ["src/schemes/aw11/mod.rs#authgen", "src/schemes/aw11/mod.rs#keygen", "src/schemes/aw11/mod.rs#encrypt"]}
{"id": "C133", "title": "What the library prints", "statement": "A scheme operation that succeeds prints nothing. In detail: an operation that takes a policy prints one line if the policy cannot be read, and then fails; otherwise it prints nothing, and policy_in_dnf prints nothing about policies that were read. BSW delegate prints one line exactly when it gives no key. What YCT14 key generation prints about leaves for which the master key has no part depends on no exponent or random value. Reading a file prints its length, writing one prints its path.", "quantifier": "all policies, keys, ciphertexts, random values, file systems", "why_tests_cant": "the project's tests do not look at the output; that no secret shows in it needs pairs of runs", "anchors": ["src/utils/policy/pest/mod.rs#parse", "src/utils/policy/dnf.rs#policy_in_dnf", "src/schemes/bsw/mod.rs#delegate", "src/schemes/yct14/mod.rs#keygen", "src/utils/file/mod.rs#read_to_vec"]}
{"id": "C134", "title": "How rarely a fixed combination opens a ciphertext", "statement": "If the field has p elements and setup, encryption and (GHW11) the transformation keys draw their values independently and uniformly, a combination of group operations and pairings fixed beforehand yields the payload key with probability at most 4/p (BSW; AW11 with any authorities, whose values are drawn as well), 5/p (LSW, AC17 CP and KP), 3/p (YCT14; BDABE and MKE08 with the published keys of any authorities, if no conjunction cancels out) and 6/p (GHW11, with the transformation keys of any users); for YCT14 a guess succeeds with probability 1/p.", "quantifier": "all finite fields, policies, attribute lists, texts, combinations, and all lists of different runs in which the combination opens", "why_tests_cant": "counts all values the random number generator can give; a test sees one", "anchors": ["src/schemes/bsw/mod.rs#encrypt", "src/schemes/lsw/mod.rs#encrypt", "src/schemes/ac17/mod.rs#cp_encrypt", "src/schemes/ac17/mod.rs#kp_encrypt", "src/schemes/yct14/mod.rs#encrypt", "src/schemes/ghw11/mod.rs#encrypt", "src/schemes/ghw11/mod.rs#tkgen", "src/schemes/bdabe/mod.rs#encrypt", "src/schemes/mke08/mod.rs#encrypt", "src/schemes/aw11/mod.rs#encrypt", "src/schemes/aw11/mod.rs#authgen"]}
{"id": "C135", "title": "rabe-console as a program: output and exit status", "statement": "The exit status of rabe-console is 0, 1 or 101 as the command succeeds, fails or panics, exit status 1 comes with a last line that says why, every file that changes is named in the output, and the output of a run with exit status 0 is a fixed text of the arguments and of the files read, so it says nothing about random values.  A command that was refused has another exit status than 0.", "quantifier": "all schemes, subcommands, arguments, files, random values and texts of other crates", "why_tests_cant": "all runs of the tool, in particular the failing ones, on every state of the disk; the repository has no test of the tool", "anchors": ["rabe-console/src/mod.rs#main", "rabe-console/src/mod.rs#run", "rabe-console/src/mod.rs#run_setup", "rabe-console/src/mod.rs#run_authgen", "rabe-console/src/mod.rs#run_keygen", "rabe-console/src/mod.rs#run_delegate", "rabe-console/src/mod.rs#run_encrypt", "rabe-console/src/mod.rs#run_decrypt", "rabe-console/src/mod.rs#run_req_attr_pk", "rabe-console/src/mod.rs#run_req_attr_sk", "src/utils/file/mod.rs#write_file"]}
{"id": "C136", "title": "Who opens without a key of any attribute", "statement": "Whoever holds the master key of a scheme opens every ciphertext made under its public key, without a key of any attribute and whatever the policy or the attributes.  In BDABE the same holds for whoever holds the key of one authority, so an authority does not open only ciphertexts for attributes of its own.", "quantifier": "all setups, policies, lists of attributes, messages, random values, authorities", "why_tests_cant": "a test decrypts with keys that the crate makes; these openings are computations that no function of the crate does, for all ciphertexts", "anchors": ["src/schemes/bsw/mod.rs#setup", "src/schemes/ghw11/mod.rs#setup", "src/schemes/lsw/mod.rs#setup", "src/schemes/ac17/mod.rs#setup", "src/schemes/yct14/mod.rs#setup", "src/schemes/mke08/mod.rs#setup", "src/schemes/bdabe/mod.rs#authgen", "src/schemes/bdabe/mod.rs#encrypt"]}
{"id": "C137", "title": "From the words of a command line to what rabe-console does", "statement": "The words behind a subcommand give exactly the arguments that its declarations allow, each given only if the positional ones before it are.  A key generation gets at most one attribute and an encryption exactly one public key; attributes of an encryption or a request, and a policy of a key generation, can only be given if every file before them is named.  After set-up, key generation and encryption from the command line, decryption ends as the policy says.  The four calls shown in rabe-console/README.md decrypt the document.", "quantifier": "all subcommands except authgen, all lists of words, files, random values, documents, policies", "why_tests_cant": "there are no tests of rabe-console; every list of words and every content of files is quantified over", "anchors": ["rabe-console/src/mod.rs#run", "rabe-console/README.md", "rabe-console/src/main.rs"]}
{"id": "C138", "title": "How often a session works", "statement": "If the field has p elements and the values are drawn independently and uniformly, set-up, key generation, encryption and decryption together give the plaintext (attributes satisfy the policy) or an error (they do not) with probability exactly (p-1)/p for BSW, also with a delegated key, and for GHW11, ((p-1)/p)^2 for AC17, ((p-1)/p)^k for YCT14 where k attributes of the policy belong to the system, and 1 for LSW, AW11, BDABE and MKE08; in all other runs they end in a panic.", "quantifier": "all finite fields, policies, attribute lists, texts and numbers of drawn values", "why_tests_cant": "counts all values the random number generator can give; the runs that panic are too rare to be met by a test", "anchors": ["src/schemes/bsw/mod.rs#setup", "src/schemes/ghw11/mod.rs#tkgen", "src/schemes/ac17/mod.rs#cp_keygen", "src/schemes/ac17/mod.rs#kp_keygen", "src/schemes/yct14/mod.rs#keygen", "src/schemes/lsw/mod.rs#keygen", "src/schemes/aw11/mod.rs#keygen", "src/schemes/bdabe/mod.rs#keygen", "src/schemes/mke08/mod.rs#keygen"]}
{"id": "C139", "title": "The bytes of keys and ciphertexts with the feature borsh", "statement": "Every key and ciphertext type of BSW, LSW, YCT14, AC17, AW11, BDABE and MKE08 is written as its fields in the order of their declaration, without names or tags: a vector as its length in four bytes, least significant first, and its elements; a string as the vector of its bytes; the policy language as the number of its variant; YCT14 attributes as their name only. A Result is 1 and the value or 0 and the error text. A value with a vector of 2^32 or more elements cannot be written.", "quantifier": "all values of all 46 types, all codecs of group elements", "why_tests_cant": "tests would compare bytes for a few values only", "anchors": ["src/schemes/bsw/mod.rs#CpAbePublicKey", "src/schemes/lsw/mod.rs#KpAbeMasterKey", "src/schemes/yct14/mod.rs#Yct14Attribute", "src/schemes/ac17/mod.rs#Ac17Ciphertext", "src/schemes/aw11/mod.rs#Aw11Ciphertext", "src/schemes/bdabe/mod.rs#BdabeCiphertextTuple", "src/schemes/mke08/mod.rs#Mke08CTConjunction"]}
{"id": "C140", "title": "With the feature borsh the bytes of one type are no other type's", "statement": "Expected: a key file of one scheme is refused under another scheme. False: BSW and BDABE public keys, AW11 global keys and MKE08 master keys, and user and attribute keys of BDABE and MKE08 are written in the same way, and whatever file is read as one of them is read as the other with the same fields. Ten other pairs of fixed-length key types are never read as each other, whatever the lengths of the elements.", "quantifier": "all values, all byte strings, all files and file systems", "why_tests_cant": "speaks about all byte strings that a file may hold", "anchors": ["rabe-console/src/mod.rs#ser_dec", "rabe-console/src/mod.rs#ser_dec_bin", "src/schemes/bsw/mod.rs#CpAbePublicKey", "src/schemes/bdabe/mod.rs#BdabePublicKey", "src/schemes/mke08/mod.rs#Mke08UserKey"]}
{"id": "C141", "title": "AC17CP through the tool with other calls in between", "statement": "Between the setup, key generation, encryption and opening of an AC17CP session the tool may be called any number of times, with any commands, schemes, arguments, random values and results. As long as those calls do not write the files that the session still needs, the document comes back exactly if the attributes meet the policy, and an error otherwise. The key may be made before or after the encryption. After the encryption even the master files may be overwritten; setup between key generation and encryption breaks the session. No call makes a readable file unreadable.", "quantifier": "all sequences of calls between the steps, all file systems, documents, policies with a formula, attributes, random values", "why_tests_cant": "unboundedly many interleavings", "anchors": ["rabe-console/src/mod.rs#run_setup", "rabe-console/src/mod.rs#run_keygen", "rabe-console/src/mod.rs#run_encrypt", "rabe-console/src/mod.rs#run_decrypt", "rabe-console/src/mod.rs#write_file"]}
{"id": "C142", "title": "The benchmarks complete", "statement": "However often criterion runs each of the seven closures, the benchmark completes exactly if no BSW setup draws zero for beta, and draws 9, 2, 5, 4, 7, 6 and 12 values per run of AC17, AW11, BDABE, BSW, LSW, MKE08 and YCT14.", "quantifier": "all numbers of runs, all random values", "why_tests_cant": "the number of runs is chosen at run time and a zero is drawn with negligible probability", "anchors": ["benches/rabe.rs#criterion_compare_schemes_setup", "src/schemes/bsw/mod.rs#setup"]}
{"id": "C143", "title": "The names of a policy are parts of its text, and UTF-8", "statement": "Every leaf of a policy that was parsed stands between quotes in the text, and its number is the column of its first character, counted in characters. If the text is UTF-8, so is every name: no name is cut inside a character.", "quantifier": "all policy texts of both languages", "why_tests_cant": "all texts, among them all texts with characters of several bytes", "anchors": ["src/utils/policy/pest/human.rs#parse", "src/utils/policy/pest/json.rs#parse", "src/human.policy.pest", "src/json.policy.pest"]}
{"id": "C144", "title": "A session depends on four files only", "statement": "The calls of an AC17CP session may run on different file systems. Key generation must find the master key that setup wrote, encryption the public key of setup, and decryption the secret key and the ciphertext. Whatever else changes in between, by this tool or by others, the document comes back exactly if the attributes meet the policy. By the words of the command lines: decryption then changes no file and ends with status 1 if the attribute does not meet the policy, with 0 if it does and the document is empty, and panics (101) otherwise.", "quantifier": "all file systems before and after each of the four calls, all documents, policies with a formula, attributes, random values", "why_tests_cant": "any change of the file system between the calls", "anchors": ["rabe-console/src/mod.rs#run_setup", "rabe-console/src/mod.rs#run_keygen", "rabe-console/src/mod.rs#run_encrypt", "rabe-console/src/mod.rs#run_decrypt", "rabe-console/src/mod.rs#main"]}
{"id": "C145", "title": "What a BDABE or MKE08 ciphertext holds, by the policy and the keys alone", "statement": "A ciphertext under a policy in disjunctive form has one part for each block of public attribute keys. The blocks follow from the policy and the list of keys: every leaf goes into them once with every key of its attribute, nothing else does, and they are in the order of their sizes, equal sizes in the order of the policy. Each part holds the names of its block and the product or sum of the keys of the block, raised to its own random value. There are fewer than two parts for each alternative of the policy and at most one for each leaf and key. The bytes of the ciphertext follow from the length of the policy, the number of blocks and the names.", "quantifier": "all policies with a formula, lists of public keys, plaintexts, random values", "why_tests_cant": "all policies and all lists of keys, with missing and repeated keys", "anchors": ["src/utils/policy/dnf.rs#dnf", "src/utils/policy/dnf.rs#json_to_dnf", "src/schemes/bdabe/mod.rs#encrypt", "src/schemes/mke08/mod.rs#encrypt"]}
{"id": "C146", "title": "How many pairings and powers encryption takes", "statement": "Every element of a ciphertext is made with a number of pairings and powers that depends on its place alone, not on the policy, the attributes or the random values; only the rows of AC17 ciphertexts under a policy cost more with each entry of the row that is not zero. Apart from the random payload no scheme but AW11 takes a pairing; AW11 takes one for the payload and one for each leaf with a public key.", "quantifier": "all public keys, policies, attributes, plaintexts, random values", "why_tests_cant": "tests do not count operations, and for all policies and keys at once they cannot", "anchors": ["src/schemes/bsw/mod.rs#encrypt", "src/schemes/ghw11/mod.rs#encrypt", "src/schemes/lsw/mod.rs#encrypt", "src/schemes/ac17/mod.rs#cp_encrypt", "src/schemes/ac17/mod.rs#kp_encrypt", "src/schemes/aw11/mod.rs#encrypt", "src/schemes/bdabe/mod.rs#encrypt", "src/schemes/mke08/mod.rs#encrypt"]}
{"id": "C147", "title": "The AW11 global context in borsh and serde", "statement": "A value of Aw11GlobalContext, which no function of the crate makes or takes, is written in borsh with the bytes of the global key it holds and so every encoded global key is read as a context and back; in serde it is a map with the one entry key. It is read back from both. With the names of the fields written, a global key is not taken for a context nor a context for a global key.", "quantifier": "all contexts, wires, options of the writer and the reader", "why_tests_cant": "no test makes a context, and all values and encodings are covered", "anchors": ["src/schemes/aw11/mod.rs#Aw11GlobalContext"]}
{"id": "C148", "title": "How many pairings and powers key generation takes", "statement": "Every element of a key is made with a number of powers that depends on its place alone; in LSW also on whether the leaf is negated, and in AC17 keys for a policy on the row: the sum over the columns is not reset between columns, so column k of a row enters with 7k powers. After the setup only the authority of AW11 takes pairings, one for each attribute.", "quantifier": "all master and public keys, policies, attributes, random values", "why_tests_cant": "tests do not count operations, and for all policies and keys at once they cannot", "anchors": ["src/schemes/bsw/mod.rs#keygen", "src/schemes/bsw/mod.rs#delegate", "src/schemes/ghw11/mod.rs#keygen", "src/schemes/lsw/mod.rs#keygen", "src/schemes/ac17/mod.rs#cp_keygen", "src/schemes/ac17/mod.rs#kp_keygen", "src/schemes/aw11/mod.rs#authgen", "src/schemes/aw11/mod.rs#keygen", "src/schemes/bdabe/mod.rs#keygen", "src/schemes/mke08/mod.rs#keygen"]}
{"id": "C149", "title": "Dropping attributes from a key or a ciphertext", "statement": "For any set of names, the entries of a key with these names, together with what all entries share, are exactly the key that key generation issues for the attributes left, on the same draws without those of the attributes dropped (BSW, GHW11, AW11, AC17 with policies in ciphertexts). The entries of a ciphertext with these names are exactly the ciphertext that encryption makes for the attributes left (LSW, YCT14, AC17 with policies in keys), so anyone can take attributes from a ciphertext without a trace.", "quantifier": "all keys and ciphertexts, sets of names, attributes, random values", "why_tests_cant": "all sets of names and all random values; that no encryption gives a certain ciphertext", "anchors": ["src/schemes/bsw/mod.rs#keygen", "src/schemes/ghw11/mod.rs#keygen", "src/schemes/aw11/mod.rs#keygen", "src/schemes/ac17/mod.rs#cp_keygen", "src/schemes/ac17/mod.rs#kp_encrypt", "src/schemes/lsw/mod.rs#encrypt", "src/schemes/yct14/mod.rs#encrypt"]}
{"id": "C150", "title": "One alternative of a policy from the whole", "statement": "The entries that a BSW, GHW11 or AW11 ciphertext has for one alternative of a disjunction are, under the labels of the alternative written by itself and with the rest of the ciphertext unchanged, exactly the ciphertext that encryption makes under this alternative, on the draws made for it. The same holds without new labels for LSW and YCT14 keys. So without any key a ciphertext can be narrowed to one alternative, and the holder of a key can narrow it, and neither can be told from what the crate makes.", "quantifier": "all disjunctions and alternatives, texts in both languages, keys, random values", "why_tests_cant": "all policies and random values; equality with what another call gives for other draws", "anchors": ["src/schemes/bsw/mod.rs#encrypt", "src/schemes/ghw11/mod.rs#encrypt", "src/schemes/aw11/mod.rs#encrypt", "src/schemes/lsw/mod.rs#keygen", "src/schemes/yct14/mod.rs#keygen", "src/utils/secretsharing/mod.rs#gen_shares_policy"]}
{"id": "C151", "title": "What decryption reads, and whether all who may read agree", "statement": "Whatever key and ciphertext are given, decryption depends only on the parts that all entries share and on the entries for the leaves that pruning selects, leaves of the policy whose names are held (BDABE and MKE08: on the first block all of whose names are held). All other entries of the key and the ciphertext can have any values. Any two keys that fit a ciphertext get the same from it, whoever made it.", "quantifier": "all keys and ciphertexts, made by the crate or not, policies in both languages", "why_tests_cant": "all values of the entries not read, in keys and ciphertexts nobody issued", "anchors": ["src/schemes/bsw/mod.rs#decrypt", "src/schemes/ghw11/mod.rs#transform", "src/schemes/lsw/mod.rs#decrypt", "src/schemes/yct14/mod.rs#decrypt", "src/schemes/aw11/mod.rs#decrypt", "src/schemes/ac17/mod.rs#cp_decrypt", "src/schemes/ac17/mod.rs#kp_decrypt", "src/schemes/bdabe/mod.rs#decrypt", "src/schemes/mke08/mod.rs#decrypt", "src/utils/secretsharing/mod.rs#calc_pruned"]}
{"id": "C152", "title": "New keys without the master key where the crate has no delegation", "statement": "The holder of a GHW11 key can make from it, with the public key alone, every key that key generation could have issued for the same attributes with other draws. The holder of an LSW key without negated names can do the same for the same policy. So these keys can be passed on in a form that nobody can tell from keys issued by the authority, although the crate offers delegation for BSW only.", "quantifier": "all keys, attributes, policies in both languages, random values", "why_tests_cant": "equality with what key generation gives for other draws, for all draws", "anchors": ["src/schemes/ghw11/mod.rs#keygen", "src/schemes/lsw/mod.rs#keygen", "src/utils/secretsharing/mod.rs#gen_shares_policy"]}
{"id": "C153", "title": "Delegation to less in GHW11 and LSW", "statement": "The holder of a GHW11 key can make, with the public key alone, every key that key generation could have issued for some of its attributes. The holder of an LSW key for a disjunction can make every key that key generation could have issued for one of its alternatives, if this has no negated names. So these schemes have the delegation that the crate offers for BSW only, and delegated keys cannot be told from issued ones.", "quantifier": "all keys, attributes and subsets, disjunctions and alternatives in both languages, random values", "why_tests_cant": "equality with what key generation gives for other attributes or policies and all draws", "anchors": ["src/schemes/ghw11/mod.rs#keygen", "src/schemes/lsw/mod.rs#keygen"]}
{"id": "C154", "title": "Every ciphertext of the same payload key is a refreshed one", "statement": "Anyone can multiply a ciphertext with one of payload key one under the same policy or attributes (C115). Every ciphertext that encryption could have made with the same payload key, nonce and data, whatever the other draws, is such a product, so apart from the sealed data a refreshed ciphertext shows nothing of the one it was made from.", "quantifier": "all schemes with a payload key of its own (not YCT14), policies in both languages, keys, random values", "why_tests_cant": "all pairs of sequences of random values", "anchors": ["src/schemes/bsw/mod.rs#encrypt", "src/schemes/ghw11/mod.rs#encrypt", "src/schemes/lsw/mod.rs#encrypt", "src/schemes/aw11/mod.rs#encrypt", "src/schemes/ac17/mod.rs#cp_encrypt", "src/schemes/ac17/mod.rs#kp_encrypt", "src/schemes/bdabe/mod.rs#encrypt", "src/schemes/mke08/mod.rs#encrypt"]}
{"id": "C155", "title": "Alternatives deleted anywhere in a policy", "statement": "From a policy alternatives can be deleted wherever its disjunctions are, also inside conjunctions and to any depth. Of a BSW, GHW11 or AW11 ciphertext for the policy anyone can make one for what is left, and of an LSW or YCT14 key its holder a key for what is left: keep the entries of the remaining leaves. The result is exactly what encryption or key generation gives for what is left, on the draws made for it. What is left is satisfied by no set of attributes that does not satisfy the policy.", "quantifier": "all policies in both languages, all deletions (in AW11 those leaving a policy the span program accepts), all keys, random values, nonces and payloads", "why_tests_cant": "all nestings, all choices of alternatives to delete, all random values", "anchors": ["src/utils/secretsharing/mod.rs#gen_shares_policy", "src/schemes/bsw/mod.rs#encrypt", "src/schemes/ghw11/mod.rs#encrypt", "src/schemes/aw11/mod.rs#encrypt", "src/schemes/lsw/mod.rs#keygen", "src/schemes/yct14/mod.rs#keygen"]}
{"id": "C156", "title": "A ciphertext cannot be made into one for another policy", "statement": "Whoever has a BSW or GHW11 ciphertext and the public key, but no key that opens it, cannot make of it a ciphertext of the same plaintext for a policy of their own choice.", "quantifier": "all policies of the ciphertext and of the adversary, all keys, random values, nonces and payloads", "why_tests_cant": "a test tries no adversary, and the sharing of every policy matters", "anchors": ["src/schemes/bsw/mod.rs#encrypt", "src/schemes/ghw11/mod.rs#encrypt", "src/utils/hash/mod.rs#sha3_hash", "src/utils/secretsharing/mod.rs#gen_shares_policy"]}
{"id": "C157", "title": "A key cannot be made into one for another policy", "statement": "The holder of an LSW key for one policy cannot make of it, with the public key alone, a key for another policy.", "quantifier": "all policies of the key and of the adversary without negated names, all keys and random values", "why_tests_cant": "a test tries no adversary, and the sharing of every policy matters", "anchors": ["src/schemes/lsw/mod.rs#keygen", "src/utils/hash/mod.rs#sha3_hash", "src/utils/secretsharing/mod.rs#gen_shares_policy"]}
{"id": "C158", "title": "YCT14: keys for A and for A and B give no key for B", "statement": "A user holding a YCT14 key for one name and one for this name and a second one cannot make of the two a key for the second name alone.", "quantifier": "all names, master keys and random values of the two key generations", "why_tests_cant": "a test tries no adversary, and all random values matter", "anchors": ["src/schemes/yct14/mod.rs#keygen", "src/utils/secretsharing/mod.rs#gen_shares_policy"]}
{"id": "C159", "title": "YCT14: two keys for a policy open no more than one", "statement": "The holders of two YCT14 keys for the same policy cannot open a ciphertext whose names do not satisfy the policy.", "quantifier": "all policies with distinct names, all names that are missing, all keys, ciphertexts and random values", "why_tests_cant": "a test tries no adversary, and all policies and random values matter", "anchors": ["src/schemes/yct14/mod.rs#keygen", "src/schemes/yct14/mod.rs#decrypt", "src/utils/secretsharing/mod.rs#gen_shares_policy"]}
{"id": "C160", "title": "YCT14: keys for a conjunction open a ciphertext or say nothing about it", "statement": "Take any number of YCT14 keys for the conjunction of the same names and a ciphertext of the same system. Either the keys, added up with some weights, open the ciphertext by the crate's own decryption, or there are other master keys that agree on all names of the ciphertext, differ in the secret by any number that makes no secret zero, and issue the very same keys.", "quantifier": "all setups, conjunctions of two or more distinct names, lists of keys, ciphertexts and random values", "why_tests_cant": "a claim about all keys and all ways of combining them, not about one run", "anchors": ["src/schemes/yct14/mod.rs#keygen", "src/schemes/yct14/mod.rs#decrypt", "src/utils/secretsharing/mod.rs#gen_shares_policy"]}
