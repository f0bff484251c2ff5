# Formal model of lofty-rs in Rocq (Coq 8.16.1): design

Source: `/repo` (Serial-ATA/lofty-rs, pinned). Model and proofs: `/verif/rocq/theories`.

## Method

* The model is a set of total, computable Gallina functions, one per Rust function, each with a comment
  citing the file and lines it models. `&mut` parameters become returned values; `Result`/`Option` stay data;
  a panic path (arithmetic overflow with debug assertions, slice out of bounds, `unwrap`, `assert!`) is an explicit
  `Panic` value.
* Bytes are `N` values (`byte_ok b := b < 256`), byte buffers are `list N`; Rust `String`s are lists of Unicode
  scalar values (`list N`) with an explicit UTF-8/UTF-16 codec. `as` casts are written as explicit `mod 2^k`.
* A `Read` over a fixed buffer (`Cursor`, `&[u8]`) is the list of bytes still to be read. A file is its content plus a
  position, and the primitive mutations (write, truncate) are logged so that crash points are prefixes of the log.
* File naming: `XModel.v` (model only), `XSpec.v` (small independent specification), `XProof.v` (lemmas),
  `XThm.v` (the property theorems, each closed by a lemma, with non-vacuity examples and `Print Assumptions`).
* A property that is false of the faithful model is kept with its full statement, and refuted by a theorem
  `..._refuted` with a concrete witness. The strongest true part is proved beside it with suffix `_partial`.

## Trusted base

* Coq 8.16.1's kernel (including `vm_compute`), and the standard library. No axioms are declared;
  `Print Assumptions` is run beneath every property theorem (see the build log).
* The correspondence between the Gallina model and the Rust source is by reading: nothing was executed.
* The behaviour of Rust's `std` (`Vec`, `String::from_utf8`, `char`, `Read::read_exact`, ...) and `byteorder` is modelled by
  hand from their documentation.

## What is not modelled

* Real operating-system file behaviour (permissions, short writes other than at crash points, I/O errors of the device).
* `log` output, error message texts, memory allocation failure (other than the configured allocation limit where said).
* Performance and memory safety of `unsafe` code.
* These parts of the source (each may become a file below as the model grows): what the `lofty_attr` derive macros generate beyond saving and conversion of files.
