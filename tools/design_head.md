# Formal model of pact-reference (Rust core) in Rocq / Coq 8.16.1

Source modelled: `/repo/rust` (crates `pact_models`, `pact_matching`, `pact_ffi`; see "What is modelled").
All Coq files are in `rocq/theories/`. Every definition of the model cites the file and lines it models.
This file is generated by `tools/design.py` from `tools/design_head.md`, `tools/methods.txt` and the theorems.

## Layout

* Model files (one per area of the code): `Base` `PathExp` `Json` `MatchingRules` `Matchers` `JsonCompare` `Text`
  `QueryString` `Headers` `Query` `ContentType` `Http` `Merge` `Store` `CBuf` `Handles` `Expr` `Generators`
  `GenApply` `GenRequest` `GenValues` `RuleExpr` `Integration` `IntegrationValues` `VerifierClient` `Verifier` `Broker` `StateChange` `Report` `Xml` `Pattern` `Calendar` `DateExpr` `DateEval` `TimeFormat` `Base64` `PactFile` `OldFile` `Engine` `EnginePlan` `Multipart` `Builder`, `XmlPath`, `FormJson`, `XmlJson`, `VerifierHandle`, `MessageBuilder`, `FfiBody`, `FfiRead`, `FfiMessage`, `FileCheck`, `CliArgs` `Logging` `DefFfi` `MatchFfi` `KindOf` and those listed below.
* Specification files `Spec*.v`: the vocabulary of the theorems, independent of the functions of the model
  (they use its data types: paths, JSON values, rules).
* `*Proofs*.v`: lemmas. `Prop*.v`: the theorems `Cnn_...`, each followed by an `Example` in which its
  hypotheses are met by a concrete case. Theorems named `Cnn_why_...` exhibit what happens
  without a condition that the statement of the property has: they are counterexamples that show that the
  condition is needed (most of them are surprising behaviour of the code).

## Modelling conventions

* A Rust `String` is a list of Unicode code points (`str := list N`). Where bytes matter (percent
  decoding, bodies, C buffers) bytes are `N` below 256 and UTF-8 is modelled concretely (`Text.v`).
* `usize`/`u64`/`u16`/`i8` arithmetic has an explicit wrap or panic where the code can overflow.
* `HashMap` iteration order is the order of an association list; theorems quantify over all lists, hence all orders.
  `BTreeMap` and `serde_json::Map` are sorted association lists (`json_wf` says so where it matters).
* A Rust panic is an explicit result (`Panic`), never a silent default.
* Functions that recurse on a value other than structurally take fuel, and a theorem says that the fuel given suffices
  (for instance `compare_unfold` in CompareProofs.v).
* `async` functions of the matching crate are modelled as plain functions: they await nothing but each other when no plugin is involved.

## Trusted base

* Coq's kernel (8.16.1) and its standard library. No axioms: `Print Assumptions` says "Closed under the global
  context" for every theorem listed below (`tools/assumptions.py` prints it for all of them; see the table). `vcheck` lists seven
  constants `Coq.ssr.ssrunder.Under_rel.*`: they are module-type fields of the standard library's ssreflect that get loaded
  with a library file; no theorem depends on them.
* The fidelity of the hand-written model to the Rust code, definition by definition, as cited in the comments.
* What external crates do is not modelled but an argument of the theorems, arbitrary unless a
  hypothesis says otherwise:
  - `world` (Json.v): the non-ASCII parts of `char::is_alphabetic`, `is_numeric`, `is_whitespace`, upper and lower case; printing
    of floats (serde_json / Display) and `str::parse::<f64>().is_ok()`; regular expressions; semver; date formats; content-type sniffing.
  - `externals` (Http.v): parsing of media types (`mime`), content type detection, `serde_json::from_slice`,
    `serde_urlencoded::from_bytes`, MIME multipart comparison, and XML body comparison, for which `Xml.v` gives the model of xml.rs over the parser's result (C89).
* `TimeFormat.v`: what chrono's `format` writes for each `%` item is taken from its documentation; the tables of `chrono-tz` and of zone
  abbreviations are arguments; a fraction field of 20 letters overflows with a panic (overflow checks on, as in debug builds).
* `Store.v` (files): each system call is one atomic step; `flock` as documented; a crash stops all threads of a process between
  steps and leaves what was written; nobody else deletes or renames the file; no call fails except for want of a lock.
* `Handles.v` (C interface): every call holds the lock of the handle table, so calls are one after the other; C strings are given as
  their decoded text or as "null or not UTF-8"; values are plain texts (integration JSON in paths, headers and queries is modelled separately, see below).

## What is not modelled

* Plugins (the driver, plugin content matchers and generators), the Lua console, WASM, JVM/JS/other languages of the repository.
* The HTTP server and client (`pact_mock_server` is not in this repository), the network side of `pact_verifier` (broker and
  provider requests), the CLI, logging other than the in-memory buffers, telemetry.
* The texts of mismatch descriptions and diffs: a mismatch is its location and kind.
* The XML parser and MIME multipart bodies (arguments, see above); the experimental V2 matching engine
  (`pact_matching/src/engine`); `pact_consumer` DSL builders other than the patterns (C90, C91).

## Per property: what is modelled and how it is proved
