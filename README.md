Formal model and proofs for media-io/yaserde. See DESIGN.md.
