{
 "C15": {
  "status": "proved",
  "note": "the docstring claim about thresh_nexrad is refuted by the _refuted theorem"
 },
 "C22": {
  "status": "proved",
  "note": "the documented role of method is refuted"
 },
 "C41": {
  "status": "proved",
  "note": "the stated reading is refuted by the _refuted theorem; the true law is proved beside it"
 },
 "C90": {
  "status": "proved",
  "note": "_refuted: the source comment 'Maximum of test should never be > 1' is false with NumPy 2"
 },
 "C91": {
  "status": "proved",
  "note": "_refuted: accuracy of the single-precision line fit, against C91_exact_line_fit"
 }
}