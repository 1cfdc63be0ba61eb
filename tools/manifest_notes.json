{
 "C10": {
  "note": "for LinearDelay: C110_linear_grows"
 }
}