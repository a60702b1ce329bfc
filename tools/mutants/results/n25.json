{
 "id": "n25",
 "failed": [
  "C49_hdf5_refuted",
  "C52_particles_of_the_file"
 ],
 "proofs": [
  "C49_hdf5_refuted",
  "C52_particles_of_the_file"
 ],
 "dropped": [],
 "err": null,
 "unfailed_claims": [],
 "tightened": [
  "C52_particles_of_the_file"
 ],
 "note": "Only a refutation failed at first; the theorem was added."
}