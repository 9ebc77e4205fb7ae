.nra.cache
.nia.cache
