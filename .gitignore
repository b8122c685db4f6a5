.nia.cache
.lia.cache
*.vo
*.vok
*.vos
*.glob
*.aux
rocq/Makefile*
rocq/.Makefile.d
